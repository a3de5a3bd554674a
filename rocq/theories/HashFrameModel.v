(* db/main.cc:486-533 CommandHashFrame: the hashes of the events of a frame. The
   function is compiled into the program, but no command calls it. *)
From Verif Require Import Prelude UuidModel CodecModel TextModel MergeModel MergeTextModel HashModel CompareModel MetaModel.

(* ron/hash.cc:6 SHA2::FORM_ID{"sha2"} *)
Definition SHA2_FORM_ID : uuid := parse_uuid [115; 104; 97; 50].

Inductive hf_status : Set := HfOk | HfTreeGap | HfBadState | HfHashBreak.

(* unordered_map as a list in which the first entry of a key counts *)
Definition hget (m : list (uuid * sha2)) (u : uuid) : option sha2 := option_map snd (find (fun p => uuid_eqb (fst p) u) m).
Definition tget (m : list (N * N)) (o : N) : option N := option_map snd (find (fun p => fst p =? o) m).

(* main.cc:489-492: hashes, tips and the ops of the report *)
Record hf : Set := mkHf { hf_hashes : list (uuid * sha2); hf_tips : list (N * N); hf_report : list bcmd }.
Definition hf0 : hf := mkHf [] [] [].

Section Frame.
Variable sha : bytes -> bytes.   (* SHA-512/256 *)
Variable fbits : bytes -> N.     (* strtod *)

(* main.cc:499-506: the hash of the preceding event of the yarn; operator[] of a
   key that is not there gives an empty hash (the entry it adds is left out: it
   has no effect, as the key gets no other value before it is looked up by
   find) *)
Definition hf_prev (s : hf) (id : uuid) : sha2 :=
  match tget (hf_tips s) (uorigin id) with
  | None => sha_uuid sha (mkUuid 0 (uorigin id))
  | Some v => match hget (hf_hashes s) (mkUuid v (uorigin id)) with Some h => h | None => SHA2_EMPTY end
  end.
(* main.cc:507-515; inr: the function returns *)
Definition hf_ref (s : hf) (ref : uuid) : sha2 + hf_status :=
  if version ref =? TIME then match hget (hf_hashes s) ref with Some h => inl h | None => inr HfTreeGap end
  else if version ref =? NAME then inl (sha_uuid sha ref)
  else inr HfBadState.
(* main.cc:498-520: an event. hash_op, ron/hash.hpp:183-190, sets the bits of the
   hash and leaves known_bits_ as the constructor has it, 0; base64 prints
   known_bits_ bits. *)
Definition hf_event (s : hf) (c : cursor) : res (hf + hf_status) :=
  match hf_ref s (text_ref c) with
  | inr e => Done (inr e)
  | inl r =>
      rbind (hash_image fbits c (hf_prev s (text_id c)) r) (fun img =>
      let h := mkSha2 (known_bits SHA2_EMPTY) (sha img) in
      match sha2_base64 h with
      | None => Aborted
      | Some t =>
          match wop_of_op SHA2_FORM_ID (text_id c) [VStr (Some t)] with
          | None => Aborted
          | Some o => Done (inl (mkHf ((text_id c, h) :: hf_hashes s) ((uorigin (text_id c), uvalue (text_id c)) :: hf_tips s) (hf_report s ++ [BAppend o])))
          end
      end)
  end.
(* main.cc:521-532: a record of a hash. What is looked up is the id of the
   record, not of the event. *)
Definition hf_record (s : hf) (c : cursor) : res (hf + hf_status) :=
  match c_op c with
  | _ :: _ :: AStr cp n b e :: _ =>
      match sha2_parse_base64 (read_string (c_buf c) cp n b e) with
      | None => Aborted
      | Some h =>
          match hget (hf_hashes s) (text_id c) with
          | None =>
              let tip := match tget (hf_tips s) (uorigin (text_id c)) with Some v => v | None => 0 end in
              Done (inl (mkHf ((text_id c, h) :: hf_hashes s)
                         ((uorigin (text_id c), if tip <? uvalue (text_id c) then uvalue (text_id c) else tip) :: hf_tips s) (hf_report s)))
          | Some h' => if sha2_matches h h' then Done (inl s) else Done (inr HfHashBreak)
          end
      end
  | _ => Done (inl s)
  end.
Definition hf_op (s : hf) (c : cursor) : res (hf + hf_status) :=
  if version (text_id c) =? TIME then hf_event s c
  else if uuid_eqb (text_id c) SHA2_FORM_ID then hf_record s c
  else Done (inl s).
(* main.cc:494-533: while (cur.Next()); a syntax error ends the loop like the end
   of the frame *)
Fixpoint hf_loop (fuel : nat) (s : hf) (c : cursor) : res (hf + hf_status) :=
  match fuel with
  | O => Fuel
  | S k =>
      match next c with
      | NOk c' => rbind (hf_op s c') (fun r => match r with inl s' => hf_loop k s' c' | inr e => Done (inr e) end)
      | NEnd _ | NBad _ => Done (inl s)
      | NAbort => Aborted
      end
  end.
(* main.cc:534-535 and the whole: the status and what is printed. report.data()
   is what has been written so far: the last op has no terminator yet. *)
Definition hash_frame (fuel : nat) (f : bytes) : res (hf_status * option bytes) :=
  rbind (hf_loop fuel hf0 (cursor_of f)) (fun r =>
  match r with
  | inr e => Done (e, None)
  | inl s => match build_from builder0 (hf_report s) with Some b => Done (HfOk, Some (b_data b ++ [10])) | None => Aborted end
  end).
End Frame.
