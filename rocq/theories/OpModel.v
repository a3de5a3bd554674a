(* Ops made in the program: struct Op, ron/op.hpp:12-75, with the strings it
   takes, and what the readers of cursors see of it. Sizes are numbers: strings
   of fewer than 2^30 code points in all (fsize_t, ron/slice.hpp:46-50). *)
From Verif Require Import Prelude UuidModel CodecModel TextModel MergeModel.

(* ron/utf8-parser.cc:21-200 ParseUtf8: the code points pushed, the last ones
   last, whether it succeeds or not. In state 5 a byte that starts no code
   point leads to the error state without a push (the labels st5, st0). *)
Fixpoint p8_pushed (st cp : N) (out : list N) (s : bytes) : list N :=
  match s with
  | [] => if st =? 5 then rev (cp :: out) else rev out
  | b :: t => match p8_step st cp out b with
              | Some (st', cp', out') => p8_pushed st' cp' out' t
              | None => rev out
              end
  end.
Definition utf8_pushed (s : bytes) : list N := p8_pushed 4 0 [] s.

(* the arguments of the constructor; a float is the text WriteFloat writes *)
Inductive oarg : Set := ArgUuid (u : uuid) | ArgInt (z : Z) | ArgFloat (t : bytes) | ArgString (s : bytes).
(* an atom of an Op; of a string: the current code point, the range of the
   following ones, how many follow (ron/uuid.hpp:169-172) *)
Inductive oatom : Set := OUuid (u : uuid) | OInt (z : Z) | OFloat (t : bytes) | OStr (cp b e n : N).
(* ron/op.hpp:34-66 WriteAtoms; the result of ParseUtf8 is not looked at *)
Fixpoint write_atoms (atoms : list oatom) (strs : list N) (args : list oarg) : list oatom * list N :=
  match args with
  | [] => (atoms, strs)
  | ArgUuid u :: r => write_atoms (atoms ++ [OUuid u]) strs r
  | ArgInt z :: r => write_atoms (atoms ++ [OInt z]) strs r
  | ArgFloat t :: r => write_atoms (atoms ++ [OFloat t]) strs r
  | ArgString s :: r =>
      let b := N.of_nat (length strs) in
      let strs' := strs ++ utf8_pushed s in
      let n := N.of_nat (length strs') - b in
      write_atoms (atoms ++ [if n =? 0 then OStr 0 b b n else OStr (nth (N.to_nat b) strs' 0) (b + 1) (N.of_nat (length strs')) (n - 1)]) strs' r
  end.
Record sop : Set := mkSop { so_id : uuid; so_ref : uuid; so_atoms : list oatom; so_strs : list N }.
(* ron/op.hpp:69-75 Op{id, ref, args...} *)
Definition op_made (id ref : uuid) (args : list oarg) : sop :=
  let '(atoms, strs) := write_atoms [] [] args in mkSop id ref atoms strs.

(* ron/op.hpp:22-31 NextCodepoint: whether it is OK (OUTOFRANGE otherwise), and
   the atom *)
Definition op_next (strs : list N) (cp b e n : N) : res (bool * (N * N * N * N)) :=
  if n =? 0 then Done (false, (0, b, e, n))
  else match nth_error strs (N.to_nat b) with
       | None => Aborted
       | Some c => if b + 1 <=? e then Done (true, (c, b + 1, e, n - 1)) else Aborted
       end.
(* ron/text.hpp:205-212 WriteValues of a string, through an Op *)
Fixpoint op_chars (fuel : nat) (strs : list N) (cp b e n : N) : res bytes :=
  match fuel with
  | O => Fuel
  | S f => if cp =? 0 then Done []
           else rbind (op_next strs cp b e n) (fun '(_, (cp', b', e', n')) =>
                rbind (op_chars f strs cp' b' e' n') (fun r => Done (utf8esc_append cp ++ r)))
  end.
(* what AppendOp needs to know of a value (TextModel.wval): for a string the
   text written, StringSize (ron/uuid.hpp:290-292) and the code point ExtendSpan
   writes (ron/text.hpp:272-275) *)
Definition op_wval (strs : list N) (a : oatom) : res wval :=
  match a with
  | OUuid u => Done (WUuid u)
  | OInt z => match write_int z with Some t => Done (WNum t) | None => Aborted end
  | OFloat t => Done (WNum t)
  | OStr cp b e n =>
      rbind (op_chars (S (S (N.to_nat n))) strs cp b e n) (fun t =>
      rbind (if cp =? 0 then rbind (op_next strs cp b e n) (fun '(_, (c, _, _, _)) => Done c) else Done cp) (fun c =>
      Done (WStr t (if cp =? 0 then n else n + 1) c)))
  end.
Fixpoint op_wvals (strs : list N) (l : list oatom) : res (list wval) :=
  match l with
  | [] => Done []
  | a :: r => rbind (op_wval strs a) (fun w => rbind (op_wvals strs r) (fun ws => Done (w :: ws)))
  end.
Definition wop_of_sop (o : sop) : res wop := rbind (op_wvals (so_strs o) (so_atoms o)) (fun ws => Done (mkWop (so_id o) (so_ref o) ws)).

(* ron/frames.hpp:125-137 ReadString and 154-160 GetString, on an Op: the bytes
   and whether the result is OK; the end of a string is OUTOFRANGE here, not
   the ENDOFINPUT that is looked for *)
Fixpoint op_read_rest (put : N -> list N) (fuel : nat) (strs : list N) (cp b e n : N) : res (list N * bool) :=
  match fuel with
  | O => Fuel
  | S f => rbind (op_next strs cp b e n) (fun '(ok, (cp', b', e', n')) =>
           if (ok : bool) then rbind (op_read_rest put f strs cp' b' e' n') (fun '(r, x) => Done (put cp' ++ r, x)) else Done ([], false))
  end.
Definition op_read_string (strs : list N) (a : oatom) : res (bytes * bool) :=
  match a with
  | OStr cp b e n => if cp =? 0 then op_read_rest utf8append (S (N.to_nat n)) strs cp b e n else Done (utf8append cp, true)
  | _ => Aborted
  end.
(* ron/frames.hpp:139-147 ReadString16 *)
Definition op_read_string16 (strs : list N) (a : oatom) : res (list N * bool) :=
  match a with
  | OStr cp b e n => op_read_rest utf16append (S (N.to_nat n)) strs cp b e n
  | _ => Aborted
  end.

(* ron/op.hpp:80-102 WriteValues of a string value of a text cursor, as Amend
   calls it: the code points pushed are the current one and those that follow
   but the last; strings_[b] of an empty string is undefined behaviour *)
Fixpoint amend_loop (fuel : nat) (buf : bytes) (strs : list N) (cp n b e k : N) : res (list N * N) :=
  match fuel with
  | O => Fuel
  | S f => if n =? 0 then Done (strs, k)
           else match next_cp buf (AStr cp n b e) with
                | AStr cp' n' b' e' => amend_loop f buf (strs ++ [cp]) cp' n' b' e' (k + 1)
                | _ => Aborted
                end
  end.
Definition amend_string (fuel : nat) (buf : bytes) (strs : list N) (cp n b e : N) : res (oatom * list N) :=
  let at_ := N.of_nat (length strs) in
  rbind (amend_loop fuel buf strs cp n b e 0) (fun '(strs', k) =>
  match nth_error strs' (length strs) with
  | None => Aborted
  | Some c => Done (OStr c at_ (N.of_nat (length strs')) k, strs')
  end).
