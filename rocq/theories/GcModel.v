(* Garbage collection of frames: rdt/lww.hpp:27-61, rdt/meta.hpp:30-37. Of the
   other GC functions rdt/log.hpp:25 and rdt/rga.hpp:87-93 return a status;
   rdt/chain.hpp:26 and rdt/mx.hpp:55 cannot be instantiated. *)
From Verif Require Import Prelude UuidModel KeyModel CodecModel TextModel MergeModel MergeTextModel SliceModel.

(* ron/uuid.hpp:22 as_range: the word read as a range, the flags included *)
Definition origin_range (w : N) : range := mkRange (w mod W32) (w / W32).
(* rdt/lww.hpp:35 and 46: Slice key{input.data(), scan.atom(2).origin.as_range}.
   ron/slice.hpp:160-163 asserts that the range ends within the data; hashing
   and comparing the key asserts that it is valid (slice.hpp:102-105, 185-187).
   The key is given by its bytes: that is what the map compares (C70). The data
   are at address 0. atom(2) asserts that there is an atom (ron/text.hpp:122). *)
Definition gc_key (fbits : bytes -> N) (c : cursor) : res bytes :=
  match nth_error (c_op c) 2 with
  | None => Aborted
  | Some a =>
      rbind (s_part 0 (N.of_nat (length (c_buf c))) (origin_range (snd (atom_words fbits (c_buf c) a)))) (fun s =>
      rbind (s_size s) (fun n => loads (c_buf c) (s_begin s) (N.to_nat n)))
  end.
(* std::unordered_map<Slice, Uuid>: operator[] gives the default Uuid, which is
   zero, for a key that is absent *)
Definition keymap : Set := list (bytes * uuid).
Fixpoint km_put (k : bytes) (u : uuid) (m : keymap) : keymap :=
  match m with
  | [] => [(k, u)]
  | (k', u') :: r => if all_eqb k' k then (k, u) :: r else (k', u') :: km_put k u r
  end.
Fixpoint km_get (k : bytes) (m : keymap) : uuid :=
  match m with
  | [] => NIL
  | (k', u') :: r => if all_eqb k' k then u' else km_get k r
  end.
(* rdt/lww.hpp:31-37: the body runs first on the cursor as it was made, which
   has no atoms; continue goes to the condition of the loop *)
Fixpoint gc_scan (fbits : bytes -> N) (fuel : nat) (c : cursor) (m : keymap) : res keymap :=
  match fuel with
  | O => Fuel
  | S f =>
      rbind (if Nat.ltb (length (c_op c)) 3 then Done m
             else rbind (gc_key fbits c) (fun k => Done (km_put k (text_id c) m)))
        (fun m' => match text_next c with
                   | None => Aborted
                   | Some (true, c') => gc_scan fbits f c' m'
                   | Some (false, _) => Done m'
                   end)
  end.
(* rdt/lww.hpp:43-49: the ops appended to the output *)
Fixpoint gc_filter (fbits : bytes -> N) (fuel : nat) (c : cursor) (m : keymap) : res (list (mcall cursor)) :=
  match fuel with
  | O => Fuel
  | S f =>
      rbind (if Nat.ltb (length (c_op c)) 3 then Done []
             else rbind (gc_key fbits c) (fun k => Done (if uuid_eqb (km_get k m) (text_id c) then [MAppend c] else [])))
        (fun out => match text_next c with
                    | None => Aborted
                    | Some (true, c') => rbind (gc_filter fbits f c' m) (fun r => Done (out ++ r))
                    | Some (false, _) => Done out
                    end)
  end.
(* rdt/lww.hpp:30-52 GC: the calls on the output builder; lines 40-42 look at
   the cursor before its first Next *)
Definition gc (fbits : bytes -> N) (fuel : nat) (f : bytes) : res (list (mcall cursor)) :=
  rbind (gc_scan fbits fuel (cursor_of f) []) (fun m =>
  rbind (gc_filter fbits fuel (cursor_of f) m) (fun r =>
  Done ((if Nat.eqb (length (c_op (cursor_of f))) 2 then [MAppend (cursor_of f)] else []) ++ r))).
(* the output released *)
Definition gc_frame (fbits : bytes -> N) (fuel : nat) (f : bytes) : res bytes :=
  rbind (gc fbits fuel f) (fun calls => match build (bcalls calls) with None => Aborted | Some t => Done t end).
(* rdt/lww.hpp:54-61 MergeGC: Merge is that of the LWW form (rdt/lww.hpp:21-25),
   which never reports an error; the output released *)
Definition merge_gc (fbits : bytes -> N) (fuel : nat) (cs : list cursor) : res bytes :=
  rbind (merge_opened fbits fuel LWW_RDT_FORM cs) (fun '(t, _) =>
  match t with Some t => gc_frame fbits fuel t | None => Done [] end).

(* rdt/meta.hpp:30-37 GC of metadata: the loop begins with the cursor as it was
   made *)
Fixpoint meta_loop (fuel : nat) (c : cursor) : res (list (mcall cursor)) :=
  match fuel with
  | O => Fuel
  | S f =>
      if valid c
      then match text_next c with
           | None => Aborted
           | Some (_, c') => rbind (meta_loop f c') (fun r => Done (MAppend c :: r))
           end
      else Done []
  end.
Definition meta_gc (fuel : nat) (f : bytes) : res bytes :=
  rbind (meta_loop fuel (cursor_of f)) (fun calls => match build (bcalls calls) with None => Aborted | Some t => Done t end).
