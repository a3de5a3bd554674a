(* The in-memory store (db/mem_store.hpp) and the joined store
   (db/joined_store.hpp).

   Both are templates over the frame type; so is the model. F is the frame type,
   mergef form frames is the merge of the readable ones among the frames
   (MergeTextModel.merge_as for text): None for the frame means that the
   caller's frame is left as it was. The btree_multimap is a list of records;
   it is kept sorted by key (StoreProofs), records with equal keys in the order
   of insertion. Its iterators are positions in the list, the end iterator is
   its length; access at the end is undefined behaviour: Aborted. The trace
   output (LOG) and Compact/Release/Close are not modelled. *)
From Verif Require Import Prelude UuidModel KeyModel MergeModel.

Section Store.
Variable F : Type.
Variable fempty : F.                       (* Frame{} *)
Variable is_empty : F -> bool.             (* Frame::empty *)
Variable mergef : N -> list F -> res (option F * status).

Notation record := (key * F)%type.
Notation store := (list record).

(* btree_multimap::lower_bound, upper_bound on a sorted list *)
Fixpoint lower_bound (st : store) (k : key) : nat :=
  match st with
  | [] => O
  | (k', _) :: r => if key_ltb k' k then S (lower_bound r k) else O
  end.
Fixpoint upper_bound (st : store) (k : key) : nat :=
  match st with
  | [] => O
  | (k', _) :: r => if key_ltb k k' then O else S (upper_bound r k)
  end.
(* btree_multimap::insert: after the records with the same key *)
Definition insert_at (st : store) (i : nat) (r : record) : store := firstn i st ++ r :: skipn i st.
Definition insert (st : store) (r : record) : store := insert_at st (upper_bound st (fst r)) r.
(* btree_multimap::erase(b, e) *)
Definition erase (st : store) (b e : nat) : store := firstn b st ++ skipn e st.
(* the frames of the records from b to e *)
Definition range (st : store) (b e : nat) : list F := map snd (firstn (e - b) (skipn b st)).

(* db/mem_store.hpp:158-164 Write(key, change) *)
Definition write (st : store) (k : key) (f : F) : store * status :=
  if key_eqb k KEY_END then (st, StBadArgs) else (insert st (k, f), StOK).
(* db/mem_store.hpp:185-191 Write(batch) *)
Fixpoint write_batch (st : store) (batch : list record) : store * status :=
  match batch with
  | [] => (st, StOK)
  | (k, f) :: r =>
      match write st k f with
      | (st', StOK) => write_batch st' r
      | (st', s) => (st', s)
      end
  end.
(* db/mem_store.hpp:50-56 Open: meta is OneOp(id, YARN_FORM_UUID) *)
Definition open_store (st : store) (meta : F) : store := insert (fst (write st KEY_ZERO meta)) (KEY_END, fempty).

(* db/mem_store.hpp:166-183 Read, 30-42 Merge. old is the content of the
   caller's frame. *)
Definition read (st : store) (k : key) (old : F) : res (store * F * status) :=
  let b := lower_bound st k in
  let e := upper_bound st k in
  match range st b e with
  | [] => Done (st, fempty, StOK)
  | [f] => Done (st, f, StOK)
  | fs =>
      rbind (mergef (key_form k) fs) (fun '(r, s) =>
      let result := match r with Some f => f | None => old end in
      Done (insert (erase st b e) (k, result), result, s))
  end.

(* db/mem_store.hpp:60-65 Iterator *)
Record iter : Type := mkIter { it_b : nat; it_e : nat; it_merged : F; it_len : nat }.
(* 76-78; the iterators are singular, which the model does not distinguish from
   position 0: they are not used while len_ is 0 *)
Definition new_iter : iter := mkIter O O fempty O.

(* 67-73 scroll: the number of records from b_ on that have its key *)
Fixpoint run_length (k : key) (st : store) : nat :=
  match st with
  | [] => O
  | (k', _) :: r => if key_eqb k' k then S (run_length k r) else O
  end.
(* called with e_ == b_ *)
Definition scroll (st : store) (b : nat) (m : F) : iter :=
  match skipn b st with
  | [] => mkIter b b m O
  | (k, f) :: r => let n := run_length k ((k, f) :: r) in mkIter b (b + n) m n
  end.

(* 98 key *)
Definition it_key (st : store) (it : iter) : res key :=
  match it_len it with
  | O => Done KEY_END
  | _ => match nth_error st (it_b it) with Some (k, _) => Done k | None => Aborted end
  end.
(* 80-96 value: the frame the returned cursor is on; the status of the merge is
   not looked at *)
Definition it_value (st : store) (it : iter) : res (F * iter) :=
  match it_len it with
  | O => Done (fempty, it)
  | S O => match nth_error st (it_b it) with Some (_, f) => Done (f, it) | None => Aborted end
  | _ =>
      rbind (it_key st it) (fun k =>
      rbind (mergef (key_form k) (range st (it_b it) (it_e it))) (fun '(r, _) =>
      let m := match r with Some f => f | None => it_merged it end in
      Done (m, mkIter (it_b it) (it_e it) m (it_len it))))
  end.
(* 105-120 Next *)
Definition it_next (st : store) (it : iter) : res (store * iter * status) :=
  match it_len it with
  | O => Done (st, it, StBadState)
  | n =>
      if Nat.ltb 1 n && negb (is_empty (it_merged it)) then
        rbind (it_key st it) (fun k =>
        let st1 := erase st (it_b it) (it_e it) in
        let i := upper_bound st1 k in
        let st2 := insert_at st1 i (k, it_merged it) in
        Done (st2, scroll st2 (S i) fempty, StOK))
      else Done (st, scroll st (it_e it) fempty, StOK)
  end.
(* 128-149 SeekTo; the returns in the middle do not reset len_, and merged_ is
   never cleared *)
Definition it_seek (st : store) (it : iter) (k : key) (prev : bool) : iter :=
  let b := lower_bound st k in
  match nth_error st b with
  | None =>
      if prev && negb (Nat.eqb (length st) 0) then scroll st (Nat.pred b) (it_merged it)
      else mkIter b b (it_merged it) (it_len it)
  | Some (k', _) =>
      if prev && negb (key_eqb k' k) then
        if negb (Nat.eqb b 0) then scroll st (Nat.pred b) (it_merged it)
        else mkIter (length st) (length st) (it_merged it) (it_len it)
      else scroll st b (it_merged it)
  end.

(* A walk: for each element of views, stop at Key::END, else look at the key,
   at the value if the element is true, and call Next. *)
Fixpoint it_walk (st : store) (it : iter) (views : list bool) : res (store * iter * list (key * option F)) :=
  match views with
  | [] => Done (st, it, [])
  | v :: vs =>
      rbind (it_key st it) (fun k =>
      if key_eqb k KEY_END then Done (st, it, [])
      else
        rbind (if v then rbind (it_value st it) (fun '(f, it1) => Done (Some f, it1)) else Done (None, it)) (fun '(f, it1) =>
        rbind (it_next st it1) (fun '(st2, it2, _) =>
        rbind (it_walk st2 it2 vs) (fun '(st3, it3, l) => Done (st3, it3, (k, f) :: l)))))
  end.
(* a new iterator, SeekTo(k), a walk *)
Definition walk (st : store) (k : key) (views : list bool) : res (store * list (key * option F)) :=
  rbind (it_walk st (it_seek st new_iter k false) views) (fun '(st', _, l) => Done (st', l)).

(* what a user does with a store *)
Inductive sop : Type :=
| SWrite (k : key) (f : F)
| SBatch (l : list record)
| SRead (k : key) (old : F)
| SWalk (k : key) (views : list bool).
Inductive sout : Type :=
| OStatus (s : status)
| ORead (k : key) (f : F) (s : status)
| OWalk (l : list (key * option F)).
Definition sstep (st : store) (o : sop) : res (store * sout) :=
  match o with
  | SWrite k f => let (st', s) := write st k f in Done (st', OStatus s)
  | SBatch l => let (st', s) := write_batch st l in Done (st', OStatus s)
  | SRead k old => rbind (read st k old) (fun '(st', f, s) => Done (st', ORead k f s))
  | SWalk k views => rbind (walk st k views) (fun '(st', l) => Done (st', OWalk l))
  end.
Fixpoint srun (st : store) (ops : list sop) : res (store * list sout) :=
  match ops with
  | [] => Done (st, [])
  | o :: r => rbind (sstep st o) (fun '(st1, x) => rbind (srun st1 r) (fun '(st2, xs) => Done (st2, x :: xs)))
  end.

(* ---- db/joined_store.hpp: two in-memory stores ---- *)
(* MergeFrames(into, {a, b}) resp. MergeCursors<Frame>(merged_, inputs): the
   form is found by GetForm *)
Variable mergeany : list F -> res (option F * status).
(* OneOp<Frame>(ok.code(), Uuid::FATAL) *)
Variable error_frame : status -> F.

(* 30-43 Read; IFOK returns a failed status, into keeps its content then *)
Definition j_read (a b : store) (k : key) (old : F) : res (store * store * F * status) :=
  rbind (read a k fempty) (fun '(a', fa, sa) =>
  match sa with
  | StOK =>
      rbind (read b k fempty) (fun '(b', fb, sb) =>
      match sb with
      | StOK =>
          if is_empty fa then Done (a', b', fb, StOK)
          else if is_empty fb then Done (a', b', fa, StOK)
          else rbind (mergeany [fa; fb]) (fun '(r, s) =>
               Done (a', b', match r with Some f => f | None => old end, s))
      | _ => Done (a', b', old, sb)
      end)
  | _ => Done (a', b, old, sa)
  end).

(* 47-60 Iterator *)
Record jiter : Type := mkJ { j_a : iter; j_b : iter; j_at : key; j_merged : F }.
Definition new_jiter : jiter := mkJ new_iter new_iter KEY_END fempty.
Definition key_min (a b : key) : key := if key_ltb b a then b else a.
Definition key_max (a b : key) : key := if key_ltb a b then b else a.
(* 62-71 Next with pick 53-56 *)
Definition j_next (a b : store) (it : jiter) : res (store * store * jiter * status) :=
  rbind (it_key a (j_a it)) (fun ka =>
  rbind (if key_eqb ka (j_at it) then it_next a (j_a it) else Done (a, j_a it, StOK)) (fun '(a1, ia, sa) =>
  match sa with
  | StOK =>
      rbind (it_key b (j_b it)) (fun kb =>
      rbind (if key_eqb kb (j_at it) then it_next b (j_b it) else Done (b, j_b it, StOK)) (fun '(b1, ib, sb) =>
      match sb with
      | StOK =>
          rbind (it_key a1 ia) (fun ka1 =>
          rbind (it_key b1 ib) (fun kb1 =>
          Done (a1, b1, mkJ ia ib (key_min ka1 kb1) fempty, StOK)))
      | _ => Done (a1, b1, mkJ ia ib (j_at it) (j_merged it), sb)
      end))
  | _ => Done (a1, b, mkJ ia (j_b it) (j_at it) (j_merged it), sa)
  end)).
(* 73-91 SeekTo *)
Definition j_seek (a b : store) (it : jiter) (k : key) (prev : bool) : res jiter :=
  let ia := it_seek a (j_a it) k prev in
  let ib := it_seek b (j_b it) k prev in
  rbind (it_key a ia) (fun ka =>
  rbind (it_key b ib) (fun kb =>
  let at_ := if prev then
               if key_eqb ka KEY_END then kb else if key_eqb kb KEY_END then ka else key_max ka kb
             else key_min ka kb in
  Done (mkJ ia ib at_ fempty))).
(* 93-116 value: the frame the cursor is on. The values of the two iterators
   whose first Next fails are dropped by the merge. *)
Definition j_value (a b : store) (it : jiter) : res (F * jiter) :=
  rbind (it_key a (j_a it)) (fun ka =>
  rbind (it_key b (j_b it)) (fun kb =>
  if negb (key_eqb ka (j_at it)) then
    rbind (it_value b (j_b it)) (fun '(f, ib) => Done (f, mkJ (j_a it) ib (j_at it) (j_merged it)))
  else if negb (key_eqb kb (j_at it)) then
    rbind (it_value a (j_a it)) (fun '(f, ia) => Done (f, mkJ ia (j_b it) (j_at it) (j_merged it)))
  else
    rbind (it_value a (j_a it)) (fun '(fa, ia) =>
    rbind (it_value b (j_b it)) (fun '(fb, ib) =>
    rbind (mergeany [fa; fb]) (fun '(r, s) =>
    let m := match r with Some f => f | None => j_merged it end in
    Done (match s with StOK => m | _ => error_frame s end, mkJ ia ib (j_at it) m)))))).
Fixpoint j_walk_from (a b : store) (it : jiter) (views : list bool) : res (store * store * jiter * list (key * option F)) :=
  match views with
  | [] => Done (a, b, it, [])
  | v :: vs =>
      if key_eqb (j_at it) KEY_END then Done (a, b, it, [])
      else
        rbind (if v then rbind (j_value a b it) (fun '(f, it1) => Done (Some f, it1)) else Done (None, it)) (fun '(f, it1) =>
        rbind (j_next a b it1) (fun '(a2, b2, it2, _) =>
        rbind (j_walk_from a2 b2 it2 vs) (fun '(a3, b3, it3, l) => Done (a3, b3, it3, (j_at it, f) :: l))))
  end.
Definition j_walk (a b : store) (k : key) (views : list bool) : res (store * store * list (key * option F)) :=
  rbind (j_seek a b new_jiter k false) (fun it =>
  rbind (j_walk_from a b it views) (fun '(a', b', _, l) => Done (a', b', l))).
End Store.
