(* Comparison of frames: ron/frames.hpp:19-85, for text frames. *)
From Verif Require Import Prelude UuidModel KeyModel CodecModel TextTable TextModel MergeModel HashModel.

(* the statuses told apart *)
Inductive cstatus : Set := COk | CBadId | CBadRef | CBadValue | CBadFrame.

(* == of two doubles by their 64-bit words *)
Definition nan (w : N) : bool := 2047 * 2 ^ 52 <? w mod 2 ^ 63.
Definition float_eq (a b : N) : bool :=
  negb (nan a) && negb (nan b) && ((a =? b) || (a mod 2 ^ 63 =? 0) && (b mod 2 ^ 63 =? 0)).
Fixpoint bytes_eqb (a b : bytes) : bool :=
  match a, b with
  | [], [] => true
  | x :: a', y :: b' => (x =? y) && bytes_eqb a' b'
  | _, _ => false
  end.

(* the loops of a caller that ignores the status of Next *)
Definition next_on (c : cursor) : res cursor :=
  match next c with NOk c' | NEnd c' | NBad c' => Done c' | NAbort => Aborted end.

Section Compare.
Variable fbits : bytes -> N.   (* strtod *)
Variable fuel : nat.           (* a bound on the turns of every loop *)

(* ron/text.cc:28-36 ParseFloat copies the literal to a buffer of 32 bytes and
   ends it with a zero: a longer one overruns the stack *)
Definition atom_reads (buf : bytes) (a : atom) : bool :=
  match a with AFloat b e => Nat.ltb (length (sub buf b e)) 32 | _ => true end.
(* ron/frames.hpp:125-137 ReadString: what is in the string when it returns;
   its result is not looked at *)
Definition read_string (buf : bytes) (cp n b e : N) : bytes :=
  if cp =? 0 then flat_map utf8append (read_prefix (N.to_nat n) (sub buf b e)) else utf8append cp.
(* ron/frames.hpp:24-47 *)
Definition same_atom (bufa bufb : bytes) (x y : atom) : bool :=
  match x, y with
  | AInt b e, AInt b' e' => (parse_integer (sub bufa b e) =? parse_integer (sub bufb b' e'))%Z
  | AFloat b e, AFloat b' e' => float_eq (fbits (sub bufa b e)) (fbits (sub bufb b' e'))
  | AUuid u, AUuid v => uuid_eqb u v
  | AStr cp n b e, AStr cp' n' b' e' => bytes_eqb (read_string bufa cp n b e) (read_string bufb cp' n' b' e')
  | _, _ => false
  end.
Fixpoint compare_atoms (bufa bufb : bytes) (l m : list atom) : res cstatus :=
  match l, m with
  | x :: l', y :: m' =>
      if negb (atom_reads bufa x) || negb (atom_reads bufb y) then Aborted
      else if same_atom bufa bufb x y then compare_atoms bufa bufb l' m' else Done CBadValue
  | _, _ => Done COk
  end.
(* ron/frames.hpp:19-50 CompareOps *)
Definition compare_ops (a b : cursor) : res cstatus :=
  if negb (uuid_eqb (op_id (c_op a)) (op_id (c_op b))) then Done CBadId
  else if negb (uuid_eqb (op_ref (c_op a)) (op_ref (c_op b))) then Done CBadRef
  else if negb (length (c_op a) =? length (c_op b))%nat then Done CBadValue
  else compare_atoms (c_buf a) (c_buf b) (skipn 2 (c_op a)) (skipn 2 (c_op b)).

(* while (a.valid() && a.id() == Uuid::COMMENT) a.Next(); *)
Fixpoint skip_comments (n : nat) (c : cursor) : res cursor :=
  match n with
  | O => Fuel
  | S k => if valid c && uuid_eqb (op_id (c_op c)) COMMENT then rbind (next_on c) (skip_comments k) else Done c
  end.
(* ron/frames.hpp:52-74 CompareWithCursors *)
Definition compare_rest (a b : cursor) : res cstatus :=
  rbind (skip_comments fuel a) (fun a' =>
  rbind (skip_comments fuel b) (fun b' =>
  Done (if valid a' || valid b' then CBadFrame else COk))).
Fixpoint compare_loop (n : nat) (a b : cursor) : res cstatus :=
  match n with
  | O => Fuel
  | S k =>
      if valid a && valid b then
        rbind (skip_comments fuel a) (fun a' =>
        rbind (skip_comments fuel b) (fun b' =>
        if negb (valid a') || negb (valid b') then compare_rest a' b'
        else rbind (compare_ops a' b') (fun s =>
             match s with
             | COk => rbind (next_on a') (fun a'' => rbind (next_on b') (compare_loop k a''))
             | _ => Done s
             end)))
      else compare_rest a b
  end.
Definition compare_with_cursors (a b : cursor) : res cstatus := compare_loop fuel a b.
(* ron/frames.hpp:76-85 CompareFrames: the statuses of the first calls of Next
   have to be the same *)
Definition compare_frames (f g : bytes) : res cstatus :=
  match next (cursor_of f), next (cursor_of g) with
  | NAbort, _ | _, NAbort => Aborted
  | NOk a, NOk b | NEnd a, NEnd b | NBad a, NBad b => compare_with_cursors a b
  | _, _ => Done CBadValue
  end.
End Compare.
