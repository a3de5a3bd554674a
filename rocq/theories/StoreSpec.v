(* Specification of stores: a key-value map in which each key has a list of
   frames, oldest first. *)
From Coq Require Import Sorted.
From Verif Require Import Prelude UuidModel KeyModel MergeModel StoreModel.

Definition key_lt (a b : key) : Prop := key_ltb a b = true.
(* two 64-bit words *)
Definition key64 (k : key) : Prop := kfirst k < 2 ^ 64 /\ ksecond k < 2 ^ 64.

Section Spec.
Context {F : Type}.
Definition sorted_store (st : list (key * F)) : Prop := StronglySorted (fun a b => ~ key_lt (fst b) (fst a)) st.
(* the frames under a key *)
Definition contents (st : list (key * F)) (k : key) : list F :=
  map snd (filter (fun r => key_eqb (fst r) k) st).

(* the frames a history of calls has written under a key: Key::END is refused,
   and a batch stops there *)
Fixpoint before_end (l : list (key * F)) : list (key * F) :=
  match l with
  | [] => []
  | (k, f) :: r => if key_eqb k KEY_END then [] else (k, f) :: before_end r
  end.
Definition written_by (o : sop F) : list (key * F) :=
  match o with
  | SWrite _ k f => before_end [(k, f)]
  | SBatch _ l => before_end l
  | _ => []
  end.
Definition written (k : key) (ops : list (sop F)) : list F := contents (flat_map written_by ops) k.
(* the frames it has been shown under a key *)
Definition shown_by (k : key) (o : sout F) : list F :=
  match o with
  | OStatus _ _ => []
  | ORead _ k' f _ => if key_eqb k' k then [f] else []
  | OWalk _ l => flat_map (fun '(k', f) => if key_eqb k' k then match f with Some x => [x] | None => [] end else []) l
  end.
Definition shown (k : key) (outs : list (sout F)) : list F := flat_map (shown_by k) outs.
End Spec.
