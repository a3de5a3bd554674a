(* Specification of merging, independent of the merge code: cursors as
   readers of op sequences, sortedness, causal trees. *)
From Coq Require Import Sorted Permutation.
From Verif Require Import Prelude UuidModel UuidSpec TextModel MergeModel.

(* a cursor standing on the first op of l (or past the end, when l is empty)
   delivers exactly l; Next reports success as long as there is an op *)
Inductive reads {C : Type} (cvalid : C -> bool) (cnext : C -> option (bool * C)) (cop : C -> rop)
  : C -> list rop -> Prop :=
| reads_nil : forall c, cvalid c = false -> reads cvalid cnext cop c []
| reads_cons : forall c c' l, cvalid c = true -> cnext c = Some (cvalid c', c') ->
    reads cvalid cnext cop c' l -> reads cvalid cnext cop c (cop c :: l).

(* the ops a list of builder calls appends *)
Definition appended {C : Type} (cop : C -> rop) (calls : list (mcall C)) : list rop :=
  flat_map (fun x => match x with MAppend c => [cop c] | MEnd _ => [] end) calls.
(* one chunk: appends only, then a single end mark *)
Definition one_chunk {C : Type} (calls : list (mcall C)) : Prop :=
  exists cs, calls = map MAppend cs ++ [MEnd RAW].

(* UUID order (C05: a strict total order) *)
Definition id_le (a b : rop) : Prop := uuid_ltb (r_id b) (r_id a) = false.
Definition id_lt (a b : rop) : Prop := uuid_ltb (r_id a) (r_id b) = true.
Definition sorted_ids : list rop -> Prop := StronglySorted id_le.
Definition increasing_ids : list rop -> Prop := StronglySorted id_lt.

(* out is the union of the inputs: one op per id, in increasing id order *)
Definition sorted_union (inputs : list (list rop)) (out : list rop) : Prop :=
  increasing_ids out /\
  (forall o, In o out -> In o (concat inputs)) /\
  (forall o, In o (concat inputs) -> exists o', In o' out /\ r_id o' = r_id o).

(* ids identify ops *)
Definition ids_identify (l : list rop) : Prop :=
  forall a b, In a l -> In b l -> r_id a = r_id b -> a = b.

(* metadata order: id up, reference down *)
Definition meta_le (a b : rop) : Prop :=
  uuid_ltb (r_id a) (r_id b) = true \/ (r_id a = r_id b /\ uuid_ltb (r_ref a) (r_ref b) = false).

(* ---- causal trees ---- *)
Inductive tree : Set := Node (o : rop) (children : list tree).
Definition root (t : tree) : rop := match t with Node o _ => o end.
(* depth-first listing, a node before its children *)
Fixpoint listing (t : tree) : list rop :=
  match t with Node o cs => o :: flat_map listing cs end.
Definition ids (l : list rop) : list uuid := map r_id l.
(* every child references its parent, is newer than it, and the children are
   listed newest first *)
Inductive causal : tree -> Prop :=
| causal_node : forall o cs,
    Forall (fun c => causal c /\ r_ref (root c) = r_id o /\ uuid_ltb (r_id o) (r_id (root c)) = true) cs ->
    StronglySorted (fun a b => uuid_ltb (r_id (root b)) (r_id (root a)) = true) cs ->
    causal (Node o cs).

(* the cursor states in which a reader sees each op *)
Inductive visits {C : Type} (cvalid : C -> bool) (cnext : C -> option (bool * C))
  : C -> list C -> Prop :=
| visits_nil : forall c, cvalid c = false -> visits cvalid cnext c []
| visits_cons : forall c c' l, cvalid c = true -> cnext c = Some (cvalid c', c') ->
    visits cvalid cnext c' l -> visits cvalid cnext c (c :: l).
