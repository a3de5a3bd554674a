(* Which ops of a causal tree are hidden, said without the scanning code.

   An RGA frame lists a tree. An op is an element, a removal (rm) or an undo
   (un). On the way from the root to an op the ops go through layers: the root,
   then elements, then removals, then undos; an op out of this order is trash,
   with everything below it. The k-th removal in a row takes away the k-th
   element up from the row; the k-th undo in a row takes back the k-th removal
   up from the row. *)
From Verif Require Import Prelude UuidModel KeyModel TextModel MergeSpec.

Inductive layer : Set := LRoot | LElement | LRemove | LUndo | LTrash.
Inductive kind : Set := KElement | KRemove | KUndo.
Definition rm : uuid := parse_uuid [114; 109].
Definition un : uuid := parse_uuid [117; 110].
Definition kind_of (o : rop) : kind :=
  match r_vals o with
  | [VUuid v] => if uuid_eqb v rm then KRemove else if uuid_eqb v un then KUndo else KElement
  | _ => KElement
  end.
Definition below (l : layer) (k : kind) : layer :=
  match l, k with
  | LRoot, KElement | LElement, KElement => LElement
  | LElement, KRemove | LRemove, KRemove => LRemove
  | LRemove, KUndo | LUndo, KUndo => LUndo
  | _, _ => LTrash
  end.
(* an op with its ancestors: the op first, the root last *)
Notation chain := (list rop).
Fixpoint layer_of (ch : chain) : layer :=
  match ch with
  | [] | [_] => LRoot
  | o :: up => below (layer_of up) (kind_of o)
  end.
Definition layer_eqb (a b : layer) : bool :=
  match a, b with
  | LRoot, LRoot | LElement, LElement | LRemove, LRemove | LUndo, LUndo | LTrash, LTrash => true
  | _, _ => false
  end.
(* how many ops in a row, from this one up, are of layer l *)
Fixpoint row (l : layer) (ch : chain) : nat :=
  match ch with
  | [] => 0
  | _ :: up => if layer_eqb (layer_of ch) l then S (row l up) else 0
  end.
Definition rank (ch : chain) : nat := row (layer_of ch) ch.
(* the k-th op in a row looks k ops up from the row: the ancestor it works on,
   with that one's ancestors; empty: there is none *)
Definition target (ch : chain) : chain := skipn (2 * rank ch - 1) ch.

(* the ops of a tree in listing order, each with its ancestors and subtree *)
Fixpoint places (up : chain) (t : tree) : list (chain * tree) :=
  match t with Node o cs => (up, t) :: flat_map (places (o :: up)) cs end.
Definition at_ (p : chain * tree) : chain := root (snd p) :: fst p.

(* a removal is cancelled by an undo below it. The code does not let the first
   removal of a row be cancelled. *)
Definition cancelled (p : chain * tree) : Prop :=
  (2 <= rank (at_ p))%nat /\
  exists q, In q (places (fst p) (snd p)) /\ layer_of (at_ q) = LUndo /\ target (at_ q) = at_ p.
Definition active_removal (p : chain * tree) : Prop := layer_of (at_ p) = LRemove /\ ~ cancelled p.
Definition hidden (p : chain * tree) : Prop :=
  layer_of (at_ p) <> LElement \/
  exists q, In q (places (fst p) (snd p)) /\ active_removal q /\ target (at_ q) = at_ p.
(* a removal or an undo with nothing to work on *)
Definition stray (p : chain * tree) : Prop :=
  target (at_ p) = [] /\ (layer_of (at_ p) = LUndo \/ active_removal p).

(* every child references its parent and is newer; the order of the children
   does not matter *)
Inductive linked : tree -> Prop :=
| linked_node : forall o cs,
    Forall (fun c => linked c /\ r_ref (root c) = r_id o /\ uuid_ltb (r_id o) (r_id (root c)) = true) cs ->
    linked (Node o cs).
(* what the scan asks of a frame *)
Definition rga_tree (t : tree) : Prop :=
  linked t /\ r_ref (root t) = RGA_FORM_UUID /\ Forall (fun o => version (r_id o) = TIME) (listing t) /\
  uuid_ltb (Time WORD_NEVER 0) (r_id (root t)) = false.
