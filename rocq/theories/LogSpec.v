(* What splitting a log into chains should do, in terms of the ops of the log. *)
From Verif Require Import Prelude UuidModel TextModel BuilderSpec.

(* each op refers to the one before it *)
Fixpoint linked (prev : uuid) (l : list rop) : Prop :=
  match l with [] => True | o :: r => r_ref o = prev /\ linked (r_id o) r end.
Definition is_chain (l : list rop) : Prop :=
  match l with [] => False | o :: r => linked (r_id o) r end.
Definition ends_with (l : list rop) (id : uuid) : Prop := exists l' o, l = l' ++ [o] /\ r_id o = id.
(* no chain goes on in the next one *)
Fixpoint apart (gs : list (list rop)) : Prop :=
  match gs with
  | g :: (h :: _) as t => (match h with o :: _ => ~ ends_with g (r_ref o) | [] => True end) /\ apart t
  | _ => True
  end.

(* the ops of the log up to a version: the first op with that id is the last one *)
Fixpoint upto (v : uuid) (l : list rop) : list rop :=
  match l with [] => [] | o :: r => if uuid_eqb (r_id o) v then [o] else o :: upto v r end.
(* an op that goes on from another one the way the ops of a span do: the next
   id, referring to it, the same terminator, the same values, except that a
   character may be followed by another one *)
Definition alike (vs ws : list value) : Prop :=
  vs = ws \/ exists q a s, vs = q ++ [VStr (Some [a])] /\ ws = q ++ [VStr s].
Definition spans_on (o p : rop) : Prop :=
  r_id p = inc (r_id o) /\ r_ref p = r_id o /\ r_term p = r_term o /\ alike (r_vals o) (r_vals p).
Fixpoint runs_on (o : rop) (l : list rop) : Prop :=
  match l with [] => True | p :: r => spans_on o p /\ runs_on p r end.

(* the chains of a list of ops: it is cut wherever an op does not refer to the
   one before it *)
Fixpoint pieces (l : list rop) : list (list rop) :=
  match l with
  | [] => []
  | o :: r => match pieces r with
              | (x :: g) :: gs => if uuid_eqb (r_ref x) (r_id o) then (o :: x :: g) :: gs else [o] :: (x :: g) :: gs
              | gs => [o] :: gs
              end
  end.

(* the version is not followed by an op that goes on from it as in a span *)
Definition settled (v : uuid) (ops : list rop) : Prop :=
  forall l o p r, ops = l ++ o :: p :: r -> r_id o = v -> ~ spans_on o p.
(* references point back in time *)
Definition backwards (ops : list rop) : Prop :=
  forall a b, In a ops -> In b ops -> r_ref b = r_id a -> uuid_ltb (r_id a) (r_id b) = true.
(* an event: its id has a time, and so has a reference to another event, which
   is earlier *)
Definition dated (u : uop) : Prop :=
  version (u_id u) = TIME /\ (version (u_ref u) = TIME -> uuid_ltb (u_ref u) (u_id u) = true).
