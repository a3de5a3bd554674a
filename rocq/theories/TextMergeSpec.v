(* Specification of merged text frames. *)
From Verif Require Import Prelude UuidModel UuidSpec CodecModel CodecSpec TextModel TextSpec BuilderSpec.

(* a frame whose plain characters are written as themselves *)
Definition canon (bs : bytes) (cp : N) : Prop := plain_char cp -> bs = [cp].

(* a universe of ops that can be written together, whatever the selection and
   the order: well-formed, one op per id; an id right after another one only
   with a reference to it (C17); a run of characters continues a plain one only;
   nothing continues the op a Builder starts from *)
Definition mergeable (U : list uop) : Prop :=
  Forall uop_ok U /\
  (forall a b, In a U -> In b U -> u_id a = u_id b -> a = b) /\
  (forall a b, In a (origin_op :: U) -> In b U -> u_id b = inc (u_id a) -> u_ref b = u_id a) /\
  (forall a b, In a U -> In b U -> continues a b = true -> plain_string a) /\
  (forall b, In b U -> continues origin_op b = false).

(* the ops read back from one chunk *)
Definition chunk_of (us : list uop) : list rop := denote (map UAppend us ++ [UEnd RAW]).

(* room for the text of ops: a UUID takes up to 31 bytes, a number up to 24, a
   code point up to 6; ids, reference, terminator and span size up to 88 *)
Definition value_room (v : value) : nat :=
  match v with
  | VUuid _ => 31 | VInt _ => 20 | VFloat _ => 24
  | VStr (Some cps) => 2 + 6 * length cps | VStr None => 2
  end.
Definition op_room (u : uop) : nat := 88 + list_sum (map (fun v => S (value_room v)) (u_vals u)).
Definition room (us : list uop) : nat := list_sum (map op_room us).
