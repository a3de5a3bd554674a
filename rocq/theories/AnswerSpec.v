(* What a query is supposed to be answered with. *)
From Verif Require Import Prelude UuidModel KeyModel CodecModel TextModel TextSpec BuilderSpec MergeModel TextMergeSpec StoreModel RocksModel MetaModel
  ReplicaModel BranchModel DurableSpec.

(* ops appended one by one, a chunk ended after each op that has a terminator of
   its own *)
Definition replay (ops : list rop) : list ucmd :=
  flat_map (fun o => UAppend (bare o) :: if r_term o =? REDUCED then [] else [UEnd (r_term o)]) ops.

(* a query for the state of an object: its id, the form *)
Definition state_query (q : rop) : Prop :=
  version (r_id q) = TIME /\ r_term q = QUERY /\
  In (uuid2form (r_ref q)) [LWW_RDT_FORM; RGA_RDT_FORM; MX_RDT_FORM; YARN_RAW_FORM].
Definition state_key (q : rop) : key := key_as (r_id q) (r_ref q).

(* the calls that answer queries one after another: the ops under the key of
   each *)
Inductive answered (read : key -> res (bytes * kstatus)) (fuel : nat) : list rop -> list ucmd -> Prop :=
| answered_none : answered read fuel [] []
| answered_more q text ops qs us : read (state_key q) = Done (text, KOk) -> frame_says text ops -> (length ops < fuel)%nat ->
    answered read fuel qs us -> answered read fuel (q :: qs) (replay ops ++ us).

(* the last two ops are in one span *)
Definition ends_in_span (us : list uop) : Prop := exists l a b, us = l ++ [a; b] /\ continues a b = true.

(* the ops listed before the one with the id *)
Fixpoint before (id : uuid) (ops : list rop) : list rop :=
  match ops with [] => [] | o :: r => if uuid_eqb (r_id o) id then [] else o :: before id r end.
(* a query for the log of an object, up to an event *)
Definition log_query (q : rop) : Prop := version (r_id q) = TIME /\ r_term q = QUERY /\ uuid2form (r_ref q) = LOG_RAW_FORM.
