(* Writes of a local user: frames without the author's stamp. *)
From Verif Require Import Prelude UuidModel KeyModel TextModel MetaModel ClockModel ReplicaModel TextSpec.

(* an op that is still to be given an author and a time, not a query *)
Definition new_op (o : rop) : Prop := version (r_id o) = TIME /\ payload (uorigin (r_id o)) = 0 /\ r_term o <> QUERY.
Definition no_empty_string (o : rop) : Prop := Forall (fun v => v <> VStr (Some [])) (r_vals o).
(* a frame of new events: changes of known objects, or a new object *)
Definition new_events (ops : list rop) : Prop :=
  Forall new_op ops /\ Forall no_empty_string ops /\
  exists o r, ops = o :: r /\
    (version (r_ref o) = TIME \/ (version (r_ref o) = NAME /\ In (uuid2form (r_ref o)) [LWW_RDT_FORM; RGA_RDT_FORM; MX_RDT_FORM; YARN_RAW_FORM])).
(* a new text for an object *)
Definition text_write (o : rop) : Prop :=
  version (r_id o) = DERIVED /\ uuid2form (r_ref o) = TXT_MAP_FORM /\ r_term o <> QUERY /\ r_term o <> REDUCED /\
  exists cps r, r_vals o = VStr (Some cps) :: r.
