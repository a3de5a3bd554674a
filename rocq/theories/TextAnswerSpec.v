(* What a query for a text is supposed to be answered with. *)
From Verif Require Import Prelude UuidModel KeyModel CodecModel TextModel TextSpec BuilderSpec ClockModel MergeSpec ScanSpec.

(* a query for the text of an object: the derived id of the object, the form *)
Definition text_query (q : rop) : Prop :=
  version (r_id q) = DERIVED /\ r_term q = QUERY /\ uuid2form (r_ref q) = TXT_MAP_FORM.
Definition object_of (q : rop) : uuid := uuid_time (uvalue (r_id q)) (uorigin (r_id q)).
Definition text_key (q : rop) : key := key_of (object_of q) RGA_RDT_FORM.

(* an op that is a piece of text *)
Definition piece (o : rop) : Prop := exists cps, r_vals o = [VStr (Some cps)] /\ value_ok (VStr (Some cps)).
Definition chars (o : rop) : list N := match r_vals o with [VStr (Some cps)] => cps | _ => [] end.

(* the text of the ops that are not hidden *)
Fixpoint visible_text (ops : list rop) (hs : list bool) : list N :=
  match ops, hs with
  | o :: ops, h :: hs => if h then visible_text ops hs else chars o ++ visible_text ops hs
  | _, _ => []
  end.
(* the same up to the first op that is not hidden and not inside a span *)
Fixpoint spelled (ops : list rop) (hs ms : list bool) : list N :=
  match ops, hs, ms with
  | o :: ops, h :: hs, m :: ms => if h then spelled ops hs ms else if m then chars o ++ spelled ops hs ms else []
  | _, _, _ => []
  end.

(* what the text of an answer is like: the query's id, the form, the text *)
Definition text_answer (q : rop) (form : uuid) (cps : list N) : list rop := [mkRop (r_id q) form [VStr (Some cps)] RAW].
