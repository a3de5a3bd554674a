(* What the command dump is supposed to print. *)
From Verif Require Import Prelude UuidModel KeyModel KeyProofs MergeModel RocksModel.

(* the name of a form: the 20 forms there are, and the error form *)
Inductive form_name : N -> uuid -> Prop :=
| name_known f : f < 20 -> form_name f (form_uuid f)
| name_error f : 160 <= f < 256 -> form_name f FATAL.
(* the text of a record: the form and the id of its key, a tab, the value *)
Definition shown_as (r : key * bytes) (t : bytes) : Prop :=
  exists u form name, key_id_ok u /\ fst r = key_of u form /\ form_name form name /\
    t = [42] ++ write_uuid name ++ [35] ++ write_uuid u ++ [9] ++ snd r.
(* l: the records shown; rest: the keys that are not, the first of which cannot
   be read *)
Definition shows (fbits : bytes -> N) (fuel : nat) (d : list (key * cell)) (l : list (key * bytes)) (rest : list key) : Prop :=
  map fst d = map fst l ++ rest /\
  Forall (fun r => rocks_read fbits fuel d (fst r) = Done (snd r, KOk)) l /\
  (rest = [] \/ exists k r, rest = k :: r /\ rocks_read fbits fuel d k = Done ([], KDbFail)).
Inductive prints : list (key * bytes) -> bytes -> Prop :=
| prints_none : prints [] []
| prints_more r l t ts : shown_as r t -> prints l ts -> prints (r :: l) (t ++ ts).
(* the forms whose merge does not fail *)
Definition never_fails (form : N) : Prop :=
  In form [ZERO_RAW_FORM; YARN_RAW_FORM; LOG_RAW_FORM; META_META_FORM; LWW_RDT_FORM; MX_RDT_FORM; MAX_RDT_FORM; ERROR_NO_FORM].
