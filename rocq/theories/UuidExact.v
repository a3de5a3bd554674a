(* C01 and C76: just which ids come back from their text, and from the name of
   their family. *)
From Verif Require Import Prelude UuidModel UuidProofs UuidTheorems CodecModel CodecTheorems TextModel RocksModel FamilyModel FamilyTheorems.

(* any two numbers as words, of whatever size *)
Theorem C01_exact u : (parse_uuid (write_uuid u) = u <-> uuid_wf u /\ uorigin u < 2 ^ 62) /\ ((exists s, parse_uuid s = u) <-> uuid_wf u /\ uorigin u < 2 ^ 62).
Proof.
  assert (R : uuid_wf u /\ uorigin u < 2 ^ 62 -> parse_uuid (write_uuid u) = u) by (intros [W L]; exact (C01_uuid_text_roundtrip u W L)).
  split; split; try exact R.
  - intros <-. apply parse_uuid_wf.
  - intros (s & <-). apply parse_uuid_wf.
  - intro H. exists (write_uuid u). exact (R H).
Qed.
(* a store that is alone in its database is found under its id if and only if
   the id has a name of its own *)
Theorem C76_iff id d : opened [(family_name id, d)] = [(id, d)] <-> nameable id.
Proof.
  unfold opened. cbn [emplace_all existsb]. split.
  - intro H. injection H as E. unfold nameable. unfold family_name in E. destruct (uuid_eqb id NIL) eqn:Z.
    + apply uuid_eqb_eq in Z. subst id. exact nil_nameable.
    + unfold family_id in E. destruct (bytes_eqb (write_uuid id) DEFAULT_NAME) eqn:D; [subst id; discriminate Z|].
      apply C01_exact in E as [W L]. split; [exact W|]. split; [exact L|]. intros ->. vm_compute in D. discriminate D.
  - intro N. rewrite (name_back id N). reflexivity.
Qed.
Print Assumptions C01_exact.
Print Assumptions C76_iff.
(* an id with all of its parts, one with a stray bit, and the name default *)
Example C01_exact_case : let a := parse_uuid [65; 47; 49; 97; 43; 98] in let b := mkUuid (uvalue a) (uorigin a + 2 ^ 62) in
  parse_uuid (write_uuid a) = a /\ parse_uuid (write_uuid b) <> b /\ uuid_wf b /\
  opened [(family_name a, [])] = [(a, [])] /\ opened [(family_name b, [])] = [(a, [])] /\ opened [(family_name (parse_uuid DEFAULT_NAME), [])] = [(NIL, [])].
Proof. cbv zeta. split; [vm_compute; reflexivity|]. split; [vm_compute; discriminate|]. split; [split; vm_compute; reflexivity|]. split; [vm_compute; reflexivity|]. split; vm_compute; reflexivity. Qed.
