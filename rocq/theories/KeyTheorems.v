(* Properties C07 (database keys) and C08 (form registry). *)
From Verif Require Import Prelude UuidModel UuidSpec KeyModel KeySpec KeyProofs.

(* C07. key_id_ok: a time-versioned UUID with a 60-bit value and origin. *)
Theorem C07_key_codec_and_order :
  (forall id form, key_id_ok id -> form < 256 ->
     key_id (key_of id form) TIME = id /\ key_form (key_of id form) = form) /\
  (forall a b f g, key_id_ok a -> key_id_ok b -> f < 256 -> g < 256 ->
     key_of a f = key_of b g -> a = b /\ f = g) /\
  (forall a b f g, key_id_ok a -> key_id_ok b -> f < 256 -> g < 256 ->
     (key_ltb (key_of a f) (key_of b g) = true <->
      fields_lt [f; uorigin a; uvalue a] [g; uorigin b; uvalue b])) /\
  (forall a b f g, f < 256 -> g < 256 ->
     lex_ltb (key_be (key_of a f)) (key_be (key_of b g)) = key_ltb (key_of a f) (key_of b g)) /\
  (forall a f, f < 256 -> key_of_be (key_be (key_of a f)) = Some (key_of a f)).
Proof.
  exact (conj key_roundtrip (conj key_inj (conj key_order (conj
   (fun a b f g Hf Hg => key_be_order _ _ (proj1 (key_of_bounds a f Hf)) (proj2 (key_of_bounds a f Hf))
       (proj1 (key_of_bounds b g Hg)) (proj2 (key_of_bounds b g Hg)))
   (fun a f Hf => key_be_roundtrip _ (proj1 (key_of_bounds a f Hf)) (proj2 (key_of_bounds a f Hf))))))).
Qed.
Print Assumptions C07_key_codec_and_order.

(* @1gABC+alice in the LOG form *)
Example C07_case : let id := parse_uuid [49;103;65;66;67;43;97;108;105;99;101] in
  key_id_ok id /\ key_id (key_of id LOG_RAW_FORM) TIME = id /\
  key_be (key_of id LOG_RAW_FORM) = [2;151;11;103;164;0;0;0;0;107;40;179;0;0;0;0].
Proof.
  split; [split; [vm_compute; reflexivity|exists 680244179908952064; split; vm_compute; reflexivity]|].
  vm_compute. split; reflexivity.
Qed.

(* Outside the domain the version and variety flags are not kept. *)
Theorem C07_flags_lost_refuted : exists id form, uuid_wf id /\ form < 256 /\
  key_id (key_of id form) TIME <> id.
Proof. exists (mkUuid 5 7), 2. split; [split; vm_compute; reflexivity|]. split; [reflexivity|vm_compute; discriminate]. Qed.
Print Assumptions C07_flags_lost_refuted.

(* C08. Registry: identity on the 20 known forms, names, catch-all. *)
Theorem C08_form_registry :
  (forall f, f < 20 -> exists u, form2uuid f = Some u /\ uuid2form u = f) /\
  (forall f n, nth_error form_names f = Some n ->
     form2uuid (N.of_nat f) = Some (parse_uuid n)) /\
  (forall u, uuid2form u <> 0 -> u <> FATAL -> form2uuid (uuid2form u) = Some u) /\
  (forall u, ~ In u (map parse_uuid form_names) -> u <> FATAL -> uuid2form u = 0) /\
  uuid2form FATAL = 255 /\ form2uuid 255 = Some FATAL.
Proof.
  split; [exact form_roundtrip|]. split.
  { intros f n H.
    do 20 (destruct f as [|f]; [injection H as <-; vm_compute; reflexivity|]).
    destruct f; discriminate. }
  split; [exact uuid2form_inv|]. split; [|split; vm_compute; reflexivity].
  intros u H. apply uuid2form_unknown.
  replace (map (fun f => mkUuid f 0) FORMS) with (map parse_uuid form_names) by (vm_compute; reflexivity).
  exact H.
Qed.
Print Assumptions C08_form_registry.

Example C08_case : form2uuid 13 = Some (parse_uuid [108;119;119]) /\
  uuid2form (parse_uuid [98;108;97]) = 0.
Proof. vm_compute. split; reflexivity. Qed.

(* The bound check uses the byte size of the table: indices 20..159 read past
   its end. *)
Theorem C08_form2uuid_bounds_refuted :
  (exists f, f < 256 /\ form2uuid f = None) /\
  (forall f, form2uuid f = None <-> 20 <= f < 160).
Proof.
  split; [exists 20; split; [reflexivity|vm_compute; reflexivity]|].
  intro f. unfold form2uuid. change (8 * N.of_nat (length FORMS)) with 160.
  destruct (f <? 160) eqn:E.
  - destruct (nth_error FORMS (N.to_nat f)) as [x|] eqn:Q.
    + assert (N.to_nat f < length FORMS)%nat by (apply nth_error_Some; congruence).
      change (length FORMS) with 20%nat in H. split; [discriminate|lia].
    + apply nth_error_None in Q. change (length FORMS) with 20%nat in Q. split; [lia|reflexivity].
  - split; [discriminate|lia].
Qed.
Print Assumptions C08_form2uuid_bounds_refuted.
