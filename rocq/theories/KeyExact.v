(* C07 for all ids: just which of them share a key, and what is read back. *)
From Verif Require Import Prelude UuidModel UuidSpec UuidProofs KeyModel KeySpec KeyProofs.

(* the event with the 60 bits of both words of an id *)
Definition as_event (u : uuid) : uuid := mkUuid (uvalue u mod 2 ^ 60) (TIME * 2 ^ 60 + uorigin u mod 2 ^ 60).
Lemma as_event_ok u : key_id_ok (as_event u).
Proof. split; cbn [as_event uvalue uorigin]; [apply N.mod_lt; discriminate|]. exists (uorigin u mod 2 ^ 60). split; [apply N.mod_lt; discriminate|reflexivity]. Qed.
Lemma as_event_key u f : f < 256 -> key_of (as_event u) f = key_of u f.
Proof.
  intro F. rewrite !key_of_eq by exact F. cbn [as_event uvalue uorigin]. rewrite (N.add_comm (TIME * 2 ^ 60)), N.mod_add, !N.mod_mod by discriminate. reflexivity.
Qed.
Theorem C07_exact :
  (* what is read back *)
  (forall u f, f < 256 -> key_form (key_of u f) = f /\ key_id (key_of u f) TIME = mkUuid (uvalue u mod 2 ^ 60) (TIME * 2 ^ 60 + uorigin u mod 2 ^ 60)) /\
  (* it is the id itself only for events *)
  (forall u f, f < 256 -> (key_id (key_of u f) TIME = u <-> uvalue u < 2 ^ 60 /\ exists o, o < 2 ^ 60 /\ uorigin u = TIME * 2 ^ 60 + o)) /\
  (* which ids share a key *)
  (forall a b f g, f < 256 -> g < 256 -> (key_of a f = key_of b g <-> f = g /\ uvalue a mod 2 ^ 60 = uvalue b mod 2 ^ 60 /\ uorigin a mod 2 ^ 60 = uorigin b mod 2 ^ 60)) /\
  (* the order of the keys of any ids *)
  (forall a b f g, f < 256 -> g < 256 -> (key_ltb (key_of a f) (key_of b g) = true <->
     fields_lt [f; uorigin a mod 2 ^ 60; uvalue a mod 2 ^ 60] [g; uorigin b mod 2 ^ 60; uvalue b mod 2 ^ 60])).
Proof.
  assert (R : forall u f, f < 256 -> key_form (key_of u f) = f /\ key_id (key_of u f) TIME = as_event u).
  { intros u f F. rewrite <- (as_event_key u f F). destruct (key_roundtrip _ f (as_event_ok u) F). auto. }
  split; [exact R|]. split; [|split].
  - intros u f F. rewrite (proj2 (R u f F)). split; [intros <-; apply as_event_ok|]. intros [V (o & O & E)]. destruct u as [v w]. cbn [uvalue uorigin] in *. unfold as_event. cbn [uvalue uorigin].
    rewrite (N.mod_small v) by exact V. f_equal. assert (M : w mod 2 ^ 60 = o) by (rewrite E, N.add_comm, N.mod_add by discriminate; apply N.mod_small; exact O). rewrite M. symmetry. exact E.
  - intros a b f g F G. split.
    + intro E. rewrite <- (as_event_key a f F), <- (as_event_key b g G) in E. apply key_inj in E as [E Q]; try assumption; try apply as_event_ok. split; [exact Q|].
      pose proof (f_equal uvalue E) as EV. pose proof (f_equal uorigin E) as EO. cbn [as_event uvalue uorigin] in EV, EO. split; [exact EV|]. apply N.add_cancel_l in EO. exact EO.
    + intros (-> & EV & EO). rewrite !key_of_eq by exact G. rewrite EV, EO. reflexivity.
  - intros a b f g F G. rewrite <- (as_event_key a f F), <- (as_event_key b g G), (key_order _ _ f g (as_event_ok a) (as_event_ok b) F G). cbn [as_event uvalue uorigin].
    generalize (uorigin a mod 2 ^ 60), (uorigin b mod 2 ^ 60), (uvalue a mod 2 ^ 60), (uvalue b mod 2 ^ 60), (TIME * 2 ^ 60). clear. intros p q v w t. cbn [fields_lt].
    assert (A : t + p < t + q <-> p < q) by lia. assert (B : t + p = t + q <-> p = q) by lia. rewrite A, B. reflexivity.
Qed.
Print Assumptions C07_exact.
(* the event a+b and the name a$b in one form, and in another form *)
Example C07_exact_case : let e := parse_uuid [97; 43; 98] in let m := parse_uuid [97; 36; 98] in
  e <> m /\ key_of e 2 = key_of m 2 /\ key_id (key_of m 2) TIME = e /\ key_of e 2 <> key_of e 3 /\ key_ltb (key_of e 2) (key_of m 3) = true.
Proof. cbv zeta. split; [vm_compute; discriminate|]. split; [vm_compute; reflexivity|]. split; [vm_compute; reflexivity|]. split; [vm_compute; discriminate|vm_compute; reflexivity]. Qed.
