(* Property C33: the bytes hashed for an op determine the op. *)
From Verif Require Import Prelude UuidModel CodecModel CodecSpec TextTable TextModel TextSpec TextSafety
  TextTheorems MergeModel HashModel HashSpec HashProofs.

(* an op the parser delivers from a buffer within the frame size limit *)
Definition delivers (buf : bytes) (c : cursor) : Prop :=
  N.of_nat (length buf) < 2 ^ 30 /\ exists c0, reachable buf c0 /\ next c0 = NOk c.

Lemma delivers_ranged buf c : delivers buf c ->
  Forall ranged (skipn 2 (c_op c)) /\ uuid_wf (op_id (c_op c)) /\ uuid_wf (op_ref (c_op c)).
Proof.
  intros [L [c0 [R E]]]. destruct (C14_parser_safety buf) as [S _].
  destruct (S c0 R) as [_ N]. destruct (N c E) as [_ [Lp [[id [ref [vals Eo]]] [W _]]]].
  split; [|rewrite Eo in W; apply Forall_cons_iff in W; destruct W as [W1 W];
           apply Forall_cons_iff in W; destruct W as [W2 _]; rewrite Eo;
           split; [exact (proj1 W1)|exact (proj1 W2)]].
  assert (Wv : Forall (atom_within (c_pos c)) (skipn 2 (c_op c))).
  { rewrite <- (firstn_skipn 2 (c_op c)) in W. apply Forall_app in W. exact (proj2 W). }
  revert Wv. apply Forall_impl. intros a. unfold uuid_wf.
  change (2 ^ 30) with 1073741824 in *. change (2 ^ 62) with 4611686018427387904 in *.
  change (2 ^ 32) with 4294967296 in *. destruct a; cbn [atom_within ranged]; unfold uuid_wf; lia.
Qed.

(* C33. Two ops from any two frames, hashed with any previous and reference
   hashes. If the hashed bytes are equal, so are id, reference, both hashes and
   all values (and also which characters are in spans). *)
Theorem C33_image : forall fbits buf1 c1 p1 r1 buf2 c2 p2 r2 img,
  (forall s, fbits s < 2 ^ 64) ->
  delivers buf1 c1 -> delivers buf2 c2 ->
  Forall said_ok (says fbits c1) -> Forall said_ok (says fbits c2) ->
  hash_image fbits c1 p1 r1 = Done img -> hash_image fbits c2 p2 r2 = Done img ->
  r_id (rop_of c1) = r_id (rop_of c2) /\ r_ref (rop_of c1) = r_ref (rop_of c2) /\
  says fbits c1 = says fbits c2 /\ hbits p1 = hbits p2 /\ hbits r1 = hbits r2 /\
  map in_span (skipn 2 (c_op c1)) = map in_span (skipn 2 (c_op c2)).
Proof.
  intros fbits buf1 c1 p1 r1 buf2 c2 p2 r2 img Fb D1 D2 K1 K2 E1 E2.
  destruct (delivers_ranged _ _ D1) as [R1 [[I1 I1'] [J1 J1']]].
  destruct (delivers_ranged _ _ D2) as [R2 [[I2 I2'] [J2 J2']]].
  unfold hash_image, write_hash in E1, E2.
  destruct (length (hbits p1) =? 32)%nat eqn:P1; [|discriminate E1]. cbn [rbind] in E1.
  destruct (length (hbits r1) =? 32)%nat eqn:Q1; [|discriminate E1]. cbn [rbind] in E1.
  destruct (length (hbits p2) =? 32)%nat eqn:P2; [|discriminate E2]. cbn [rbind] in E2.
  destruct (length (hbits r2) =? 32)%nat eqn:Q2; [|discriminate E2]. cbn [rbind] in E2.
  apply Nat.eqb_eq in P1, P2, Q1, Q2. injection E1 as E1. injection E2 as E2. rewrite <- E2 in E1. clear E2.
  unfold write_id in E1. apply write_words_inj in E1; try assumption. destruct E1 as [A1 [A2 E1]].
  apply app_inj_len in E1; [|congruence]. destruct E1 as [Hp E1].
  apply write_words_inj in E1; try assumption. destruct E1 as [A3 [A4 E1]].
  apply app_inj_len in E1; [|congruence]. destruct E1 as [Hr E1].
  unfold says, rop_of in *. cbn [r_vals] in *.
  rewrite map_map in K1, K2. rewrite !map_map. rewrite Forall_map in K1, K2.
  destruct (atoms_image_inj fbits Fb (c_buf c1) _ (c_buf c2) _ R1 R2 K1 K2 E1) as [V Sp].
  assert (U : forall u v, uvalue u = uvalue v -> uorigin u = uorigin v -> u = v)
    by (intros [a b] [a' b']; cbn; congruence).
  split; [exact (U _ _ A1 A2)|]. split; [exact (U _ _ A3 A4)|]. repeat split; assumption.
Qed.
Print Assumptions C33_image.

(* C33, the other direction. Equal ops are hashed from equal bytes, wherever
   they stand, if the same characters are in spans and all literals end within
   the same quarter of the frame size limit (in particular within 2^28 bytes). *)
Theorem C33_stable : forall fbits buf1 c1 buf2 c2 p r,
  delivers buf1 c1 -> delivers buf2 c2 ->
  Forall said_ok (says fbits c1) -> Forall said_ok (says fbits c2) ->
  r_id (rop_of c1) = r_id (rop_of c2) -> r_ref (rop_of c1) = r_ref (rop_of c2) ->
  says fbits c1 = says fbits c2 ->
  map in_span (skipn 2 (c_op c1)) = map in_span (skipn 2 (c_op c2)) ->
  map (fun a => ends_at a / 2 ^ 28) (skipn 2 (c_op c1)) =
    map (fun a => ends_at a / 2 ^ 28) (skipn 2 (c_op c2)) ->
  hash_image fbits c1 p r = hash_image fbits c2 p r.
Proof.
  intros fbits buf1 c1 buf2 c2 p r D1 D2 K1 K2 Ei Er Es Sp En.
  destruct (delivers_ranged _ _ D1) as [R1 _]. destruct (delivers_ranged _ _ D2) as [R2 _].
  unfold hash_image. unfold rop_of in Ei, Er. cbn [r_id r_ref] in Ei, Er. rewrite Ei, Er.
  destruct (write_hash p); [|reflexivity|reflexivity]. destruct (write_hash r); [|reflexivity|reflexivity].
  cbn [rbind]. do 5 f_equal. unfold says, rop_of in *. cbn [r_vals] in *.
  rewrite map_map in K1, K2. rewrite !map_map in Es. rewrite Forall_map in K1, K2.
  revert R1 R2 K1 K2 Es Sp En. generalize (skipn 2 (c_op c1)) as l, (skipn 2 (c_op c2)) as l'.
  clear. induction l as [|a l IH]; intros [|a' l'] R1 R2 K1 K2 Es Sp En; try discriminate Es; [reflexivity|].
  apply Forall_cons_iff in R1, R2, K1, K2. destruct R1 as [Ra R1], R2 as [Ra' R2], K1 as [Ka K1], K2 as [Ka' K2].
  cbn [map] in Es, Sp, En.
  assert (Q : forall X (x y : X) s t, x :: s = y :: t -> x = y /\ s = t)
    by (intros X x y s t H; injection H; intros; split; assumption).
  apply Q in Es, Sp, En. destruct Es as [Es1 Es], Sp as [Sp1 Sp], En as [En1 En].
  cbn [flat_map]. rewrite (IH l' R1 R2 K1 K2 Es Sp En). f_equal.
  exact (atom_image_same fbits _ _ _ _ Ra Ra' Ka Ka' Es1 Sp1 En1).
Qed.
Print Assumptions C33_stable.
