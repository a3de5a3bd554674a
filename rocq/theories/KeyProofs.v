From Verif Require Import Prelude UuidModel UuidSpec UuidProofs KeyModel.

Lemma land_max a : N.land a MAX_VALUE = a mod 2 ^ 60.
Proof. apply land_ones_mod. Qed.

Lemma add_lor_hi a b k : a < 2 ^ k -> N.lor a (b * 2 ^ k) = b * 2 ^ k + a.
Proof. intro H. rewrite N.lor_comm. apply lor_shl_add. exact H. Qed.

(* the arithmetic content of the key *)
Lemma key_of_eq id form : form < 256 ->
  key_of id form =
  mkKey (form * 2 ^ 56 + (uorigin id mod 2 ^ 60) / 16)
        ((uorigin id mod 2 ^ 60) mod 16 * 2 ^ 60 + uvalue id mod 2 ^ 60).
Proof.
  intro Hf. unfold key_of. rewrite !land_max, !shiftl_mul, shiftr_div.
  set (o := uorigin id mod 2 ^ 60). set (v := uvalue id mod 2 ^ 60).
  assert (Ho : o < 2 ^ 60) by (apply N.mod_lt; vm_compute; discriminate).
  assert (Hv : v < 2 ^ 60) by (apply N.mod_lt; vm_compute; discriminate).
  unfold two64.
  assert (E1 : (o * 2 ^ 60) mod 2 ^ 64 = o mod 16 * 2 ^ 60).
  { change (2 ^ 64) with (16 * 2 ^ 60).
    rewrite N.mul_mod_distr_r by (vm_compute; discriminate). reflexivity. }
  rewrite E1. rewrite add_lor_hi by exact Hv.
  change (2 ^ 4) with 16.
  rewrite (N.mod_small (form * 2 ^ 56)).
  2:{ change (2 ^ 64) with (256 * 2 ^ 56). pose proof (pow2_pos 56). nia. }
  rewrite add_lor_hi; [reflexivity|].
  change (2 ^ 60) with (16 * 2 ^ 56) in Ho. apply N.div_lt_upper_bound; lia.
Qed.

(* the ids that fit a key: time-stamped, value without variety *)
Definition key_id_ok (u : uuid) : Prop :=
  uvalue u < 2 ^ 60 /\ exists o, o < 2 ^ 60 /\ uorigin u = TIME * 2 ^ 60 + o.

Lemma key_roundtrip id form : key_id_ok id -> form < 256 ->
  key_id (key_of id form) TIME = id /\ key_form (key_of id form) = form.
Proof.
  destruct id as [v org]. intros [Hv (o & Ho & Eo)] Hf. cbn [uvalue uorigin] in *.
  rewrite key_of_eq by exact Hf. cbn [uvalue uorigin].
  assert (Em : org mod 2 ^ 60 = o).
  { rewrite Eo. apply mod_mul_add. exact Ho. }
  rewrite Em. rewrite (N.mod_small v) by exact Hv.
  assert (Hd : o / 16 < 2 ^ 56).
  { change (2 ^ 60) with (16 * 2 ^ 56) in Ho. apply N.div_lt_upper_bound; lia. }
  assert (Hr : o mod 16 < 16) by (apply N.mod_lt; lia).
  unfold key_id, key_form. cbn [kfirst ksecond].
  split.
  - f_equal.
    + rewrite land_max. apply mod_mul_add. exact Hv.
    + rewrite land_max, !shiftl_mul, shiftr_div.
      rewrite div_mul_add by exact Hv.
      assert (E : ((form * 2 ^ 56 + o / 16) * 2 ^ 4) mod two64 mod 2 ^ 60 = (o / 16) * 2 ^ 4).
      { unfold two64. change (2 ^ 64) with (2 ^ 60 * 16).
        rewrite N.mod_mul_r by (vm_compute; discriminate).
        rewrite N.add_mod by (vm_compute; discriminate).
        rewrite N.mod_mod by (vm_compute; discriminate).
        rewrite (N.mul_comm (2 ^ 60)), N.mod_mul, N.add_0_r by (vm_compute; discriminate).
        rewrite N.mod_mod by (vm_compute; discriminate).
        replace ((form * 2 ^ 56 + o / 16) * 2 ^ 4) with (o / 16 * 2 ^ 4 + form * 2 ^ 60)
          by (change (2 ^ 60) with (2 ^ 56 * 2 ^ 4); lia).
        rewrite N.mod_add by (vm_compute; discriminate).
        apply N.mod_small. change (2 ^ 60) with (2 ^ 56 * 2 ^ 4).
        apply N.mul_lt_mono_pos_r; [vm_compute; reflexivity|exact Hd]. }
      rewrite E. rewrite lor_shl_add by exact Hr.
      change (2 ^ 4) with 16.
      replace (o / 16 * 16 + o mod 16) with o by (rewrite N.mul_comm; apply N.div_mod; lia).
      rewrite add_lor_hi by exact Ho. symmetry. exact Eo.
  - rewrite shiftr_div, div_mul_add by exact Hd. apply N.mod_small. exact Hf.
Qed.

Lemma key_inj a b f g : key_id_ok a -> key_id_ok b -> f < 256 -> g < 256 ->
  key_of a f = key_of b g -> a = b /\ f = g.
Proof.
  intros Ha Hb Hf Hg E.
  destruct (key_roundtrip a f Ha Hf) as [A1 A2].
  destruct (key_roundtrip b g Hb Hg) as [B1 B2]. rewrite E in A1, A2.
  split; congruence.
Qed.

Lemma lex2 P a1 a2 b1 b2 : a2 < P -> b2 < P ->
  (a1 * P + a2 <? b1 * P + b2) = (a1 <? b1) || ((a1 =? b1) && (a2 <? b2)).
Proof.
  intros Ha Hb. apply Bool.eq_iff_eq_true.
  rewrite orb_true_iff, andb_true_iff, !N.ltb_lt, N.eqb_eq.
  destruct (N.lt_trichotomy a1 b1) as [H|[H|H]].
  - assert (a1 * P + P <= b1 * P) by nia. split; intro; [left; exact H|lia].
  - subst. split; intro; [right; split; [reflexivity|lia]|lia].
  - assert (b1 * P + P <= a1 * P) by nia. split; intro; lia.
Qed.

Lemma eq2 P a1 a2 b1 b2 : a2 < P -> b2 < P ->
  (a1 * P + a2 =? b1 * P + b2) = (a1 =? b1) && (a2 =? b2).
Proof.
  intros Ha Hb. apply Bool.eq_iff_eq_true.
  rewrite andb_true_iff, !N.eqb_eq. split.
  - intro E. destruct (N.lt_trichotomy a1 b1) as [H|[H|H]].
    + assert (a1 * P + P <= b1 * P) by nia. lia.
    + subst. lia.
    + assert (b1 * P + P <= a1 * P) by nia. lia.
  - intros [-> ->]. reflexivity.
Qed.

(* order of keys = order of (form, origin, value) *)
Lemma key_order a b f g : key_id_ok a -> key_id_ok b -> f < 256 -> g < 256 ->
  key_ltb (key_of a f) (key_of b g) = true <->
  fields_lt [f; uorigin a; uvalue a] [g; uorigin b; uvalue b].
Proof.
  destruct a as [v org], b as [v' org'].
  intros [Hv (o & Ho & Eo)] [Hv' (o' & Ho' & Eo')] Hf Hg. cbn [uvalue uorigin] in *.
  rewrite !key_of_eq by assumption. cbn [uvalue uorigin].
  assert (org mod 2 ^ 60 = o) as -> by (rewrite Eo; apply mod_mul_add; exact Ho).
  assert (org' mod 2 ^ 60 = o') as -> by (rewrite Eo'; apply mod_mul_add; exact Ho').
  rewrite !(N.mod_small _ (2 ^ 60)) by assumption.
  unfold key_ltb. cbn [kfirst ksecond fields_lt].
  assert (Hd : o / 16 < 2 ^ 56).
  { change (2 ^ 60) with (16 * 2 ^ 56) in Ho. apply N.div_lt_upper_bound; lia. }
  assert (Hd' : o' / 16 < 2 ^ 56).
  { change (2 ^ 60) with (16 * 2 ^ 56) in Ho'. apply N.div_lt_upper_bound; lia. }
  rewrite !lex2, eq2 by assumption.
  rewrite Eo, Eo'.
  pose proof (N.div_mod o 16 ltac:(lia)) as D. pose proof (N.div_mod o' 16 ltac:(lia)) as D'.
  pose proof (N.mod_lt o 16 ltac:(lia)). pose proof (N.mod_lt o' 16 ltac:(lia)).
  set (q := o / 16) in *. set (q' := o' / 16) in *. set (r := o mod 16) in *. set (r' := o' mod 16) in *.
  clearbody q q' r r'. lia.
Qed.

(* ---- big-endian image ---- *)

Fixpoint be_val (l : bytes) : N :=
  match l with [] => 0 | b :: t => b * 256 ^ N.of_nat (length t) + be_val t end.

Lemma of_be_acc l : forall a, fold_left (fun a b => a * 256 + b) l a = a * 256 ^ N.of_nat (length l) + be_val l.
Proof.
  induction l as [|b l IH]; intro a; cbn [fold_left be_val length].
  - change (256 ^ N.of_nat 0) with 1. lia.
  - rewrite IH. replace (N.of_nat (S (length l))) with (1 + N.of_nat (length l)) by lia.
    rewrite N.pow_add_r. change (256 ^ 1) with 256. lia.
Qed.

Lemma of_be_val l : of_be l = be_val l.
Proof. unfold of_be. rewrite of_be_acc. lia. Qed.

Lemma be_val_bound l : Forall is_byte l -> be_val l < 256 ^ N.of_nat (length l).
Proof.
  induction 1 as [|b l Hb HF IH]; cbn [be_val length].
  - vm_compute; reflexivity.
  - replace (N.of_nat (S (length l))) with (1 + N.of_nat (length l)) by lia.
    rewrite N.pow_add_r. change (256 ^ 1) with 256. unfold is_byte in Hb. nia.
Qed.

Lemma be_val_lex a : forall b, length a = length b -> Forall is_byte a -> Forall is_byte b ->
  lex_ltb a b = (be_val a <? be_val b) /\ (a = b <-> be_val a = be_val b).
Proof.
  induction a as [|x a IH]; intros [|y b] L Ha Hb; try discriminate.
  - split; [reflexivity|tauto].
  - inversion Ha; subst. inversion Hb; subst. injection L as L.
    destruct (IH b L H2 H4) as [E1 E2].
    cbn [lex_ltb be_val]. rewrite L.
    pose proof (be_val_bound a H2) as Ba. pose proof (be_val_bound b H4) as Bb. rewrite L in Ba.
    rewrite lex2 by assumption. rewrite E1. split; [reflexivity|].
    pose proof (eq2 (256 ^ N.of_nat (length b)) x (be_val a) y (be_val b) Ba Bb) as Q.
    split; intro E.
    + injection E as -> ->. reflexivity.
    + apply N.eqb_eq in E. rewrite Q in E. apply andb_prop in E as [Q1 Q2].
      apply N.eqb_eq in Q1, Q2. subst. f_equal. apply E2. exact Q2.
Qed.

Lemma be64_bytes w : Forall is_byte (be64 w).
Proof.
  unfold be64, is_byte. repeat constructor; apply N.mod_lt; discriminate.
Qed.

Lemma be64_val w : w < 2 ^ 64 -> be_val (be64 w) = w.
Proof.
  intro H. unfold be64. cbn [be_val length].
  change (256 ^ N.of_nat 7) with (2^56). change (256 ^ N.of_nat 6) with (2^48).
  change (256 ^ N.of_nat 5) with (2^40). change (256 ^ N.of_nat 4) with (2^32).
  change (256 ^ N.of_nat 3) with (2^24). change (256 ^ N.of_nat 2) with (2^16).
  change (256 ^ N.of_nat 1) with (2^8). change (256 ^ N.of_nat 0) with 1.
  assert (S : forall j, j + 8 <= 64 ->
    w mod 2 ^ (j + 8) = (w / 2 ^ j mod 256) * 2 ^ j + w mod 2 ^ j).
  { intros j Hj. rewrite (mod_pow2_split w j (j + 8)) by lia.
    replace (j + 8 - j) with 8 by lia. reflexivity. }
  pose proof (S 56 ltac:(lia)) as S7. pose proof (S 48 ltac:(lia)) as S6.
  pose proof (S 40 ltac:(lia)) as S5. pose proof (S 32 ltac:(lia)) as S4.
  pose proof (S 24 ltac:(lia)) as S3. pose proof (S 16 ltac:(lia)) as S2.
  pose proof (S 8 ltac:(lia)) as S1.
  change (56 + 8) with 64 in S7. change (48 + 8) with 56 in S6. change (40 + 8) with 48 in S5.
  change (32 + 8) with 40 in S4. change (24 + 8) with 32 in S3. change (16 + 8) with 24 in S2.
  change (8 + 8) with 16 in S1.
  rewrite N.mod_small in S7 by exact H. clear S.
  rewrite S7 at 9. rewrite S6, S5, S4, S3, S2, S1.
  change (2 ^ 8) with 256. rewrite N.mul_1_r, N.add_0_r. reflexivity.
Qed.

Lemma key_of_bounds id form : form < 256 ->
  kfirst (key_of id form) < 2 ^ 64 /\ ksecond (key_of id form) < 2 ^ 64.
Proof.
  intro Hf. rewrite key_of_eq by exact Hf. cbn [kfirst ksecond].
  set (o := uorigin id mod 2 ^ 60). set (v := uvalue id mod 2 ^ 60).
  assert (Ho : o < 2 ^ 60) by (apply N.mod_lt; vm_compute; discriminate).
  assert (Hv : v < 2 ^ 60) by (apply N.mod_lt; vm_compute; discriminate).
  assert (Hr : o mod 16 < 16) by (apply N.mod_lt; lia).
  assert (Hd : o / 16 < 2 ^ 56).
  { change (2 ^ 60) with (16 * 2 ^ 56) in Ho. apply N.div_lt_upper_bound; lia. }
  change (2 ^ 64) with (256 * 2 ^ 56) at 1. change (2 ^ 64) with (16 * 2 ^ 60).
  split; nia.
Qed.

Lemma key_be_order a b : kfirst a < 2 ^ 64 -> ksecond a < 2 ^ 64 -> kfirst b < 2 ^ 64 -> ksecond b < 2 ^ 64 ->
  lex_ltb (key_be a) (key_be b) = key_ltb a b.
Proof.
  intros H1 H2 H3 H4. unfold key_be, key_ltb.
  destruct (be_val_lex (be64 (kfirst a) ++ be64 (ksecond a)) (be64 (kfirst b) ++ be64 (ksecond b))) as [-> _].
  { reflexivity. }
  { apply Forall_app; split; apply be64_bytes. }
  { apply Forall_app; split; apply be64_bytes. }
  assert (V : forall l m, be_val (l ++ m) = be_val l * 256 ^ N.of_nat (length m) + be_val m).
  { induction l as [|x l IH]; intro m; cbn [app be_val]; [lia|].
    rewrite IH, app_length.
    replace (N.of_nat (length l + length m)) with (N.of_nat (length l) + N.of_nat (length m)) by lia.
    rewrite N.pow_add_r. lia. }
  rewrite !V. change (length (be64 (ksecond a))) with 8%nat. change (length (be64 (ksecond b))) with 8%nat.
  change (256 ^ N.of_nat 8) with (2 ^ 64).
  rewrite !be64_val by assumption. apply lex2; assumption.
Qed.

Lemma key_be_roundtrip k : kfirst k < 2 ^ 64 -> ksecond k < 2 ^ 64 -> key_of_be (key_be k) = Some k.
Proof.
  intros H1 H2. destruct k as [f s]. cbn [kfirst ksecond] in *.
  unfold key_of_be, key_be. cbn [kfirst ksecond].
  change (Nat.eqb (length (be64 f ++ be64 s)) 16) with true. cbn match.
  change (firstn 8 (be64 f ++ be64 s)) with (be64 f).
  change (skipn 8 (be64 f ++ be64 s)) with (be64 s).
  rewrite !of_be_val, !be64_val by assumption. reflexivity.
Qed.

(* ---- forms ---- *)

Lemma find_form_none l : forall i u, find_form l i u = None <-> ~ In u (map (fun f => mkUuid f 0) l).
Proof.
  induction l as [|f l IH]; intros i u; cbn [find_form map In].
  - tauto.
  - destruct (uuid_eqb u (mkUuid f 0)) eqn:E.
    + apply uuid_eqb_eq in E. subst. split; [discriminate|tauto].
    + rewrite IH. split; [intros H [H'|H']; [subst; rewrite (proj2 (uuid_eqb_eq _ _) eq_refl) in E; discriminate|tauto]|tauto].
Qed.

Lemma form_roundtrip f : f < 20 -> exists u, form2uuid f = Some u /\ uuid2form u = f.
Proof.
  intro H.
  pose proof (forall_below_spec 20 (fun f => match form2uuid f with
     | Some u => uuid2form u =? f | None => false end) ltac:(vm_compute; reflexivity) f H) as K.
  cbv beta in K. destruct (form2uuid f) as [u|]; [|discriminate].
  exists u. split; [reflexivity|lia].
Qed.

Lemma uuid2form_inv u : uuid2form u <> 0 -> u <> FATAL -> form2uuid (uuid2form u) = Some u.
Proof.
  unfold uuid2form. destruct (find_form FORMS 0 u) as [i|] eqn:E.
  - intros _ _. unfold FORMS in E. cbn [find_form] in E.
    repeat match type of E with
    | (if ?b then _ else _) = _ =>
        let Q := fresh "Q" in destruct b eqn:Q;
        [apply uuid_eqb_eq in Q; subst u; injection E as <-; vm_compute; reflexivity|]
    end. discriminate.
  - destruct (uuid_eqb u FATAL) eqn:Q; [apply uuid_eqb_eq in Q; congruence|].
    unfold ZERO_RAW_FORM. congruence.
Qed.

Lemma uuid2form_unknown u : ~ In u (map (fun f => mkUuid f 0) FORMS) -> u <> FATAL -> uuid2form u = 0.
Proof.
  intros H N. unfold uuid2form. rewrite (proj2 (find_form_none FORMS 0 u) H).
  destruct (uuid_eqb u FATAL) eqn:Q; [apply uuid_eqb_eq in Q; congruence|reflexivity].
Qed.
