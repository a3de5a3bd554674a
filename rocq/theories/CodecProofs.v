From Verif Require Import Prelude UuidModel UuidProofs CodecModel CodecSpec.

Local Ltac below n f H :=
  let K := fresh in
  pose proof (forall_below_spec n f ltac:(vm_compute; reflexivity) _ H) as K; cbv beta in K.

(* ---- bit facts on bytes ---- *)

Lemma lor_128 x : x < 64 -> N.lor x 128 = 128 + x.
Proof. intro H. below 64%nat (fun x => N.lor x 128 =? 128 + x) H. lia. Qed.
Lemma lor_192 x : x < 32 -> N.lor x 192 = 192 + x.
Proof. intro H. below 32%nat (fun x => N.lor x 192 =? 192 + x) H. lia. Qed.
Lemma lor_224 x : x < 16 -> N.lor x 224 = 224 + x.
Proof. intro H. below 16%nat (fun x => N.lor x 224 =? 224 + x) H. lia. Qed.
Lemma lor_240 x : x < 8 -> N.lor x 240 = 240 + x.
Proof. intro H. below 8%nat (fun x => N.lor x 240 =? 240 + x) H. lia. Qed.
Lemma land_128_63 x : x < 64 -> N.land (128 + x) 63 = x.
Proof. intro H. below 64%nat (fun x => N.land (128 + x) 63 =? x) H. lia. Qed.
Lemma land_192_31 x : x < 32 -> N.land (192 + x) 31 = x.
Proof. intro H. below 32%nat (fun x => N.land (192 + x) 31 =? x) H. lia. Qed.
Lemma land_224_15 x : x < 16 -> N.land (224 + x) 15 = x.
Proof. intro H. below 16%nat (fun x => N.land (224 + x) 15 =? x) H. lia. Qed.
Lemma land_240_7 x : x < 8 -> N.land (240 + x) 7 = x.
Proof. intro H. below 8%nat (fun x => N.land (240 + x) 7 =? x) H. lia. Qed.
Lemma land_63 x : N.land x 63 = x mod 64.
Proof. exact (land_ones_mod x 6). Qed.
Lemma land_7 x : N.land x 7 = x mod 8.
Proof. exact (land_ones_mod x 3). Qed.

Lemma cont_eq cp x : cp < 2 ^ 26 -> x < 64 -> cont cp (128 + x) = cp * 64 + x.
Proof.
  intros Hc Hx. unfold cont. rewrite land_128_63 by exact Hx. rewrite shiftl_mul.
  change (2 ^ 6) with 64. rewrite N.mod_small.
  - change 64 with (2 ^ 6). apply lor_shl_add. exact Hx.
  - change (2 ^ 32) with (2 ^ 26 * 64). lia.
Qed.

Lemma utf8append_char cp : cp < 2 ^ 21 -> utf8_char (utf8append cp) cp.
Proof.
  change (2 ^ 21) with 2097152. intro H. unfold utf8append.
  rewrite !land_63, !land_7, !shiftr_div.
  change (2 ^ 6) with 64. change (2 ^ 12) with 4096. change (2 ^ 18) with 262144.
  assert (M : forall x, x mod 64 < 64) by (intro; apply N.mod_lt; lia).
  assert (M8 : forall x, x mod 8 < 8) by (intro; apply N.mod_lt; lia).
  destruct (cp <? 128) eqn:E1; [apply u8_1; lia|].
  destruct (cp <? 2048) eqn:E2.
  { assert (cp / 64 < 32) by (apply N.div_lt_upper_bound; lia).
    rewrite lor_192, lor_128 by auto.
    replace cp with (cp / 64 * 64 + cp mod 64) at 3 by (pose proof (N.div_mod cp 64 ltac:(lia)); lia).
    apply u8_2; auto. }
  destruct (cp <? 65536) eqn:E3.
  { assert (cp / 4096 < 16) by (apply N.div_lt_upper_bound; lia).
    rewrite lor_224, !lor_128 by auto.
    replace cp with (cp / 4096 * 4096 + cp / 64 mod 64 * 64 + cp mod 64) at 4.
    - apply u8_3; auto.
    - pose proof (N.div_mod cp 64 ltac:(lia)). pose proof (N.div_mod (cp / 64) 64 ltac:(lia)) as D.
      rewrite N.div_div in D by lia. change (64 * 64) with 4096 in D. lia. }
  assert (cp / 262144 < 8) by (apply N.div_lt_upper_bound; lia).
  rewrite lor_240, !lor_128 by auto.
  replace cp with (cp / 262144 mod 8 * 262144 + cp / 4096 mod 64 * 4096 + cp / 64 mod 64 * 64 + cp mod 64) at 5.
  - apply u8_4; auto.
  - pose proof (N.div_mod cp 64 ltac:(lia)). pose proof (N.div_mod (cp / 64) 64 ltac:(lia)) as D.
    rewrite N.div_div in D by lia. change (64 * 64) with 4096 in D.
    pose proof (N.div_mod (cp / 4096) 64 ltac:(lia)) as D2.
    rewrite N.div_div in D2 by lia. change (4096 * 64) with 262144 in D2.
    rewrite (N.mod_small (cp / 262144)) by assumption. lia.
Qed.

Lemma utf8append_shortest cp bs : cp < 2 ^ 21 -> utf8_char bs cp -> (length (utf8append cp) <= length bs)%nat.
Proof.
  change (2 ^ 21) with 2097152. intros H C. unfold utf8append.
  inversion C; subst; cbn [length];
  destruct (_ <? 128) eqn:E1; cbn [length]; try lia;
  destruct (_ <? 2048) eqn:E2; cbn [length]; try lia;
  destruct (_ <? 65536) eqn:E3; cbn [length]; lia.
Qed.

(* ---- ParseUtf8 ---- *)

Lemma p8_run_5 cp out s : p8_run 5 cp out s = p8_run 4 0 (cp :: out) s.
Proof. destruct s; reflexivity. Qed.

Lemma p8_run_char bs cp : utf8_char bs cp -> forall out s,
  p8_run 4 0 out (bs ++ s) = p8_run 4 0 (cp :: out) s.
Proof.
  destruct 1; intros out s.
  - cbn [app p8_run]. change (p8_step 4 0 out a) with (p8_lead a out). unfold p8_lead.
    rewrite (proj2 (N.ltb_lt a 128)) by assumption. apply p8_run_5.
  - cbn [app p8_run]. change (p8_step 4 0 out (192 + a)) with (p8_lead (192 + a) out). unfold p8_lead.
    rewrite land_192_31 by assumption.
    replace (192 + a <? 128) with false by lia. replace (192 + a <? 192) with false by lia.
    replace (192 + a <? 224) with true by lia.
    unfold p8_step at 1. change (1 =? 4) with false. change (1 =? 5) with false.
    replace ((128 <=? 128 + b) && (128 + b <=? 191)) with true by lia.
    cbn [N.eqb Pos.eqb]. change (1 =? 1) with true. cbn iota beta.
    rewrite cont_eq by (try assumption; change (2 ^ 26) with 67108864; lia). apply p8_run_5.
  - cbn [app p8_run]. change (p8_step 4 0 out (224 + a)) with (p8_lead (224 + a) out). unfold p8_lead.
    rewrite land_224_15 by assumption.
    replace (224 + a <? 128) with false by lia. replace (224 + a <? 192) with false by lia.
    replace (224 + a <? 224) with false by lia. replace (224 + a <? 240) with true by lia.
    unfold p8_step at 1. change (2 =? 4) with false. change (2 =? 5) with false.
    replace ((128 <=? 128 + b) && (128 + b <=? 191)) with true by lia.
    change (2 =? 1) with false. change (2 =? 2) with true. cbn iota beta.
    rewrite cont_eq by (try assumption; change (2 ^ 26) with 67108864; lia).
    unfold p8_step at 1. change (1 =? 4) with false. change (1 =? 5) with false.
    replace ((128 <=? 128 + c) && (128 + c <=? 191)) with true by lia.
    change (1 =? 1) with true. cbn iota beta.
    rewrite cont_eq by (try assumption; change (2 ^ 26) with 67108864; lia).
    replace ((a * 64 + b) * 64 + c) with (a * 4096 + b * 64 + c) by lia. apply p8_run_5.
  - cbn [app p8_run]. change (p8_step 4 0 out (240 + a)) with (p8_lead (240 + a) out). unfold p8_lead.
    rewrite land_240_7 by assumption.
    replace (240 + a <? 128) with false by lia. replace (240 + a <? 192) with false by lia.
    replace (240 + a <? 224) with false by lia. replace (240 + a <? 240) with false by lia.
    replace (240 + a <? 248) with true by lia.
    unfold p8_step at 1. change (3 =? 4) with false. change (3 =? 5) with false.
    replace ((128 <=? 128 + b) && (128 + b <=? 191)) with true by lia.
    change (3 =? 1) with false. change (3 =? 2) with false. cbn iota beta.
    rewrite cont_eq by (try assumption; change (2 ^ 26) with 67108864; lia).
    unfold p8_step at 1. change (2 =? 4) with false. change (2 =? 5) with false.
    replace ((128 <=? 128 + c) && (128 + c <=? 191)) with true by lia.
    change (2 =? 1) with false. change (2 =? 2) with true. cbn iota beta.
    rewrite cont_eq by (try assumption; change (2 ^ 26) with 67108864; lia).
    unfold p8_step at 1. change (1 =? 4) with false. change (1 =? 5) with false.
    replace ((128 <=? 128 + d) && (128 + d <=? 191)) with true by lia.
    change (1 =? 1) with true. cbn iota beta.
    rewrite cont_eq by (try assumption; change (2 ^ 26) with 67108864; lia).
    replace (((a * 64 + b) * 64 + c) * 64 + d) with (a * 262144 + b * 4096 + c * 64 + d) by lia. apply p8_run_5.
Qed.

Lemma p8_run_text cs : Forall (fun c => utf8_char (fst c) (snd c)) cs -> forall out s,
  p8_run 4 0 out (concat (map fst cs) ++ s) = p8_run 4 0 (rev (map snd cs) ++ out) s.
Proof.
  induction 1 as [|[bs cp] cs Hc HF IH]; intros out s; cbn [map concat rev app fst snd]; [reflexivity|].
  rewrite <- app_assoc, (p8_run_char _ _ Hc), IH, <- app_assoc. reflexivity.
Qed.

(* a first character can be split off whenever the run succeeds *)
Lemma p8_run_split b t out l : p8_run 4 0 out (b :: t) = Some l ->
  exists bs cp r, b :: t = bs ++ r /\ utf8_char bs cp /\ bs <> [] /\ p8_run 4 0 (cp :: out) r = Some l.
Proof.
  intro H. cbn [p8_run] in H. change (p8_step 4 0 out b) with (p8_lead b out) in H.
  assert (S : forall st cp o x y, (st = 1 \/ st = 2 \/ st = 3) -> p8_step st cp o x = Some y ->
     exists z, x = 128 + z /\ z < 64 /\ y = (if st =? 1 then 5 else if st =? 2 then 1 else 2, cont cp x, o)).
  { intros st cp o x y Hs E. unfold p8_step in E.
    replace (st =? 4) with false in E by lia. replace (st =? 5) with false in E by lia.
    destruct ((128 <=? x) && (x <=? 191)) eqn:R; [|discriminate].
    exists (x - 128). split; [lia|]. split; [lia|]. congruence. }
  unfold p8_lead in H.
  destruct (b <? 128) eqn:E1.
  { exists [b], b, t. split; [reflexivity|]. split; [apply u8_1; lia|]. split; [discriminate|].
    rewrite <- p8_run_5. exact H. }
  destruct (b <? 192) eqn:E2; [discriminate|].
  destruct (b <? 224) eqn:E3.
  { destruct t as [|b1 t]; [discriminate|]. cbn [p8_run] in H.
    destruct (p8_step 1 _ out b1) as [[[st cp] o]|] eqn:Q; [|discriminate].
    apply S in Q; [|auto]. destruct Q as (z & -> & Hz & Q). injection Q; intros; subst.
    change (1 =? 1) with true in H. cbn iota in H.
    assert (Hb : exists a, a < 32 /\ b = 192 + a) by (exists (b - 192); lia). destruct Hb as (a & Ha & ->).
    rewrite land_192_31 in H by exact Ha.
    rewrite cont_eq in H by (try assumption; change (2 ^ 26) with 67108864; lia).
    exists [192 + a; 128 + z], (a * 64 + z), t. split; [reflexivity|]. split; [apply u8_2; assumption|].
    split; [discriminate|]. rewrite <- p8_run_5. exact H. }
  destruct (b <? 240) eqn:E4.
  { destruct t as [|b1 t]; [discriminate|]. cbn [p8_run] in H.
    destruct (p8_step 2 _ out b1) as [[[st cp] o]|] eqn:Q; [|discriminate].
    apply S in Q; [|auto]. destruct Q as (z & -> & Hz & Q). injection Q; intros; subst.
    change (2 =? 1) with false in H. change (2 =? 2) with true in H. cbn iota in H.
    destruct t as [|b2 t]; [discriminate|]. cbn [p8_run] in H.
    destruct (p8_step 1 _ out b2) as [[[st cp] o]|] eqn:Q2; [|discriminate].
    apply S in Q2; [|auto]. destruct Q2 as (y & -> & Hy & Q2). injection Q2; intros; subst.
    change (1 =? 1) with true in H. cbn iota in H.
    assert (Hb : exists a, a < 16 /\ b = 224 + a) by (exists (b - 224); lia). destruct Hb as (a & Ha & ->).
    rewrite land_224_15 in H by exact Ha.
    rewrite !cont_eq in H by (try assumption; rewrite ?cont_eq; try assumption; change (2 ^ 26) with 67108864; lia).
    exists [224 + a; 128 + z; 128 + y], (a * 4096 + z * 64 + y), t. split; [reflexivity|].
    split; [apply u8_3; assumption|].
    split; [discriminate|]. rewrite <- p8_run_5.
    replace (a * 4096 + z * 64 + y) with ((a * 64 + z) * 64 + y) by lia. exact H. }
  destruct (b <? 248) eqn:E5; [|discriminate].
  destruct t as [|b1 t]; [discriminate|]. cbn [p8_run] in H.
  destruct (p8_step 3 _ out b1) as [[[st cp] o]|] eqn:Q; [|discriminate].
  apply S in Q; [|auto]. destruct Q as (z & -> & Hz & Q). injection Q; intros; subst.
  change (3 =? 1) with false in H. change (3 =? 2) with false in H. cbn iota in H.
  destruct t as [|b2 t]; [discriminate|]. cbn [p8_run] in H.
  destruct (p8_step 2 _ out b2) as [[[st cp] o]|] eqn:Q2; [|discriminate].
  apply S in Q2; [|auto]. destruct Q2 as (y & -> & Hy & Q2). injection Q2; intros; subst.
  change (2 =? 1) with false in H. change (2 =? 2) with true in H. cbn iota in H.
  destruct t as [|b3 t]; [discriminate|]. cbn [p8_run] in H.
  destruct (p8_step 1 _ out b3) as [[[st cp] o]|] eqn:Q3; [|discriminate].
  apply S in Q3; [|auto]. destruct Q3 as (x & -> & Hx & Q3). injection Q3; intros; subst.
  change (1 =? 1) with true in H. cbn iota in H.
  assert (Hb : exists a, a < 8 /\ b = 240 + a) by (exists (b - 240); lia). destruct Hb as (a & Ha & ->).
  rewrite land_240_7 in H by exact Ha.
  rewrite (cont_eq a) in H by (try assumption; change (2 ^ 26) with 67108864; lia).
  rewrite (cont_eq (a * 64 + z)) in H by (try assumption; change (2 ^ 26) with 67108864; lia).
  rewrite cont_eq in H by (try assumption; change (2 ^ 26) with 67108864; lia).
  exists [240 + a; 128 + z; 128 + y; 128 + x], (a * 262144 + z * 4096 + y * 64 + x), t. split; [reflexivity|].
  split; [apply u8_4; assumption|].
  split; [discriminate|]. rewrite <- p8_run_5.
  replace (a * 262144 + z * 4096 + y * 64 + x) with (((a * 64 + z) * 64 + y) * 64 + x) by lia. exact H.
Qed.

Lemma p8_run_sound n : forall s out l, (length s <= n)%nat -> p8_run 4 0 out s = Some l ->
  exists cs, s = concat (map fst cs) /\ l = rev out ++ map snd cs /\
             Forall (fun c => utf8_char (fst c) (snd c)) cs.
Proof.
  induction n as [|n IH]; intros s out l L H.
  - destruct s; [|cbn in L; lia]. injection H as <-. exists []. cbn. rewrite app_nil_r. auto.
  - destruct s as [|b t].
    { injection H as <-. exists []. cbn. rewrite app_nil_r. auto. }
    apply p8_run_split in H. destruct H as (bs & cp & r & E & C & Hn & H).
    apply IH in H.
    + destruct H as (cs & E2 & El & F). exists ((bs, cp) :: cs). cbn [map concat fst snd].
      split; [rewrite E, E2; reflexivity|]. split; [|constructor; assumption].
      rewrite El. cbn [rev]. rewrite <- app_assoc. reflexivity.
    + assert (length (b :: t) = length (bs ++ r)) as Q by (rewrite E; reflexivity).
      rewrite app_length in Q. destruct bs; [congruence|]. cbn [length] in *. lia.
Qed.

Lemma parse_utf8_exact s l : parse_utf8 s = Some l <-> utf8_text s l.
Proof.
  split.
  - intro H. apply (p8_run_sound (length s)) in H; [|lia]. exact H.
  - intros (cs & -> & -> & F). unfold parse_utf8.
    pose proof (p8_run_text cs F [] []) as H. rewrite app_nil_r in H. rewrite H.
    cbn [p8_run]. change (4 =? 5) with false. change (4 =? 4) with true. cbn iota.
    rewrite app_nil_r, rev_involutive. reflexivity.
Qed.

Lemma utf8_roundtrip l : Forall (fun cp => cp < 2 ^ 21) l -> parse_utf8 (flat_map utf8append l) = Some l.
Proof.
  intro F. apply parse_utf8_exact. exists (map (fun c => (utf8append c, c)) l).
  rewrite !map_map. cbn [fst snd]. split; [rewrite flat_map_concat_map; reflexivity|].
  split; [symmetry; apply map_id|].
  apply Forall_map. cbn [fst snd]. revert F. apply Forall_impl. exact utf8append_char.
Qed.

Lemma utf8read_append cp r : cp < 2 ^ 21 -> utf8read (utf8append cp ++ r) = Some (cp, r).
Proof.
  intro H. pose proof (utf8append_char cp H) as C.
  set (s := utf8append cp) in *. clearbody s.
  destruct C; cbn [app utf8read].
  - replace (a <? 128) with true by lia. reflexivity.
  - replace (192 + a <? 128) with false by lia. replace (192 + a <=? 223) with true by lia.
    rewrite land_192_31, cont_eq by (try assumption; change (2 ^ 26) with 67108864; lia). reflexivity.
  - replace (224 + a <? 128) with false by lia. replace (224 + a <=? 223) with false by lia.
    replace (224 + a <=? 239) with true by lia.
    rewrite land_224_15, !cont_eq by (try assumption; rewrite ?cont_eq; try assumption; change (2 ^ 26) with 67108864; lia).
    do 2 f_equal. lia.
  - replace (240 + a <? 128) with false by lia. replace (240 + a <=? 223) with false by lia.
    replace (240 + a <=? 239) with false by lia. replace (240 + a <=? 247) with true by lia.
    rewrite land_240_7 by assumption.
    rewrite (cont_eq a) by (try assumption; change (2 ^ 26) with 67108864; lia).
    rewrite (cont_eq (a * 64 + b)) by (try assumption; change (2 ^ 26) with 67108864; lia).
    rewrite cont_eq by (try assumption; change (2 ^ 26) with 67108864; lia).
    do 2 f_equal. lia.
Qed.

Definition lead_len (b : N) : nat :=
  if b <? 128 then 1 else if b <? 224 then 2 else if b <? 240 then 3 else 4.

Lemma utf8_char_length bs cp : utf8_char bs cp -> length bs = lead_len (hd 0 bs).
Proof.
  destruct 1; unfold lead_len; cbn [length hd].
  - replace (a <? 128) with true by lia. reflexivity.
  - replace (192 + a <? 128) with false by lia. replace (192 + a <? 224) with true by lia. reflexivity.
  - replace (224 + a <? 128) with false by lia. replace (224 + a <? 224) with false by lia.
    replace (224 + a <? 240) with true by lia. reflexivity.
  - replace (240 + a <? 128) with false by lia. replace (240 + a <? 224) with false by lia.
    replace (240 + a <? 240) with false by lia. reflexivity.
Qed.

(* a proper non-empty prefix of a character is not a text *)
Lemma utf8_char_prefix bs cp p q : utf8_char bs cp -> bs = p ++ q -> p <> [] -> q <> [] ->
  forall l s, p8_run 4 0 l p = s -> s = None.
Proof.
  intros C E Hp Hq l s <-.
  destruct (p8_run 4 0 l p) as [o|] eqn:R; [|reflexivity]. exfalso.
  destruct p as [|b t]; [congruence|].
  apply p8_run_split in R. destruct R as (bs' & cp' & r & E' & C' & Hn & _).
  rewrite E' in E. destruct q as [|x q]; [congruence|].
  pose proof (utf8_char_length _ _ C) as L. pose proof (utf8_char_length _ _ C') as L'.
  destruct bs' as [|y bs']; [congruence|]. rewrite E in L. cbn [app hd length] in L, L'.
  rewrite !app_length in L. cbn [length] in L. lia.
Qed.

Lemma utf8_truncated l cp p q : Forall (fun c => c < 2 ^ 21) l -> cp < 2 ^ 21 ->
  utf8append cp = p ++ q -> p <> [] -> q <> [] ->
  parse_utf8 (flat_map utf8append l ++ p) = None.
Proof.
  intros F H E Hp Hq. unfold parse_utf8.
  pose proof (p8_run_text (map (fun c => (utf8append c, c)) l)) as R.
  rewrite !map_map in R. cbn [fst snd] in R. rewrite <- flat_map_concat_map in R.
  rewrite R.
  - eapply utf8_char_prefix; [exact (utf8append_char cp H)|exact E|assumption|assumption|reflexivity].
  - apply Forall_map. cbn [fst snd]. revert F. apply Forall_impl. exact utf8append_char.
Qed.

(* ---- UTF-16 ---- *)

Lemma utf16_read_append cp r : cp < 2 ^ 21 -> utf16read (utf16append cp ++ r) = Some (cp, r).
Proof.
  change (2 ^ 21) with 2097152. intro H. unfold utf16append.
  destruct ((cp <? 55295) || ((cp <? 65536) && (57344 <=? cp))) eqn:E.
  - cbn [app utf16read]. rewrite N.mod_small by lia.
    destruct (cp <? 55296) eqn:E1; [reflexivity|]. replace (57344 <=? cp) with true by lia. reflexivity.
  - cbn [app utf16read]. rewrite shiftr_div. change (2 ^ 10) with 1024.
    change 1023 with (2 ^ 10 - 1). rewrite land_ones_mod. change (2 ^ 10) with 1024.
    assert (Hd : cp / 1024 < 2048) by (apply N.div_lt_upper_bound; lia).
    assert (Hm : cp mod 1024 < 1024) by (apply N.mod_lt; lia).
    rewrite !(N.mod_small (_ + _) 65536) by lia.
    replace (55296 + cp / 1024 <? 55296) with false by lia.
    replace (57344 <=? 55296 + cp / 1024) with false by lia.
    replace (55296 + cp / 1024 - 55296) with (cp / 1024) by lia.
    replace (2 ^ 32 + (56320 + cp mod 1024) - 56320) with (cp mod 1024 + 1 * 2 ^ 32) by lia.
    rewrite N.mod_add by (vm_compute; discriminate).
    change (2 ^ 32) with 4294967296.
    rewrite (N.mod_small (cp mod 1024)) by lia.
    rewrite shiftl_mul. change (2 ^ 10) with 1024. rewrite N.mod_small by lia.
    change 1024 with (2 ^ 10) at 2. rewrite lor_shl_add by exact Hm.
    pose proof (N.div_mod cp 1024 ltac:(lia)). change (2 ^ 10) with 1024. do 2 f_equal. lia.
Qed.

Lemma utf16_all l : Forall (fun c => c < 2 ^ 21) l -> forall f, (length (flat_map utf16append l) <= f)%nat ->
  utf16read_all f (flat_map utf16append l) = Some l.
Proof.
  induction 1 as [|c l Hc HF IH]; intros f Hf; cbn [flat_map].
  - destruct f; reflexivity.
  - cbn [flat_map] in Hf. rewrite app_length in Hf.
    assert (L : (1 <= length (utf16append c))%nat) by (unfold utf16append; destruct (_ || _); cbn [length]; lia).
    destruct f as [|f]; [lia|].
    destruct (utf16append c ++ flat_map utf16append l) as [|u t] eqn:E.
    { apply (f_equal (@length N)) in E. rewrite app_length in E. cbn [length] in E. lia. }
    cbn [utf16read_all]. rewrite <- E. rewrite utf16_read_append by exact Hc.
    rewrite IH by lia. reflexivity.
Qed.

Lemma utf16_standard_iff cp : scalar cp -> (utf16append cp = utf16_standard cp <-> cp < 0x10000 /\ cp <> 0xD7FF).
Proof.
  unfold scalar, utf16_standard, utf16append.
  change 0xD800 with 55296. change 0xE000 with 57344. change 0x110000 with 1114112.
  change 0x10000 with 65536. change 0xD7FF with 55295. change 0xDC00 with 56320.
  intro H.
  destruct (cp <? 65536) eqn:E.
  - destruct (cp <? 55295) eqn:E1; cbn [orb andb].
    + rewrite N.mod_small by lia. split; [lia|reflexivity].
    + destruct (57344 <=? cp) eqn:E2.
      * rewrite N.mod_small by lia. split; [lia|reflexivity].
      * split; [discriminate|lia].
  - replace ((cp <? 55295) || (false && (57344 <=? cp))) with false by lia.
    rewrite shiftr_div. change (2 ^ 10) with 1024.
    assert (Hd : cp / 1024 < 1088) by (apply N.div_lt_upper_bound; lia).
    rewrite (N.mod_small (55296 + _)) by lia.
    split; [|lia]. intro Q. injection Q as Q _.
    replace cp with (cp - 65536 + 64 * 1024) in Q at 1 by lia.
    rewrite N.div_add in Q by lia. lia.
Qed.

(* ---- base-2^k armour ---- *)

Lemma bits_be_length k n : length (bits_be k n) = k.
Proof. induction k; cbn; congruence. Qed.

Lemma bits_be_ext k a b : (forall i, i < N.of_nat k -> N.testbit a i = N.testbit b i) -> bits_be k a = bits_be k b.
Proof.
  induction k as [|k IH]; intro H; [reflexivity|]. cbn [bits_be]. f_equal; [apply H; lia|].
  apply IH. intros i Hi. apply H. lia.
Qed.

Lemma bits_be_split j k n : bits_be (j + k) n = bits_be j (N.shiftr n (N.of_nat k)) ++ bits_be k n.
Proof.
  induction j as [|j IH]; [reflexivity|]. cbn [plus bits_be app]. rewrite IH. f_equal.
  rewrite N.shiftr_spec by lia. f_equal. lia.
Qed.

Lemma bits_be_mod k m n : N.of_nat k <= m -> bits_be k (n mod 2 ^ m) = bits_be k n.
Proof. intro H. apply bits_be_ext. intros i Hi. apply N.mod_pow2_bits_low. lia. Qed.

Lemma bits_be_land k n : bits_be k (N.land n (2 ^ N.of_nat k - 1)) = bits_be k n.
Proof. rewrite land_ones_mod. apply bits_be_mod. lia. Qed.

Lemma bits_be_inj k : forall a b, a < 2 ^ N.of_nat k -> b < 2 ^ N.of_nat k -> bits_be k a = bits_be k b -> a = b.
Proof.
  intros a b Ha Hb E. apply N.bits_inj. intro i.
  destruct (N.lt_ge_cases i (N.of_nat k)) as [H|H].
  - clear Ha Hb. revert i H. induction k as [|k IH]; intros i H; [lia|].
    cbn [bits_be] in E. injection E as E1 E2.
    destruct (N.eq_dec i (N.of_nat k)) as [->|]; [exact E1|]. apply IH; [exact E2|lia].
  - rewrite !(testbit_small _ _ i Ha), (testbit_small _ _ i Hb) by exact H. reflexivity.
Qed.

(* shifting in k bits *)
Lemma bits_push j k bits v : N.of_nat (j + k) <= 32 -> v < 2 ^ N.of_nat k ->
  bits_be (j + k) (N.lor (N.shiftl bits (N.of_nat k) mod 2 ^ 32) v) = bits_be j bits ++ bits_be k v.
Proof.
  intros H Hv. rewrite bits_be_split. f_equal.
  - apply bits_be_ext. intros i Hi. rewrite N.shiftr_spec, N.lor_spec by lia.
    rewrite N.mod_pow2_bits_low by lia. rewrite N.shiftl_spec_high by lia.
    rewrite (testbit_small v (N.of_nat k)) by (try assumption; lia). rewrite orb_false_r. f_equal. lia.
  - apply bits_be_ext. intros i Hi. rewrite N.lor_spec.
    rewrite N.mod_pow2_bits_low by lia. rewrite N.shiftl_spec_low by lia. reflexivity.
Qed.

Lemma bits_be_shl j k bits : N.of_nat (j + k) <= 32 ->
  bits_be (j + k) (N.shiftl bits (N.of_nat k) mod 2 ^ 32) = bits_be j bits ++ repeat false k.
Proof.
  intro H. pose proof (bits_push j k bits 0 H (pow2_pos _)) as P. rewrite N.lor_0_r in P. rewrite P.
  f_equal. clear. induction k as [|k IH]; [reflexivity|]. cbn [bits_be repeat]. rewrite N.bits_0, IH. reflexivity.
Qed.

(* emit loops *)
Lemma enc_emit_spec w : (0 < w)%nat -> forall fuel bits bc, (bc <= fuel)%nat ->
  exists r ds, enc_emit fuel (N.of_nat w) bits (N.of_nat bc) = (N.of_nat r, ds) /\ (r < w)%nat /\
    bits_be bc bits = bits_of w ds ++ bits_be r bits /\ Forall (fun d => d < 2 ^ N.of_nat w) ds /\
    (w * length ds + r = bc)%nat.
Proof.
  intro Hw. induction fuel as [|f IH]; intros bits bc Hf.
  - assert (bc = O) by lia. subst. exists O, []. cbn. repeat split; auto; lia.
  - cbn [enc_emit]. destruct (N.of_nat w <=? N.of_nat bc) eqn:E.
    + replace (N.of_nat bc - N.of_nat w) with (N.of_nat (bc - w)) by lia.
      destruct (IH bits (bc - w)%nat ltac:(lia)) as (r & ds & Q & Hr & B & F & L).
      rewrite Q. exists r, (N.land (N.shiftr bits (N.of_nat (bc - w))) (2 ^ N.of_nat w - 1) :: ds).
      split; [reflexivity|]. split; [exact Hr|]. split.
      * replace bc with (w + (bc - w))%nat at 1 by lia. rewrite bits_be_split, B.
        unfold bits_of. cbn [flat_map]. rewrite bits_be_land, app_assoc. reflexivity.
      * split.
        { constructor; [|exact F]. rewrite land_ones_mod. apply N.mod_lt. apply N.pow_nonzero. lia. }
        cbn [length]. lia.
    + exists bc, []. cbn. repeat split; auto; lia.
Qed.

Lemma dec_emit_spec : forall fuel bits bc, (bc <= fuel)%nat ->
  exists r ds, dec_emit fuel bits (N.of_nat bc) = (N.of_nat r, ds) /\ (r < 8)%nat /\
    bits_be bc bits = bits_of 8 ds ++ bits_be r bits /\ Forall (fun d => d < 256) ds /\
    (8 * length ds + r = bc)%nat.
Proof.
  induction fuel as [|f IH]; intros bits bc Hf.
  - assert (bc = O) by lia. subst. exists O, []. cbn. repeat split; auto; lia.
  - cbn [dec_emit]. destruct (8 <=? N.of_nat bc) eqn:E.
    + replace (N.of_nat bc - 8) with (N.of_nat (bc - 8)) by lia.
      destruct (IH bits (bc - 8)%nat ltac:(lia)) as (r & ds & Q & Hr & B & F & L).
      rewrite Q. exists r, (N.land (N.shiftr bits (N.of_nat (bc - 8))) 255 :: ds).
      split; [reflexivity|]. split; [exact Hr|]. split.
      * replace bc with (8 + (bc - 8))%nat at 1 by lia. rewrite bits_be_split, B.
        unfold bits_of. cbn [flat_map]. rewrite (bits_be_land 8), app_assoc. reflexivity.
      * split.
        { constructor; [|exact F]. change 255 with (2 ^ 8 - 1). rewrite land_ones_mod. apply N.mod_lt. discriminate. }
        cbn [length]. lia.
    + exists bc, []. cbn. repeat split; auto; lia.
Qed.

Definition pad_to (w n : nat) : nat := ((w - n mod w) mod w)%nat.

Lemma pad_unique w q r : (r < w)%nat -> pad_to w (w * q + r) = ((w - r) mod w)%nat.
Proof.
  intro H. unfold pad_to. f_equal. f_equal.
  rewrite Nat.add_comm, Nat.mul_comm, Nat.mod_add by lia. apply Nat.mod_small. exact H.
Qed.

Lemma pad_shift w q n : (0 < w)%nat -> pad_to w (w * q + n) = pad_to w n.
Proof.
  intro H. unfold pad_to. f_equal. f_equal.
  rewrite (Nat.add_comm (w * q)), (Nat.mul_comm w), Nat.mod_add by lia. reflexivity.
Qed.

Lemma encode_loop_spec w : (0 < w <= 8)%nat -> forall n raw bits bc, (n <= length raw)%nat -> (bc < w)%nat ->
  Forall is_byte raw ->
  exists ds, encode_loop (N.of_nat w) n raw bits (N.of_nat bc) = Some ds /\
    bits_of w ds = bits_be bc bits ++ bits_of 8 (firstn n raw) ++ repeat false (pad_to w (bc + 8 * n)) /\
    Forall (fun d => d < 2 ^ N.of_nat w) ds.
Proof.
  intro Hw. induction n as [|n IH]; intros raw bits bc Hn Hb HF.
  - cbn [encode_loop firstn]. unfold bits_of at 2. cbn [flat_map app].
    pose proof (pad_unique w 0 bc Hb) as P. rewrite Nat.mul_0_r in P. cbn [plus] in P.
    replace (bc + 8 * 0)%nat with bc by lia.
    destruct (0 <? N.of_nat bc) eqn:E.
    + eexists. split; [reflexivity|]. split.
      * unfold bits_of. cbn [flat_map]. rewrite app_nil_r, bits_be_land.
        replace (N.of_nat w - N.of_nat bc) with (N.of_nat (w - bc)) by lia.
        rewrite P, Nat.mod_small by lia.
        pose proof (bits_be_shl bc (w - bc) bits) as Q. replace (bc + (w - bc))%nat with w in Q by lia.
        apply Q. lia.
      * constructor; [|constructor]. rewrite land_ones_mod. apply N.mod_lt. apply N.pow_nonzero. lia.
    + assert (bc = O) by lia. subst. exists []. split; [reflexivity|]. split; [|constructor].
      rewrite P, Nat.sub_0_r, Nat.mod_same by lia. reflexivity.
  - destruct raw as [|b raw]; [cbn in Hn; lia|]. cbn [length] in Hn. inversion HF; subst.
    cbn [encode_loop]. replace (N.of_nat bc + 8) with (N.of_nat (bc + 8)) by lia.
    set (bits' := N.lor (N.shiftl bits 8 mod 2 ^ 32) b).
    destruct (enc_emit_spec w ltac:(lia) (N.to_nat (N.of_nat (bc + 8))) bits' (bc + 8) ltac:(lia))
      as (r & ds & Q & Hr & B & F & L).
    rewrite Q. destruct (IH raw bits' r ltac:(lia) Hr H2) as (ds2 & Q2 & B2 & F2).
    rewrite Q2. exists (ds ++ ds2). split; [reflexivity|]. split.
    + unfold bits_of in *. rewrite flat_map_app. rewrite B2.
      cbn [firstn flat_map]. rewrite !app_assoc, <- B. f_equal.
      * f_equal. unfold bits'. change 8 with (N.of_nat 8) at 1.
        rewrite bits_push by (try assumption; lia). reflexivity.
      * f_equal.
        replace (bc + 8 * S n)%nat with (w * length ds + (r + 8 * n))%nat by lia.
        symmetry. apply pad_shift. lia.
    + apply Forall_app; auto.
Qed.

Lemma decode_loop_spec w table : (0 < w <= 8)%nat ->
  (forall c v, table c = Some v -> v < 2 ^ N.of_nat w) ->
  forall n coded vs bits bc, map table coded = map Some vs -> (n <= length coded)%nat -> (bc < 8)%nat ->
  exists out, decode_loop (N.of_nat w) table n coded bits (N.of_nat bc) = DecOk out /\
    bits_of 8 out = bits_be bc bits ++ bits_of w (firstn n vs) ++ repeat false (pad_to 8 (bc + w * n)) /\
    Forall is_byte out.
Proof.
  intros Hw Ht. induction n as [|n IH]; intros coded vs bits bc Hv Hn Hb.
  - cbn [decode_loop firstn]. unfold bits_of at 2. cbn [flat_map app].
    pose proof (pad_unique 8 0 bc Hb) as P. rewrite Nat.mul_0_r in P. cbn [plus] in P.
    replace (bc + w * 0)%nat with bc by lia.
    destruct (0 <? N.of_nat bc) eqn:E.
    + eexists. split; [reflexivity|]. split.
      * unfold bits_of. cbn [flat_map]. rewrite app_nil_r. change 255 with (2 ^ N.of_nat 8 - 1). rewrite bits_be_land.
        replace (8 - N.of_nat bc) with (N.of_nat (8 - bc)) by lia.
        rewrite P, Nat.mod_small by lia.
        pose proof (bits_be_shl bc (8 - bc) bits) as Q. replace (bc + (8 - bc))%nat with 8%nat in Q by lia.
        apply Q. lia.
      * constructor; [|constructor]. change 255 with (2 ^ 8 - 1). rewrite land_ones_mod. unfold is_byte.
        apply N.mod_lt. discriminate.
    + assert (bc = O) by lia. subst. exists []. split; [reflexivity|]. split; [|constructor].
      rewrite P, Nat.sub_0_r, Nat.mod_same by lia. reflexivity.
  - destruct coded as [|c coded]; [cbn in Hn; lia|]. destruct vs as [|v vs]; [discriminate|].
    cbn [length] in Hn. cbn [map] in Hv. injection Hv as Hv1 Hv2.
    cbn [decode_loop]. rewrite Hv1. replace (N.of_nat bc + N.of_nat w) with (N.of_nat (bc + w)) by lia.
    set (bits' := N.lor (N.shiftl bits (N.of_nat w) mod 2 ^ 32) v).
    destruct (dec_emit_spec (N.to_nat (N.of_nat (bc + w))) bits' (bc + w) ltac:(lia))
      as (r & ds & Q & Hr & B & F & L).
    rewrite Q. destruct (IH coded vs bits' r Hv2 ltac:(lia) Hr) as (out & Q2 & B2 & F2).
    rewrite Q2. exists (ds ++ out). split; [reflexivity|]. split.
    + unfold bits_of in *. rewrite flat_map_app. rewrite B2.
      cbn [firstn flat_map]. rewrite !app_assoc, <- B. f_equal.
      * f_equal. unfold bits'.
        rewrite bits_push by (try (apply (Ht c); exact Hv1); lia). reflexivity.
      * f_equal.
        replace (bc + w * S n)%nat with (8 * length ds + (r + w * n))%nat by lia.
        symmetry. apply pad_shift. lia.
    + apply Forall_app; auto.
Qed.

Lemma bits_of_length k l : length (bits_of k l) = (k * length l)%nat.
Proof.
  unfold bits_of. induction l as [|x l IH]; cbn [flat_map length]; [lia|].
  rewrite app_length, bits_be_length, IH. lia.
Qed.

Lemma bits_of_inj k : (0 < k)%nat -> forall a b, Forall (fun d => d < 2 ^ N.of_nat k) a -> Forall (fun d => d < 2 ^ N.of_nat k) b ->
  bits_of k a = bits_of k b -> a = b.
Proof.
  intro Hk. induction a as [|x a IH]; intros b Ha Hb E.
  - destruct b; [reflexivity|]. apply (f_equal (@length bool)) in E. rewrite !bits_of_length in E. cbn [length] in E. lia.
  - destruct b as [|y b].
    { apply (f_equal (@length bool)) in E. rewrite !bits_of_length in E. cbn [length] in E. lia. }
    inversion Ha; inversion Hb; subst. unfold bits_of in E. cbn [flat_map] in E.
    apply app_eq_app in E. destruct E as (l & [[E1 E2]|[E1 E2]]).
    + pose proof (f_equal (@length bool) E1) as L. rewrite app_length, !bits_be_length in L.
      assert (l = []) by (destruct l; [reflexivity|cbn [length] in L; lia]). subst l.
      rewrite app_nil_r in E1. cbn [app] in E2. f_equal.
      * eapply bits_be_inj; eassumption.
      * apply IH; try assumption. symmetry. exact E2.
    + pose proof (f_equal (@length bool) E1) as L. rewrite app_length, !bits_be_length in L.
      assert (l = []) by (destruct l; [reflexivity|cbn [length] in L; lia]). subst l.
      rewrite app_nil_r in E1. cbn [app] in E2. f_equal.
      * symmetry. eapply bits_be_inj; eassumption.
      * apply IH; assumption.
Qed.

Lemma encode_digits_spec w raw n : (0 < w <= 8)%nat -> n / 8 <= N.of_nat (length raw) -> Forall is_byte raw ->
  exists ds, encode_digits (N.of_nat w) raw n = Some ds /\
    bits_of w ds = bits_of 8 (firstn (N.to_nat (n / 8)) raw) ++ repeat false (pad_to w (8 * N.to_nat (n / 8))) /\
    Forall (fun d => d < 2 ^ N.of_nat w) ds.
Proof.
  intros Hw Hn HF. unfold encode_digits.
  destruct (encode_loop_spec w Hw (N.to_nat (n / 8)) raw 0 0 ltac:(lia) ltac:(lia) HF) as (ds & A & B & C).
  exists ds. auto.
Qed.

Lemma decode_spec w table coded vs n : (0 < w <= 8)%nat ->
  (forall c v, table c = Some v -> v < 2 ^ N.of_nat w) ->
  map table coded = map Some vs -> n / N.of_nat w <= N.of_nat (length coded) ->
  exists out, decode (N.of_nat w) table coded n = DecOk out /\
    bits_of 8 out = bits_of w (firstn (N.to_nat (n / N.of_nat w)) vs)
                    ++ repeat false (pad_to 8 (w * N.to_nat (n / N.of_nat w))) /\
    Forall is_byte out.
Proof.
  intros Hw Ht Hv Hn. unfold decode.
  destruct (decode_loop_spec w table Hw Ht (N.to_nat (n / N.of_nat w)) coded vs 0 0 Hv ltac:(lia) ltac:(lia)) as (out & A & B & C).
  exists out. auto.
Qed.

(* a character outside the alphabet among the first n is refused *)
Lemma decode_loop_bad w table : forall n coded bits bc i c, nth_error coded i = Some c -> table c = None -> (i < n)%nat ->
  (n <= length coded)%nat -> exists out, decode_loop w table n coded bits bc = DecBad out.
Proof.
  induction n as [|n IH]; intros coded bits bc i c Hi Hc Hn Hl; [lia|].
  destruct coded as [|x coded]; [cbn in Hl; lia|]. cbn [decode_loop].
  destruct (table x) as [v|] eqn:E; [|eexists; reflexivity].
  destruct i as [|i]; [cbn in Hi; congruence|]. cbn in Hi, Hl.
  destruct (dec_emit _ _ _) as [r ds].
  destruct (IH coded (N.lor (N.shiftl bits w mod 2 ^ 32) v) r i c Hi Hc ltac:(lia) ltac:(lia)) as (out & ->).
  eexists. reflexivity.
Qed.

Lemma abc64_bound c v : abc64 c = Some v -> v < 64.
Proof.
  unfold abc64. destruct (N.lt_ge_cases c 256) as [H|H].
  - below 256%nat (fun c => let v := nth (N.to_nat c) ABC64 255 in (v =? 255) || (v <? 64)) H.
    cbv zeta in *. set (x := nth _ _ 255) in *. clearbody x. destruct (x =? 255); [discriminate|]. intro E. injection E as <-. lia.
  - rewrite nth_overflow by (change (length ABC64) with 256%nat; lia). discriminate.
Qed.
Lemma abc16_bound c v : abc16 c = Some v -> v < 16.
Proof.
  unfold abc16. destruct (N.lt_ge_cases c 256) as [H|H].
  - below 256%nat (fun c => let v := nth (N.to_nat c) ABC16 255 in (v =? 255) || (v <? 16)) H.
    cbv zeta in *. set (x := nth _ _ 255) in *. clearbody x. destruct (x =? 255); [discriminate|]. intro E. injection E as <-. lia.
  - rewrite nth_overflow by (change (length ABC16) with 256%nat; lia). discriminate.
Qed.

Lemma abc64_inv d : d < 64 -> abc64 (nth (N.to_nat d) BASE_PUNCT 0) = Some d.
Proof.
  intro H. below 64%nat (fun d => match abc64 (nth (N.to_nat d) BASE_PUNCT 0) with Some x => x =? d | None => false end) H.
  destruct (abc64 _); [f_equal; lia|discriminate].
Qed.
Lemma abc16_inv d : d < 16 -> abc16 (nth (N.to_nat d) HEX_PUNCT 0) = Some d.
Proof.
  intro H. below 16%nat (fun d => match abc16 (nth (N.to_nat d) HEX_PUNCT 0) with Some x => x =? d | None => false end) H.
  destruct (abc16 _); [f_equal; lia|discriminate].
Qed.

Lemma map_inv_digits (f : N -> option N) (g : N -> N) l k : (forall d, d < k -> f (g d) = Some d) ->
  Forall (fun d => d < k) l -> map f (map g l) = map Some l.
Proof.
  intros H F. rewrite map_map. apply map_ext_in. intros d Hd. apply H.
  rewrite Forall_forall in F. auto.
Qed.

(* round trip: the decoder given all the digits returns the bytes, followed by
   one zero byte exactly when the padding of the last digit spills over *)
Lemma armour_roundtrip w coding table raw :
  (w = 4%nat \/ w = 6%nat) ->
  (forall c v, table c = Some v -> v < 2 ^ N.of_nat w) ->
  (forall d, d < 2 ^ N.of_nat w -> table (nth (N.to_nat d) coding 0) = Some d) ->
  Forall is_byte raw ->
  exists s, encode (N.of_nat w) coding raw (8 * N.of_nat (length raw)) = Some s /\
    (w * length s < 8 * length raw + w)%nat /\ (8 * length raw <= w * length s)%nat /\
    decode (N.of_nat w) table s (N.of_nat w * N.of_nat (length s)) =
      DecOk (raw ++ if (8 * length raw =? w * length s)%nat then [] else [0]).
Proof.
  intros Hw Ht Hi HF.
  assert (Hw8 : (0 < w <= 8)%nat) by lia.
  assert (E8 : 8 * N.of_nat (length raw) / 8 = N.of_nat (length raw)).
  { rewrite N.mul_comm. apply N.div_mul. lia. }
  destruct (encode_digits_spec w raw (8 * N.of_nat (length raw)) Hw8 ltac:(rewrite E8; lia) HF) as (ds & Q & B & F).
  rewrite E8, Nnat.Nat2N.id, firstn_all in B.
  unfold encode. rewrite Q. cbn [option_map]. eexists. split; [reflexivity|]. rewrite map_length.
  assert (L : (w * length ds = 8 * length raw + pad_to w (8 * length raw))%nat).
  { pose proof (f_equal (@length bool) B) as L. rewrite app_length, repeat_length, !bits_of_length in L. exact L. }
  assert (P : (pad_to w (8 * length raw) < w)%nat) by (apply Nat.mod_upper_bound; lia).
  split; [lia|]. split; [lia|].
  assert (EW : N.of_nat w * N.of_nat (length ds) / N.of_nat w = N.of_nat (length ds)).
  { rewrite N.mul_comm. apply N.div_mul. lia. }
  destruct (decode_spec w table (map (fun d => nth (N.to_nat d) coding 0) ds) ds (N.of_nat w * N.of_nat (length ds)) Hw8 Ht)
    as (out & Q2 & B2 & F2).
  { eapply map_inv_digits; eassumption. }
  { rewrite EW, map_length. lia. }
  rewrite Q2. f_equal. rewrite EW, Nnat.Nat2N.id, firstn_all in B2. rewrite B, <- app_assoc, <- repeat_app in B2.
  apply (bits_of_inj 8); [lia|exact F2| |].
  - apply Forall_app. split; [exact HF|]. destruct (_ =? _)%nat; repeat constructor.
  - rewrite B2. unfold bits_of. rewrite flat_map_app. f_equal.
    destruct (Nat.eqb_spec (8 * length raw) (w * length ds)) as [E|E].
    + assert (Z : pad_to w (8 * length raw) = O) by lia. rewrite Z.
      assert (Z2 : pad_to 8 (w * length ds) = O).
      { rewrite <- E. pose proof (pad_unique 8 (length raw) 0 ltac:(lia)) as U. rewrite Nat.add_0_r in U. exact U. }
      rewrite Z2. reflexivity.
    + assert (Z2 : (pad_to w (8 * length raw) + pad_to 8 (w * length ds) = 8)%nat).
      { pose proof (pad_unique 8 (length raw) (pad_to w (8 * length raw)) ltac:(lia)) as U.
        rewrite <- L in U. rewrite U. rewrite Nat.mod_small by lia. lia. }
      rewrite Z2. reflexivity.
Qed.
