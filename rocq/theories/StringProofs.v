From Verif Require Import Prelude UuidModel UuidProofs CodecModel CodecSpec CodecProofs.

Local Ltac below n f H :=
  let K := fresh in
  pose proof (forall_below_spec n f ltac:(vm_compute; reflexivity) _ H) as K; cbv beta in K.

(* ---- escaped strings ---- *)

(* a byte that may follow a complete character *)
Definition follows (r : bytes) : Prop := match r with [] => True | b :: _ => cp_start b = true end.

Lemma cp_run_10 cp hex n r : follows r -> cp_run 10 cp hex n r = Some (cp, n).
Proof.
  destruct r as [|b r]; intro H; [reflexivity|]. cbn [follows] in H. cbn [cp_run].
  change (10 =? 9) with false. change (10 =? 10) with true. cbn iota. rewrite H. reflexivity.
Qed.

Lemma cp_cont_eq b : b < 64 -> cp_cont (128 + b) = true.
Proof. intro. unfold cp_cont. lia. Qed.

Lemma cp_run_6 cp hex n b t : cp < 2 ^ 26 -> b < 64 ->
  cp_run 6 cp hex n ((128 + b) :: t) = cp_run 10 (cp * 64 + b) hex (n + 1) t.
Proof. intros H Hb. rewrite <- (cont_eq cp b) by assumption. cbn [cp_run]. rewrite cp_cont_eq by exact Hb. reflexivity. Qed.
Lemma cp_run_7 cp hex n b t : cp < 2 ^ 26 -> b < 64 ->
  cp_run 7 cp hex n ((128 + b) :: t) = cp_run 6 (cp * 64 + b) hex (n + 1) t.
Proof. intros H Hb. rewrite <- (cont_eq cp b) by assumption. cbn [cp_run]. rewrite cp_cont_eq by exact Hb. reflexivity. Qed.
Lemma cp_run_8 cp hex n b t : cp < 2 ^ 26 -> b < 64 ->
  cp_run 8 cp hex n ((128 + b) :: t) = cp_run 7 (cp * 64 + b) hex (n + 1) t.
Proof. intros H Hb. rewrite <- (cont_eq cp b) by assumption. cbn [cp_run]. rewrite cp_cont_eq by exact Hb. reflexivity. Qed.
Lemma cp_run_9_2 a t : a < 32 -> cp_run 9 0 [] 0 ((192 + a) :: t) = cp_run 6 a [] 1 t.
Proof.
  intro H. cbn [cp_run]. change (9 =? 9) with true. cbn iota.
  replace (cp_stop (192 + a)) with false by (unfold cp_stop; lia).
  replace (192 + a =? 92) with false by lia. replace (192 + a <? 128) with false by lia.
  replace (192 + a <? 192) with false by lia. replace (192 + a <? 224) with true by lia.
  rewrite land_192_31 by exact H. reflexivity.
Qed.
Lemma cp_run_9_3 a t : a < 16 -> cp_run 9 0 [] 0 ((224 + a) :: t) = cp_run 7 a [] 1 t.
Proof.
  intro H. cbn [cp_run]. change (9 =? 9) with true. cbn iota.
  replace (cp_stop (224 + a)) with false by (unfold cp_stop; lia).
  replace (224 + a =? 92) with false by lia. replace (224 + a <? 128) with false by lia.
  replace (224 + a <? 192) with false by lia. replace (224 + a <? 224) with false by lia.
  replace (224 + a <? 240) with true by lia.
  rewrite land_224_15 by exact H. reflexivity.
Qed.
Lemma cp_run_9_4 a t : a < 8 -> cp_run 9 0 [] 0 ((240 + a) :: t) = cp_run 8 a [] 1 t.
Proof.
  intro H. cbn [cp_run]. change (9 =? 9) with true. cbn iota.
  replace (cp_stop (240 + a)) with false by (unfold cp_stop; lia).
  replace (240 + a =? 92) with false by lia. replace (240 + a <? 128) with false by lia.
  replace (240 + a <? 192) with false by lia. replace (240 + a <? 224) with false by lia.
  replace (240 + a <? 240) with false by lia. replace (240 + a <? 248) with true by lia.
  rewrite land_240_7 by exact H. reflexivity.
Qed.

Lemma cp_run_9_bs cp hex n t : cp_run 9 cp hex n (92 :: t) = cp_run 1 cp hex (n + 1) t.
Proof. reflexivity. Qed.
Lemma cp_run_1_u cp hex n t : cp_run 1 cp hex n (117 :: t) = cp_run 2 cp [] (n + 1) t.
Proof. reflexivity. Qed.
Lemma cp_run_2 cp hex n b t : is_hex b = true -> cp_run 2 cp hex n (b :: t) = cp_run 3 cp (hex ++ [b]) (n + 1) t.
Proof. intro H. cbn [cp_run]. rewrite H. reflexivity. Qed.
Lemma cp_run_3 cp hex n b t : is_hex b = true -> cp_run 3 cp hex n (b :: t) = cp_run 4 cp (hex ++ [b]) (n + 1) t.
Proof. intro H. cbn [cp_run]. rewrite H. reflexivity. Qed.
Lemma cp_run_4 cp hex n b t : is_hex b = true -> cp_run 4 cp hex n (b :: t) = cp_run 5 cp (hex ++ [b]) (n + 1) t.
Proof. intro H. cbn [cp_run]. rewrite H. reflexivity. Qed.
Lemma cp_run_5 cp hex n b t : is_hex b = true -> cp_run 5 cp hex n (b :: t) = cp_run 11 cp (hex ++ [b]) (n + 1) t.
Proof. intro H. cbn [cp_run]. rewrite H. reflexivity. Qed.
Lemma cp_run_11 cp hex n b t : cp_start b = true -> cp_run 11 cp hex n (b :: t) = Some (decode_hex_cp hex, n).
Proof. intro H. cbn [cp_run]. rewrite H. reflexivity. Qed.

Lemma hex_value_is_hex c v : hex_value c = Some v -> is_hex c = true /\ abc16 c = Some v /\ v < 16.
Proof.
  unfold hex_value. intro H.
  assert (Hc : c < 128).
  { destruct ((48 <=? c) && (c <=? 57)) eqn:E1; [lia|].
    destruct ((65 <=? c) && (c <=? 70)) eqn:E2; [lia|].
    destruct ((97 <=? c) && (c <=? 102)) eqn:E3; [lia|discriminate]. }
  below 128%nat (fun c => match hex_value c with
     | Some v => is_hex c && match abc16 c with Some v' => v' =? v | None => false end && (v <? 16)
     | None => true end) Hc.
  unfold hex_value in H0. rewrite H in H0.
  apply andb_prop in H0 as [H1 H2]. apply andb_prop in H1 as [H1 H3].
  destruct (abc16 c); [|discriminate]. apply N.eqb_eq in H3. subst. split; [auto|]. split; [auto|]. lia.
Qed.

Lemma decode_hex4 a b c d va vb vc vd :
  hex_value a = Some va -> hex_value b = Some vb -> hex_value c = Some vc -> hex_value d = Some vd ->
  decode_hex_cp [a; b; c; d] = va * 4096 + vb * 256 + vc * 16 + vd.
Proof.
  intros Ha Hb Hc Hd.
  apply hex_value_is_hex in Ha as (_ & Ea & La). apply hex_value_is_hex in Hb as (_ & Eb & Lb).
  apply hex_value_is_hex in Hc as (_ & Ec & Lc). apply hex_value_is_hex in Hd as (_ & Ed & Ld).
  assert (St : forall r v, r < 2 ^ 24 -> v < 16 -> N.lor (N.shiftl r 4 mod 2 ^ 32) v = r * 16 + v).
  { intros r v Hr Hv. rewrite shiftl_mul. change (2 ^ 24) with 16777216 in Hr.
    rewrite N.mod_small by (change (2 ^ 4) with 16; change (2 ^ 32) with 4294967296; lia).
    change 16 with (2 ^ 4). apply lor_shl_add. exact Hv. }
  unfold decode_hex_cp. cbn [decode_hex]. rewrite Ea, Eb, Ec, Ed.
  assert (P : 2 ^ 24 = 16777216) by reflexivity.
  rewrite (St 0 va), (St (0 * 16 + va) vb), (St _ vc), (St _ vd) by (rewrite ?P; lia). lia.
Qed.

Definition is_uni (bs : bytes) : Prop := match bs with 92 :: 117 :: _ => True | _ => False end.

Lemma cp_run_esc bs cp r : esc_char bs cp -> follows r -> (is_uni bs -> r <> []) ->
  cp_run 9 0 [] 0 (bs ++ r) = Some (cp, N.of_nat (length bs)).
Proof.
  intros C F U. destruct C as [bs cp C P|c cp H|a b c d va vb vc vd Ha Hb Hc Hd].
  - assert (P26 : 2 ^ 26 = 67108864) by reflexivity.
    destruct C; cbn [app].
    + assert (Hs : cp_stop a = false /\ (a =? 92) = false).
      { destruct P as [P|P]; [|cbn in P; lia]. unfold cp_stop. cbn [In] in P. lia. }
      destruct Hs as [Hs1 Hs2]. cbn [cp_run]. change (9 =? 9) with true. cbn iota.
      rewrite Hs1, Hs2. replace (a <? 128) with true by lia. apply (cp_run_10 a). exact F.
    + rewrite cp_run_9_2, cp_run_6, cp_run_10 by (try assumption; rewrite ?P26; lia). reflexivity.
    + rewrite cp_run_9_3, cp_run_7, cp_run_6, cp_run_10 by (try assumption; rewrite ?P26; lia).
      apply (f_equal Some). apply f_equal2; [lia|reflexivity].
    + rewrite cp_run_9_4, cp_run_8, cp_run_7, cp_run_6, cp_run_10 by (try assumption; rewrite ?P26; lia).
      apply (f_equal Some). apply f_equal2; [lia|reflexivity].
  - assert (E : is_esc c = true /\ decode_esc c = cp).
    { cbn [In] in H. repeat (destruct H as [H|H]; [injection H as <- <-; split; reflexivity|]). contradiction. }
    destruct E as [E1 E2]. cbn [app cp_run length].
    change (9 =? 9) with true. change (cp_stop 92) with false. change (92 =? 92) with true. cbn iota.
    change (1 =? 9) with false. change (1 =? 10) with false. change (1 =? 11) with false.
    change (1 =? 1) with true. cbn iota. rewrite E1, E2. apply cp_run_10. exact F.
  - pose proof (proj1 (hex_value_is_hex _ _ Ha)) as Xa. pose proof (proj1 (hex_value_is_hex _ _ Hb)) as Xb.
    pose proof (proj1 (hex_value_is_hex _ _ Hc)) as Xc. pose proof (proj1 (hex_value_is_hex _ _ Hd)) as Xd.
    destruct r as [|x r]; [exfalso; apply U; [exact I|reflexivity]|]. cbn [follows] in F.
    cbn [app].
    rewrite cp_run_9_bs, cp_run_1_u, cp_run_2, cp_run_3, cp_run_4, cp_run_5, cp_run_11 by assumption.
    cbn [app]. rewrite (decode_hex4 _ _ _ _ _ _ _ _ Ha Hb Hc Hd). reflexivity.
Qed.

Lemma esc_char_start bs cp r : esc_char bs cp -> follows (bs ++ r) /\ bs <> [].
Proof.
  intros [bs' cp' C P|c cp' H|a b c d va vb vc vd Ha Hb Hc Hd].
  - destruct C; cbn [app follows]; (split; [|discriminate]); unfold cp_start, cp_stop, cp_cont; try lia.
    destruct P as [P|P]; [|cbn in P; lia]. cbn [In] in P. lia.
  - split; [reflexivity|discriminate].
  - split; [reflexivity|discriminate].
Qed.

(* an escaped text and its code points *)
Definition esc_text (cs : list (bytes * N)) : Prop := Forall (fun c => esc_char (fst c) (snd c)) cs.

Lemma read_codepoints_esc cs : esc_text cs -> ~ is_uni (last (map fst cs) []) ->
  read_codepoints (length cs) (concat (map fst cs)) = Some (map snd cs).
Proof.
  induction 1 as [|[bs cp] cs C F IH]; intro U; [reflexivity|].
  cbn [map concat fst snd length read_codepoints].
  unfold next_codepoint. replace (N.of_nat (S (length cs)) =? 0) with false by lia.
  cbn [fst snd] in C.
  rewrite (cp_run_esc bs cp).
  - rewrite Nnat.Nat2N.id, skipn_app, skipn_all, Nat.sub_diag. cbn [app skipn].
    rewrite IH; [reflexivity|].
    destruct cs; [intros []|exact U].
  - exact C.
  - destruct cs as [|[b2 c2] cs]; [exact I|]. inversion F; subst. cbn [map concat fst].
    eapply esc_char_start. eassumption.
  - intros H E. destruct cs as [|[b2 c2] cs].
    + cbn [map last fst] in U. contradiction.
    + inversion F; subst. cbn [map concat fst] in E.
      destruct (esc_char_start b2 c2 (concat (map fst cs)) H2) as [_ Hn].
      apply app_eq_nil in E. tauto.
Qed.

Lemma utf8esc_char cp : cp < 2 ^ 21 -> cp <> 0 -> cp <> 12 ->
  esc_char (utf8esc_append cp) cp /\ ~ is_uni (utf8esc_append cp).
Proof.
  intros H H0 H12. pose proof (utf8append_char cp H) as C. unfold utf8append in C. unfold utf8esc_append.
  destruct (cp <? 128) eqn:E.
  - destruct (cp =? 34) eqn:E1; [apply N.eqb_eq in E1; subst; split; [apply e_esc; cbn; tauto|intros []]|].
    destruct (cp =? 39) eqn:E2; [apply N.eqb_eq in E2; subst; split; [apply e_esc; cbn; tauto|intros []]|].
    destruct (cp =? 92) eqn:E3; [apply N.eqb_eq in E3; subst; split; [apply e_esc; cbn; tauto|intros []]|].
    destruct (cp =? 8) eqn:E4; [apply N.eqb_eq in E4; subst; split; [apply e_esc; cbn; tauto|intros []]|].
    destruct (cp =? 12) eqn:E5; [lia|].
    destruct (cp =? 10) eqn:E6; [apply N.eqb_eq in E6; subst; split; [apply e_esc; cbn; tauto|intros []]|].
    destruct (cp =? 13) eqn:E7; [apply N.eqb_eq in E7; subst; split; [apply e_esc; cbn; tauto|intros []]|].
    destruct (cp =? 9) eqn:E8; [apply N.eqb_eq in E8; subst; split; [apply e_esc; cbn; tauto|intros []]|].
    split; [apply e_plain; [exact C|left; cbn; lia]|].
    unfold is_uni. destruct cp as [|[p|p|]]; try tauto. repeat (destruct p; try tauto).
  - assert (L : forall a t, is_uni (a :: t) -> a = 92).
    { intros a t. unfold is_uni. destruct a as [|p]; [tauto|].
      repeat (destruct p as [p|p|]; try tauto). }
    assert (HU : forall x y t, y = 192 \/ y = 224 \/ y = 240 -> ~ is_uni (N.lor x y :: t)).
    { intros x y t Hy U. apply L in U.
      assert (T : N.testbit (N.lor x y) 7 = true).
      { rewrite N.lor_spec. destruct Hy as [->|[->| ->]]; apply orb_true_r. }
      rewrite U in T. discriminate. }
    destruct (cp <? 2048) eqn:E1; [|destruct (cp <? 65536) eqn:E2];
      (split; [apply e_plain; [exact C|right; cbn; lia]|apply HU; auto]).
Qed.

Lemma escape_roundtrip l : Forall (fun c => c < 2 ^ 21 /\ c <> 0 /\ c <> 12) l ->
  read_codepoints (length l) (flat_map utf8esc_append l) = Some l.
Proof.
  intro F.
  assert (H : esc_text (map (fun c => (utf8esc_append c, c)) l)).
  { apply Forall_map. cbn [fst snd]. revert F. apply Forall_impl. intros c (A & B & C).
    apply utf8esc_char; assumption. }
  apply read_codepoints_esc in H.
  - rewrite !map_map, map_length in H. cbn [fst snd] in H. rewrite <- flat_map_concat_map, map_id in H. exact H.
  - rewrite map_map. cbn [fst].
    destruct l as [|c l] using rev_ind; [intros []|].
    rewrite map_app; cbn [map]; rewrite last_last. apply Forall_app in F as [_ F]. inversion F; subst.
    apply utf8esc_char; tauto.
Qed.

(* ---- integers ---- *)

Lemma dec_value_app s c : dec_value (s ++ [c]) = dec_value s * 10 + (c - 48).
Proof. unfold dec_value. rewrite fold_left_app. reflexivity. Qed.

Fixpoint dec_val (s : bytes) : N :=
  match s with [] => 0 | c :: t => (c - 48) * 10 ^ N.of_nat (length t) + dec_val t end.

Lemma dec_value_val s : dec_value s = dec_val s.
Proof.
  unfold dec_value. assert (G : forall s a, fold_left (fun a c => a * 10 + (c - 48)) s a = a * 10 ^ N.of_nat (length s) + dec_val s).
  { induction s0 as [|c t IH]; intro a; cbn [fold_left dec_val length].
    - change (10 ^ N.of_nat 0) with 1. lia.
    - rewrite IH. replace (N.of_nat (S (length t))) with (1 + N.of_nat (length t)) by lia.
      rewrite N.pow_add_r. change (10 ^ 1) with 10. lia. }
  rewrite G. lia.
Qed.

Lemma dec_val_bound s : Forall is_dec s -> dec_val s < 10 ^ N.of_nat (length s).
Proof.
  induction 1 as [|c s Hc F IH]; cbn [dec_val length]; [vm_compute; reflexivity|].
  replace (N.of_nat (S (length s))) with (1 + N.of_nat (length s)) by lia.
  rewrite N.pow_add_r. change (10 ^ 1) with 10. unfold is_dec in Hc. nia.
Qed.

Lemma dec_lex a : forall b, length a = length b -> Forall is_dec a -> Forall is_dec b ->
  lex_ltb a b = (dec_val a <? dec_val b).
Proof.
  induction a as [|x a IH]; intros [|y b] L Ha Hb; try discriminate; [reflexivity|].
  inversion Ha; subst. inversion Hb; subst. injection L as L.
  cbn [lex_ltb dec_val]. rewrite (IH b L H2 H4), L.
  pose proof (dec_val_bound a H2) as Ba. pose proof (dec_val_bound b H4) as Bb. rewrite L in Ba.
  unfold is_dec in *. set (P := 10 ^ N.of_nat (length b)) in *. clearbody P.
  apply Bool.eq_iff_eq_true. rewrite orb_true_iff, andb_true_iff, !N.ltb_lt, N.eqb_eq.
  destruct (N.lt_trichotomy x y) as [Q|[Q|Q]].
  - assert ((x - 48) * P + P <= (y - 48) * P) by nia. split; intro; lia.
  - subst. split; intro; lia.
  - assert ((y - 48) * P + P <= (x - 48) * P) by nia. split; intro; lia.
Qed.

Lemma to_int64_id z : (- 2 ^ 63 <= z < 2 ^ 63)%Z -> to_int64 z = z.
Proof.
  intro H. unfold to_int64. rewrite Z.mod_small; [lia|].
  change (2 ^ 64)%Z with (2 ^ 63 + 2 ^ 63)%Z. lia.
Qed.

Lemma parse_int_loop_spec s : Forall is_dec s -> forall a, (0 <= a)%Z ->
  (a * 10 ^ Z.of_nat (length s) + Z.of_N (dec_val s) < 2 ^ 63)%Z ->
  parse_int_loop a s = (a * 10 ^ Z.of_nat (length s) + Z.of_N (dec_val s))%Z.
Proof.
  induction 1 as [|c s Hc F IH]; intros a Ha B; cbn [parse_int_loop dec_val length] in *.
  - change (10 ^ Z.of_nat 0)%Z with 1%Z. lia.
  - unfold is_dec in Hc.
    assert (P : (0 < 10 ^ Z.of_nat (length s))%Z) by (apply Z.pow_pos_nonneg; lia).
    assert (EP : Z.of_N (10 ^ N.of_nat (length s)) = (10 ^ Z.of_nat (length s))%Z).
    { rewrite N2Z.inj_pow, nat_N_Z. reflexivity. }
    rewrite Nat2Z.inj_succ, Z.pow_succ_r in * by lia.
    rewrite N2Z.inj_add, N2Z.inj_mul, EP, N2Z.inj_sub in * by lia.
    set (Q := (10 ^ Z.of_nat (length s))%Z) in *. change (Z.of_N 48) with 48%Z in *.
    assert (0 <= Z.of_N (dec_val s))%Z by lia.
    assert (B2 : (a * 10 + (Z.of_N c - 48) < 2 ^ 63)%Z) by nia.
    rewrite (to_int64_id (a * 10)) by nia. rewrite to_int64_id by nia.
    rewrite IH; [lia|nia|nia].
Qed.

Lemma dec_loop_acc fuel : forall n acc, dec_loop fuel n acc = dec_loop fuel n [] ++ acc.
Proof.
  induction fuel as [|f IH]; intros n acc; [reflexivity|]. cbn [dec_loop].
  destruct (n / 10 =? 0); [reflexivity|]. rewrite IH, (IH _ [_]), <- app_assoc. reflexivity.
Qed.

Lemma dec_loop_spec fuel : forall n, n < 10 ^ N.of_nat fuel -> (0 < fuel)%nat ->
  Forall is_dec (dec_loop fuel n []) /\ dec_value (dec_loop fuel n []) = n /\ dec_loop fuel n [] <> [] /\
  (n = 0 \/ 10 ^ N.of_nat (length (dec_loop fuel n []) - 1) <= n).
Proof.
  induction fuel as [|f IH]; intros n Hn Hf; [lia|]. cbn [dec_loop].
  assert (Hm : n mod 10 < 10) by (apply N.mod_lt; lia).
  pose proof (N.div_mod n 10 ltac:(lia)) as D.
  destruct (n / 10 =? 0) eqn:E.
  - split; [repeat constructor; unfold is_dec; lia|]. split; [unfold dec_value; cbn [fold_left]; lia|].
    split; [discriminate|]. cbn [length]. change (10 ^ N.of_nat (1 - 1)) with 1. lia.
  - replace (N.of_nat (S f)) with (1 + N.of_nat f) in Hn by lia. rewrite N.pow_add_r in Hn. change (10 ^ 1) with 10 in Hn.
    assert (n / 10 < 10 ^ N.of_nat f) by (apply N.div_lt_upper_bound; lia).
    destruct f as [|f]; [change (10 ^ N.of_nat 0) with 1 in *; lia|].
    destruct (IH (n / 10) H ltac:(lia)) as (A & B & C & L).
    rewrite dec_loop_acc. split; [apply Forall_app; split; [exact A|repeat constructor; unfold is_dec; lia]|].
    split; [rewrite dec_value_app, B; lia|]. split; [intro Q; apply app_eq_nil in Q; destruct Q; discriminate|].
    right. destruct L as [L|L]; [lia|].
    rewrite app_length. cbn [length].
    destruct (dec_loop (S f) (n / 10) []) as [|x t] eqn:Q; [congruence|].
    cbn [length] in *. replace (S (length t) - 1)%nat with (length t) in L by lia.
    replace (S (length t) + 1 - 1)%nat with (S (length t)) by lia.
    replace (N.of_nat (S (length t))) with (1 + N.of_nat (length t)) by lia.
    rewrite N.pow_add_r. change (10 ^ 1) with 10. lia.
Qed.

Lemma decimal_spec n : n < 10 ^ 20 ->
  Forall is_dec (decimal n) /\ dec_value (decimal n) = n /\ decimal n <> [] /\
  (n = 0 \/ 10 ^ N.of_nat (length (decimal n) - 1) <= n).
Proof. intro H. apply (dec_loop_spec 20); [exact H|lia]. Qed.

Lemma decimal_length n k : n < 10 ^ 20 -> (0 < k)%nat ->
  ((length (decimal n) <= k)%nat <-> n < 10 ^ N.of_nat k).
Proof.
  intros H Hk. destruct (decimal_spec n H) as (F & V & Nn & L).
  rewrite dec_value_val in V.
  split; intro Q.
  - pose proof (dec_val_bound _ F) as B. rewrite V in B.
    eapply N.lt_le_trans; [exact B|]. apply N.pow_le_mono_r; lia.
  - destruct L as [->|L].
    + change (length (decimal 0)) with 1%nat. lia.
    + assert (10 ^ N.of_nat (length (decimal n) - 1) < 10 ^ N.of_nat k) by lia.
      apply N.pow_lt_mono_r_iff in H0; lia.
Qed.

Lemma strip_sign_dec s : Forall is_dec s -> strip_sign s = s.
Proof.
  destruct 1 as [|c s Hc F]; [reflexivity|]. cbn [strip_sign]. unfold is_dec in Hc.
  replace ((c =? 45) || (c =? 43)) with false by lia. reflexivity.
Qed.

Lemma cmp18 s : Forall is_dec s -> length s = 18%nat -> lex_ltb (firstn (length s) MAXINTSTR) s = (MAX18 <? dec_val s).
Proof.
  intros F L. rewrite L. rewrite dec_lex; [reflexivity|rewrite L; reflexivity| |exact F].
  unfold MAXINTSTR, is_dec. cbn [firstn]. repeat constructor; lia.
Qed.
Lemma cmp19 s : Forall is_dec s -> length s = 19%nat -> lex_ltb (firstn (length s) MAXINTSTR) s = (MAX19 <? dec_val s).
Proof.
  intros F L. rewrite L. rewrite dec_lex; [reflexivity|rewrite L; reflexivity| |exact F].
  unfold MAXINTSTR, is_dec. cbn [firstn]. repeat constructor; lia.
Qed.

Lemma int_too_big_unsigned s : Forall is_dec s -> s <> [] -> (int_too_big s = false <-> int_lit_fits false s).
Proof.
  intros F Hn. unfold int_too_big, int_lit_fits. rewrite strip_sign_dec by exact F. rewrite dec_value_val.
  destruct (length s <? 19)%nat eqn:E1.
  - split; [intros _; left; lia|reflexivity].
  - destruct (19 <? length s)%nat eqn:E2.
    + split; [discriminate|]. intros [H|[[H _]|[H _]]]; lia.
    + assert (L : length s = 19%nat) by lia. rewrite cmp19 by assumption.
      rewrite N.ltb_ge. split; [intro; right; right; split; assumption|].
      intros [H|[[H _]|[_ H]]]; [lia|lia|exact H].
Qed.

Lemma int_too_big_signed c s : (c = 45 \/ c = 43) -> Forall is_dec s -> s <> [] ->
  (int_too_big (c :: s) = false <-> int_lit_fits true s).
Proof.
  intros Hc F Hn. unfold int_too_big, int_lit_fits. cbn [strip_sign length].
  replace ((c =? 45) || (c =? 43)) with true by lia. rewrite dec_value_val.
  destruct (S (length s) <? 19)%nat eqn:E1.
  - split; [intros _; left; lia|reflexivity].
  - destruct (19 <? length s)%nat eqn:E2.
    + split; [discriminate|]. intros [H|[[H _]|[H _]]]; lia.
    + destruct (Nat.eq_dec (length s) 18) as [L|L].
      * rewrite cmp18 by assumption. rewrite N.ltb_ge. split; [intro; right; left; split; assumption|].
        intros [H|[[_ H]|[H _]]]; [lia|exact H|lia].
      * assert (L2 : length s = 19%nat) by lia. rewrite cmp19 by assumption.
        rewrite N.ltb_ge. split; [intro; right; right; split; assumption|].
        intros [H|[[H _]|[_ H]]]; [lia|lia|exact H].
Qed.

Lemma fits_bound b s : Forall is_dec s -> int_lit_fits b s -> dec_value s <= MAX19.
Proof.
  intros F [H|[[_ H]|[_ H]]].
  - rewrite dec_value_val. pose proof (dec_val_bound s F) as B.
    assert (10 ^ N.of_nat (length s) <= 10 ^ 18) by (apply N.pow_le_mono_r; destruct b; lia).
    change (10 ^ 18) with 1000000000000000000 in H0. unfold MAX19. lia.
  - unfold MAX18, MAX19 in *. lia.
  - exact H.
Qed.

Lemma parse_integer_literal s v : int_literal s v -> (- Z.of_N MAX19 <= v <= Z.of_N MAX19)%Z -> parse_integer s = v.
Proof.
  assert (E : forall s, Forall is_dec s -> (Z.of_N (dec_value s) <= Z.of_N MAX19)%Z -> parse_int_loop 0 s = Z.of_N (dec_value s)).
  { intros t F B. rewrite dec_value_val in *. rewrite parse_int_loop_spec; [lia|exact F|lia|].
    change (Z.of_N MAX19) with (2 ^ 63 - 1)%Z in B. lia. }
  change (Z.of_N MAX19) with (2 ^ 63 - 1)%Z in *.
  destruct 1 as [s Hn F|s Hn F|s Hn F]; intro B.
  - destruct s as [|c t]; [congruence|]. cbn [parse_integer].
    inversion F; subst. unfold is_dec in H1.
    replace (c =? 45) with false by lia. replace (c =? 43) with false by lia. apply E; [exact F|lia].
  - cbn [parse_integer]. change (43 =? 45) with false. change (43 =? 43) with true. apply E; [exact F|lia].
  - cbn [parse_integer]. change (45 =? 45) with true. cbn iota. rewrite E; [|exact F|lia]. apply to_int64_id. lia.
Qed.

Lemma int_accept_sound s v : int_literal s v -> int_too_big s = false ->
  (- 2 ^ 63 < v < 2 ^ 63)%Z /\ parse_integer s = v.
Proof.
  intros L T.
  assert (B : (- Z.of_N MAX19 <= v <= Z.of_N MAX19)%Z).
  { destruct L as [s Hn F|s Hn F|s Hn F].
    - apply int_too_big_unsigned in T; [|assumption|assumption]. apply fits_bound in T; [lia|assumption].
    - apply int_too_big_signed in T; [|auto|assumption|assumption]. apply fits_bound in T; [lia|assumption].
    - apply int_too_big_signed in T; [|auto|assumption|assumption]. apply fits_bound in T; [lia|assumption]. }
  split; [change (Z.of_N MAX19) with (2 ^ 63 - 1)%Z in B; lia|]. apply parse_integer_literal; assumption.
Qed.

(* printing *)
Lemma write_int_text v : (- 2 ^ 63 <= v < 2 ^ 63)%Z ->
  match write_int v with
  | Some s => int_literal s v /\ (- 10 ^ 18 < v)%Z /\ (int_too_big s = false <-> (- Z.of_N MAX18 <= v)%Z)
  | None => (v <= - 10 ^ 18)%Z
  end.
Proof.
  intro B. unfold write_int.
  destruct (v <? 0)%Z eqn:E.
  - set (n := Z.to_N (- v)). assert (En : (v = - Z.of_N n)%Z) by lia. clearbody n.
    assert (Hn : n < 10 ^ 20).
    { change (10 ^ 20) with 100000000000000000000. change (2 ^ 63)%Z with 9223372036854775808%Z in B. lia. }
    destruct (decimal_spec n Hn) as (F & V & Nn & _).
    cbn [length]. destruct (S (length (decimal n)) <=? 19)%nat eqn:L.
    + assert (L18 : (length (decimal n) <= 18)%nat) by lia.
      pose proof (proj1 (decimal_length n 18 Hn ltac:(lia)) L18) as L'. change (10 ^ N.of_nat 18) with 1000000000000000000 in L'.
      split; [replace v with (- Z.of_N (dec_value (decimal n)))%Z by (rewrite V; lia); apply lit_minus; assumption|].
      split; [change (10 ^ 18)%Z with 1000000000000000000%Z; lia|].
      rewrite int_too_big_signed by auto. unfold int_lit_fits. rewrite V.
      split.
      * intros [H|[[_ H]|[H _]]]; [|lia|lia].
        pose proof (proj1 (decimal_length n 17 Hn ltac:(lia)) H) as H'. change (10 ^ N.of_nat 17) with 100000000000000000 in H'.
        unfold MAX18. lia.
      * intro H. destruct (Nat.eq_dec (length (decimal n)) 18) as [Q|Q]; [right; left; lia|left; lia].
    + assert (NL : ~ (length (decimal n) <= 18)%nat) by lia.
      rewrite (decimal_length n 18 Hn) in NL by lia. change (10 ^ N.of_nat 18) with 1000000000000000000 in NL.
      change (10 ^ 18)%Z with 1000000000000000000%Z. lia.
  - set (n := Z.to_N v). assert (En : (v = Z.of_N n)%Z) by lia. clearbody n.
    change (2 ^ 63)%Z with 9223372036854775808%Z in B.
    assert (Hn : n < 10 ^ 20).
    { change (10 ^ 20) with 100000000000000000000. lia. }
    destruct (decimal_spec n Hn) as (F & V & Nn & _).
    assert (L19 : (length (decimal n) <= 19)%nat).
    { apply (decimal_length n 19 Hn); [lia|]. change (10 ^ N.of_nat 19) with 10000000000000000000. lia. }
    replace (length (decimal n) <=? 19)%nat with true by lia.
    split; [replace v with (Z.of_N (dec_value (decimal n))) by (rewrite V; lia); apply lit_pos; assumption|].
    split; [change (10 ^ 18)%Z with 1000000000000000000%Z; lia|].
    rewrite int_too_big_unsigned by auto. unfold int_lit_fits. rewrite V.
    split; [intros _; unfold MAX18; lia|]. intros _.
    destruct (Nat.eq_dec (length (decimal n)) 19) as [Q|Q]; [right; right|left; lia].
    split; [exact Q|]. unfold MAX19. lia.
Qed.
