(* C12: what one call of NextCodepoint does on any text. *)
From Verif Require Import Prelude UuidModel CodecModel CodecSpec CodecProofs StringProofs.

(* a byte the reader takes for the start of a character: not NUL, not a line end,
   not a quote, and not one that only continues or never occurs in a character *)
Definition starts (x : N) : Prop := ~ In x [0; 10; 13; 39] /\ ~ 128 <= x <= 191 /\ x < 248.

Lemma starts_ok x : cp_start x = true <-> starts x.
Proof. unfold cp_start, cp_stop, cp_cont, starts. cbn [In]. lia. Qed.
Lemma hex_has_value b : is_hex b = true -> exists v, hex_value b = Some v.
Proof.
  unfold is_hex, hex_value. intro H. destruct ((48 <=? b) && (b <=? 57)); [eauto|]. destruct ((65 <=? b) && (b <=? 70)); [eauto|].
  destruct ((97 <=? b) && (b <=? 102)); [eauto|discriminate].
Qed.
Lemma cp_run_le s : forall st cp hex n c k, cp_run st cp hex n s = Some (c, k) -> n <= k <= n + N.of_nat (length s).
Proof.
  induction s as [|b s IH]; intros st cp hex n c k H; cbn [cp_run] in H; [injection H as <- <-; cbn [length]; lia|]. cbn [length].
  repeat match type of H with context [if ?x then _ else _] => destruct x end; try discriminate H;
    try (apply IH in H; lia); injection H as <- <-; lia.
Qed.
(* the bytes left when a character is complete *)
Lemma run_10 cp hex n r c k : cp_run 10 cp hex n r = Some (c, k) ->
  c = cp /\ k = n /\ (r = [] \/ exists x r', r = x :: r' /\ starts x).
Proof.
  destruct r as [|x r]; cbn [cp_run]; [intro H; injection H as <- <-; auto|]. change (10 =? 9) with false. change (10 =? 10) with true. cbv iota.
  destruct (cp_start x) eqn:Q; [|discriminate]. intro H. injection H as <- <-. split; [reflexivity|]. split; [reflexivity|]. right. exists x, r. split; [reflexivity|]. apply starts_ok. exact Q.
Qed.
Lemma run_11 cp hex n r c k : cp_run 11 cp hex n r = Some (c, k) ->
  k = n /\ (r = [] \/ c = decode_hex_cp hex /\ exists x r', r = x :: r' /\ starts x).
Proof.
  destruct r as [|x r]; cbn [cp_run]; [intro H; injection H as <- <-; auto|]. change (11 =? 9) with false. change (11 =? 10) with false. change (11 =? 11) with true. cbv iota.
  destruct (cp_start x) eqn:Q; [|discriminate]. intro H. injection H as <- <-. split; [reflexivity|]. right. split; [reflexivity|]. exists x, r. split; [reflexivity|]. apply starts_ok. exact Q.
Qed.
Lemma run_cont st cp hex n b r c k : (st = 6 \/ st = 7 \/ st = 8) -> cp < 2 ^ 26 -> cp_run st cp hex n (b :: r) = Some (c, k) ->
  exists d, d < 64 /\ b = 128 + d /\ cp_run (if st =? 6 then 10 else if st =? 7 then 6 else 7) (cp * 64 + d) hex (n + 1) r = Some (c, k).
Proof.
  intros S3 L H. cbn [cp_run] in H. replace (st =? 9) with false in H by lia. replace (st =? 10) with false in H by lia. replace (st =? 11) with false in H by lia.
  replace (st =? 1) with false in H by lia. replace (st =? 2) with false in H by lia. replace (st =? 3) with false in H by lia. replace (st =? 4) with false in H by lia. replace (st =? 5) with false in H by lia.
  destruct (cp_cont b) eqn:Q; [|discriminate]. unfold cp_cont in Q. exists (b - 128). split; [lia|]. split; [lia|].
  replace b with (128 + (b - 128)) in H by lia. rewrite cont_eq in H by (try exact L; lia). exact H.
Qed.
Lemma run_hex st cp hex n b r c k : (st = 2 \/ st = 3 \/ st = 4 \/ st = 5) -> cp_run st cp hex n (b :: r) = Some (c, k) ->
  exists v, hex_value b = Some v /\ cp_run (if st =? 2 then 3 else if st =? 3 then 4 else if st =? 4 then 5 else 11) cp (hex ++ [b]) (n + 1) r = Some (c, k).
Proof.
  intros S4 H. cbn [cp_run] in H. replace (st =? 9) with false in H by lia. replace (st =? 10) with false in H by lia. replace (st =? 11) with false in H by lia. replace (st =? 1) with false in H by lia.
  destruct S4 as [-> |[-> |[-> | ->]]]; cbn [N.eqb Pos.eqb] in *; (destruct (is_hex b) eqn:Q; [|discriminate]); destruct (hex_has_value b Q) as [v V]; exists v; (split; [exact V|exact H]).
Qed.

Definition ends (rest : bytes) (cp n : N) : Prop :=
  exists bs x r, rest = bs ++ x :: r /\ n = N.of_nat (length bs) /\ esc_char bs cp /\ starts x.
Definition cut (rest : bytes) (n : N) : Prop := n = N.of_nat (length rest) /\ exists more cp, esc_char (rest ++ more) cp.

Local Ltac p26 := change (2 ^ 26) with 67108864 in *; lia.
Lemma two_done a b r c k n bs (C : utf8_char bs (a * 64 + b)) (LB : (1 < length bs)%nat) : cp_run 10 (a * 64 + b) [] n r = Some (c, k) -> n = N.of_nat (length bs) ->
  ends (bs ++ r) c k \/ cut (bs ++ r) k.
Proof.
  intros H N0. destruct (run_10 _ _ _ _ _ _ H) as (-> & -> & [-> |(x & r' & -> & X)]).
  - right. rewrite app_nil_r. split; [exact N0|]. exists [], (a * 64 + b). rewrite app_nil_r. apply e_plain; [exact C|right; exact LB].
  - left. exists bs, x, r'. repeat split; try assumption; try apply X. apply e_plain; [exact C|right; exact LB].
Qed.
Lemma cut_plain rest more cp : utf8_char (rest ++ more) cp -> (1 < length (rest ++ more))%nat -> cut rest (N.of_nat (length rest)).
Proof. intros C L. split; [reflexivity|]. exists more, cp. apply e_plain; [exact C|right; exact L]. Qed.
Lemma zero_hex : hex_value 48 = Some 0. Proof. reflexivity. Qed.

Lemma run_reads rest c k : cp_run 9 0 [] 0 rest = Some (c, k) -> ends rest c k \/ cut rest k.
Proof.
  destruct rest as [|b t]; [intro H; injection H as <- <-; right; split; [reflexivity|]; exists [65], 65; apply e_plain; [apply u8_1; lia|left; cbn; lia]|].
  intro H. cbn [cp_run] in H. change (9 =? 9) with true in H. cbv iota in H. destruct (cp_stop b) eqn:ST; [discriminate|].
  destruct (N.eqb_spec b 92) as [-> |NB].
  { (* an escape *)
    change (0 + 1) with 1 in H. destruct t as [|e t]; [injection H as <- <-; right; split; [reflexivity|]; exists [110], 10; apply e_esc; cbn; tauto|].
    cbn [cp_run] in H. change (1 =? 9) with false in H. change (1 =? 10) with false in H. change (1 =? 11) with false in H. change (1 =? 1) with true in H. cbv iota in H.
    destruct (is_esc e) eqn:E.
    { assert (EC : esc_char [92; e] (decode_esc e)).
      { apply e_esc. unfold is_esc in E. rewrite !orb_true_iff in E. repeat (destruct E as [E|E]); apply N.eqb_eq in E; subst e; vm_compute; tauto. }
      change (1 + 1) with 2 in H. destruct (run_10 _ _ _ _ _ _ H) as (-> & -> & [-> |(x & r' & -> & X)]).
      - right. split; [reflexivity|]. exists [], (decode_esc e). exact EC.
      - left. exists [92; e], x, r'. repeat split; try assumption; apply X. }
    destruct (N.eqb_spec e 117) as [-> |]; [|discriminate]. change (1 + 1) with 2 in H.
    pose proof zero_hex as Z.
    destruct t as [|h1 t]; [injection H as <- <-; right; split; [reflexivity|]; exists [48; 48; 48; 48]; eexists; exact (e_uni _ _ _ _ _ _ _ _ Z Z Z Z)|].
    apply run_hex in H; [|auto]. destruct H as (v1 & V1 & H). cbn [N.eqb Pos.eqb app] in H. change (2 + 1) with 3 in H.
    destruct t as [|h2 t]; [injection H as <- <-; right; split; [reflexivity|]; exists [48; 48; 48]; eexists; exact (e_uni _ _ _ _ _ _ _ _ V1 Z Z Z)|].
    apply run_hex in H; [|auto]. destruct H as (v2 & V2 & H). cbn [N.eqb Pos.eqb app] in H. change (3 + 1) with 4 in H.
    destruct t as [|h3 t]; [injection H as <- <-; right; split; [reflexivity|]; exists [48; 48]; eexists; exact (e_uni _ _ _ _ _ _ _ _ V1 V2 Z Z)|].
    apply run_hex in H; [|auto]. destruct H as (v3 & V3 & H). cbn [N.eqb Pos.eqb app] in H. change (4 + 1) with 5 in H.
    destruct t as [|h4 t]; [injection H as <- <-; right; split; [reflexivity|]; exists [48]; eexists; exact (e_uni _ _ _ _ _ _ _ _ V1 V2 V3 Z)|].
    apply run_hex in H; [|auto]. destruct H as (v4 & V4 & H). cbn [N.eqb Pos.eqb app] in H. change (5 + 1) with 6 in H.
    destruct (run_11 _ _ _ _ _ _ H) as (-> & [-> |(-> & x & r' & -> & X)]).
    - right. split; [reflexivity|]. exists []. eexists. exact (e_uni _ _ _ _ _ _ _ _ V1 V2 V3 V4).
    - left. exists [92; 117; h1; h2; h3; h4], x, r'. split; [reflexivity|]. split; [reflexivity|]. split; [|exact X].
      rewrite (decode_hex4 _ _ _ _ _ _ _ _ V1 V2 V3 V4). exact (e_uni _ _ _ _ _ _ _ _ V1 V2 V3 V4). }
  change (0 + 1) with 1 in H. destruct (b <? 128) eqn:B1.
  { assert (EC : esc_char [b] b) by (apply e_plain; [apply u8_1; lia|left; unfold cp_stop in ST; cbn [In]; lia]).
    destruct (run_10 _ _ _ _ _ _ H) as (-> & -> & [-> |(x & r' & -> & X)]).
    - right. split; [reflexivity|]. exists [], b. exact EC.
    - left. exists [b], x, r'. repeat split; try assumption; apply X. }
  destruct (b <? 192) eqn:B2; [discriminate|]. destruct (b <? 224) eqn:B3.
  { assert (A : exists a, a < 32 /\ b = 192 + a) by (exists (b - 192); lia). destruct A as (a & A & ->). rewrite land_192_31 in H by exact A.
    destruct t as [|b1 t]; [injection H as <- <-; right; apply (cut_plain [192 + a] [128 + 0] (a * 64 + 0)); [apply u8_2; lia|cbn; lia]|].
    apply run_cont in H; [|auto|p26]. destruct H as (d & D & -> & H). cbn [N.eqb Pos.eqb] in H. change (1 + 1) with 2 in H.
    apply (two_done _ _ _ _ _ _ [192 + a; 128 + d] ltac:(apply u8_2; assumption) ltac:(cbn; lia) H eq_refl). }
  destruct (b <? 240) eqn:B4.
  { assert (A : exists a, a < 16 /\ b = 224 + a) by (exists (b - 224); lia). destruct A as (a & A & ->). rewrite land_224_15 in H by exact A.
    destruct t as [|b1 t]; [injection H as <- <-; right; eapply (cut_plain [224 + a] [128 + 0; 128 + 0]); [apply u8_3; lia|cbn; lia]|].
    apply run_cont in H; [|auto|p26]. destruct H as (d & D & -> & H). cbn [N.eqb Pos.eqb] in H. change (1 + 1) with 2 in H.
    destruct t as [|b2 t]; [injection H as <- <-; right; eapply (cut_plain [224 + a; 128 + d] [128 + 0]); [apply u8_3; lia|cbn; lia]|].
    apply run_cont in H; [|auto|p26]. destruct H as (d2 & D2 & -> & H). cbn [N.eqb Pos.eqb] in H. change (2 + 1) with 3 in H.
    refine (two_done _ _ _ _ _ _ [224 + a; 128 + d; 128 + d2] _ ltac:(cbn; lia) H eq_refl).
    replace ((a * 64 + d) * 64 + d2) with (a * 4096 + d * 64 + d2) by lia. apply u8_3; assumption. }
  destruct (b <? 248) eqn:B5; [|discriminate].
  assert (A : exists a, a < 8 /\ b = 240 + a) by (exists (b - 240); lia). destruct A as (a & A & ->). rewrite land_240_7 in H by exact A.
  destruct t as [|b1 t]; [injection H as <- <-; right; eapply (cut_plain [240 + a] [128 + 0; 128 + 0; 128 + 0]); [apply u8_4; lia|cbn; lia]|].
  apply run_cont in H; [|auto|p26]. destruct H as (d & D & -> & H). cbn [N.eqb Pos.eqb] in H. change (1 + 1) with 2 in H.
  destruct t as [|b2 t]; [injection H as <- <-; right; eapply (cut_plain [240 + a; 128 + d] [128 + 0; 128 + 0]); [apply u8_4; lia|cbn; lia]|].
  apply run_cont in H; [|auto|p26]. destruct H as (d2 & D2 & -> & H). cbn [N.eqb Pos.eqb] in H. change (2 + 1) with 3 in H.
  destruct t as [|b3 t]; [injection H as <- <-; right; eapply (cut_plain [240 + a; 128 + d; 128 + d2] [128 + 0]); [apply u8_4; lia|cbn; lia]|].
  apply run_cont in H; [|auto|p26]. destruct H as (d3 & D3 & -> & H). cbn [N.eqb Pos.eqb] in H. change (3 + 1) with 4 in H.
  refine (two_done _ _ _ _ _ _ [240 + a; 128 + d; 128 + d2; 128 + d3] _ ltac:(cbn; lia) H eq_refl).
  replace (((a * 64 + d) * 64 + d2) * 64 + d3) with (a * 262144 + d * 4096 + d2 * 64 + d3) by lia. apply u8_4; assumption.
Qed.

(* the beginning of a character, or a whole one, is passed to its end *)
Lemma run_cut rest more cp : esc_char (rest ++ more) cp -> exists c, cp_run 9 0 [] 0 rest = Some (c, N.of_nat (length rest)).
Proof.
  intro C. destruct rest as [|b0 rest]; [exists 0; reflexivity|].
  remember ((b0 :: rest) ++ more) as w eqn:W. destruct C as [bs cp C P|c cp H|a b c d va vb vc vd Ha Hb Hc Hd].
  - destruct C as [a A|a b A B|a b c A B D|a b c d A B D E]; cbn [app] in W; injection W as <- W.
    + symmetry in W. apply app_eq_nil in W as [-> ->]. exists a. refine (cp_run_esc [a] a [] _ I _).
      { apply e_plain; [apply u8_1; exact A|exact P]. }
      { unfold is_uni. destruct a as [|p]; [tauto|]. repeat (destruct p as [p|p|]; try tauto). }
    + rewrite cp_run_9_2 by exact A. destruct rest as [|x rest]; [eexists; reflexivity|]. injection W as <- W. symmetry in W. apply app_eq_nil in W as [-> ->].
      rewrite cp_run_6 by (try exact B; p26). eexists. reflexivity.
    + rewrite cp_run_9_3 by exact A. destruct rest as [|x rest]; [eexists; reflexivity|]. injection W as <- W. rewrite cp_run_7 by (try exact B; p26).
      destruct rest as [|x rest]; [eexists; reflexivity|]. injection W as <- W. symmetry in W. apply app_eq_nil in W as [-> ->].
      rewrite cp_run_6 by (try exact D; p26). eexists. reflexivity.
    + rewrite cp_run_9_4 by exact A. destruct rest as [|x rest]; [eexists; reflexivity|]. injection W as <- W. rewrite cp_run_8 by (try exact B; p26).
      destruct rest as [|x rest]; [eexists; reflexivity|]. injection W as <- W. rewrite cp_run_7 by (try exact D; p26).
      destruct rest as [|x rest]; [eexists; reflexivity|]. injection W as <- W. symmetry in W. apply app_eq_nil in W as [-> ->].
      rewrite cp_run_6 by (try exact E; p26). eexists. reflexivity.
  - cbn [app] in W. injection W as <- W. destruct rest as [|x rest]; [exists 0; reflexivity|]. injection W as <- W. symmetry in W. apply app_eq_nil in W as [-> ->].
    exists cp. refine (cp_run_esc [92; c] cp [] _ I _); [apply e_esc; exact H|].
    cbn [In] in H. repeat (destruct H as [H|H]; [injection H as <- <-; intros []|]). contradiction.
  - pose proof (proj1 (hex_value_is_hex _ _ Ha)) as Xa. pose proof (proj1 (hex_value_is_hex _ _ Hb)) as Xb.
    pose proof (proj1 (hex_value_is_hex _ _ Hc)) as Xc. pose proof (proj1 (hex_value_is_hex _ _ Hd)) as Xd.
    cbn [app] in W. injection W as <- W. rewrite cp_run_9_bs.
    destruct rest as [|x rest]; [exists 0; reflexivity|]. injection W as <- W. rewrite cp_run_1_u.
    destruct rest as [|x rest]; [exists 0; reflexivity|]. injection W as <- W. rewrite cp_run_2 by assumption.
    destruct rest as [|x rest]; [exists 0; reflexivity|]. injection W as <- W. rewrite cp_run_3 by assumption.
    destruct rest as [|x rest]; [exists 0; reflexivity|]. injection W as <- W. rewrite cp_run_4 by assumption.
    destruct rest as [|x rest]; [exists 0; reflexivity|]. injection W as <- W. rewrite cp_run_5 by assumption.
    symmetry in W. apply app_eq_nil in W as [-> ->]. exists 0. reflexivity.
Qed.

(* C12: one call of NextCodepoint on any text. It answers with a character before
   the end of the text if and only if the text begins with that character, plain
   or escaped, followed by a byte that can start another one; it passes the whole
   text if and only if the text is a character or the beginning of one; and it is
   an error otherwise. *)
Theorem C12_reader rest left : 0 < left ->
  (forall cp n, n < N.of_nat (length rest) -> (next_codepoint rest left = CpOk cp n <-> ends rest cp n)) /\
  ((exists cp, next_codepoint rest left = CpOk cp (N.of_nat (length rest))) <-> exists more cp, esc_char (rest ++ more) cp) /\
  (forall cp, esc_char rest cp -> ~ is_uni rest -> next_codepoint rest left = CpOk cp (N.of_nat (length rest))) /\
  (next_codepoint rest left = CpBad <-> ~ (exists cp n, ends rest cp n) /\ ~ (exists more cp, esc_char (rest ++ more) cp)).
Proof.
  intro L. unfold next_codepoint. replace (left =? 0) with false by lia.
  assert (FW : forall cp n, ends rest cp n -> cp_run 9 0 [] 0 rest = Some (cp, n)).
  { intros cp n (bs & x & r & -> & -> & C & X). apply cp_run_esc; [exact C|apply starts_ok; exact X|discriminate]. }
  assert (CU : (exists more cp, esc_char (rest ++ more) cp) -> exists c, cp_run 9 0 [] 0 rest = Some (c, N.of_nat (length rest))).
  { intros (more & cp & C). exact (run_cut _ _ _ C). }
  split; [|split; [|split]].
  - intros cp n LT. split; [|intro E; rewrite (FW _ _ E); reflexivity]. intro H. destruct (cp_run 9 0 [] 0 rest) as [[c k]|] eqn:R; [|discriminate]. injection H as -> ->.
    destruct (run_reads _ _ _ R) as [E|[E _]]; [exact E|lia].
  - split; [|intro H; destruct (CU H) as [c R]; exists c; rewrite R; reflexivity].
    intros [cp H]. destruct (cp_run 9 0 [] 0 rest) as [[c k]|] eqn:R; [|discriminate]. injection H as -> ->.
    destruct (run_reads _ _ _ R) as [(bs & x & r & -> & E & _)|[_ E]]; [|exact E]. rewrite app_length in E. cbn [length] in E. lia.
  - intros cp C U. rewrite <- (app_nil_r rest) at 1. rewrite (cp_run_esc rest cp []); [reflexivity|exact C|exact I|contradiction].
  - destruct (cp_run 9 0 [] 0 rest) as [[c k]|] eqn:R.
    + split; [discriminate|]. intros [A B]. exfalso. destruct (run_reads _ _ _ R) as [E|[_ E]]; [apply A; eauto|exact (B E)].
    + split; [intros _|reflexivity]. split; [intros (cp & n & E); pose proof (FW _ _ E) as Q; congruence|intro H; destruct (CU H) as [c Q]; congruence].
Qed.
Example C12_reader_case :
  next_codepoint [92; 117; 50; 48; 65; 67; 97] 2 = CpOk 8364 6 /\ next_codepoint [97; 39; 98] 3 = CpBad /\
  next_codepoint [39; 98] 2 = CpBad /\ next_codepoint [226; 130] 1 = CpOk 130 2.
Proof. repeat split; vm_compute; reflexivity. Qed.
Print Assumptions C12_reader.
