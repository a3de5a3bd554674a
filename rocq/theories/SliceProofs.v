From Verif Require Import Prelude MergeModel SliceModel SliceSpec.

Lemma load_in pre b post : load (pre ++ b :: post) (N.of_nat (length pre)) = Done b.
Proof.
  unfold load. rewrite Nnat.Nat2N.id, nth_error_app2 by lia. rewrite PeanoNat.Nat.sub_diag. reflexivity.
Qed.
Lemma load_at mem pre b post a : mem = pre ++ b :: post -> a = N.of_nat (length pre) -> load mem a = Done b.
Proof. intros -> ->. apply load_in. Qed.
Lemma load_out mem a : N.of_nat (length mem) <= a -> load mem a = Aborted.
Proof. intro H. unfold load. rewrite (proj2 (nth_error_None mem (N.to_nat a))); [reflexivity|lia]. Qed.

Lemma loads_in bs : forall pre post a, a = N.of_nat (length pre) -> loads (pre ++ bs ++ post) a (length bs) = Done bs.
Proof.
  induction bs as [|b bs I]; intros pre post a H; [reflexivity|].
  cbn [length loads]. cbn [app]. rewrite (load_at _ pre b (bs ++ post) a eq_refl H). cbn [rbind].
  specialize (I (pre ++ [b]) post (a + 1)). rewrite <- app_assoc in I. cbn [app] in I.
  rewrite I by (rewrite app_length; cbn [length]; lia). reflexivity.
Qed.

Lemma all_eqb_eq a : forall b, all_eqb a b = true <-> a = b.
Proof.
  induction a as [|x a I]; intros [|y b]; cbn [all_eqb]; try (split; congruence || discriminate).
  rewrite andb_true_iff, N.eqb_eq, I. split; [intros [-> ->]; reflexivity|intro E; injection E; auto].
Qed.

Lemma cut_shows mem s a b : cut_in mem s a b ->
  shows mem s b /\ shows mem (s_consumed s) a /\ shows mem (s_reset s) (a ++ b).
Proof.
  intros (pre & post & M & P & A & B & W). split; [|split].
  - exists (pre ++ a), post. rewrite <- app_assoc, app_length. repeat split; [exact M|lia|exact B|exact W].
  - exists pre, (b ++ post). unfold s_consumed. cbn [s_range s_buf r_lo r_hi]. repeat split; [exact M|lia|lia|lia].
  - exists pre, post. unfold s_reset. cbn [s_range s_buf r_lo r_hi]. rewrite <- app_assoc, app_length. repeat split; [exact M|lia|lia|lia].
Qed.
Lemma shows_cut mem s a b : shows mem (s_consumed s) a -> shows mem s b -> cut_in mem s a b.
Proof.
  intros (p1 & q1 & M1 & P1 & L1 & W1) (p2 & q2 & M2 & P2 & L2 & W2).
  unfold s_consumed in *. cbn [s_range s_buf r_lo r_hi] in *.
  exists p1, q2. assert (E : p1 ++ a = p2 /\ q1 = b ++ q2).
  { assert (F : (p1 ++ a) ++ q1 = p2 ++ (b ++ q2)) by (rewrite <- app_assoc; congruence).
    pose proof (f_equal (firstn (length (p1 ++ a))) F) as G. pose proof (f_equal (skipn (length (p1 ++ a))) F) as G2.
    assert (L : length (p1 ++ a) = length p2) by (rewrite app_length; lia).
    rewrite firstn_app, firstn_all, PeanoNat.Nat.sub_diag, firstn_O, app_nil_r in G.
    rewrite skipn_app, skipn_all, PeanoNat.Nat.sub_diag in G2. cbn [app skipn] in G2.
    rewrite L in G, G2. rewrite firstn_app, firstn_all, PeanoNat.Nat.sub_diag, firstn_O, app_nil_r in G.
    rewrite skipn_app, skipn_all, PeanoNat.Nat.sub_diag in G2. cbn [app skipn] in G2. auto. }
  destruct E as [E1 E2]. subst p2. rewrite <- app_assoc in M2. repeat split; [exact M2|lia|lia|exact L2|exact W2].
Qed.

Lemma r_offset_in r i : r_lo r + i < r_hi r -> r_hi r < 2 ^ 32 -> r_offset r i = Done (r_lo r + i).
Proof.
  intros A B. unfold r_offset. change W32 with (2 ^ 32). rewrite N.mod_small by lia. cbv zeta.
  rewrite (proj2 (N.ltb_lt _ _) A). reflexivity.
Qed.
Lemma r_offset_out r i : r_hi r <= r_lo r + i -> r_lo r + i < 2 ^ 32 -> r_offset r i = Aborted.
Proof.
  intros A B. unfold r_offset. change W32 with (2 ^ 32). rewrite N.mod_small by lia. cbv zeta.
  rewrite (proj2 (N.ltb_ge _ _) A). reflexivity.
Qed.

Lemma shows_size mem s bs : shows mem s bs -> s_size s = Done (N.of_nat (length bs)).
Proof.
  intros (pre & post & M & P & L & W). unfold s_size, r_size, r_valid.
  rewrite (proj2 (N.leb_le _ _)) by lia. f_equal. lia.
Qed.
Lemma shows_at mem s x b y : shows mem s (x ++ b :: y) -> s_at mem s (N.of_nat (length x)) = Done b.
Proof.
  intros (pre & post & M & P & L & W). rewrite app_length in L. cbn [length] in L. unfold s_at.
  rewrite r_offset_in by lia. cbn [rbind].
  apply (load_at _ (pre ++ x) b (y ++ post)); [|rewrite app_length; lia].
  rewrite M, <- !app_assoc. reflexivity.
Qed.
Lemma shows_out mem s bs i : shows mem s bs -> N.of_nat (length bs) <= i -> r_lo (s_range s) + i < 2 ^ 32 -> s_at mem s i = Aborted.
Proof.
  intros (pre & post & M & P & L & W) A B. unfold s_at. rewrite r_offset_out by lia. reflexivity.
Qed.
Lemma shows_loads mem s bs : shows mem s bs -> loads mem (s_begin s) (length bs) = Done bs.
Proof.
  intros (pre & post & M & P & L & W). rewrite M. apply loads_in. unfold s_begin. lia.
Qed.

Lemma move_ok mem s a b m a1 b1 : cut_in mem s a b -> moved m a b a1 b1 ->
  exists s1, s_move m s = Done s1 /\ s_buf s1 = s_buf s /\ cut_in mem s1 a1 b1.
Proof.
  intros (pre & post & M & P & A & B & W) V. inversion V; subst.
  - rewrite app_length in B. cbn [s_move]. unfold s_consume, s_with, r_consume, r_checked, r_valid. cbn [r_lo r_hi].
    change W32 with (2 ^ 32). rewrite N.mod_small by lia. rewrite (proj2 (N.leb_le _ _)) by lia. cbn [rbind].
    eexists; split; [reflexivity|]. split; [reflexivity|]. exists pre, post. cbn [s_buf s_range r_lo r_hi].
    rewrite app_length, <- !app_assoc. repeat split; try lia.
  - cbn [length] in B. cbn [s_move]. unfold s_next, s_consume, s_with, r_consume, r_checked, r_valid. cbn [r_lo r_hi].
    change W32 with (2 ^ 32). rewrite N.mod_small by lia. rewrite (proj2 (N.leb_le _ _)) by lia. cbn [rbind].
    eexists; split; [reflexivity|]. split; [reflexivity|]. exists pre, post. cbn [s_buf s_range r_lo r_hi].
    rewrite app_length, <- !app_assoc. cbn [length]. repeat split; try lia.
  - rewrite app_length in B. cbn [s_move]. unfold s_end_at, s_with, r_end_at, r_checked, r_valid. cbn [r_lo r_hi].
    rewrite (proj2 (N.leb_le _ _)) by lia. cbn [rbind].
    eexists; split; [reflexivity|]. split; [reflexivity|]. exists pre, (y ++ post). cbn [s_buf s_range r_lo r_hi].
    rewrite <- !app_assoc. repeat split; try lia.
  - rewrite app_length in B. cbn [s_move]. unfold s_resize, r_resize.
    eexists; split; [reflexivity|]. split; [reflexivity|]. exists pre, (y ++ post). cbn [s_buf s_range r_lo r_hi].
    change W32 with (2 ^ 32). rewrite N.mod_small by lia. rewrite <- !app_assoc. repeat split; try lia.
Qed.
Lemma moves_ok mem ms : forall s a b a1 b1, cut_in mem s a b -> moves_to ms a b a1 b1 ->
  exists s1, s_moves ms s = Done s1 /\ s_buf s1 = s_buf s /\ cut_in mem s1 a1 b1.
Proof.
  induction ms as [|m ms I]; intros s a b a2 b2 C V; inversion V; subst.
  - exists s. auto.
  - destruct (move_ok _ _ _ _ _ _ _ C ltac:(eassumption)) as (s1 & E & F & C1). cbn [s_moves]. rewrite E. cbn [rbind].
    destruct (I _ _ _ _ _ C1 ltac:(eassumption)) as (s2 & E2 & F2 & C2). exists s2. rewrite F2. auto.
Qed.

(* the hash as a function of the bytes *)
Fixpoint words_in (hw : N -> N) (n : nat) (bs : bytes) (acc : N) : N :=
  match n with O => acc | S k => words_in hw k (skipn 8 bs) (N.lxor acc (hw (le_word (firstn 8 bs)))) end.
Fixpoint chars_in (hc : N -> N) (bs : bytes) (acc : N) : N :=
  match bs with [] => acc | b :: r => chars_in hc r (N.lxor acc (hc b)) end.
Definition hash_in (hw hc : N -> N) (bs : bytes) : N :=
  let n := (length bs / 8)%nat in chars_in hc (skipn (8 * n) bs) (words_in hw n bs 0).

Lemma hash_words_in hw n : forall bs pre post a acc, a = N.of_nat (length pre) -> (8 * n <= length bs)%nat ->
  hash_words hw (pre ++ bs ++ post) a n acc = Done (words_in hw n bs acc).
Proof.
  induction n as [|n I]; intros bs pre post a acc A L; [reflexivity|]. cbn [hash_words words_in].
  assert (L8 : length (firstn 8 bs) = 8%nat) by (rewrite firstn_length; lia).
  assert (E : pre ++ bs ++ post = pre ++ firstn 8 bs ++ skipn 8 bs ++ post) by (rewrite <- (firstn_skipn 8 bs) at 1; rewrite <- app_assoc; reflexivity).
  rewrite E. pose proof (loads_in (firstn 8 bs) pre (skipn 8 bs ++ post) a A) as H. rewrite L8 in H. rewrite H.
  cbn [rbind]. specialize (I (skipn 8 bs) (pre ++ firstn 8 bs) post (a + 8) (N.lxor acc (hw (le_word (firstn 8 bs))))).
  rewrite <- app_assoc in I. apply I; [rewrite app_length, L8; lia|rewrite skipn_length; lia].
Qed.
Lemma hash_chars_in hc mem s : forall y x acc, shows mem s (x ++ y) ->
  hash_chars hc mem s (N.of_nat (length x)) (length y) acc = Done (chars_in hc y acc).
Proof.
  induction y as [|b y I]; intros x acc V; [reflexivity|]. cbn [length hash_chars chars_in].
  rewrite (shows_at _ _ _ _ _ V). cbn [rbind]. specialize (I (x ++ [b])). rewrite <- app_assoc in I. specialize (I (N.lxor acc (hc b)) V).
  rewrite <- I. f_equal. rewrite app_length. cbn [length]. lia.
Qed.
Lemma hash_shows hw hc mem s bs : shows mem s bs -> s_hash hw hc mem s = Done (hash_in hw hc bs).
Proof.
  intro V. unfold s_hash. rewrite (shows_size _ _ _ V). cbn [rbind].
  assert (D : N.of_nat (length bs) / 8 = N.of_nat (length bs / 8)).
  { change 8 with (N.of_nat 8) at 1. rewrite Nnat.Nat2N.inj_div. reflexivity. }
  rewrite D, Nnat.Nat2N.id. set (n := (length bs / 8)%nat).
  assert (L : (8 * n <= length bs)%nat) by (unfold n; pose proof (PeanoNat.Nat.mul_div_le (length bs) 8); lia).
  pose proof V as (pre & post & M & P & B & W).
  rewrite M at 1. rewrite (hash_words_in _ n) by (unfold s_begin; lia || exact L). cbn [rbind].
  pose proof (hash_chars_in hc mem s (skipn (8 * n) bs) (firstn (8 * n) bs)) as H. rewrite firstn_skipn in H.
  specialize (H (words_in hw n bs 0) V). rewrite firstn_length, skipn_length in H.
  replace (N.of_nat (min (8 * n) (length bs))) with (8 * N.of_nat n) in H by lia.
  replace (N.to_nat (N.of_nat (length bs) - 8 * N.of_nat n)) with (length bs - 8 * n)%nat by lia. exact H.
Qed.

Lemma c_string_app z : forall post, Forall (fun b => b <> 0) z -> c_string (z ++ 0 :: post) = Done z.
Proof.
  induction z as [|b z I]; intros post F; [reflexivity|]. inversion F as [|? ? Nz Fz]; subst. cbn [app c_string].
  rewrite (proj2 (N.eqb_neq _ _) Nz), (I post Fz). reflexivity.
Qed.
Lemma c_string_none z : Forall (fun b => b <> 0) z -> c_string z = Aborted.
Proof.
  induction z as [|b z I]; intro F; [reflexivity|]. inversion F as [|? ? Nz Fz]; subst. cbn [c_string].
  rewrite (proj2 (N.eqb_neq _ _) Nz), (I Fz). reflexivity.
Qed.
