(* Shared lemmas and conventions; no part of /repo is modelled here. *)
From Coq Require Export List NArith ZArith Lia Bool.
From Coq Require Export ZifyBool ZifyN ZifyNat.
Export ListNotations.
Global Open Scope N_scope.

#[global] Arguments N.add : simpl never.
#[global] Arguments N.sub : simpl never.
#[global] Arguments N.mul : simpl never.
#[global] Arguments N.pow : simpl never.
#[global] Arguments N.div : simpl never.
#[global] Arguments N.modulo : simpl never.
#[global] Arguments N.eqb : simpl never.
#[global] Arguments N.ltb : simpl never.
#[global] Arguments N.leb : simpl never.
#[global] Arguments N.shiftl : simpl never.
#[global] Arguments N.shiftr : simpl never.
#[global] Arguments N.land : simpl never.
#[global] Arguments N.lor : simpl never.
#[global] Arguments Z.add : simpl never.
#[global] Arguments Z.sub : simpl never.
#[global] Arguments Z.mul : simpl never.
#[global] Arguments Z.pow : simpl never.

(* a byte buffer *)
Notation bytes := (list N).

Definition is_byte (b : N) : Prop := b < 256.

(* lia with division and modulo *)
Ltac dlia := zify; Z.to_euclidean_division_equations; lia.

Lemma land_ones_mod a k : N.land a (2 ^ k - 1) = a mod 2 ^ k.
Proof.
  rewrite <- N.land_ones. f_equal. rewrite N.ones_equiv. lia.
Qed.

Lemma lor_disjoint_add a b : N.land a b = 0 -> N.lor a b = a + b.
Proof.
  intro H. rewrite <- N.lxor_lor by exact H. symmetry. apply N.add_nocarry_lxor. exact H.
Qed.

Lemma testbit_small a k n : a < 2 ^ k -> k <= n -> N.testbit a n = false.
Proof.
  intros Ha Hn. destruct (N.eq_dec a 0) as [->|Hz]; [apply N.bits_0|].
  apply N.bits_above_log2.
  apply N.lt_le_trans with k; [|exact Hn].
  apply N.log2_lt_pow2; lia.
Qed.

Lemma land_shl_small a b k : b < 2 ^ k -> N.land (a * 2 ^ k) b = 0.
Proof.
  intro Hb. apply N.bits_inj_0. intro n. rewrite N.land_spec.
  destruct (N.lt_ge_cases n k) as [H|H].
  - rewrite N.mul_pow2_bits_low by exact H. reflexivity.
  - rewrite (testbit_small b k n Hb H). apply andb_false_r.
Qed.

Lemma lor_shl_add a b k : b < 2 ^ k -> N.lor (a * 2 ^ k) b = a * 2 ^ k + b.
Proof. intro. apply lor_disjoint_add. apply land_shl_small. assumption. Qed.

Lemma shiftl_mul a k : N.shiftl a k = a * 2 ^ k.
Proof. apply N.shiftl_mul_pow2. Qed.

Lemma shiftr_div a k : N.shiftr a k = a / 2 ^ k.
Proof. apply N.shiftr_div_pow2. Qed.

Lemma mod_pow2_split a j k : j <= k ->
  a mod 2 ^ k = (a / 2 ^ j) mod 2 ^ (k - j) * 2 ^ j + a mod 2 ^ j.
Proof.
  intro H.
  replace (2 ^ k) with (2 ^ j * 2 ^ (k - j)).
  2:{ rewrite <- N.pow_add_r. f_equal. lia. }
  rewrite N.mod_mul_r by (apply N.pow_nonzero; lia).
  rewrite N.mul_comm. apply N.add_comm.
Qed.

Lemma pow2_pos k : 0 < 2 ^ k.
Proof. apply N.neq_0_lt_0. apply N.pow_nonzero. lia. Qed.

Lemma div_mul_add a b k : b < 2 ^ k -> (a * 2 ^ k + b) / 2 ^ k = a.
Proof.
  intro H. rewrite N.div_add_l by (pose proof (pow2_pos k); lia).
  rewrite N.div_small by exact H. lia.
Qed.

Lemma mod_mul_add a b k : b < 2 ^ k -> (a * 2 ^ k + b) mod 2 ^ k = b.
Proof.
  intro H. rewrite N.add_comm, N.mod_add by (pose proof (pow2_pos k); lia).
  apply N.mod_small. exact H.
Qed.

Lemma Forall_app_iff {A} (P : A -> Prop) l1 l2 :
  Forall P (l1 ++ l2) <-> Forall P l1 /\ Forall P l2.
Proof. apply Forall_app. Qed.

(* lexicographic comparison of byte strings (memcmp / std::string order) *)
Fixpoint lex_ltb (a b : list N) : bool :=
  match a, b with
  | _, [] => false
  | [], _ :: _ => true
  | x :: a', y :: b' => (x <? y) || ((x =? y) && lex_ltb a' b')
  end.

(* a property of all n below a bound, checked by computation *)
Fixpoint forall_below (n : nat) (f : N -> bool) : bool :=
  match n with
  | O => true
  | S n' => f (N.of_nat n') && forall_below n' f
  end.

Lemma forall_below_spec n f : forall_below n f = true ->
  forall d, d < N.of_nat n -> f d = true.
Proof.
  induction n as [|n IH]; cbn [forall_below]; intros H d Hd; [lia|].
  apply andb_prop in H. destruct H as [H1 H2].
  destruct (N.eq_dec d (N.of_nat n)) as [->|Hne]; [exact H1|].
  apply IH; [exact H2|lia].
Qed.
