(* The iterator heap: its operations keep the heap property and the contents. *)
From Coq Require Import Permutation FinFun.
From Verif Require Import Prelude UuidModel TextModel MergeModel.

Lemma set_at_length : forall X (l : list X) i x, length (set_at l i x) = length l.
Proof.
  intros X l i x. unfold set_at. rewrite app_length.
  pose proof (firstn_length i l). pose proof (skipn_length i l).
  destruct (skipn i l); cbn [length] in *; lia.
Qed.
Lemma set_at_cons : forall X (a : X) l i x, set_at (a :: l) (S i) x = a :: set_at l i x.
Proof. reflexivity. Qed.
Lemma nth_error_set_at : forall X (l : list X) i x j, (i < length l)%nat ->
  nth_error (set_at l i x) j = if Nat.eqb j i then Some x else nth_error l j.
Proof.
  intros X l. induction l as [|a l IH]; intros i x j L; cbn [length] in L; [lia|].
  destruct i as [|i].
  - destruct j; reflexivity.
  - rewrite set_at_cons. destruct j as [|j]; [reflexivity|]. cbn [nth_error Nat.eqb]. apply IH. lia.
Qed.

Definition tr (a b i : nat) : nat := if Nat.eqb i a then b else if Nat.eqb i b then a else i.
Lemma tr_invol : forall a b i, tr a b (tr a b i) = i.
Proof.
  intros a b i. unfold tr.
  destruct (Nat.eqb_spec i a), (Nat.eqb_spec i b); subst;
    repeat match goal with |- context [Nat.eqb ?x ?y] => destruct (Nat.eqb_spec x y) end; lia.
Qed.

Section HeapFacts.
Variable C : Type.
Variable less : C -> C -> bool.
Hypothesis less_asym : forall a b, less a b = true -> less b a = false.
Hypothesis less_trans : forall a b c, less a b = true -> less b c = true -> less a c = true.
Hypothesis le_trans : forall a b c, less b a = false -> less c b = false -> less c a = false.

Notation swap := (MergeModel.swap C).
Notation less_than := (MergeModel.less_than C less).

Lemma swap_nth : forall h a b i, (a < length h)%nat -> (b < length h)%nat ->
  nth_error (swap h a b) i = nth_error h (tr a b i).
Proof.
  intros h a b i A B. unfold MergeModel.swap.
  destruct (nth_error h a) as [x|] eqn:X; [|apply nth_error_None in X; lia].
  destruct (nth_error h b) as [y|] eqn:Y; [|apply nth_error_None in Y; lia].
  rewrite nth_error_set_at by (rewrite set_at_length; exact B).
  rewrite nth_error_set_at by exact A. unfold tr.
  destruct (Nat.eqb_spec i b), (Nat.eqb_spec i a); subst; congruence.
Qed.
Lemma swap_length : forall h a b, length (swap h a b) = length h.
Proof.
  intros h a b. unfold MergeModel.swap.
  destruct (nth_error h a); [|reflexivity]. destruct (nth_error h b); [|reflexivity].
  rewrite !set_at_length. reflexivity.
Qed.
Lemma swap_perm : forall h a b, (a < length h)%nat -> (b < length h)%nat -> Permutation h (swap h a b).
Proof.
  intros h a b A B. apply Permutation_nth_error. split; [symmetry; apply swap_length|].
  exists (tr a b). split.
  - intros x y E. rewrite <- (tr_invol a b x), E. apply tr_invol.
  - intro n. apply swap_nth; assumption.
Qed.
Lemma less_than_swap : forall h a b i j, (a < length h)%nat -> (b < length h)%nat ->
  less_than (swap h a b) i j = less_than h (tr a b i) (tr a b j).
Proof. intros. unfold MergeModel.less_than. rewrite !swap_nth by assumption. reflexivity. Qed.

Lemma lt_asym : forall h i j, less_than h i j = true -> less_than h j i = false.
Proof.
  intros h i j. unfold MergeModel.less_than.
  destruct (nth_error h i), (nth_error h j); try discriminate. apply less_asym.
Qed.
Lemma lt_trans' : forall h i j k, less_than h i j = true -> less_than h j k = true -> less_than h i k = true.
Proof.
  intros h i j k. unfold MergeModel.less_than.
  destruct (nth_error h i), (nth_error h j), (nth_error h k); try discriminate. apply less_trans.
Qed.
Lemma lt_trans_eq : forall h i j k, (j < length h)%nat ->
  less_than h j i = false -> less_than h k j = false -> less_than h k i = false.
Proof.
  intros h i j k L. unfold MergeModel.less_than.
  destruct (nth_error h j) eqn:E; [|apply nth_error_None in E; lia].
  destruct (nth_error h i), (nth_error h k); try reflexivity. apply le_trans.
Qed.
Lemma lt_range : forall h i j, less_than h i j = true -> (i < length h)%nat /\ (j < length h)%nat.
Proof.
  intros h i j. unfold MergeModel.less_than.
  destruct (nth_error h i) eqn:A; [|discriminate]. destruct (nth_error h j) eqn:B; [|discriminate].
  intros _. split; apply nth_error_Some; congruence.
Qed.

Ltac ilia := unfold up, left, right in *; zify; Z.to_euclidean_division_equations; lia.
Lemma up_lt : forall i, (0 < i)%nat -> (up i < i)%nat.
Proof. intros. ilia. Qed.
Lemma up_left : forall i, up (left i) = i.
Proof. intros. ilia. Qed.
Lemma up_right : forall i, up (right i) = i.
Proof. intros. ilia. Qed.
Lemma up_inv : forall i j, (0 < i)%nat -> up i = j -> i = left j \/ i = right j.
Proof. intros. ilia. Qed.
Lemma left_gt : forall i, (i < left i)%nat. Proof. intros. ilia. Qed.
Lemma right_gt : forall i, (left i < right i)%nat. Proof. intros. ilia. Qed.

Definition heap_ok (h : list C) : Prop := forall i, (0 < i)%nat -> less_than h i (up i) = false.

Definition almost_up (h : list C) (idx : nat) : Prop :=
  (forall i, (0 < i)%nat -> i <> idx -> less_than h i (up i) = false) /\
  (forall i, (0 < i)%nat -> (0 < idx)%nat -> up i = idx -> less_than h i (up idx) = false).
Definition almost_down (h : list C) (idx : nat) : Prop :=
  (forall i, (0 < i)%nat -> up i <> idx -> less_than h i (up i) = false) /\
  (forall i, (0 < i)%nat -> (0 < idx)%nat -> up i = idx -> less_than h i (up idx) = false).

Ltac trs := unfold tr; repeat match goal with
  | |- context [Nat.eqb ?x ?y] => destruct (Nat.eqb_spec x y); try (exfalso; lia) end.

Lemma pop_ok : forall fuel h idx, (idx < fuel)%nat -> (idx < length h)%nat -> almost_up h idx ->
  exists h', MergeModel.pop C less fuel h idx = Done h' /\ heap_ok h' /\ Permutation h h'.
Proof.
  induction fuel as [|f IH]; intros h idx F L [A1 A2]; [lia|].
  cbn [MergeModel.pop]. destruct idx as [|k].
  { exists h. split; [reflexivity|]. split; [|apply Permutation_refl].
    intros i I. apply A1; lia. }
  remember (S k) as idx eqn:EI. assert (I0 : (0 < idx)%nat) by lia. clear k EI.
  pose proof (up_lt idx I0) as U. set (u := up idx) in *.
  destruct (less_than h u idx) eqn:E.
  - exists h. split; [reflexivity|]. split; [|apply Permutation_refl].
    intros i I. destruct (Nat.eq_dec i idx) as [->|N]; [apply lt_asym; exact E|apply A1; assumption].
  - assert (A : almost_up (swap h idx u) u).
    { split.
      - intros i I N. rewrite less_than_swap by lia. pose proof (up_lt i I) as UI.
        destruct (Nat.eq_dec i idx) as [->|N2].
        { fold u. trs; exact E. }
        destruct (Nat.eq_dec (up i) idx) as [E2|N3].
        { rewrite E2. trs. apply A2; assumption. }
        destruct (Nat.eq_dec (up i) u) as [E3|N4].
        { rewrite E3. trs.
          apply (lt_trans_eq h idx u i); [lia|exact E|rewrite <- E3; apply A1; assumption]. }
        trs; try congruence. apply A1; assumption.
      - intros i I U0 E2. rewrite less_than_swap by lia. pose proof (up_lt u U0) as UU.
        destruct (Nat.eq_dec i idx) as [->|N2].
        { trs. apply A1; lia. }
        pose proof (up_lt i I) as UI. trs; try congruence.
        apply (lt_trans_eq h (up u) u i); [lia|apply A1; lia|].
        rewrite <- E2. apply A1; assumption. }
    destruct (IH (swap h idx u) u) as [h' [P [Q R]]]; [lia|rewrite swap_length; lia|exact A|].
    exists h'. split; [exact P|]. split; [exact Q|].
    eapply Permutation_trans; [|exact R]. apply swap_perm; lia.
Qed.

Lemma swap_down : forall h idx c o, (c < length h)%nat -> (idx < length h)%nat -> almost_down h idx ->
  (c = left idx /\ o = right idx) \/ (c = right idx /\ o = left idx) ->
  less_than h c idx = true -> less_than h o c = false -> almost_down (swap h c idx) c.
Proof.
  intros h idx c o LC LI [A1 A2] CO E1 E2.
  assert (UC : up c = idx) by (destruct CO as [[-> _]|[-> _]]; [apply up_left|apply up_right]).
  pose proof (left_gt idx) as G1. pose proof (right_gt idx) as G2.
  assert (C0 : (idx < c)%nat) by (destruct CO as [[-> _]|[-> _]]; lia).
  split.
  - intros i I N. rewrite less_than_swap by assumption. pose proof (up_lt i I) as UI.
    destruct (Nat.eq_dec (up i) idx) as [E|N2].
    + destruct (Nat.eq_dec i c) as [->|N3].
      * rewrite UC. trs. apply lt_asym. exact E1.
      * assert (i = o).
        { pose proof (up_inv i idx I E) as V. destruct CO as [[-> ->]|[-> ->]]; destruct V; congruence. }
        subst i. rewrite E. trs. exact E2.
    + destruct (Nat.eq_dec i idx) as [->|N3].
      * trs; try congruence. apply A2; [lia|exact I|exact UC].
      * assert (i <> c) by congruence. trs; try congruence. apply A1; assumption.
  - intros i I C1 E. rewrite less_than_swap by assumption. rewrite UC. pose proof (up_lt i I) as UI.
    trs; try congruence.
    assert (X : less_than h i (up i) = false) by (apply A1; [assumption|congruence]).
    rewrite E in X. exact X.
Qed.

Lemma push_ok : forall fuel h idx, (length h < fuel + idx)%nat -> almost_down h idx ->
  (idx < length h)%nat \/ h = [] /\ idx = O /\ (0 < fuel)%nat ->
  exists h', MergeModel.push C less fuel h idx = Done h' /\ heap_ok h' /\ Permutation h h'.
Proof.
  induction fuel as [|f IH]; intros h idx F A L; [lia|].
  destruct L as [L|[-> [-> _]]].
  2:{ exists []. split; [reflexivity|]. split; [|apply Permutation_refl].
      intros i I. unfold MergeModel.less_than. destruct i; reflexivity. }
  cbn [MergeModel.push]. pose proof (left_gt idx) as G1. pose proof (right_gt idx) as G2.
  set (l := left idx) in *. set (r := right idx) in *. cbv zeta.
  assert (STEP : forall c o, (c = l /\ o = r) \/ (c = r /\ o = l) ->
    less_than h c idx = true -> less_than h o c = false ->
    exists h', MergeModel.push C less f (swap h c idx) c = Done h' /\ heap_ok h' /\ Permutation h h').
  { intros c o CO E1 E2. destruct (lt_range _ _ _ E1) as [R1 R2].
    destruct (IH (swap h c idx) c) as [h' [P [Q R]]].
    - rewrite swap_length. destruct CO as [[-> _]|[-> _]]; lia.
    - apply (swap_down h idx c o); assumption.
    - left. rewrite swap_length. exact R1.
    - exists h'. split; [exact P|]. split; [exact Q|].
      eapply Permutation_trans; [|exact R]. apply swap_perm; assumption. }
  destruct (Nat.ltb r (length h) && less_than h r idx) eqn:B1.
  - apply andb_true_iff in B1. destruct B1 as [B1 B2]. destruct (less_than h l r) eqn:B3.
    + apply (STEP l r); [left; split; reflexivity|eapply lt_trans'; eassumption|apply lt_asym; exact B3].
    + apply (STEP r l); [right; split; reflexivity|exact B2|exact B3].
  - assert (R0 : less_than h r idx = false).
    { apply andb_false_iff in B1. destruct B1 as [B1|B1]; [|exact B1].
      destruct (less_than h r idx) eqn:Z; [|reflexivity].
      apply lt_range in Z. apply Nat.ltb_ge in B1. lia. }
    destruct (Nat.ltb l (length h) && less_than h l idx) eqn:B2.
    + apply andb_true_iff in B2. destruct B2 as [_ B2].
      apply (STEP l r); [left; split; reflexivity|exact B2|].
      destruct (less_than h r l) eqn:Z; [|reflexivity].
      rewrite (lt_trans' h r l idx Z B2) in R0. discriminate.
    + assert (L0 : less_than h l idx = false).
      { apply andb_false_iff in B2. destruct B2 as [B2|B2]; [|exact B2].
        destruct (less_than h l idx) eqn:Z; [|reflexivity].
        apply lt_range in Z. apply Nat.ltb_ge in B2. lia. }
      exists h. split; [reflexivity|]. split; [|apply Permutation_refl].
      destruct A as [A1 A2]. intros i I.
      destruct (Nat.eq_dec (up i) idx) as [E|N]; [|apply A1; assumption].
      rewrite E. destruct (up_inv i idx I E) as [->| ->]; assumption.
Qed.

Lemma heap_root : forall h c x, heap_ok h -> nth_error h 0 = Some c -> In x h -> less x c = false.
Proof.
  intros h c x H E I. apply In_nth_error in I. destruct I as [n N]. revert x N.
  induction n as [n IH] using (well_founded_induction Wf_nat.lt_wf). intros x N.
  destruct n as [|n].
  - rewrite E in N. inversion N; subst x. destruct (less c c) eqn:Z; [|reflexivity].
    rewrite (less_asym _ _ Z) in Z. discriminate Z.
  - assert (P : (0 < S n)%nat) by lia. pose proof (up_lt (S n) P) as U.
    assert (LN : (S n < length h)%nat) by (apply nth_error_Some; congruence).
    destruct (nth_error h (up (S n))) as [y|] eqn:Y; [|apply nth_error_None in Y; lia].
    pose proof (IH _ U y Y) as I1. pose proof (H (S n) P) as I2.
    unfold MergeModel.less_than in I2. rewrite N, Y in I2. eapply le_trans; eassumption.
Qed.

Lemma heap_cons_down : forall c c' t, heap_ok (c :: t) -> almost_down (c' :: t) 0.
Proof.
  intros c c' t H. split; [|intros; lia].
  intros i I N. pose proof (H i I) as X. revert X. unfold MergeModel.less_than.
  destruct i as [|i]; [lia|]. destruct (up (S i)) as [|j] eqn:E; [congruence|]. cbn [nth_error]. auto.
Qed.

Lemma heap_removelast : forall h c, heap_ok (h ++ [c]) -> heap_ok h.
Proof.
  intros h c H i I. pose proof (H i I) as X. revert X. unfold MergeModel.less_than.
  pose proof (up_lt i I) as U.
  destruct (Nat.ltb_spec i (length h)) as [L|L].
  - rewrite !nth_error_app1 by lia. auto.
  - intros _. replace (nth_error h i) with (@None C) by (symmetry; apply nth_error_None; lia). reflexivity.
Qed.

Lemma heap_snoc_up : forall h c, heap_ok h -> almost_up (h ++ [c]) (length h).
Proof.
  intros h c H. split.
  - intros i I N. pose proof (up_lt i I) as U. pose proof (H i I) as X. revert X. unfold MergeModel.less_than.
    destruct (Nat.ltb_spec i (length h)) as [L|L].
    + rewrite !nth_error_app1 by lia. auto.
    + intros _. replace (nth_error (h ++ [c]) i) with (@None C); [reflexivity|].
      symmetry. apply nth_error_None. rewrite app_length. cbn [length]. lia.
  - intros i I L E. pose proof (up_lt i I) as U. unfold MergeModel.less_than.
    replace (nth_error (h ++ [c]) i) with (@None C); [reflexivity|].
    symmetry. apply nth_error_None. rewrite app_length. cbn [length]. lia.
Qed.

(* removing the root: the last entry goes to the front *)
Lemma eject_ok : forall c t, heap_ok (c :: t) ->
  exists h', MergeModel.eject C less (c :: t) = Done h' /\ heap_ok h' /\ Permutation t h'.
Proof.
  intros c t H. unfold MergeModel.eject. destruct (rev (c :: t)) as [|b r] eqn:E.
  { apply (f_equal (@length C)) in E. rewrite rev_length in E. discriminate. }
  cbv zeta. unfold set_at. cbn [firstn skipn app].
  assert (X : c :: t = rev r ++ [b]).
  { rewrite <- (rev_involutive (c :: t)), E. reflexivity. }
  destruct (rev r) as [|d s] eqn:ER.
  - cbn [app] in X. injection X as -> ->. exists []. split; [reflexivity|].
    split; [|constructor]. intros i I. unfold MergeModel.less_than. destruct i; reflexivity.
  - cbn [app] in X. injection X as -> ->.
    assert (RL : removelast (b :: s ++ [b]) = b :: s).
    { change (b :: s ++ [b]) with ((b :: s) ++ [b]). apply removelast_last. }
    rewrite RL.
    destruct (push_ok (S (length (b :: s))) (b :: s) 0) as [h' [P [Q R]]].
    + lia.
    + apply (heap_cons_down d). apply (heap_removelast (d :: s) b). exact H.
    + left. cbn [length]. lia.
    + exists h'. split; [exact P|]. split; [exact Q|].
      eapply Permutation_trans; [|exact R]. apply Permutation_sym. apply Permutation_cons_append.
Qed.

Lemma add_ok : forall (cvalid : C -> bool) h c, heap_ok h -> cvalid c = true ->
  exists h', MergeModel.add C cvalid less h c = Done h' /\ heap_ok h' /\ Permutation (c :: h) h'.
Proof.
  intros cvalid h c H V. unfold MergeModel.add. rewrite V.
  destruct (pop_ok (S (length h)) (h ++ [c]) (length h)) as [h' [P [Q R]]].
  - lia.
  - rewrite app_length. cbn [length]. lia.
  - apply heap_snoc_up. exact H.
  - exists h'. split; [exact P|]. split; [exact Q|].
    eapply Permutation_trans; [|exact R]. apply Permutation_cons_append.
Qed.
End HeapFacts.
