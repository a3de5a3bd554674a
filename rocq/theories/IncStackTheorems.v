(* C35: the span-compressed stack is a plain stack. *)
From Verif Require Import Prelude UuidModel UuidProofs IncStackModel.

(* specification: a vector, as a list from bottom to top *)
Definition vrun {V : Type} (ops : list (stack_op V)) : option (list V) :=
  fold_left (fun s o => match s with
                        | None => None
                        | Some l => match o with SPush v => Some (l ++ [v]) | SPop => match l with [] => None | _ => Some (removelast l) end end
                        end) ops (Some []).

Section Stack.
Variable V : Type.
Variable add : V -> N -> V.
Variable eqb : V -> V -> bool.
Hypothesis eqb_eq : forall a b, eqb a b = true <-> a = b.
Variable ok : V -> Prop.
Hypothesis add_0 : forall v, ok v -> add v 0 = v.
Notation spush := (spush V add eqb).
Notation spop := (spop V).

Definition elems (s : span V) : list V := map (fun k => add (fst s) (N.of_nat k)) (seq 0 (N.to_nat (snd s))).
Definition contents (l : list (span V)) : list V := flat_map elems (rev l).
Definition span_ok (s : span V) : Prop := 1 <= snd s < 2 ^ 32.
Definition good (s : inc_stack V) (l : list V) : Prop :=
  contents (spans s) = l /\ Forall span_ok (spans s) /\ ssize s = N.of_nat (length l) /\ N.of_nat (length l) < 2 ^ 32.

Lemma elems_snoc v n : elems (v, n + 1) = elems (v, n) ++ [add v n].
Proof.
  unfold elems. cbn [fst snd]. replace (N.to_nat (n + 1)) with (S (N.to_nat n)) by lia.
  rewrite seq_S, map_app. cbn [map]. rewrite Nat.add_0_l, N2Nat.id. reflexivity.
Qed.
Lemma elems_len s : length (elems s) = N.to_nat (snd s).
Proof. unfold elems. rewrite map_length, seq_length. reflexivity. Qed.
Lemma elems_one v : ok v -> elems (v, 1) = [v].
Proof. intro H. unfold elems. change (N.to_nat (snd (v, 1))) with 1%nat. cbn [seq map fst]. change (N.of_nat 0) with 0. rewrite add_0 by exact H. reflexivity. Qed.
Lemma contents_cons s l : contents (s :: l) = contents l ++ elems s.
Proof. unfold contents. cbn [rev]. rewrite flat_map_app. cbn [flat_map]. rewrite app_nil_r. reflexivity. Qed.
Lemma w32_small n : n < 2 ^ 32 -> w32 n = n.
Proof. intro H. unfold w32. apply N.mod_small. exact H. Qed.
Lemma w32_pred n : 1 <= n < 2 ^ 32 -> w32 (n + 2 ^ 32 - 1) = n - 1.
Proof.
  intro H. unfold w32. replace (n + 2 ^ 32 - 1) with ((n - 1) + 1 * 2 ^ 32) by lia.
  rewrite N.mod_add by discriminate. apply N.mod_small. lia.
Qed.

Lemma push_good s l v : ok v -> good s l -> N.of_nat (length l) + 1 < 2 ^ 32 -> good (spush v s) (l ++ [v]).
Proof.
  intros OK (A & B & D & E) L. unfold good, IncStackModel.spush. cbn [spans ssize]. rewrite app_length. cbn [length].
  assert (S1 : w32 (ssize s + 1) = N.of_nat (length l + 1)) by (rewrite w32_small; lia).
  split; [|split; [|split; [exact S1|lia]]].
  - destruct (spans s) as [|[w n] r]; [rewrite <- A; unfold contents; cbn [rev app flat_map]; rewrite elems_one by exact OK; reflexivity|].
    inversion B as [|? ? B1 B2]; subst. cbn [span_ok snd] in B1. unfold span_ok in B1. cbn [snd] in B1.
    destruct (eqb (add w n) v) eqn:Q.
    + apply eqb_eq in Q. rewrite contents_cons in L, E |- *. rewrite app_length, elems_len in L. cbn [snd] in L.
      rewrite w32_small by lia. rewrite (contents_cons (w, n)), elems_snoc, Q, app_assoc. reflexivity.
    + rewrite (contents_cons (v, 1)), elems_one by exact OK. reflexivity.
  - destruct (spans s) as [|[w n] r]; [repeat constructor; unfold span_ok; cbn; lia|].
    inversion B as [|? ? B1 B2]; subst. unfold span_ok in B1. cbn [snd] in B1.
    rewrite contents_cons, app_length, elems_len in L. cbn [snd] in L.
    destruct (eqb (add w n) v); constructor; try assumption.
    + unfold span_ok. cbn [snd]. rewrite w32_small; lia.
    + unfold span_ok. cbn [snd]. lia.
Qed.

Lemma pop_good s l : good s l -> l <> [] -> exists s', spop s = Some s' /\ good s' (removelast l).
Proof.
  intros (A & B & D & E) N0. unfold IncStackModel.spop, sempty.
  assert (L1 : (1 <= length l)%nat) by (destruct l; [congruence|cbn; lia]).
  replace (ssize s =? 0) with false by lia.
  assert (RL : length (removelast l) = (length l - 1)%nat).
  { clear - N0. induction l as [|x l IH]; [congruence|]. destruct l as [|y l]; [reflexivity|].
    change (removelast (x :: y :: l)) with (x :: removelast (y :: l)). cbn [length] in *. rewrite IH by discriminate. lia. }
  destruct (spans s) as [|[w n] r] eqn:SP; [exfalso; apply N0; rewrite <- A; reflexivity|].
  inversion B as [|? ? B1 B2]; subst. unfold span_ok in B1. cbn [snd] in B1.
  eexists. split; [reflexivity|]. unfold good. cbn [spans ssize].
  assert (CN : contents ((w, n) :: r) = contents r ++ elems (w, n - 1) ++ [add w (n - 1)]).
  { rewrite contents_cons. rewrite <- elems_snoc. replace (n - 1 + 1) with n by lia. reflexivity. }
  assert (RC : removelast (contents ((w, n) :: r)) = contents r ++ elems (w, n - 1)).
  { rewrite CN, app_assoc. apply removelast_last. }
  rewrite RL. split; [etransitivity; [|symmetry; exact RC]|split; [|split; [rewrite D, w32_pred; lia|lia]]].
  - destruct (n =? 1) eqn:Q.
    + apply N.eqb_eq in Q. subst n. cbn [N.sub Pos.sub]. unfold elems at 1. cbn [snd fst N.to_nat seq map]. rewrite app_nil_r. reflexivity.
    + rewrite w32_pred by lia. rewrite contents_cons. reflexivity.
  - destruct (n =? 1) eqn:Q; [exact B2|]. constructor; [|exact B2]. unfold span_ok. cbn [snd]. rewrite w32_pred by lia. lia.
Qed.

(* the elements an iterator has still to visit *)
Definition remaining (i : iter V) : list V :=
  match irest i with [] => [] | s :: r => skipn (N.to_nat (ioff i)) (elems s) ++ flat_map elems r end.
Definition iter_ok (i : iter V) : Prop :=
  match irest i with [] => ioff i = 0 | s :: r => ioff i < snd s /\ Forall span_ok (irest i) end.

Lemma skipn_elems v n k : (k < N.to_nat n)%nat ->
  skipn k (elems (v, n)) = add v (N.of_nat k) :: skipn (S k) (elems (v, n)).
Proof.
  unfold elems. cbn [fst snd]. set (f := fun k => add v (N.of_nat k)). intro H.
  assert (G : forall m a, (k < m)%nat -> skipn k (map f (seq a m)) = f (a + k)%nat :: skipn (S k) (map f (seq a m))).
  { clear. revert k. induction k as [|k IH]; intros m a H.
    - destruct m; [lia|]. cbn [seq map skipn]. rewrite Nat.add_0_r. reflexivity.
    - destruct m; [lia|]. cbn [seq map]. change (skipn (S k) (f a :: map f (seq (S a) m))) with (skipn k (map f (seq (S a) m))).
      rewrite IH by lia. f_equal. f_equal. lia. }
  rewrite G by exact H. reflexivity.
Qed.
Lemma iter_step i : iter_ok i ->
  match remaining i with
  | [] => irest i = []
  | v :: l => irest i <> [] /\ ideref V add i = Some v /\ exists j, iinc V i = Some j /\ iter_ok j /\ remaining j = l
  end.
Proof.
  destruct i as [[|[v n] r] off]; unfold iter_ok, remaining; cbn [irest ioff snd]; intro H; [reflexivity|].
  destruct H as [H F]. inversion F as [|? ? F1 F2]; subst. unfold span_ok in F1. cbn [snd] in F1.
  rewrite skipn_elems by lia. cbn [app]. rewrite N2Nat.id. split; [discriminate|]. split; [reflexivity|].
  unfold iinc. cbn [irest ioff]. rewrite w32_small by lia. destruct (off + 1 =? n) eqn:Q; (eexists; split; [reflexivity|]).
  - cbn [irest ioff]. split; [destruct r as [|[w m] r]; [reflexivity|]; inversion F2 as [|? ? F3 F4]; subst; unfold span_ok in F3; cbn [snd] in F3 |- *; split; [lia|exact F2]|].
    rewrite (skipn_all2 (elems (v, n))) by (rewrite elems_len; cbn [snd]; lia). destruct r as [|s r]; reflexivity.
  - cbn [irest ioff snd]. split; [split; [lia|exact F]|]. replace (N.to_nat (off + 1)) with (S (N.to_nat off)) by lia. reflexivity.
Qed.
Lemma iread_all : forall fuel i, iter_ok i -> (length (remaining i) <= fuel)%nat -> iread V add fuel i = Some (remaining i).
Proof.
  induction fuel as [|fuel IH]; intros i H L; pose proof (iter_step i H) as K; destruct (remaining i) as [|v l] eqn:R; cbn [length] in L; try lia.
  - unfold iread. rewrite K. reflexivity.
  - cbn [iread]. rewrite K. reflexivity.
  - destruct K as (K & D & j & I & J & M). cbn [iread]. destruct (irest i) eqn:IR; [congruence|]. rewrite D, I, IH; [rewrite M; reflexivity|exact J|rewrite M; lia].
Qed.
Lemma begin_ok s l : good s l -> iter_ok (sbegin V s) /\ remaining (sbegin V s) = l.
Proof.
  intros (A & B & _). unfold sbegin, iter_ok, remaining. cbn [irest ioff]. unfold contents in A.
  assert (F : Forall span_ok (rev (spans s))) by (apply Forall_rev; exact B).
  destruct (rev (spans s)) as [|x r]; [split; [reflexivity|exact A]|].
  inversion F as [|? ? F1 F2]; subst. unfold span_ok in F1. split; [split; [lia|exact F]|]. exact A || (cbn [flat_map] in A; exact A) || reflexivity.
Qed.
Lemma skip_ok i max : iter_ok i -> 1 <= max < 2 ^ 32 -> ioff i + max < 2 ^ 32 -> remaining i <> [] ->
  exists k j v, iskip V max i = Some (k, j) /\ 1 <= k <= max /\ iter_ok j /\
    remaining i = map (fun d => add v (ioff i + N.of_nat d)) (seq 0 (N.to_nat k)) ++ remaining j /\
    (k < max -> ioff j = 0 \/ irest j = []).
Proof.
  destruct i as [[|[v n] r] off]; unfold iter_ok, remaining at 1 2; cbn [irest ioff snd]; intros H M1 M2 NE; [congruence|].
  destruct H as [H F]. inversion F as [|? ? F1 F2]; subst. unfold span_ok in F1. cbn [snd] in F1.
  assert (G : forall k, off + k <= n ->
    skipn (N.to_nat off) (elems (v, n)) = map (fun d => add v (off + N.of_nat d)) (seq 0 (N.to_nat k)) ++ skipn (N.to_nat (off + k)) (elems (v, n))).
  { induction k as [|k IH] using N.peano_ind; intro L; [cbn [N.to_nat seq map app]; rewrite N.add_0_r; reflexivity|].
    rewrite IH by lia. rewrite N2Nat.inj_succ, seq_S, map_app, <- app_assoc. f_equal. cbn [map app Nat.add].
    rewrite skipn_elems by lia. rewrite !N2Nat.id. f_equal. replace (N.to_nat (off + N.succ k)) with (S (N.to_nat (off + k))) by lia. reflexivity. }
  unfold iskip. cbn [irest ioff]. rewrite w32_small by lia. destruct (off + max <? n) eqn:Q.
  - exists max, (mkIter ((v, n) :: r) (off + max)), v. split; [reflexivity|]. split; [lia|]. cbn [irest ioff snd]. split; [split; [lia|exact F]|].
    split; [rewrite (G max) by lia; rewrite <- app_assoc; reflexivity|lia].
  - assert (W : w32 (n + 2 ^ 32 - off) = n - off).
    { unfold w32. replace (n + 2 ^ 32 - off) with ((n - off) + 1 * 2 ^ 32) by lia. rewrite N.mod_add by discriminate. apply N.mod_small. lia. }
    rewrite W. exists (n - off), (mkIter r 0), v. split; [reflexivity|]. split; [lia|]. cbn [irest ioff].
    split; [destruct r as [|[w m] r]; [reflexivity|]; inversion F2 as [|? ? F3 F4]; subst; unfold span_ok in F3; cbn [snd] in F3 |- *; split; [lia|exact F2]|].
    split; [|left; reflexivity]. rewrite (G (n - off)) by lia. rewrite <- app_assoc. f_equal.
    rewrite skipn_all2 by (rewrite elems_len; cbn [snd]; lia). unfold remaining. cbn [irest ioff]. destruct r; reflexivity.
Qed.

Definition pushes (ops : list (stack_op V)) : list V :=
  flat_map (fun o => match o with SPush v => [v] | SPop => [] end) ops.

Lemma run_good : forall ops s l, good s l -> Forall ok (pushes ops) -> N.of_nat (length l + length (pushes ops)) < 2 ^ 32 ->
  let step1 := fun s o => match s with None => None | Some s => match o with SPush v => Some (spush v s) | SPop => spop s end end in
  let step2 := fun s (o : stack_op V) => match s with None => None | Some l => match o with SPush v => Some (l ++ [v]) | SPop => match l with [] => None | _ => Some (removelast l) end end end in
  match fold_left step2 ops (Some l) with
  | None => fold_left step1 ops (Some s) = None
  | Some l' => exists s', fold_left step1 ops (Some s) = Some s' /\ good s' l'
  end.
Proof.
  assert (N1 : forall ops, fold_left (fun s (o : stack_op V) => match s with None => None | Some s => match o with SPush v => Some (spush v s) | SPop => spop s end end) ops None = None)
    by (induction ops as [|o ops IH]; [reflexivity|exact IH]).
  assert (N2 : forall ops, fold_left (fun s (o : stack_op V) => match s with None => None | Some l => match o with SPush v => Some (l ++ [v]) | SPop => match l with [] => None | _ => Some (removelast l) end end end) ops None = None)
    by (induction ops as [|o ops IH]; [reflexivity|exact IH]).
  cbv zeta. induction ops as [|o ops IH]; intros s l G F L; [exists s; split; [reflexivity|exact G]|].
  destruct o as [v|]; cbn [fold_left].
  - cbn [pushes flat_map app] in F, L. inversion F as [|? ? F1 F2]; subst.
    apply IH; [apply push_good; [exact F1|exact G|cbn [length] in L; lia]|exact F2|rewrite app_length; cbn [length] in *; unfold pushes in *; lia].
  - cbn [pushes flat_map app] in F, L. destruct l as [|x l].
    + rewrite N2. destruct G as (_ & _ & D & _). unfold IncStackModel.spop, sempty. rewrite D. cbn [length N.of_nat N.eqb]. apply N1.
    + destruct (pop_good s (x :: l) G ltac:(discriminate)) as (s' & P & G'). rewrite P. apply IH; [exact G'|exact F|].
      assert (RL : (length (removelast (x :: l)) <= length (x :: l))%nat).
      { clear. revert x. induction l as [|y l IH]; intro x; [cbn; lia|].
        change (removelast (x :: y :: l)) with (x :: removelast (y :: l)). cbn [length] in *. specialize (IH y). lia. }
      unfold pushes in *. lia.
Qed.

Lemma back_good s l d : good s l -> l <> [] -> sback V add s = Some (last l d) /\ sfront V s <> None.
Proof.
  intros (A & B & _) NE. unfold sback, sfront. destruct (spans s) as [|[w n] r]; [exfalso; apply NE; rewrite <- A; reflexivity|].
  inversion B as [|? ? B1 B2]; subst. unfold span_ok in B1. cbn [snd] in B1. rewrite contents_cons.
  split; [|cbn [rev]; destruct (rev r) as [|[? ?] ?]; discriminate].
  rewrite w32_pred by lia. replace n with (n - 1 + 1) at 2 by lia. rewrite elems_snoc, app_assoc, last_last. reflexivity.
Qed.
Lemma run_vals : forall ops s, Forall ok (pushes ops) -> Forall (fun x : span V => ok (fst x)) (spans s) ->
  forall s', fold_left (fun s (o : stack_op V) => match s with None => None | Some s => match o with SPush v => Some (spush v s) | SPop => spop s end end) ops (Some s) = Some s' ->
  Forall (fun x : span V => ok (fst x)) (spans s').
Proof.
  assert (N1 : forall ops, fold_left (fun s (o : stack_op V) => match s with None => None | Some s => match o with SPush v => Some (spush v s) | SPop => spop s end end) ops None = None)
    by (induction ops as [|o ops IH]; [reflexivity|exact IH]).
  induction ops as [|o ops IH]; intros s F G s' R; [injection R as <-; exact G|].
  destruct o as [v|]; cbn [fold_left] in R.
  - cbn [pushes flat_map app] in F. inversion F as [|? ? F1 F2]; subst. refine (IH _ F2 _ _ R).
    unfold IncStackModel.spush. cbn [spans]. destruct (spans s) as [|[w n] r]; [repeat constructor; exact F1|].
    inversion G as [|? ? G1 G2]; subst. destruct (eqb (add w n) v); repeat constructor; try assumption.
  - destruct (spop s) as [t|] eqn:P; [|rewrite N1 in R; discriminate]. refine (IH _ F _ _ R).
    unfold IncStackModel.spop in P. destruct (sempty V s); [discriminate|]. destruct (spans s) as [|[w n] r]; [discriminate|]. injection P as <-. cbn [spans].
    inversion G as [|? ? G1 G2]; subst. destruct (n =? 1); [exact G2|constructor; assumption].
Qed.
Lemma front_good s l v r : good s l -> Forall (fun x : span V => ok (fst x)) (spans s) -> l = v :: r -> sfront V s = Some v.
Proof.
  intros (A & B & _) F E. unfold sfront. unfold contents in A. apply Forall_rev in B. apply Forall_rev in F.
  destruct (rev (spans s)) as [|[w n] q]; [cbn in A; congruence|]. apply Forall_inv in B. apply Forall_inv in F. subst l.
  unfold span_ok in B. cbn [fst snd flat_map] in *. pose proof (skipn_elems w n 0 ltac:(lia)) as S0. change (skipn 0 (elems (w, n))) with (elems (w, n)) in S0.
  rewrite S0 in E. cbn [app] in E. injection E as E1 E2. change (N.of_nat 0) with 0 in E1. rewrite add_0 in E1 by exact F. congruence.
Qed.
(* walking a stack in runs: ideref then skip_span(max) until end() *)
Fixpoint iruns (fuel : nat) (max : N) (i : iter V) : option (list (V * N)) :=
  match irest i with
  | [] => Some []
  | _ => match fuel with
         | O => None
         | S f => match ideref V add i, iskip V max i with
                  | Some v, Some (k, j) => option_map (cons (v, k)) (iruns f max j)
                  | _, _ => None
                  end
         end
  end.
Definition add_add : Prop := forall v a b, add (add v a) b = add v (a + b).
Lemma iruns_all max : add_add -> 1 <= max < 2 ^ 31 -> forall fuel i, iter_ok i -> ioff i < 2 ^ 31 ->
  N.of_nat (length (remaining i)) < 2 ^ 31 -> (length (remaining i) <= fuel)%nat ->
  Forall (fun x : span V => snd x < 2 ^ 31) (irest i) ->
  exists rs, iruns fuel max i = Some rs /\ flat_map elems rs = remaining i /\ Forall (fun x => 1 <= snd x <= max) rs.
Proof.
  intros AA M. induction fuel as [|fuel IH]; intros i H O L1 L W.
  - pose proof (iter_step i H) as K. destruct (remaining i) as [|v l] eqn:R; [|cbn [length] in L; lia].
    exists []. unfold iruns. rewrite K. repeat split; constructor.
  - destruct (remaining i) as [|v l] eqn:R.
    { pose proof (iter_step i H) as K. rewrite R in K. exists []. cbn [iruns]. rewrite K. repeat split; constructor. }
    destruct (skip_ok i max H ltac:(lia) ltac:(lia) ltac:(rewrite R; discriminate)) as (k & j & w & S1 & S2 & S3 & S4 & S5).
    pose proof (iter_step i H) as K. rewrite R in K. destruct K as (K & D & _).
    assert (RJ : (length l + 1 = N.to_nat k + length (remaining j))%nat).
    { rewrite R in S4. apply (f_equal (@length V)) in S4. rewrite app_length, map_length, seq_length in S4. cbn [length] in S4. lia. }
    assert (WJ : Forall (fun x : span V => snd x < 2 ^ 31) (irest j) /\ ioff j < 2 ^ 31).
    { unfold iskip in S1. destruct (irest i) as [|[x n] q] eqn:IR; [discriminate|]. inversion W as [|? ? W1 W2]; subst. cbn [snd] in W1.
      rewrite w32_small in S1 by lia. destruct (ioff i + max <? n) eqn:Q; injection S1 as <- <-; cbn [irest ioff]; (split; [assumption|lia]). }
    destruct (IH j S3 (proj2 WJ) ltac:(cbn [length] in L1; lia) ltac:(cbn [length] in L; lia) (proj1 WJ)) as (rs & R1 & R2 & R3).
    exists ((v, k) :: rs). cbn [iruns]. destruct (irest i) as [|x q] eqn:IR; [congruence|]. rewrite D, S1, R1. split; [reflexivity|].
    split; [|constructor; [cbn [snd]; lia|exact R3]]. cbn [flat_map]. rewrite R2.
    rewrite <- R, S4. f_equal. unfold elems. cbn [fst snd]. apply map_ext. intro d.
    assert (V0 : v = add w (ioff i)).
    { rewrite R in S4. assert (K1 : exists k', N.to_nat k = S k') by (exists (N.to_nat k - 1)%nat; lia). destruct K1 as [k' K1]. rewrite K1 in S4.
      cbn [seq map app] in S4. injection S4 as V0 _. rewrite N.add_0_r in V0. exact V0. }
    rewrite V0, AA. reflexivity.
Qed.

(* every stack reachable by pushes and pops agrees with the vector *)
Theorem stack_refines ops :
  Forall ok (pushes ops) -> N.of_nat (length (pushes ops)) < 2 ^ 32 ->
  match vrun ops with
  | None => srun V add eqb ops = None
  | Some l => exists s, srun V add eqb ops = Some s /\
      ssize s = N.of_nat (length l) /\ (sempty V s = true <-> l = []) /\
      (forall v r, l = v :: r -> sfront V s = Some v) /\
      (forall v r, l = r ++ [v] -> sback V add s = Some v) /\
      (forall fuel, (length l <= fuel)%nat -> iread V add fuel (sbegin V s) = Some l) /\
      (add_add -> N.of_nat (length l) < 2 ^ 31 -> forall fuel max, 1 <= max < 2 ^ 31 -> (length l <= fuel)%nat ->
        exists rs, iruns fuel max (sbegin V s) = Some rs /\ Forall (fun x => 1 <= snd x <= max) rs /\
          flat_map (fun x => map (fun d => add (fst x) (N.of_nat d)) (seq 0 (N.to_nat (snd x)))) rs = l)
  end.
Proof.
  intros F L. assert (G0 : good stack0 []) by (unfold good; cbn; repeat split; try constructor; reflexivity).
  pose proof (run_good ops stack0 [] G0 F L) as R. cbv zeta in R. unfold vrun, srun. destruct (fold_left _ ops (Some [])) as [l|]; [|exact R].
  destruct R as (s & R & G). pose proof (run_vals ops stack0 F ltac:(constructor) s R) as VS.
  exists s. split; [exact R|]. pose proof G as (A & B & D & E). split; [exact D|]. split.
  { unfold sempty. rewrite D. destruct l; cbn [length]; split; intro H; try reflexivity; try discriminate; lia. }
  split; [intros v r Q; apply (front_good s l v r G VS Q)|].
  split; [intros v r Q; destruct (back_good s l v G ltac:(rewrite Q; intro X; symmetry in X; exact (app_cons_not_nil _ _ _ X))) as [K _]; rewrite K, Q, last_last; reflexivity|].
  destruct (begin_ok s l G) as [I M]. split; [intros fuel FL; rewrite iread_all; [rewrite M; reflexivity|exact I|rewrite M; exact FL]|].
  intros AA L2 fuel max MX FL.
  assert (SM : Forall (fun x : span V => snd x < 2 ^ 31) (irest (sbegin V s))).
  { unfold sbegin. cbn [irest]. unfold contents in A. rewrite <- A in L2. revert L2. clear. induction (rev (spans s)) as [|x q IH]; intro H; constructor.
    - cbn [flat_map] in H. rewrite app_length, elems_len in H. lia.
    - apply IH. cbn [flat_map] in H. rewrite app_length in H. lia. }
  destruct (iruns_all max AA MX fuel (sbegin V s) I ltac:(cbn; lia) ltac:(rewrite M; exact L2) ltac:(rewrite M; exact FL) SM) as (rs & R1 & R2 & R3).
  exists rs. split; [exact R1|]. split; [exact R3|]. rewrite <- M, <- R2. reflexivity.
Qed.

(* between two runs: the value after the last one before is another *)
Definition run_ends (a b : list V) : Prop :=
  match rev a, b with x :: _, y :: _ => add x 1 <> y | _, _ => True end.
Lemma elems_split v n (a b rest : list V) : (0 < length a)%nat -> (length a < N.to_nat n)%nat -> add_add -> elems (v, n) ++ rest = a ++ b -> ~ run_ends a b.
Proof.
  intros A0 A1 AA E R. destruct (rev a) as [|x a'] eqn:RA; [apply (f_equal (@length V)) in RA; rewrite rev_length in RA; cbn [length] in RA; lia|].
  assert (EA : a = rev a' ++ [x]) by (rewrite <- (rev_involutive a), RA; reflexivity).
  assert (G : skipn (length a) (elems (v, n) ++ rest) = b) by (rewrite E, skipn_app, skipn_all, Nat.sub_diag; reflexivity).
  assert (G2 : skipn (length (rev a')) (elems (v, n) ++ rest) = x :: b) by (rewrite E, EA, <- app_assoc, skipn_app, skipn_all, Nat.sub_diag; reflexivity).
  assert (LA : length a = S (length (rev a'))) by (rewrite EA, app_length; cbn [length]; lia).
  rewrite skipn_app, skipn_elems in G, G2 by lia. cbn [app] in G, G2. injection G2 as X _. unfold run_ends in R. rewrite RA in R. rewrite <- G in R.
  apply R. rewrite <- X, AA, LA. f_equal. lia.
Qed.
Lemma advance_runs : add_add -> forall rs fuel a b, Forall span_ok rs -> flat_map elems rs = a ++ b -> run_ends a b -> (length a <= fuel)%nat ->
  exists r1 r2, rs = r1 ++ r2 /\ flat_map elems r2 = b /\ iadvance V fuel (N.of_nat (length a)) (mkIter rs 0) = Some (mkIter r2 0).
Proof.
  intro AA. induction rs as [|[v k] rs IH]; intros fuel a b F E R L.
  { cbn [flat_map] in E. symmetry in E. apply app_eq_nil in E as [-> ->]. exists [], []. repeat split. destruct fuel; reflexivity. }
  destruct a as [|x a]; [exists [], ((v, k) :: rs); repeat split; [exact E|destruct fuel; reflexivity]|].
  pose proof (Forall_inv F) as F1. unfold span_ok in F1. cbn [snd] in F1. cbn [flat_map] in E.
  destruct (Nat.lt_ge_cases (length (x :: a)) (N.to_nat k)) as [Q|Q].
  { exfalso. exact (elems_split v k (x :: a) b _ ltac:(cbn [length]; lia) Q AA E R). }
  assert (SP : exists a', x :: a = elems (v, k) ++ a').
  { exists (skipn (N.to_nat k) (x :: a)). rewrite <- (firstn_skipn (N.to_nat k) (x :: a)) at 1. f_equal.
    apply (f_equal (firstn (N.to_nat k))) in E. rewrite !firstn_app in E. rewrite elems_len in E. cbn [snd] in E. rewrite Nat.sub_diag in E.
    replace (N.to_nat k - length (x :: a))%nat with 0%nat in E by lia. cbn [firstn] in E. rewrite !app_nil_r in E.
    rewrite <- E. rewrite firstn_all2; [reflexivity|]. rewrite elems_len. cbn [snd]. lia. }
  destruct SP as [a' SP]. assert (LA : length (x :: a) = (N.to_nat k + length a')%nat) by (rewrite SP, app_length, elems_len; reflexivity).
  rewrite SP, <- app_assoc in E. apply app_inv_head in E.
  assert (R' : run_ends a' b).
  { unfold run_ends in *. rewrite SP, rev_app_distr in R. destruct (rev a'); [exact I|exact R]. }
  destruct fuel as [|fuel]; [cbn [length] in L; lia|].
  destruct (IH fuel a' b (Forall_inv_tail F) E R' ltac:(lia)) as (r1 & r2 & -> & B & G).
  exists ((v, k) :: r1), r2. split; [reflexivity|]. split; [exact B|]. cbn [iadvance irest ioff].
  replace (N.of_nat (length (x :: a)) =? 0) with false by (cbn [length]; lia). replace (k <=? N.of_nat (length (x :: a))) with true by lia.
  replace (N.of_nat (length (x :: a)) - k) with (N.of_nat (length a')) by lia. exact G.
Qed.
(* += moves by n elements from the beginning when that lands between two runs *)
Theorem stack_advance ops a b fuel : add_add ->
  Forall ok (pushes ops) -> N.of_nat (length (pushes ops)) < 2 ^ 32 -> vrun ops = Some (a ++ b) -> run_ends a b -> (length (a ++ b) <= fuel)%nat ->
  exists s j, srun V add eqb ops = Some s /\ iadvance V fuel (N.of_nat (length a)) (sbegin V s) = Some j /\ iread V add fuel j = Some b.
Proof.
  intros AA F L VR R LF. assert (G0 : good stack0 []) by (unfold good; cbn; repeat split; try constructor; reflexivity).
  pose proof (run_good ops stack0 [] G0 F L) as K. cbv zeta in K. unfold vrun in VR. rewrite VR in K. destruct K as (s & K & (A & B & _)). unfold contents in A.
  apply Forall_rev in B. rewrite app_length in LF.
  destruct (advance_runs AA (rev (spans s)) fuel a b B A R ltac:(lia)) as (r1 & r2 & E & EB & G).
  exists s, (mkIter r2 0). split; [exact K|]. split; [exact G|]. rewrite E in B. apply Forall_app in B as [_ B].
  assert (IO : iter_ok (mkIter r2 0)).
  { unfold iter_ok. cbn [irest ioff]. destruct r2 as [|y r2]; [reflexivity|]. split; [|exact B]. pose proof (Forall_inv B) as B1. unfold span_ok in B1. lia. }
  assert (RE : remaining (mkIter r2 0) = b) by (rewrite <- EB; unfold remaining; cbn [irest ioff]; destruct r2; reflexivity).
  rewrite iread_all; [rewrite RE; reflexivity|exact IO|rewrite RE; lia].
Qed.
End Stack.

(* the two uses of the template, ron/uuid.hpp:244 and fsize_t *)
Definition u32_add (v n : N) : N := (v + n) mod 2 ^ 32.

(* C35 *)
Theorem C35_uuid_stack (ops : list (stack_op uuid)) :
  Forall uuid_wf (pushes uuid ops) -> N.of_nat (length (pushes uuid ops)) < 2 ^ 32 ->
  match vrun ops with
  | None => srun uuid inc_by uuid_eqb ops = None
  | Some l => exists s, srun uuid inc_by uuid_eqb ops = Some s /\
      ssize s = N.of_nat (length l) /\ (sempty uuid s = true <-> l = []) /\
      (forall v r, l = v :: r -> sfront uuid s = Some v) /\
      (forall v r, l = r ++ [v] -> sback uuid inc_by s = Some v) /\
      (forall fuel, (length l <= fuel)%nat -> iread uuid inc_by fuel (sbegin uuid s) = Some l) /\
      (N.of_nat (length l) < 2 ^ 31 -> forall fuel max, 1 <= max < 2 ^ 31 -> (length l <= fuel)%nat ->
        exists rs, iruns uuid inc_by fuel max (sbegin uuid s) = Some rs /\ Forall (fun x => 1 <= snd x <= max) rs /\
          flat_map (fun x => map (fun d => inc_by (fst x) (N.of_nat d)) (seq 0 (N.to_nat (snd x)))) rs = l)
  end.
Proof.
  intros F L.
  assert (E0 : forall v, uuid_wf v -> inc_by v 0 = v).
  { intros [v o] [H _]. unfold inc_by. cbn [uvalue uorigin] in *. rewrite N.add_0_r. unfold two64. rewrite N.mod_small by exact H. reflexivity. }
  assert (AA : add_add uuid inc_by).
  { intros [v o] a b. unfold inc_by. cbn [uvalue uorigin]. rewrite N.add_mod_idemp_l by discriminate. rewrite N.add_assoc. reflexivity. }
  pose proof (stack_refines uuid inc_by uuid_eqb uuid_eqb_eq uuid_wf E0 ops F L) as K. destruct (vrun ops) as [l|]; [|exact K].
  destruct K as (s & K1 & K2 & K3 & K4 & K5 & K6 & K7). exists s. repeat (split; [assumption|]). exact (K7 AA).
Qed.
Print Assumptions C35_uuid_stack.

Theorem C35_position_stack (ops : list (stack_op N)) :
  Forall (fun v => v < 2 ^ 32) (pushes N ops) -> N.of_nat (length (pushes N ops)) < 2 ^ 32 ->
  match vrun ops with
  | None => srun N u32_add N.eqb ops = None
  | Some l => exists s, srun N u32_add N.eqb ops = Some s /\
      ssize s = N.of_nat (length l) /\ (sempty N s = true <-> l = []) /\
      (forall v r, l = v :: r -> sfront N s = Some v) /\
      (forall v r, l = r ++ [v] -> sback N u32_add s = Some v) /\
      (forall fuel, (length l <= fuel)%nat -> iread N u32_add fuel (sbegin N s) = Some l)
  end.
Proof.
  intros F L.
  assert (E0 : forall v, v < 2 ^ 32 -> u32_add v 0 = v) by (intros v H; unfold u32_add; rewrite N.add_0_r; apply N.mod_small; exact H).
  pose proof (stack_refines N u32_add N.eqb N.eqb_eq _ E0 ops F L) as K. destruct (vrun ops) as [l|]; [|exact K].
  destruct K as (s & K1 & K2 & K3 & K4 & K5 & K6 & K7). exists s. repeat (split; [assumption|]). exact K6.
Qed.
Print Assumptions C35_position_stack.

Definition stack_case : list (stack_op N) := [SPush 1; SPush 2; SPush 3; SPush 7; SPush 8; SPop; SPush 9].
Example C35_case :
  Forall (fun v => v < 2 ^ 32) (pushes N stack_case) /\ vrun stack_case = Some [1; 2; 3; 7; 9] /\
  srun N u32_add N.eqb stack_case = Some (mkStack [(9, 1); (7, 1); (1, 3)] 5) /\
  iread N u32_add 5 (sbegin N (mkStack [(9, 1); (7, 1); (1, 3)] 5)) = Some [1; 2; 3; 7; 9].
Proof. repeat split; repeat constructor. Qed.

(* += n from the start leads to the element n when that one starts a run *)
Theorem C35_advance :
  (forall (ops : list (stack_op uuid)) a b fuel, Forall uuid_wf (pushes uuid ops) -> N.of_nat (length (pushes uuid ops)) < 2 ^ 32 ->
     vrun ops = Some (a ++ b) -> run_ends uuid inc_by a b -> (length (a ++ b) <= fuel)%nat ->
     exists s j, srun uuid inc_by uuid_eqb ops = Some s /\ iadvance uuid fuel (N.of_nat (length a)) (sbegin uuid s) = Some j /\ iread uuid inc_by fuel j = Some b) /\
  (forall (ops : list (stack_op N)) a b fuel, Forall (fun v => v < 2 ^ 32) (pushes N ops) -> N.of_nat (length (pushes N ops)) < 2 ^ 32 ->
     vrun ops = Some (a ++ b) -> run_ends N u32_add a b -> (length (a ++ b) <= fuel)%nat ->
     exists s j, srun N u32_add N.eqb ops = Some s /\ iadvance N fuel (N.of_nat (length a)) (sbegin N s) = Some j /\ iread N u32_add fuel j = Some b).
Proof.
  split; intros ops a b fuel F L VR R LF.
  - refine (stack_advance uuid inc_by uuid_eqb uuid_eqb_eq uuid_wf _ ops a b fuel _ F L VR R LF).
    + intros [v o] [H _]. unfold inc_by. cbn [uvalue uorigin] in *. rewrite N.add_0_r. unfold two64. rewrite N.mod_small by exact H. reflexivity.
    + intros [v o] x y. unfold inc_by. cbn [uvalue uorigin]. rewrite N.add_mod_idemp_l by discriminate. rewrite N.add_assoc. reflexivity.
  - refine (stack_advance N u32_add N.eqb N.eqb_eq _ _ ops a b fuel _ F L VR R LF).
    + intros v H. unfold u32_add. rewrite N.add_0_r. apply N.mod_small. exact H.
    + intros v x y. unfold u32_add. rewrite N.add_mod_idemp_l by discriminate. rewrite N.add_assoc. reflexivity.
Qed.
Print Assumptions C35_advance.
Example C35_advance_case : vrun stack_case = Some ([1; 2; 3; 7] ++ [9]) /\ run_ends N u32_add [1; 2; 3; 7] [9] /\
  iadvance N 5 4 (sbegin N (mkStack [(9, 1); (7, 1); (1, 3)] 5)) = Some (mkIter [(9, 1)] 0).
Proof. repeat split. vm_compute. discriminate. Qed.

(* but into a run it does not: += 1 from the start lands on the next run *)
Theorem C35_advance_refuted : exists ops s j,
  srun N u32_add N.eqb ops = Some s /\ vrun ops = Some [1; 2; 3; 7] /\
  iadvance N 4 1 (sbegin N s) = Some j /\ ideref N u32_add j = Some 7.
Proof.
  exists [SPush 1; SPush 2; SPush 3; SPush 7], (mkStack [(7, 1); (1, 3)] 4), (mkIter [(7, 1)] 0).
  repeat split; reflexivity.
Qed.
Print Assumptions C35_advance_refuted.
