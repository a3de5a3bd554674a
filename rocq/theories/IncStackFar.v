(* C35: += n into a run of a stack. *)
From Verif Require Import Prelude UuidModel UuidSpec UuidProofs IncStackModel IncStackTheorems.

Section Far.
Variable V : Type.
Variable add : V -> N -> V.
Variable eqb : V -> V -> bool.
Hypothesis eqb_eq : forall a b, eqb a b = true <-> a = b.
Variable ok : V -> Prop.
Hypothesis add_0 : forall v, ok v -> add v 0 = v.
Notation elems := (elems V add).
Notation span_ok := (span_ok V).

Lemma advance_any : add_add V add -> forall rs fuel a b j, Forall span_ok rs -> flat_map elems rs = a ++ b -> iadvance V fuel (N.of_nat (length a)) (mkIter rs 0) = Some j ->
  exists r1 r2 c, rs = r1 ++ r2 /\ j = mkIter r2 0 /\ b = c ++ flat_map elems r2 /\ (c = [] \/ ~ run_ends V add a b).
Proof.
  intro AA. induction rs as [|[v k] rs IH]; intros fuel a b j F E H.
  { cbn [flat_map] in E. symmetry in E. apply app_eq_nil in E as [-> ->]. exists [], [], []. destruct fuel; cbn in H; injection H as <-; auto. }
  destruct a as [|x a]; [exists [], ((v, k) :: rs), []; destruct fuel; cbn in H; injection H as <-; auto|].
  pose proof (Forall_inv F) as F1. unfold IncStackTheorems.span_ok in F1. cbn [snd] in F1. cbn [flat_map] in E. set (n := N.of_nat (length (x :: a))) in *.
  assert (NZ : n <> 0) by (unfold n; cbn [length]; lia). destruct fuel as [|fuel]; [cbn [iadvance] in H; rewrite (proj2 (N.eqb_neq _ _) NZ) in H; discriminate|].
  cbn [iadvance irest ioff] in H. rewrite (proj2 (N.eqb_neq _ _) NZ) in H. destruct (k <=? n) eqn:K.
  - apply N.leb_le in K. assert (LE : length (elems (v, k)) = N.to_nat k) by apply elems_len.
    assert (SP : x :: a = elems (v, k) ++ skipn (N.to_nat k) (x :: a)).
    { rewrite <- (firstn_skipn (N.to_nat k) (x :: a)) at 1. f_equal. apply (f_equal (firstn (N.to_nat k))) in E. rewrite firstn_app, LE, Nat.sub_diag, app_nil_r, firstn_all2 in E by lia.
      rewrite firstn_app in E. replace (N.to_nat k - length (x :: a))%nat with 0%nat in E by (unfold n in K; lia). cbn [firstn] in E. rewrite app_nil_r in E. symmetry. exact E. }
    set (a' := skipn (N.to_nat k) (x :: a)) in *. assert (LA : length (x :: a) = (N.to_nat k + length a')%nat) by (rewrite SP at 1; rewrite app_length, LE; reflexivity).
    rewrite SP, <- app_assoc in E. apply app_inv_head in E. replace (n - k) with (N.of_nat (length a')) in H by (unfold n; lia).
    destruct (IH fuel a' b j (Forall_inv_tail F) E H) as (r1 & r2 & c & -> & J & B & R). exists ((v, k) :: r1), r2, c. split; [reflexivity|]. split; [exact J|]. split; [exact B|].
    destruct R as [R|R]; [left; exact R|right]. intro Q. apply R. unfold run_ends in *. rewrite SP, rev_app_distr in Q. destruct (rev a'); [exact I|exact Q].
  - apply N.leb_gt in K.
    match type of H with (if ?t then _ else _) = _ => destruct t; [|discriminate H] end. injection H as <-.
    set (r1 := firstn (N.to_nat n) ((v, k) :: rs)). set (r2 := skipn (N.to_nat n) ((v, k) :: rs)). assert (RS : (v, k) :: rs = r1 ++ r2) by (symmetry; apply firstn_skipn).
    assert (H1 : exists q, r1 = (v, k) :: q) by (unfold r1; destruct (N.to_nat n) as [|m] eqn:NN; [lia|]; eexists; reflexivity). destruct H1 as (q & H1).
    assert (FE : flat_map elems r1 ++ flat_map elems r2 = (x :: a) ++ b) by (rewrite <- flat_map_app; transitivity (flat_map elems ((v, k) :: rs)); [f_equal; symmetry; exact RS|exact E]).
    assert (L1 : (length (x :: a) <= length (flat_map elems r1))%nat) by (rewrite H1; cbn [flat_map]; rewrite app_length, elems_len; unfold n in K; cbn [snd]; lia).
    exists r1, r2, (skipn (length (x :: a)) (flat_map elems r1)). split; [exact RS|]. split; [reflexivity|]. split.
    + apply (f_equal (skipn (length (x :: a)))) in FE. rewrite !skipn_app, skipn_all, Nat.sub_diag in FE. cbn [app skipn] in FE.
      replace (length (x :: a) - length (flat_map elems r1))%nat with 0%nat in FE by lia. cbn [skipn] in FE. symmetry. exact FE.
    + right. apply (elems_split V add eqb eqb_eq ok add_0 v k (x :: a) b (flat_map elems rs)); [cbn [length]; lia|unfold n in K; lia|exact AA|exact E].
Qed.
(* += n from the beginning leads to the element n; or, if that is inside a run, it
   may lead further or out of the vector, but never back *)
Theorem stack_far ops a b fuel s j : add_add V add -> Forall ok (pushes V ops) -> N.of_nat (length (pushes V ops)) < 2 ^ 32 -> vrun ops = Some (a ++ b) -> (length (a ++ b) <= fuel)%nat ->
  srun V add eqb ops = Some s -> iadvance V fuel (N.of_nat (length a)) (sbegin V s) = Some j ->
  exists c d, b = c ++ d /\ iread V add fuel j = Some d /\ (c = [] \/ ~ run_ends V add a b).
Proof.
  intros AA F L VR LF SR H. assert (G0 : good V add stack0 []) by (unfold good; cbn; repeat split; try constructor; reflexivity).
  pose proof (run_good V add eqb eqb_eq ok add_0 ops stack0 [] G0 F L) as K. cbv zeta in K. unfold vrun in VR. rewrite VR in K. destruct K as (s' & K & (A & B & _)). unfold contents in A.
  unfold srun in SR. rewrite K in SR. injection SR as ->. apply Forall_rev in B. rewrite app_length in LF.
  destruct (advance_any AA (rev (spans s)) fuel a b j B A H) as (r1 & r2 & c & E & -> & EB & R). exists c, (flat_map elems r2). split; [exact EB|]. split; [|exact R].
  rewrite E in B. apply Forall_app in B as [_ B]. assert (IO : iter_ok V (mkIter r2 0)).
  { unfold iter_ok. cbn [irest ioff]. destruct r2 as [|y r2]; [reflexivity|]. split; [|exact B]. pose proof (Forall_inv B) as B1. unfold IncStackTheorems.span_ok in B1. lia. }
  assert (RE : remaining V add (mkIter r2 0) = flat_map elems r2) by (unfold remaining; cbn [irest ioff]; destruct r2; reflexivity).
  rewrite (iread_all V add eqb eqb_eq ok add_0); [rewrite RE; reflexivity|exact IO|]. rewrite RE. apply (f_equal (@length V)) in EB. rewrite app_length in EB. lia.
Qed.
End Far.

(* += n never leads to an element before the n-th; and where it leads past it, the
   n-th element is inside a run *)
Theorem C35_advance_far :
  (forall (ops : list (stack_op uuid)) a b fuel s j, Forall uuid_wf (pushes uuid ops) -> N.of_nat (length (pushes uuid ops)) < 2 ^ 32 ->
     vrun ops = Some (a ++ b) -> (length (a ++ b) <= fuel)%nat ->
     srun uuid inc_by uuid_eqb ops = Some s -> iadvance uuid fuel (N.of_nat (length a)) (sbegin uuid s) = Some j ->
     exists c d, b = c ++ d /\ iread uuid inc_by fuel j = Some d /\ (c = [] \/ ~ run_ends uuid inc_by a b)) /\
  (forall (ops : list (stack_op N)) a b fuel s j, Forall (fun v => v < 2 ^ 32) (pushes N ops) -> N.of_nat (length (pushes N ops)) < 2 ^ 32 ->
     vrun ops = Some (a ++ b) -> (length (a ++ b) <= fuel)%nat ->
     srun N u32_add N.eqb ops = Some s -> iadvance N fuel (N.of_nat (length a)) (sbegin N s) = Some j ->
     exists c d, b = c ++ d /\ iread N u32_add fuel j = Some d /\ (c = [] \/ ~ run_ends N u32_add a b)).
Proof.
  split; intros ops a b fuel s j F L VR LF SR H.
  - refine (stack_far uuid inc_by uuid_eqb uuid_eqb_eq uuid_wf _ ops a b fuel s j _ F L VR LF SR H).
    + intros [v o] [Q _]. unfold inc_by. cbn [uvalue uorigin] in *. rewrite N.add_0_r. unfold two64. rewrite N.mod_small by exact Q. reflexivity.
    + intros [v o] x y. unfold inc_by. cbn [uvalue uorigin]. rewrite N.add_mod_idemp_l by discriminate. rewrite N.add_assoc. reflexivity.
  - refine (stack_far N u32_add N.eqb N.eqb_eq _ _ ops a b fuel s j _ F L VR LF SR H).
    + intros v Q. unfold u32_add. rewrite N.add_0_r. apply N.mod_small. exact Q.
    + intros v x y. unfold u32_add. rewrite N.add_mod_idemp_l by discriminate. rewrite N.add_assoc. reflexivity.
Qed.
Print Assumptions C35_advance_far.
(* 1 2 3 7 9: += 1 leads to 7, two elements too far; += 2 to 9, two elements too far *)
Example C35_advance_far_case : let s := mkStack [(9, 1); (7, 1); (1, 3)] 5 in
  srun N u32_add N.eqb [SPush 1; SPush 2; SPush 3; SPush 7; SPush 9] = Some s /\
  (exists j, iadvance N 5 1 (sbegin N s) = Some j /\ iread N u32_add 5 j = Some [7; 9]) /\
  (exists j, iadvance N 5 2 (sbegin N s) = Some j /\ iread N u32_add 5 j = Some [9]) /\
  ~ run_ends N u32_add [1] [2; 3; 7; 9].
Proof.
  cbv zeta. split; [reflexivity|]. split; [eexists; split; reflexivity|]. split; [eexists; split; reflexivity|].
  intro H. apply H. reflexivity.
Qed.
