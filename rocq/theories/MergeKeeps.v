(* Every op the merge rules append stands under a cursor obtained from an input
   by calls of Next. *)
From Coq Require Import Permutation.
From Verif Require Import Prelude UuidModel KeyModel TextModel MergeModel HeapProofs.

Section Keeps.
Variable C : Type.
Variable cvalid : C -> bool.
Variable cnext : C -> option (bool * C).
Variable cid cref : C -> uuid.
Variable cval : C -> option (N * N).
Variable cterm : C -> N.
Variable Q : C -> Prop.
Definition closed_next : Prop := forall c b c', cvalid c = true -> Q c -> cnext c = Some (b, c') -> b = cvalid c' /\ Q c'.
Notation ok := (fun c => cvalid c = true /\ Q c).

Lemma rbind_done {X Y} (r : res X) (f : X -> res Y) y : rbind r f = Done y -> exists x, r = Done x /\ f x = Done y.
Proof. destruct r as [x| |]; cbn [rbind]; try discriminate. intro H. exists x. auto. Qed.

Lemma in_set_at {X} (l : list X) i x y : In y (set_at l i x) -> y = x \/ In y l.
Proof.
  unfold set_at. rewrite in_app_iff. intros [H|H].
  - right. rewrite <- (firstn_skipn i l). apply in_app_iff. left. exact H.
  - rewrite <- (firstn_skipn i l), in_app_iff. destruct (skipn i l) as [|z t]; [contradiction|].
    destruct H as [->|H]; [left; reflexivity|]. right. right. right. exact H.
Qed.
Lemma in_swap h a b (x : C) : In x (swap C h a b) -> In x h.
Proof.
  unfold swap. destruct (nth_error h a) as [u|] eqn:EA; [|auto]. destruct (nth_error h b) as [v|] eqn:EB; [|auto].
  intro H. apply in_set_at in H as [->|H]; [exact (nth_error_In _ _ EA)|].
  apply in_set_at in H as [->|H]; [exact (nth_error_In _ _ EB)|exact H].
Qed.

Section Less.
Variable less : C -> C -> bool.
Lemma in_pop fuel : forall h i h' x, pop C less fuel h i = Done h' -> In x h' -> In x h.
Proof.
  induction fuel as [|f IH]; intros h i h' x E I; cbn [pop] in E; [discriminate|].
  destruct i as [|i]; [injection E as <-; exact I|].
  destruct (less_than C less h (up (S i)) (S i)); [injection E as <-; exact I|].
  apply (in_swap h (S i) (up (S i))). eapply IH; eassumption.
Qed.
Lemma in_push fuel : forall h i h' x, push C less fuel h i = Done h' -> In x h' -> In x h.
Proof.
  induction fuel as [|f IH]; intros h i h' x E I; cbn [push] in E; [discriminate|].
  destruct (Nat.ltb (right i) (length h) && less_than C less h (right i) i).
  - destruct (less_than C less h (left i) (right i)).
    + apply (in_swap h (left i) i). eapply IH; eassumption.
    + apply (in_swap h (right i) i). eapply IH; eassumption.
  - destruct (Nat.ltb (left i) (length h) && less_than C less h (left i) i).
    + apply (in_swap h (left i) i). eapply IH; eassumption.
    + injection E as <-. exact I.
Qed.
Lemma add_keeps h c h' : add C cvalid less h c = Done h' -> Forall ok h -> Q c -> Forall ok h'.
Proof.
  unfold add. destruct (cvalid c) eqn:V; [|intro E; injection E as <-; auto]. intros E F H.
  apply Forall_forall. intros x I. pose proof (in_pop _ _ _ _ _ E I) as K. apply in_app_iff in K.
  rewrite Forall_forall in F. destruct K as [K|[<-|[]]]; [apply F; exact K|auto].
Qed.
Lemma step_keeps h h' : closed_next -> step C cnext less h = Done h' -> Forall ok h -> Forall ok h'.
Proof.
  intros QN E F. destruct h as [|c t]; cbn [step] in E; [discriminate|]. inversion F as [|x y [V H] FT]; subst.
  destruct (cnext c) as [[b c']|] eqn:NX; [|discriminate]. destruct (QN c b c' V H NX) as [-> HC].
  destruct (cvalid c') eqn:V'.
  - apply Forall_forall. intros x I. pose proof (in_push _ _ _ _ _ E I) as K. rewrite Forall_forall in FT.
    destruct K as [<-|K]; [auto|apply FT; exact K].
  - unfold eject in E. destruct (rev (c :: t)) as [|b l] eqn:R; [injection E as <-; exact F|].
    apply Forall_forall. intros x I. pose proof (in_push _ _ _ _ _ E I) as K. rewrite Forall_forall in F. apply F.
    assert (K2 : In x (set_at (c :: t) 0 b)).
    { destruct (set_at (c :: t) 0 b) as [|u v] eqn:SA; [exact K|]. rewrite (app_removelast_last c) by discriminate.
      apply in_app_iff. left. exact K. }
    apply in_set_at in K2 as [->|K2]; [|exact K2]. apply in_rev. rewrite R. left. reflexivity.
Qed.
Lemma skip_keeps fuel : closed_next -> forall id h h', skip_same C cnext cid less fuel id h = Done h' -> Forall ok h -> Forall ok h'.
Proof.
  intro QN. induction fuel as [|f IH]; intros id h h' E F; cbn [skip_same] in E; [discriminate|].
  apply rbind_done in E as (h1 & E1 & E). pose proof (step_keeps _ _ QN E1 F) as F1.
  destruct h1 as [|c t]; [injection E as <-; exact F1|]. destruct (uuid_eqb (cid c) id); [eapply IH; eassumption|].
  injection E as <-. exact F1.
Qed.
Lemma heap_next_keeps fuel h h' : closed_next -> heap_next C cnext cid less fuel h = Done h' -> Forall ok h -> Forall ok h'.
Proof. intros QN. unfold heap_next. destruct h as [|c t]; [discriminate|]. apply skip_keeps. exact QN. Qed.
Lemma merge_loop_keeps fuel : closed_next -> forall h calls c, merge_loop C cnext cid less fuel h = Done calls -> Forall ok h ->
  In (MAppend c) calls -> cvalid c = true /\ Q c.
Proof.
  intro QN. induction fuel as [|f IH]; intros h calls c E F I; cbn [merge_loop] in E; [discriminate|].
  destruct h as [|c0 t]; [discriminate|]. apply rbind_done in E as (h1 & E1 & E).
  pose proof (heap_next_keeps _ _ _ QN E1 F) as F1. inversion F as [|x y F0 FT]; subst.
  destruct h1 as [|c1 t1].
  - injection E as <-. destruct I as [I|[I|[]]]; [injection I as <-; exact F0|discriminate].
  - apply rbind_done in E as (r & E2 & E). injection E as <-. destruct I as [I|I]; [injection I as <-; exact F0|]. eapply IH; eassumption.
Qed.
Lemma add_all_keeps cs : forall h h', add_all C cvalid less h cs = Done h' -> Forall ok h -> Forall Q cs -> Forall ok h'.
Proof.
  induction cs as [|c cs IH]; intros h h' E F FQ; cbn [add_all] in E; [injection E as <-; exact F|].
  apply rbind_done in E as (h1 & E1 & E). inversion FQ; subst. eapply IH; [exact E| |assumption]. eapply add_keeps; eassumption.
Qed.
Lemma merge_all_keeps fuel cs calls c : closed_next -> merge_all C cvalid cnext cid less fuel cs = Done calls -> Forall Q cs ->
  In (MAppend c) calls -> cvalid c = true /\ Q c.
Proof.
  intros QN E F I. unfold merge_all in E. apply rbind_done in E as (h & E1 & E).
  pose proof (add_all_keeps _ _ _ E1 (Forall_nil _) F) as FH. unfold heap_merge in E.
  destruct h as [|c0 t]; [injection E as <-; contradiction|]. eapply merge_loop_keeps; eassumption.
Qed.
End Less.

Lemma append_all_keeps fuel : closed_next -> forall c0 calls c, append_all C cvalid cnext cterm fuel c0 = Done calls -> Q c0 ->
  In (MAppend c) calls -> cvalid c = true /\ Q c.
Proof.
  intro QN. induction fuel as [|f IH]; intros c0 calls c E H I; cbn [append_all] in E; [discriminate|].
  destruct (cvalid c0) eqn:V; [|injection E as <-; contradiction].
  destruct (cnext c0) as [[b c1]|] eqn:NX; [|discriminate]. apply rbind_done in E as (r & E1 & E). injection E as <-.
  destruct (QN _ _ _ V H NX) as [_ H1]. destruct I as [I|I]; [injection I as <-; auto|].
  apply in_app_iff in I as [I|I]; [|eapply IH; eassumption].
  destruct (cterm c0 =? REDUCED); [contradiction|]. destruct I as [I|[]]. discriminate.
Qed.
Lemma log_keeps fuel cs : closed_next -> forall calls s c, log_merge C cvalid cnext cterm fuel cs = Done (calls, s) -> Forall Q cs ->
  In (MAppend c) calls -> cvalid c = true /\ Q c.
Proof.
  intro QN. induction cs as [|c0 cs IH]; intros calls s c E F I; cbn [log_merge] in E; [injection E as <- _; contradiction|].
  inversion F; subst. apply rbind_done in E as (x & E1 & E). apply rbind_done in E as ((y & s') & E2 & E). injection E as <- <-.
  apply in_app_iff in I as [I|I]; [eapply append_all_keeps; eassumption|eapply IH; eassumption].
Qed.
Lemma last_keeps fuel cs calls s c : closed_next -> last_merge C cvalid cnext cterm fuel cs = Done (calls, s) -> Forall Q cs ->
  In (MAppend c) calls -> cvalid c = true /\ Q c.
Proof.
  intros QN E F I. unfold last_merge in E. destruct (rev cs) as [|c0 l] eqn:R; [injection E as <- _; contradiction|].
  apply rbind_done in E as (r & E1 & E). injection E as <- _. eapply append_all_keeps; [exact QN|exact E1| |exact I].
  rewrite Forall_forall in F. apply F. apply in_rev. rewrite R. left. reflexivity.
Qed.

Notation okp := (fun p : C * bool => Q (fst p)).
Lemma add_where_keeps cond ins : forall h h' ins', add_where C cvalid cid cond h ins = Done (h', ins') -> Forall ok h -> Forall okp ins ->
  Forall ok h' /\ Forall okp ins'.
Proof.
  induction ins as [|[c b] ins IH]; intros h h' ins' E F FI; cbn [add_where] in E; [injection E as <- <-; auto|].
  inversion FI as [|x y H FT]; subst. cbn [fst] in H. destruct (negb b && cond c).
  - apply rbind_done in E as (h1 & E1 & E). apply rbind_done in E as ((h2 & r) & E2 & E). injection E as <- <-.
    destruct (IH _ _ _ E2 (add_keeps _ _ _ _ E1 F H) FT). split; [assumption|constructor; assumption].
  - apply rbind_done in E as ((h2 & r) & E2 & E). injection E as <- <-. destruct (IH _ _ _ E2 F FT). split; [assumption|constructor; assumption].
Qed.
Lemma rga_loop_keeps fuel : closed_next -> forall h ins calls i c, rga_loop C cvalid cnext cid cref fuel h ins = Done (calls, i) ->
  Forall ok h -> Forall okp ins -> In (MAppend c) calls -> cvalid c = true /\ Q c.
Proof.
  intro QN. induction fuel as [|f IH]; intros h ins calls i c E F FI I; cbn [rga_loop] in E.
  - destruct h; [injection E as <- _; contradiction|discriminate].
  - destruct h as [|c0 t]; [injection E as <- _; contradiction|].
    apply rbind_done in E as (h1 & E1 & E). apply rbind_done in E as ((h2 & ins2) & E2 & E). apply rbind_done in E as ((r & j) & E3 & E).
    injection E as <- <-. pose proof (heap_next_keeps _ _ _ _ QN E1 F) as F1.
    destruct (add_where_keeps _ _ _ _ _ E2 F1 FI) as [F2 FI2].
    inversion F as [|x y F0 FT]; subst. destruct I as [I|I]; [injection I as <-; exact F0|]. eapply IH; eassumption.
Qed.
Lemma rga_keeps fuel cs calls s c : closed_next -> rga_merge C cvalid cnext cid cref fuel cs = Done (calls, s) -> Forall Q cs ->
  In (MAppend c) calls -> cvalid c = true /\ Q c.
Proof.
  intros QN E F I. unfold rga_merge in E. destruct (Nat.ltb 3 (length cs)); [injection E as <- _; contradiction|].
  apply rbind_done in E as ((h & ins) & E1 & E). apply rbind_done in E as ((r & j) & E2 & E). injection E as <- _.
  destruct (add_where_keeps _ _ _ _ _ E1 (Forall_nil _)) as [FH FI].
  { apply Forall_map. exact F. }
  apply in_app_iff in I as [I|[I|[]]]; [|discriminate]. eapply rga_loop_keeps; eassumption.
Qed.

(* the rules other than MAX *)
Lemma master_keeps fuel form cs calls s c : closed_next -> form <> MAX_RDT_FORM ->
  master_merge C cvalid cnext cid cref cval cterm fuel form cs = Done (calls, s) -> Forall Q cs ->
  In (MAppend c) calls -> cvalid c = true /\ Q c.
Proof.
  intros QN NM E F I. unfold master_merge in E.
  destruct (form =? LOG_RAW_FORM); [eapply log_keeps; eassumption|].
  destruct (form =? ZERO_RAW_FORM); [eapply last_keeps; eassumption|].
  assert (L : forall less, rbind (merge_all C cvalid cnext cid less fuel cs) (fun r => Done (r, StOK)) = Done (calls, s) -> cvalid c = true /\ Q c).
  { intros less X. apply rbind_done in X as (r & X1 & X). injection X as <- _. eapply merge_all_keeps; eassumption. }
  destruct (form =? META_META_FORM); [exact (L _ E)|].
  destruct (form =? YARN_RAW_FORM); [exact (L _ E)|].
  destruct (form =? LWW_RDT_FORM); [exact (L _ E)|].
  destruct (form =? MX_RDT_FORM); [exact (L _ E)|].
  destruct (form =? RGA_RDT_FORM); [eapply rga_keeps; eassumption|].
  destruct (form =? MAX_RDT_FORM) eqn:M; [apply N.eqb_eq in M; contradiction|].
  destruct (form =? ERROR_NO_FORM); [eapply last_keeps; eassumption|].
  injection E as <- _. contradiction.
Qed.
End Keeps.
