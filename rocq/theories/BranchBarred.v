(* C47: a branch whose last event is of another yarn. *)
From Coq Require Import String.
From Verif Require Import Prelude UuidModel UuidProofs KeyModel CodecModel TextModel BuilderSpec MergeModel MergeTextModel MergeKeeps
  StoreModel MetaModel ClockModel ReplicaModel ReplicaSpec ReplicaProofs RocksModel RocksSpec BranchModel BranchSpec BranchProofs BranchTheorems HashCases MetaCases Txt ReplicaCases BranchCases.
From Verif Require ClockTheorems.

(* every opening is refused *)
Definition refused_open (e : bevent) (s : rstatus) : Prop := match e with BOpen _ => s = RBadFrame | _ => True end.
Definition no_frame (e : bevent) : Prop := match e with BReceive _ _ _ => False | _ => True end.

Section Barred.
Variable sha : bytes -> bytes.
Variable fbits : bytes -> N.
Variable active : N.
Variable fuel : nat.
Notation b_step := (b_step sha fbits active fuel).
Notation b_run := (b_run sha fbits active fuel).
Notation b_new := (b_new sha fbits active fuel).

Lemma barred_open id b t now b' s : tipped (br_main b) t -> uorigin t <> uorigin id -> id <> NIL -> b_step id b (BOpen now) = Done (b', s) -> s = RBadFrame /\ b' = b.
Proof.
  intros T Y N H. assert (S : s = RBadFrame); [|split; [exact S|]; apply (C47_reopen sha fbits active fuel id b now b' s H); rewrite S; discriminate].
  cbn [BranchModel.b_step] in H. apply rbind_done in H as ([[[d n] u] s1] & H & Q). injection Q as _ <-.
  unfold b_open, open_store_tip in H. apply rbind_done in H as ([[m f] s2] & H & Q).
  destruct (tipped_read _ _ _ _ _ _ _ T H) as (-> & -> & F). cbn [is_ok negb] in Q. destruct T as (_ & OK & _).
  destruct (tip_reads t OK) as (f' & c & c1 & F' & NX & W & _). assert (f' = f) by congruence. subst f'. rewrite NX in Q.
  assert (TI : text_id c = t) by (unfold wop_of_cursor in W; unfold text_id; congruence). rewrite TI in Q.
  assert (B : negb (uorigin t =? uorigin id) && negb (uuid_eqb id NIL) = true).
  { rewrite (proj2 (N.eqb_neq _ _) Y). destruct (uuid_eqb id NIL) eqn:E; [apply uuid_eqb_eq in E; contradiction|reflexivity]. }
  rewrite B in Q. congruence.
Qed.

(* An opening of a branch succeeds if and only if its last event on record is of
   the branch's yarn. *)
Theorem C47_iff id b t now b' s : id <> NIL -> tipped (br_main b) t -> b_step id b (BOpen now) = Done (b', s) ->
  (s = ROk <-> uorigin t = uorigin id) /\ (uorigin t <> uorigin id -> s = RBadFrame /\ b' = b).
Proof.
  intros N T H. split; [|intro Y; exact (barred_open id b t now b' s T Y N H)]. split.
  - intros ->. destruct (N.eq_dec (uorigin t) (uorigin id)) as [E|E]; [exact E|]. destruct (barred_open id b t now b' ROk T E N H) as [X _]. discriminate X.
  - intro Y. cbn [BranchModel.b_step] in H. apply rbind_done in H as ([[[d n] u] s1] & H & Q). injection Q as _ <-.
    destruct (tipped_open _ _ _ _ _ _ _ _ _ _ T (or_introl Y) H) as (_ & -> & _). reflexivity.
Qed.

(* Once it is of another one, no opening ever succeeds again, whatever is compacted. *)
Theorem C47_barred id t : id <> NIL -> uorigin t <> uorigin id -> forall es b b' ss, tipped (br_main b) t -> Forall no_frame es -> b_run id b es = Done (b', ss) ->
  Forall2 refused_open es ss /\ tipped (br_main b') t /\ br_tip b' = br_tip b.
Proof.
  intros N Y. induction es as [|e es IH]; intros b b' ss T F H; cbn [BranchModel.b_run] in H.
  - injection H as <- <-. split; [constructor|]. auto.
  - apply rbind_done in H as ([b1 s] & H1 & H). apply rbind_done in H as ([b2 s2] & H2 & H). injection H as <- <-. inversion F as [|? ? F1 F2]; subst.
    assert (K : refused_open e s /\ tipped (br_main b1) t /\ br_tip b1 = br_tip b).
    { destruct e as [n rs f|n|k ce]; [destruct F1| |].
      - destruct (barred_open id b t n b1 s T Y N H1) as [-> ->]. split; [reflexivity|]. auto.
      - cbn [BranchModel.b_step] in H1. apply rbind_done in H1 as (d & C & Q). injection Q as <- <-. cbn [br_main br_tip]. split; [exact Logic.I|].
        split; [eapply tipped_compact; eassumption|reflexivity]. }
    destruct K as (K1 & K2 & K3). destruct (IH b1 b2 s2 K2 F2 H2) as (A1 & A2 & A3). split; [constructor; assumption|]. split; [exact A2|congruence].
Qed.

(* So it is with a branch made for yarn 0 while the store of a yarn is active: it
   is reported as made, but its first event is of the active yarn. *)
Theorem C47_zero now rs b s es b' ss : active mod 2 ^ 60 <> 0 -> uvalue (first_event active now rs 0 false) < NEVER_W ->
  b_new now rs 0 false = Done (b, s) -> Forall no_frame es -> b_run (branch_id 0) b es = Done (b', ss) ->
  s = ROk /\ Forall2 refused_open es ss.
Proof.
  intros A NV H F R. destruct (new_tip sha fbits active fuel _ _ _ _ _ _ NV H) as (-> & _ & T). split; [reflexivity|].
  assert (Y : uorigin (first_event active now rs 0 false) <> uorigin (branch_id 0)).
  { unfold first_event, clock_now, branch_id. change (0 =? 0) with true. cbv iota. cbn [snd]. rewrite !ClockTheorems.time_origin. change (0 mod 2 ^ 60) with 0. lia. }
  assert (N : branch_id 0 <> NIL) by (vm_compute; discriminate).
  exact (proj1 (C47_barred (branch_id 0) _ N Y es b b' ss T F R)).
Qed.
End Barred.
Print Assumptions C47_iff.
Print Assumptions C47_barred.
Print Assumptions C47_zero.

Open Scope string_scope.
Open Scope N_scope.
Open Scope list_scope.
(* the active store is that of yarn A *)
Definition yarnA0 : N := uorigin (ev "1+A") mod 2 ^ 60.
Definition zeroth : res (branch * rstatus) := b_new toy_sha one_float yarnA0 100 0 [at_time "3+A"] 0 false.
Example C47_zero_case :
  yarnA0 mod 2 ^ 60 <> 0 /\ uvalue (first_event yarnA0 0 [at_time "3+A"] 0 false) < NEVER_W /\ zeroth = Done (branch_of zeroth, ROk) /\
  Forall no_frame [BOpen 0; BCompact KEY_ZERO (CFull 2); BOpen 7] /\
  exists b', b_run toy_sha one_float yarnA0 100 (branch_id 0) (branch_of zeroth) [BOpen 0; BCompact KEY_ZERO (CFull 2); BOpen 7]
    = Done (b', [RBadFrame; ROk; RBadFrame]).
Proof.
  split; [vm_compute; discriminate|]. split; [vm_compute; reflexivity|]. split; [vm_compute; reflexivity|]. split; [repeat constructor|].
  exists (branch_of (b_run toy_sha one_float yarnA0 100 (branch_id 0) (branch_of zeroth) [BOpen 0; BCompact KEY_ZERO (CFull 2); BOpen 7])).
  vm_compute. reflexivity.
Qed.
