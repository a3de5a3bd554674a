(* C47: a branch made when the clock is at NEVER or beyond. *)
From Coq Require Import String Sorted.
From Verif Require Import Prelude UuidModel UuidProofs KeyModel KeyProofs CodecModel CodecProofs TextTable TextModel TextSpec TextSafety FrameProofs BuilderSpec BuilderProofs BuilderTheorems MergeModel MergeTextModel MergeKeeps
  StoreModel StoreSpec StoreProofs HashModel MetaModel MetaTheorems ClockModel ReplicaModel ReplicaSpec ReplicaProofs ReplicaTheorems RocksModel RocksSpec RocksProofs BranchModel BranchSpec
  BranchProofs BranchTheorems HashCases MetaCases Txt ReplicaCases BranchCases BranchBarred.
From Verif Require ClockTheorems.

Section Never.
Variable sha : bytes -> bytes.
Variable fbits : bytes -> N.
Variable active : N.
Variable fuel : nat.
Notation b_jread := (b_jread fbits fuel).
Notation b_jprev := (b_jprev fbits fuel).
Notation save_chain := (save_chain sha fbits family b_jread b_jprev fuel).
Notation head_meta := (head_meta sha fbits family b_jread b_jprev fuel).
Notation b_run := (b_run sha fbits active fuel).
Notation b_new := (b_new sha fbits active fuel).

(* the first chain is refused by See, after its records were put into the commit *)
Lemma late_chain d c0 ev c c1 now rs st s cx : tipped d NIL -> d = [(KEY_ZERO, c0)] -> version ev = TIME -> NEVER_W <= uvalue ev -> now <= uvalue ev ->
  text_id c = ev -> text_ref c = YARN_FORM_UUID -> next c = NEnd c1 -> valid c = true ->
  save_chain (commit_on family d now rs NIL) c = Done (st, cx, s) -> s_tip family st = NIL /\ s_base family st = NIL /\ s_main family st = d.
Proof.
  intros T D VT NV NW TI TR NE V H.
  assert (SN : check_sanity c = ROk).
  { unfold check_sanity. rewrite TI, TR, VT. cbn [negb N.eqb Pos.eqb]. reflexivity. }
  unfold ReplicaModel.save_chain in H. rewrite SN in H. apply rbind_done in H as ([[st1 m] s1] & HM & H).
  assert (K : st1 = commit_on family d now rs NIL /\ s1 = ROk /\ m_id m = ev).
  { unfold ReplicaModel.head_meta in HM. apply rbind_done in HM as ([[stt tip] s0] & FT & HM).
    assert (X : stt = commit_on family d now rs NIL /\ s0 = RNotFound).
    { unfold find_tip, find_op, find_head in FT. apply rbind_done in FT as ([m0 sm] & FH & FT). apply rbind_done in FH as ([f s2] & JP & FH).
      cbn [commit_on s_main s_mem] in JP. destruct (tip_reads NIL zero_tip) as (f0 & x & x1 & F0 & NX & W & _).
      destruct (only_prev _ _ _ _ _ _ _ _ T D F0 (key_from_zero _) JP) as [-> ->].
      cbn [is_ok negb] in FH. rewrite NX in FH. assert (TX : text_id x = NIL) by (unfold wop_of_cursor in W; unfold text_id; congruence).
      rewrite TX in FH. rewrite TI in FH. cbn [uorigin NIL] in FH. destruct (0 =? uorigin ev) eqn:Z; [apply N.eqb_eq in Z; symmetry in Z; destruct (origin_time _ VT Z)|].
      cbn [negb orb] in FH. injection FH as <- <-. cbn [is_ok negb] in FT. split; congruence. }
    destruct X as [-> ->]. rewrite TR in HM. change (uuid_eqb YARN_FORM_UUID YARN_FORM_UUID) with true in HM. cbn match in HM.
    apply rbind_done in HM as (m0 & R0 & HM). destruct (meta_root_inv _ _ _ _ _ R0) as (I0 & _ & _). rewrite I0 in HM.
    assert (NQ : uuid_eqb YARN_FORM_UUID (text_id c) = false) by (rewrite <- TR; apply sanity_ref; exact SN). rewrite NQ in HM.
    change (version YARN_FORM_UUID =? NAME) with true in HM. cbn match in HM.
    assert (VF : uuid2form YARN_FORM_UUID =? ERROR_NO_FORM = false) by (vm_compute; reflexivity). rewrite VF in HM.
    apply rbind_done in HM as (m1 & R1 & HM). destruct (meta_root_inv _ _ _ _ _ R1) as (I1 & _ & _). injection HM as <- <- <-. rewrite I1. auto. }
  destruct K as (-> & -> & MI). cbn [is_ok negb] in H.
  assert (NQ : uuid_eqb (text_ref c) (m_id m) = false) by (rewrite MI, <- TI; apply sanity_ref; exact SN). rewrite NQ in H. cbn [negb] in H.
  apply rbind_done in H as ([st2 s2] & W1 & H). destruct (meta_save m) as [mf|]; [|discriminate].
  assert (WR : forall st k f, key_eqb k KEY_END = false -> jwrite_step family st k f = (set_stores family st (s_main family st) (insert bytes (s_mem family st) (k, f)), ROk)).
  { intros x k f E. unfold jwrite_step, write. rewrite E. reflexivity. }
  rewrite WR in W1 by (apply key_not_end; vm_compute; reflexivity). injection W1 as <- <-. cbn [is_ok negb] in H.
  apply rbind_done in H as ([[[[st3 m'] data] c'] s3] & SC & H). unfold save_chainlet in SC. apply rbind_done in SC as ([[[[t2 m2] acc] c2] s4] & CH & SC).
  destruct fuel as [|n]; [discriminate|]. cbn [chainlet] in CH. rewrite NE in CH. injection CH as <- <- <- <- <-. injection SC as <- <- ED <- <-.
  cbn [is_ok negb] in H. unfold see_step, clock_see in H. rewrite MI, VT in H. change (negb (TIME =? TIME)) with false in H. cbn match in H.
  cbn [set_tip set_stores commit_on s_now s_main s_mem s_readings s_base s_tip] in H.
  replace (uvalue ev <? now) with false in H by (symmetry; apply N.ltb_ge; exact NW). replace (NEVER_W <=? uvalue ev) with true in H by (symmetry; apply N.leb_le; exact NV).
  cbn [rstatus_of is_ok negb] in H. injection H as <- _ _. cbn [s_tip s_base s_main]. auto.
Qed.

(* A branch made when the clock gives NEVER or a later time is reported as made,
   but it has no event, and can never be opened. *)
Theorem C47_never now rs yarn b s es b' ss : NEVER_W <= uvalue (first_event active now rs yarn false) < 2 ^ 64 ->
  b_new now rs yarn false = Done (b, s) -> Forall no_frame es -> b_run (branch_id yarn) b es = Done (b', ss) ->
  s = ROk /\ tipped (br_main b) NIL /\ Forall2 refused_open es ss.
Proof.
  intros [NV TOP] H F R. assert (G : s = ROk /\ tipped (br_main b) NIL).
  { unfold BranchModel.b_new in H. apply rbind_done in H as ([d s0] & BC & H). unfold b_create in BC.
    destruct (tip_reads NIL zero_tip) as (f0 & _ & _ & F0 & _). rewrite F0 in BC. unfold b_write, rocks_write in BC.
    change (key_eqb KEY_ZERO KEY_END) with false in BC. cbn [andb] in BC. unfold add_operand in BC. cbn [cell_at put cell0 ce_value ce_operands app] in BC.
    injection BC as <- <-. cbn [kst is_ok negb] in H.
    assert (T : tipped [(KEY_ZERO, mkCell None [f0])] NIL).
    { split; [repeat constructor|]. split; [exact zero_tip|]. exists f0, []. split; [exact F0|]. cbn [cell_at]. rewrite key_eqb_refl. reflexivity. }
    apply rbind_done in H as ([[d' n'] s'] & CB & Q). injection Q as <- <-. cbn [br_main br_tip]. unfold create_branch in CB.
    destruct (first_time active now rs yarn false) as [VT _]. unfold first_event in *.
    assert (E1 : fst (clock_now active now (hd 0 rs) yarn) = uvalue (snd (clock_now active now (hd 0 rs) yarn))) by reflexivity.
    destruct (clock_now active now (hd 0 rs) yarn) as [now1 ev] eqn:CN. cbn [fst snd] in *.
    assert (TK : tip_ok ev) by (unfold clock_now in CN; injection CN as _ <-; apply uuid_time_ok; exact TOP).
    destruct (one_reads ev YARN_FORM_UUID TK) as (fy & c & c1 & FY & NX & W & TM & V & NE & _); [split; [split|]; reflexivity|].
    rewrite FY in CB. unfold next_any in CB. rewrite NX in CB. cbn [rbind] in CB.
    apply rbind_done in CB as ([[st cx] s1] & SC & CB). apply rbind_done in CB as ([st2 s2] & SV & Q). injection Q as <- _ <-.
    assert (TI : text_id c = ev) by (unfold wop_of_cursor in W; unfold text_id; congruence).
    assert (TR : text_ref c = YARN_FORM_UUID) by (unfold wop_of_cursor in W; unfold text_ref; congruence).
    assert (NW : now1 <= uvalue ev) by (rewrite E1; apply N.le_refl).
    destruct (late_chain _ _ ev c c1 _ _ _ _ _ T eq_refl VT NV NW TI TR NE V SC) as (ST & SB & SM).
    unfold save in SV. rewrite ST, SB in SV. change (uuid_eqb NIL NIL) with true in SV. cbn match in SV. injection SV as <- <-. split; [reflexivity|]. rewrite SM. exact T. }
  destruct G as [-> T]. split; [reflexivity|]. split; [exact T|].
  assert (OB : uorigin (branch_id yarn) = TIME * 2 ^ 60 + yarn mod 2 ^ 60) by apply ClockTheorems.time_origin.
  assert (TP : TIME * 2 ^ 60 = 2305843009213693952) by reflexivity.
  apply (C47_barred sha fbits active fuel (branch_id yarn) NIL) with (b := b) (b' := b'); [|cbn [uorigin NIL]; lia|exact T|exact F|exact R].
  intro E. rewrite E in OB. cbn [uorigin NIL] in OB. lia.
Qed.
End Never.
Print Assumptions C47_never.

Open Scope string_scope.
Open Scope N_scope.
Open Scope list_scope.
(* the clock has seen the last time below NEVER *)
Definition lateC : res (branch * rstatus) := b_new toy_sha one_float 0 100 (NEVER_W - 1) [at_time "3+C"] yarnA0 false.
Example C47_never_case :
  NEVER_W <= uvalue (first_event 0 (NEVER_W - 1) [at_time "3+C"] yarnA0 false) < 2 ^ 64 /\ lateC = Done (branch_of lateC, ROk) /\
  Forall no_frame [BOpen 0; BCompact KEY_ZERO (CFull 1); BOpen 9] /\
  b_run toy_sha one_float 0 100 (branch_id yarnA0) (branch_of lateC) [BOpen 0; BCompact KEY_ZERO (CFull 1); BOpen 9] =
    Done (branch_of (b_run toy_sha one_float 0 100 (branch_id yarnA0) (branch_of lateC) [BOpen 0; BCompact KEY_ZERO (CFull 1); BOpen 9]), [RBadFrame; ROk; RBadFrame]).
Proof. split; [split; [vm_compute; discriminate|vm_compute; reflexivity]|]. split; [vm_compute; reflexivity|]. split; [repeat constructor|vm_compute; reflexivity]. Qed.
