(* C54: what becomes of the writes of a local user. *)
From Verif Require StoreProofs ClockTheorems CompareTheorems.
From Verif Require Import Prelude UuidModel UuidSpec UuidProofs KeyModel KeyProofs CodecModel CodecProofs TextTable TextModel TextSpec FrameProofs BuilderSpec BuilderProofs MergeModel MergeSpec MergeTextModel
  MergeTheorems TextMergeSpec TextCursors MergeKeeps TextMerge TextMergeTheorems RgaTree StoreModel RocksModel RocksSpec RocksProofs MetaModel ClockModel ScanModel ScanSpec ScanTheorems
  ReplicaModel ReplicaSpec ReplicaProofs ReplicaTheorems BranchModel BranchSpec BranchProofs BranchTheorems DurableSpec DurableProofs DurableTheorems AnswerModel AnswerSpec AnswerTheorems TextAnswerSpec TextAnswerTheorems WriteSpec.

Section Writes.
Variable sha : bytes -> bytes.
Variable fbits : bytes -> N.
Variable active : N.
Variable fuel : nat.
Notation rread := (rocks_read fbits fuel).
Notation jread := (b_jread fbits fuel).
Notation cst := (cst family).
Notation receive_op := (receive_op sha fbits family jread (b_jprev fbits fuel) b_write active fuel).
Notation receive_loop := (receive_loop sha fbits family jread (b_jprev fbits fuel) b_write active fuel).
Notation b_receive := (b_receive sha fbits active fuel).
Notation b_run := (b_run sha fbits active fuel).
Notation dealt := (dealt family jread b_write).
Notation moved := (moved family jread b_write).

(* ---- a frame without events leaves every object alone ---- *)
Lemma receive_op_quiet st c st' c' s : valid c = true -> ~ stamped c -> ~ naming c -> receive_op st c = Done (st', c', s) -> dealt st c st' c' s.
Proof.
  intros V NS NN. unfold ReplicaModel.receive_op.
  destruct (version (text_id c) =? TIME) eqn:VT.
  { destruct (c_term c =? QUERY) eqn:TQ.
    { intro H. eapply receive_query_dealt; eassumption. }
    destruct (payload (uorigin (text_id c)) =? 0) eqn:PZ; cbn [negb].
    { intro H. eapply receive_writes_dealt; eassumption. }
    exfalso. apply NS. split; [apply N.eqb_eq; exact VT|]. split; apply N.eqb_neq; assumption. }
  destruct (version (text_id c) =? DERIVED).
  { destruct (peek_term c) as [p| |]; cbn [rbind]; try discriminate.
    destruct (p =? QUERY); destruct (uuid2form (text_ref c) =? TXT_MAP_FORM); intro H;
      try (injection H as <- <- <-; apply dealt_fail; discriminate);
      [eapply txt_read_dealt|eapply txt_write_dealt]; eassumption. }
  destruct (version (text_id c) =? NAME).
  { destruct (uuid_eqb (text_id c) COMMENT).
    { destruct (next c) as [d|d|d|] eqn:N; try discriminate; intro H; injection H as <- <- <-.
      - split; [apply moved_refl|]. intros _. exists [c]. split; [apply passes_ok; assumption|constructor; [exact NS|constructor]].
      - split; [apply moved_refl|discriminate].
      - split; [apply moved_refl|discriminate]. }
    destruct (uuid_eqb (text_id c) NAME_UUID) eqn:EN; [|intro H; injection H as <- <- <-; apply dealt_fail; discriminate].
    apply uuid_eqb_eq in EN. contradiction. }
  intro H; injection H as <- <- <-; apply dealt_fail; discriminate.
Qed.
Lemma receive_loop_quiet frame c0 n : no_event frame -> (forall c, delivered frame c -> ~ naming c) -> forall st l c st' s,
  next (cursor_of frame) = NOk c0 -> passes c0 l c -> receive_loop n st c = Done (st', s) -> moved st [] st'.
Proof.
  intros NE NN. induction n as [|n IH]; intros st l c st' s N0 P H; [discriminate|]. cbn [ReplicaModel.receive_loop] in H.
  pose proof (passes_run _ _ _ _ N0 P) as R.
  destruct (valid c) eqn:V; [|injection H as <- <-; apply moved_refl].
  destruct (receive_op st c) as [[[st1 c1] s1]| |] eqn:RO; cbn [rbind] in H; try discriminate.
  assert (D : delivered frame c) by exact (ex_intro _ l R).
  destruct (receive_op_quiet _ _ _ _ _ V (NE c D) (NN c D) RO) as [M K].
  destruct (is_ok s1) eqn:E1; [|injection H as <- <-; exact M]. apply is_ok_iff in E1. destruct (K E1) as (l1 & P1 & _).
  apply (moved_app _ _ _ st [] st1 [] st' M). apply (IH st1 (l ++ l1) c1 st' s N0); [eapply passes_app; eassumption|exact H].
Qed.
Lemma acts_nothing x y : acts family jread b_write x [] y -> snd x = [] -> y = x.
Proof.
  intros A. remember [] as ws eqn:Q in A. revert Q. induction A as [|ws m w k m' w' f s A IH R|ws m w k f w' A IH W|ws m w f m' s A IH W]; intros Q M.
  - reflexivity.
  - specialize (IH Q M). subst x. cbn [snd] in M. subst w. destruct (rread m k) as [[g ks]| |] eqn:E.
    + rewrite (jread_empty fbits fuel _ _ _ _ E) in R. congruence.
    + unfold b_jread in R. rewrite E in R. discriminate.
    + unfold b_jread in R. rewrite E in R. discriminate.
  - destruct ws; discriminate.
  - destruct ws; discriminate.
Qed.
Lemma save_quiet (st : cst) st' s : s_mem family st = [] -> in_order (s_main family st) -> save family b_batch st = Done (st', s) ->
  in_order (s_main family st') /\ forall k, k <> KEY_ZERO -> cell_at (s_main family st') k = cell_at (s_main family st) k.
Proof.
  intros M O. unfold save.
  destruct (uuid_eqb (s_tip family st) (s_base family st)); [intro H; injection H as <- <-; auto|].
  destruct (_ && _); [intro H; injection H as <- <-; auto|].
  destruct (uuid_ltb (s_tip family st) (s_base family st)); [intro H; injection H as <- <-; auto|].
  destruct (one_op (s_tip family st) ZERO_FORM_UUID []) as [f|]; [|discriminate]. rewrite M.
  change (write bytes [] KEY_ZERO f) with ([(KEY_ZERO, f)], StOK). cbn [rstatus_of is_ok negb].
  unfold b_batch, rocks_batch. cbn [rbind]. intro H. injection H as <- <-. cbn [s_main].
  split; [exact (proj1 (adds_at [(KEY_ZERO, f)] _ KEY_ZERO O))|]. intros k NK.
  pose proof (proj2 (adds_at [(KEY_ZERO, f)] _ k O)) as E. etransitivity; [exact E|]. rewrite contents_one.
  destruct (key_eqb KEY_ZERO k) eqn:EK; [apply StoreProofs.key_eqb_eq in EK; congruence|]. rewrite app_nil_r. destruct (cell_at (s_main family st) k); reflexivity.
Qed.
Lemma receive_quiet b now rs f b' s : in_order (br_main b) -> no_event f -> (forall c, delivered f c -> ~ naming c) ->
  b_receive b now rs f = Done (b', s) ->
  br_tip b' = br_tip b /\ in_order (br_main b') /\ forall k, k <> KEY_ZERO -> cell_at (br_main b') k = cell_at (br_main b) k.
Proof.
  intros O NE NN H. unfold BranchModel.b_receive in H. apply rbind_done in H as ([[d n] s1] & H & Q). injection Q as <- <-. cbn [br_tip br_main].
  split; [reflexivity|]. unfold receive_frame in H. destruct (next (cursor_of f)) as [c|c|c|] eqn:N; try discriminate; [|injection H as <- <- <-; auto..].
  apply rbind_done in H as ([st s2] & H & Q). injection Q as <- <- <-. unfold receive in H. apply rbind_done in H as ([st1 s3] & L & H).
  pose proof (receive_loop_quiet f c fuel NE NN _ [] c _ _ N (pass0 c) L) as [A _]. cbn [commit_on s_main s_mem] in A.
  apply acts_nothing in A; [|reflexivity]. injection A as EM EW.
  destruct (is_ok s3); [|injection H as <- <-; rewrite EM; auto].
  destruct (save_quiet st1 st s2 EW ltac:(rewrite EM; exact O) H) as [K1 K2]. rewrite EM in K2. auto.
Qed.

(* C54: A frame without events and names changes no object: whatever the status
   is, nothing but the record of the last event can be another. So for any
   number of them, and restarts in between. *)
Definition quiet (e : bevent) : Prop :=
  match e with
  | BReceive _ _ f => no_event f /\ forall c, delivered f c -> ~ naming c
  | BOpen _ => True
  | BCompact _ _ => False
  end.
Theorem C54_lost : forall id es b b' ss, in_order (br_main b) -> Forall quiet es -> b_run id b es = Done (b', ss) ->
  forall k, k <> KEY_ZERO -> cell_at (br_main b') k = cell_at (br_main b) k /\ rread (br_main b') k = rread (br_main b) k.
Proof.
  intros id es b b' ss O Q R k NK. assert (K : cell_at (br_main b') k = cell_at (br_main b) k).
  2:{ split; [exact K|]. unfold rocks_read. rewrite K. reflexivity. }
  revert b ss O R. induction Q as [|e es Q F IH]; intros b ss O R; cbn [BranchModel.b_run] in R; [injection R as <- _; reflexivity|].
  apply rbind_done in R as ([b1 s1] & H1 & R). apply rbind_done in R as ([b2 s2] & H2 & R). injection R as <- <-.
  destruct e as [now rs f|now|k1 e1]; [| |destruct Q].
  - destruct Q as [NE NN]. destruct (receive_quiet _ _ _ _ _ _ O NE NN H1) as (_ & O1 & K1). rewrite (IH b1 s2 O1 H2). apply K1. exact NK.
  - destruct (C47_reopen sha fbits active fuel id b now b1 s1 H1) as [E _]. rewrite (IH b1 s2); [rewrite E; reflexivity|rewrite E; exact O|exact H2].
Qed.
(* ---- new events: the loop gets through them, nothing is made of them ---- *)
Lemma amend_ok (P : bytes -> N -> Prop) c o : lit_cursor P c o -> marked_cursor c false -> no_empty_string o -> amend c = Done tt.
Proof.
  intros [E F] M NE. unfold amend. subst o. unfold no_empty_string in NE. cbn [rop_of r_vals] in F, NE.
  unfold marked_cursor, marked in M. revert F NE M. generalize (skipn 2 (c_op c)). intro l. induction l as [|a l IH]; intros F NE M; [reflexivity|].
  cbn [map] in F, NE. inversion F as [|? ? ? ? L F2]; subst. inversion NE as [|? ? N1 N2]; subst. inversion M as [|? ? M1 M2]; subst.
  cbn [amend_atoms]. assert (A : amend_atom (c_buf c) a = Done tt).
  { destruct a as [u|b e|cp n b e|b e]; try reflexivity. cbn [at_start] in M1. subst cp. cbn [value_of lit_atom amend_atom] in *.
    change (0 =? 0) with true in *. cbn iota in *. destruct (read_codepoints (N.to_nat n) (sub (c_buf c) b e)) as [cps|] eqn:R; [|destruct L].
    destruct L as (cs & _ & _ & E & ->). destruct cs as [|x cs]; [exfalso; apply N1; rewrite E; reflexivity|].
    destruct (N.of_nat (length (x :: cs)) =? 0) eqn:Z; [apply N.eqb_eq in Z; cbn [length] in Z; lia|]. reflexivity. }
  rewrite A. cbn [rbind]. apply IH; assumption.
Qed.
Lemma stamp_loop_ok (P : bytes -> N -> Prop) c cs : visits valid text_next c cs -> forall ops n, Forall2 (lit_cursor P) cs ops -> Forall (fun c => marked_cursor c false) cs ->
  Forall new_op ops -> Forall no_empty_string ops -> (length cs < n)%nat -> exists c', stamp_loop n c = Done c' /\ valid c' = false.
Proof.
  induction 1 as [c V|c c' l V NX VI IH]; intros ops [|n] F M NO NE L; cbn [length] in L; try lia; cbn [stamp_loop]; rewrite V; cbn [andb]; [eauto|].
  inversion F as [|? o ? ops' L1 F2]; subst. inversion M as [|? ? M1 M2]; subst. inversion NO as [|? ? N1 N2]; subst. inversion NE as [|? ? E1 E2]; subst.
  destruct N1 as (_ & PZ & _). destruct L1 as [E L1]. assert (PC : payload (uorigin (text_id c)) = 0) by (rewrite <- E in PZ; exact PZ). rewrite PC. change (0 =? 0) with true. cbn iota.
  rewrite (amend_ok P c o (conj E L1) M1 E1). cbn [rbind]. rewrite (next_any_of _ _ _ NX). cbn [rbind]. apply (IH ops' n F2 M2 N2 E2). lia.
Qed.
Lemma look_ahead_ok c cs : visits valid text_next c cs -> forall n, (length cs <= n)%nat -> valid c = true -> look_ahead n c = Done tt.
Proof.
  induction 1 as [c V|c c' l V NX VI IH]; intros n L VC; [congruence|]. destruct n as [|n]; cbn [length] in L; [lia|]. cbn [look_ahead].
  unfold text_next in NX. destruct (next c) as [d|d|d|] eqn:N; try discriminate; try reflexivity. assert (d = c') by congruence. subst d.
  destruct (c_term c' =? REDUCED); [|reflexivity]. destruct (valid c') eqn:V2; [apply IH; [lia|reflexivity]|].
  injection NX. intro X. rewrite X in *. discriminate.
Qed.

(* C54: A frame of new events (no author, no spans, no empty strings) is answered
   with OK, and the branch is as it was. *)
Theorem C54_new : forall (P : bytes -> N -> Prop) b now rs f ops, frame_marked P f ops (repeat false (length ops)) -> N.of_nat (length f) < 2 ^ 32 ->
  new_events ops -> (length ops < fuel)%nat -> b_receive b now rs f = Done (b, ROk).
Proof.
  intros P b now rs f ops FM SM (NO & NE & o & r & EO & RF) LF.
  destruct (marked_visits f _ _ FM SM) as (cs & (c' & NX & VI) & F & M).
  assert (LC : length cs = length ops) by (apply (CompareTheorems.Forall2_len _ _ _ F)).
  assert (M' : Forall (fun c => marked_cursor c false) cs).
  { clear -M. remember (repeat false (length ops)) as ms eqn:Q. assert (B : Forall (fun m => m = false) ms) by (subst ms; apply Forall_forall; intros m I; apply (repeat_spec _ _ _ I)). clear Q.
    induction M; [constructor|]. inversion B; subst. constructor; auto. }
  subst ops. inversion F as [|c o' cs' r' [E1 E2] F2]; subst. inversion VI as [|? c1 l V NX2 VI2]; subst. unfold text_next in NX. rewrite V in NX.
  destruct (next (cursor_of f)) as [c2|c2|c2|] eqn:EN; try discriminate. injection NX as ->. destruct b as [d t].
  unfold BranchModel.b_receive, receive_frame. cbn [br_main br_tip]. rewrite EN. set (st := commit_on family d now rs t).
  destruct (stamp_loop_ok P c (c :: cs') VI (rop_of c :: r) fuel F M' NO NE ltac:(rewrite LC; exact LF)) as (ce & SL & VE).
  assert (WN : exists st1, write_new family active fuel st c = Done (st1, ce, ROk) /\ s_main family st1 = d /\ s_tip family st1 = t /\ s_base family st1 = t).
  { unfold write_new. destruct (now_step family active st) as [st1 u] eqn:NS. exists st1. rewrite SL. cbn [rbind]. split; [reflexivity|].
    unfold now_step, clock_now in NS. injection NS as <- _. auto. }
  destruct WN as (st1 & WN & E1 & E3 & E4).
  assert (RO : receive_op st c = Done (st1, ce, ROk)).
  { inversion NO as [|? ? (N1 & N2 & N3) _]; subst. cbn [rop_of r_id r_term r_ref] in N1, N2, N3, RF. unfold ReplicaModel.receive_op. cbv zeta.
    change (text_id c) with (op_id (c_op c)). rewrite N1, N2. change (TIME =? TIME) with true. change (0 =? 0) with true. cbn iota.
    apply N.eqb_neq in N3. rewrite N3. cbn [negb]. unfold receive_writes. change (text_ref c) with (op_ref (c_op c)).
    destruct RF as [RF|[RF FF]]; rewrite RF; [change (TIME =? TIME) with true; cbn iota; exact WN|].
    change (NAME =? TIME) with false. change (NAME =? NAME) with true. cbn [negb].
    assert (LA : (if negb (c_term c =? REDUCED) then Done tt else look_ahead fuel c) = Done tt).
    { destruct (negb (c_term c =? REDUCED)); [reflexivity|]. apply (look_ahead_ok c (c :: cs') VI fuel); [lia|exact V]. }
    rewrite LA. cbn [rbind]. cbv zeta. destruct FF as [<-|[<-|[<-|[<-|[]]]]]; rewrite N.eqb_refl, ?orb_true_r; exact WN. }
  unfold receive. destruct fuel as [|[|n]] eqn:EF; [cbn [length] in LF; lia|cbn [length] in LF; lia|]. rewrite <- EF in *.
  assert (L1 : receive_loop (Datatypes.S (Datatypes.S n)) st c = Done (st1, ROk)).
  { cbn [ReplicaModel.receive_loop]. rewrite V, RO. cbn [rbind is_ok]. rewrite VE. reflexivity. }
  rewrite <- EF in L1. rewrite L1. cbn [rbind is_ok]. unfold save. rewrite E3, E4, (proj2 (uuid_eqb_eq t t) eq_refl). cbn [rbind]. rewrite E1. reflexivity.
Qed.
(* ---- a new text: the difference written is that of two empty texts ---- *)
Lemma write_key w : key_as (r_id w) RGA_FORM_UUID = text_key w.
Proof.
  unfold key_as, text_key. change (uuid2form RGA_FORM_UUID) with RGA_RDT_FORM. rewrite !key_of_eq by reflexivity. unfold object_of.
  rewrite ClockTheorems.time_payload. reflexivity.
Qed.
Lemma same_yarn v id : version id = TIME -> uorigin id < 2 ^ 62 -> uorigin (uuid_time v (uorigin id)) = uorigin id.
Proof.
  clear. intros V B. unfold version, word_flags in V. rewrite shiftr_div in V. change 3 with (N.ones 2) in V. rewrite N.land_ones in V. change TIME with 2 in V.
  rewrite ClockTheorems.time_origin. change TIME with 2. change (2 ^ 2) with 4 in V.
  change (2 ^ 62) with 4611686018427387904 in B. change (2 ^ 60) with 1152921504606846976 in *. dlia.
Qed.

(* C54: A new text for a kept object is answered with OK, and nothing is kept of
   it: all objects are as they were. What is another is the record of the last
   event: it names an event made up for the write, which is kept nowhere. The
   branch in memory goes on from the event before. *)
Theorem C54_text : forall (P : bytes -> N -> Prop) id b t now rs f w state flags,
  let u := snd (clock_now active now (hd 0 rs) (uorigin (br_tip b))) in
  version id = TIME -> healthy id b t -> clocks (BReceive now rs f) -> uvalue (br_tip b) < uvalue u ->
  frame_lit P f [w] -> N.of_nat (length f) < 2 ^ 32 -> text_write w -> (1 < fuel)%nat ->
  rread (br_main b) (text_key w) = Done (state, KOk) -> scan_frame fuel state = ScanRet StOK flags ->
  exists b', b_receive b now rs f = Done (b', ROk) /\ br_tip b' = br_tip b /\ tip_record (br_main b') u /\ healthy id b' u /\
    forall k, k <> KEY_ZERO -> cell_at (br_main b') k = cell_at (br_main b) k.
Proof.
  intros P id b t now rs f w state flags u VI HB [CN CR] LT FL SM TW LF R SC.
  destruct HB as (TD & TB & OT & OB). destruct (frame_visits f _ FL SM) as (cs & (c' & NX & VS) & F).
  inversion F as [|c w' cs' ws' [E F1] F2]; subst. inversion F2; subst.
  inversion VS as [|c0 c1 l V NX2 VS2]; subst. inversion VS2 as [? V1|]; subst. unfold text_next in NX. rewrite V in NX.
  destruct (next (cursor_of f)) as [c2|c2|c2|] eqn:EN; try discriminate. injection NX as ->. destruct b as [d tp]. cbn [br_main br_tip] in *.
  assert (OU : uorigin id < 2 ^ 62) by (rewrite <- OB; apply TB).
  assert (UE : exists v, u = uuid_time v (uorigin id) /\ v < 2 ^ 64).
  { unfold u, clock_now. rewrite OB. destruct (uorigin id =? 0) eqn:Z; [apply N.eqb_eq in Z; exfalso; exact (origin_time _ VI Z)|]. cbn [snd]. eexists. split; [reflexivity|].
    destruct (now <? hd 0 rs); [|apply N.mod_lt; discriminate]. destruct CR; [reflexivity|assumption]. }
  destruct UE as (v & UE & LV).
  assert (TU : tip_ok u) by (rewrite UE; apply uuid_time_ok; exact LV).
  assert (YU : uorigin u = uorigin id) by (rewrite UE; apply same_yarn; assumption).
  destruct (tip_reads u TU) as (fu & _ & _ & FU & _).
  assert (NT : uuid_eqb u tp = false). { destruct (uuid_eqb u tp) eqn:Q; [|reflexivity]. apply uuid_eqb_eq in Q. rewrite Q in LT. lia. }
  assert (GT : uuid_ltb u tp = false). { unfold uuid_ltb. apply orb_false_iff. split; [apply N.ltb_ge; lia|]. apply andb_false_iff. left. apply N.eqb_neq. lia. }
  set (st := commit_on family d now rs tp).
  assert (J : jread_step family jread st (key_as (text_id c) RGA_FORM_UUID) = Done (st, state, ROk)).
  { change (text_id c) with (r_id (rop_of c)). rewrite write_key. unfold jread_step. change (s_mem family st) with (@nil (key * bytes)). change (s_main family st) with d.
    rewrite (jread_empty fbits fuel _ _ _ _ R). cbn [rbind]. reflexivity. }
  destruct fuel as [|[|n]] eqn:EF; [lia|lia|]. rewrite <- EF in *.
  assert (WS : exists st1 y, txt_write_state family jread active fuel st c = Done (st1, y, ROk) /\ valid y = false /\
    s_main family st1 = d /\ s_mem family st1 = [] /\ s_tip family st1 = u /\ s_base family st1 = tp).
  { unfold txt_write_state. rewrite J. cbn [rbind is_ok negb]. unfold scan_text. unfold scan_frame in SC. rewrite SC. rewrite (next_any_of _ _ _ NX2). cbn [rbind].
    destruct (now_step family active st) as [st2 u2] eqn:N1. assert (U2 : u2 = u /\ s_main family st2 = d /\ s_mem family st2 = [] /\ s_base family st2 = tp).
    { unfold now_step, clock_now in N1. injection N1 as <- <-. cbn [s_main s_mem s_base]. auto. }
    destruct U2 as (-> & M2 & W2 & B2). unfold write_new. destruct (now_step family active (set_tip family st2 u)) as [st3 u3] eqn:N3.
    assert (SL : stamp_loop fuel (cursor_of []) = Done (cursor_of [])) by (rewrite EF; reflexivity). rewrite SL. cbn [rbind].
    exists st3. eexists. split; [reflexivity|]. split; [exact V1|]. unfold now_step, clock_now in N3. injection N3 as <- _. cbn [s_main s_mem s_tip s_base set_tip]. auto. }
  destruct WS as (st1 & y & WS & VY & M1 & W1 & T1 & B1).
  destruct TW as (TV & TF & TQ & TR & cps & r & SV). cbn [rop_of r_id r_ref r_term r_vals] in *.
  assert (RO : receive_op st c = Done (st1, y, ROk)).
  { unfold ReplicaModel.receive_op. cbv zeta. change (text_id c) with (op_id (c_op c)). change (text_ref c) with (op_ref (c_op c)). rewrite TV, TF.
    change (DERIVED =? TIME) with false. change (DERIVED =? DERIVED) with true. cbn iota. unfold peek_term. rewrite (proj2 (N.eqb_neq _ _) TR). cbn [negb rbind].
    rewrite (proj2 (N.eqb_neq _ _) TQ). rewrite N.eqb_refl. unfold txt_write.
    destruct (nth_error (c_op c) 2) as [a|] eqn:NA.
    - destruct (c_op c) as [|a0 [|a1 [|a2 l]]]; try discriminate NA. cbn [nth_error] in NA. injection NA as ->. cbn [skipn map] in SV.
      destruct a as [?|? ?|? ? ? ?|? ?]; try discriminate SV. exact WS.
    - destruct (c_op c) as [|a0 [|a1 [|a2 l]]]; try discriminate SV. discriminate NA. }
  unfold BranchModel.b_receive, receive_frame. cbn [br_main br_tip]. rewrite EN. fold st. unfold receive.
  assert (L1 : receive_loop (Datatypes.S (Datatypes.S n)) st c = Done (st1, ROk)).
  { cbn [ReplicaModel.receive_loop]. rewrite V, RO. cbn [rbind is_ok]. rewrite VY. reflexivity. }
  rewrite <- EF in L1. rewrite L1. cbn [rbind is_ok]. 
  destruct (save family b_batch st1) as [[st4 s4]| |] eqn:SV4.
  2,3: exfalso; unfold save in SV4; rewrite T1, B1, NT, YU, OB, N.eqb_refl, andb_false_r, GT, FU, W1 in SV4; discriminate SV4.
  destruct (save_quiet st1 st4 s4 W1 ltac:(rewrite M1; apply TD) SV4) as [O4 K4]. rewrite M1 in K4.
  unfold save in SV4. rewrite T1, B1, NT, YU, OB, N.eqb_refl, andb_false_r, GT, FU, W1, M1 in SV4. cbn [negb] in SV4.
  change (write bytes [] KEY_ZERO fu) with ([(KEY_ZERO, fu)], StOK) in SV4. cbn [rstatus_of is_ok negb] in SV4.
  apply rbind_done in SV4 as ([d4 s5] & BB & SV4).

  destruct (batch_tip d t [] fu [(KEY_ZERO, fu)] u d4 s5 TD TU ltac:(constructor) FU eq_refl BB) as [TT ->]. injection SV4 as <- <-.
  cbn [rbind s_main]. exists (mkBranch d4 tp). split; [reflexivity|]. cbn [br_main br_tip]. split; [reflexivity|]. split; [apply TT|].
  split; [|exact K4]. split; [exact TT|]. auto.
Qed.
End Writes.
Print Assumptions C54_lost.
Print Assumptions C54_new.
Print Assumptions C54_text.
