(* C54: several new texts in one frame. *)
From Verif Require StoreProofs ClockTheorems CompareTheorems.
From Verif Require Import Prelude UuidModel UuidSpec UuidProofs KeyModel KeyProofs CodecModel CodecProofs TextTable TextModel TextSpec FrameProofs BuilderSpec BuilderProofs MergeModel MergeSpec MergeTextModel
  MergeTheorems TextMergeSpec TextCursors MergeKeeps TextMerge TextMergeTheorems RgaTree StoreModel RocksModel RocksSpec RocksProofs MetaModel ClockModel ScanModel ScanSpec ScanTheorems
  ReplicaModel ReplicaSpec ReplicaProofs ReplicaTheorems BranchModel BranchSpec BranchProofs BranchTheorems DurableSpec DurableProofs DurableTheorems AnswerModel AnswerSpec AnswerTheorems TextAnswerSpec TextAnswerTheorems WriteSpec WriteTheorems.

(* the stamp made up for the last of n + 1 writes: each write asks the clock
   twice, and the first answer is its stamp *)
Fixpoint last_stamp (active : N) (n : nat) (now : N) (rs : list N) (yarn : N) : uuid :=
  match n with
  | O => snd (clock_now active now (hd 0 rs) yarn)
  | Datatypes.S k =>
      let now1 := fst (clock_now active now (hd 0 rs) yarn) in
      last_stamp active k (fst (clock_now active now1 (hd 0 (tl rs)) yarn)) (tl (tl rs)) yarn
  end.
Lemma last_stamp_time active n : forall now rs y, y <> 0 -> Forall (fun r => r < 2 ^ 64) rs -> exists v, last_stamp active n now rs y = uuid_time v y /\ v < 2 ^ 64.
Proof.
  induction n as [|n IH]; intros now rs y NZ F; cbn [last_stamp].
  - unfold clock_now. apply N.eqb_neq in NZ. rewrite NZ. cbn [snd]. eexists. split; [reflexivity|].
    destruct (now <? hd 0 rs); [|apply N.mod_lt; discriminate]. destruct F; [reflexivity|assumption].
  - apply IH; [exact NZ|]. destruct F as [|r rs F1 F]; [constructor|]. cbn [tl]. destruct F; [constructor|assumption].
Qed.

Section More.
Variable sha : bytes -> bytes.
Variable fbits : bytes -> N.
Variable active : N.
Variable fuel : nat.
Notation rread := (rocks_read fbits fuel).
Notation jread := (b_jread fbits fuel).
Notation cst := (cst family).
Notation receive_op := (receive_op sha fbits family jread (b_jprev fbits fuel) b_write active fuel).
Notation receive_loop := (receive_loop sha fbits family jread (b_jprev fbits fuel) b_write active fuel).
Notation b_receive := (b_receive sha fbits active fuel).
Notation b_run := (b_run sha fbits active fuel).

(* the object is kept, and its text can be told *)
Definition kept_text (d : family) (w : rop) : Prop :=
  exists state flags, rread d (text_key w) = Done (state, KOk) /\ scan_frame fuel state = ScanRet StOK flags.

Lemma write_step d tp st c c' : (1 < fuel)%nat -> s_main family st = d -> s_mem family st = [] -> s_base family st = tp ->
  text_next c = Some (valid c', c') -> text_write (rop_of c) -> kept_text d (rop_of c) ->
  exists st1, receive_op st c = Done (st1, c', ROk) /\ s_main family st1 = d /\ s_mem family st1 = [] /\ s_base family st1 = tp /\
    let now1 := fst (clock_now active (s_now family st) (hd 0 (s_readings family st)) (uorigin tp)) in
    s_tip family st1 = snd (clock_now active (s_now family st) (hd 0 (s_readings family st)) (uorigin tp)) /\
    s_now family st1 = fst (clock_now active now1 (hd 0 (tl (s_readings family st))) (uorigin tp)) /\
    s_readings family st1 = tl (tl (s_readings family st)).
Proof.
  intros LF M W B NX TW (state & flags & R & SC).
  assert (J : jread_step family jread st (key_as (text_id c) RGA_FORM_UUID) = Done (st, state, ROk)).
  { change (text_id c) with (r_id (rop_of c)). rewrite write_key. unfold jread_step. rewrite M, W.
    rewrite (jread_empty fbits fuel _ _ _ _ R). cbn [rbind]. destruct st as [m w nw rd bs tt]. cbn in M, W. subst. reflexivity. }
  set (u := snd (clock_now active (s_now family st) (hd 0 (s_readings family st)) (uorigin tp))).
  assert (WS : exists st1, txt_write_state family jread active fuel st c = Done (st1, c', ROk) /\
    s_main family st1 = d /\ s_mem family st1 = [] /\ s_base family st1 = tp /\
    let now1 := fst (clock_now active (s_now family st) (hd 0 (s_readings family st)) (uorigin tp)) in
    s_tip family st1 = u /\
    s_now family st1 = fst (clock_now active now1 (hd 0 (tl (s_readings family st))) (uorigin tp)) /\
    s_readings family st1 = tl (tl (s_readings family st))).
  { unfold txt_write_state. rewrite J. cbn [rbind is_ok negb]. unfold scan_text. unfold scan_frame in SC. rewrite SC. rewrite (next_any_of _ _ _ NX). cbn [rbind].
    assert (SL : stamp_loop fuel (cursor_of []) = Done (cursor_of [])) by (destruct fuel; [lia|reflexivity]).
    destruct st as [m w nw rd bs tt]. cbn [s_main s_mem s_base s_now s_readings] in *. subst m w bs.
    unfold now_step at 1. cbn [s_now s_readings s_base s_main s_mem s_tip].
    unfold write_new, now_step. unfold clock_now. cbn [set_tip s_now s_readings s_base s_main s_mem s_tip]. rewrite SL. cbn [rbind].
    eexists. split; [reflexivity|]. cbn [s_now s_readings s_base s_main s_mem s_tip]. repeat split; reflexivity. }
  destruct WS as (st1 & WS & K). exists st1. split; [|exact K].
  destruct TW as (TV & TF & TQ & TR & cps & r & SV). cbn [rop_of r_id r_ref r_term r_vals] in *.
  unfold ReplicaModel.receive_op. cbv zeta. change (text_id c) with (op_id (c_op c)). change (text_ref c) with (op_ref (c_op c)). rewrite TV, TF.
  change (DERIVED =? TIME) with false. change (DERIVED =? DERIVED) with true. cbn iota. unfold peek_term. rewrite (proj2 (N.eqb_neq _ _) TR). cbn [negb rbind].
  rewrite (proj2 (N.eqb_neq _ _) TQ). rewrite N.eqb_refl. unfold txt_write.
  destruct (nth_error (c_op c) 2) as [a|] eqn:NA.
  - destruct (c_op c) as [|a0 [|a1 [|a2 l]]]; try discriminate NA. cbn [nth_error] in NA. injection NA as ->. cbn [skipn map] in SV.
    destruct a as [?|? ?|? ? ? ?|? ?]; try discriminate SV. exact WS.
  - destruct (c_op c) as [|a0 [|a1 [|a2 l]]]; try discriminate SV. discriminate NA.
Qed.

Lemma write_loop (P : bytes -> N -> Prop) d tp c cs : (1 < fuel)%nat -> visits valid text_next c cs -> forall n st w ws,
  Forall2 (lit_cursor P) cs (w :: ws) -> Forall text_write (w :: ws) -> Forall (kept_text d) (w :: ws) -> (length (w :: ws) < n)%nat ->
  s_main family st = d -> s_mem family st = [] -> s_base family st = tp ->
  exists st1, receive_loop n st c = Done (st1, ROk) /\ s_main family st1 = d /\ s_mem family st1 = [] /\ s_base family st1 = tp /\
    s_tip family st1 = last_stamp active (length ws) (s_now family st) (s_readings family st) (uorigin tp).
Proof.
  intros LF VS. induction VS as [c V|c c' l V NX VS IH]; intros n st w ws F TW KT L M W B; [inversion F|].
  inversion F as [|? ? ? ? [E E2] F2]; subst w. inversion TW as [|? ? T1 T2]; subst. inversion KT as [|? ? K1 K2]; subst.
  destruct n as [|n]; [cbn [length] in L; lia|].
  destruct (write_step _ _ st c c' LF eq_refl W eq_refl NX T1 K1) as (st1 & RO & M1 & W1 & B1 & S1 & N1 & R1).
  cbn [ReplicaModel.receive_loop]. rewrite V, RO. cbn [rbind is_ok].
  destruct ws as [|w2 ws].
  - inversion F2; subst. inversion VS as [? V1|]; subst. destruct n as [|n]; [cbn [length] in L; lia|]. cbn [ReplicaModel.receive_loop]. rewrite V1.
    exists st1. split; [reflexivity|]. auto.
  - destruct (IH n st1 w2 ws F2 T2 K2 ltac:(cbn [length] in *; lia) M1 W1 B1) as (st2 & L2 & M2 & W2 & B2 & S2).
    exists st2. split; [exact L2|]. split; [exact M2|]. split; [exact W2|]. split; [exact B2|]. rewrite S2, N1, R1. reflexivity.
Qed.

(* C54: New texts for kept objects, any number of them in a frame, are answered
   with OK, and nothing is kept of them: all objects are as they were. The record
   of the last event names the event made up for the last write, which is kept
   nowhere. *)
Theorem C54_texts : forall (P : bytes -> N -> Prop) id b t now rs f w ws,
  let u := last_stamp active (length ws) now rs (uorigin (br_tip b)) in
  version id = TIME -> healthy id b t -> clocks (BReceive now rs f) -> uvalue (br_tip b) < uvalue u ->
  frame_lit P f (w :: ws) -> N.of_nat (length f) < 2 ^ 32 -> Forall text_write (w :: ws) -> (length (w :: ws) < fuel)%nat ->
  Forall (kept_text (br_main b)) (w :: ws) ->
  exists b', b_receive b now rs f = Done (b', ROk) /\ br_tip b' = br_tip b /\ tip_record (br_main b') u /\ healthy id b' u /\
    forall k, k <> KEY_ZERO -> cell_at (br_main b') k = cell_at (br_main b) k.
Proof.
  intros P id b t now rs f w ws u VI HB [CN CR] LT FL SM TW LF KT.
  destruct HB as (TD & TB & OT & OB). destruct (frame_visits f _ FL SM) as (cs & (c' & NX & VS) & F).
  destruct cs as [|c cs]; [inversion F|]. inversion VS as [|? c1 ? V NX2 VS2]; subst. unfold text_next in NX. rewrite V in NX.
  destruct (next (cursor_of f)) as [c2|c2|c2|] eqn:EN; try discriminate. injection NX as ->. destruct b as [d tp]. cbn [br_main br_tip] in *.
  assert (OU : uorigin id < 2 ^ 62) by (rewrite <- OB; apply TB).
  assert (UE : exists v, u = uuid_time v (uorigin id) /\ v < 2 ^ 64).
  { unfold u. rewrite OB. apply last_stamp_time; [exact (origin_time _ VI)|exact CR]. }
  destruct UE as (v & UE & LV).
  assert (TU : tip_ok u) by (rewrite UE; apply uuid_time_ok; exact LV).
  assert (YU : uorigin u = uorigin id) by (rewrite UE; apply same_yarn; assumption).
  destruct (tip_reads u TU) as (fu & _ & _ & FU & _).
  assert (NT : uuid_eqb u tp = false). { destruct (uuid_eqb u tp) eqn:Q; [|reflexivity]. apply uuid_eqb_eq in Q. rewrite Q in LT. lia. }
  assert (GT : uuid_ltb u tp = false). { unfold uuid_ltb. apply orb_false_iff. split; [apply N.ltb_ge; lia|]. apply andb_false_iff. left. apply N.eqb_neq. lia. }
  destruct (write_loop P d tp c (c :: cs) ltac:(cbn [length] in LF; lia) VS fuel (commit_on family d now rs tp) w ws F TW KT LF eq_refl eq_refl eq_refl)
    as (st1 & L1 & M1 & W1 & B1 & T1).
  cbn [commit_on s_now s_readings] in T1. fold u in T1.
  unfold BranchModel.b_receive, receive_frame. cbn [br_main br_tip]. rewrite EN. unfold receive. rewrite L1. cbn [rbind is_ok].
  destruct (save family b_batch st1) as [[st4 s4]| |] eqn:SV4.
  2,3: exfalso; unfold save in SV4; rewrite T1, B1, NT, YU, OB, N.eqb_refl, andb_false_r, GT, FU, W1 in SV4; discriminate SV4.
  destruct (save_quiet st1 st4 s4 W1 ltac:(rewrite M1; apply TD) SV4) as [O4 K4]. rewrite M1 in K4.
  unfold save in SV4. rewrite T1, B1, NT, YU, OB, N.eqb_refl, andb_false_r, GT, FU, W1, M1 in SV4. cbn [negb] in SV4.
  change (write bytes [] KEY_ZERO fu) with ([(KEY_ZERO, fu)], StOK) in SV4. cbn [rstatus_of is_ok negb] in SV4.
  apply rbind_done in SV4 as ([d4 s5] & BB & SV4).
  destruct (batch_tip d t [] fu [(KEY_ZERO, fu)] u d4 s5 TD TU ltac:(constructor) FU eq_refl BB) as [TT ->]. injection SV4 as <- <-.
  cbn [rbind s_main]. exists (mkBranch d4 tp). split; [reflexivity|]. cbn [br_main br_tip]. split; [reflexivity|]. split; [apply TT|].
  split; [|exact K4]. split; [exact TT|]. auto.
Qed.

Lemma jread_main m w k m' w' g s : jread m w k = Done (m', w', g, s) -> m' = m.
Proof.
  intro H. unfold BranchModel.b_jread in H. apply rbind_done in H as ([fa sa] & _ & H).
  destruct sa; try (injection H as <- _ _ _; reflexivity). apply rbind_done in H as ([[w1 fb] sb] & _ & H).
  destruct sb; try (injection H as <- _ _ _; reflexivity). destruct (blank fa); [injection H as <- _ _ _; reflexivity|].
  destruct (blank fb); [injection H as <- _ _ _; reflexivity|]. apply rbind_done in H as ([r s2] & _ & H). injection H as <- _ _ _. reflexivity.
Qed.
Lemma main_kept f d (st st' : cst) ws : (forall x, delivered f x -> ~ naming x) ->
  acts family jread b_write (s_main family st, s_mem family st) ws (s_main family st', s_mem family st') -> Forall (name_from f) ws ->
  s_main family st = d -> s_main family st' = d.
Proof.
  intros NN A F <-. change (fst (s_main family st', s_mem family st') = fst (s_main family st, s_mem family st)). revert A F.
  generalize (s_main family st', s_mem family st') (s_main family st, s_mem family st). intros y x A.
  induction A as [|ws m w k m' w' g s A IH R|ws m w k g w' A IH W|ws m w g m' s A IH W]; intro F.
  - reflexivity.
  - cbn [fst]. rewrite (jread_main _ _ _ _ _ _ _ R). apply (IH F).
  - apply Forall_app in F as [F _]. apply (IH F).
  - apply Forall_app in F as [_ F]. pose proof (Forall_inv F) as K. destruct K as (c & _ & _ & _ & D & NM & _). destruct (NN c D NM).
Qed.

(* C54: An accepted frame of events goes forward: its last event is the one the
   branch was opened at, and nothing of the frame is saved, or a later one of
   the same yarn. A refused frame leaves the branch as it was. *)
Theorem C54_forward : forall b now rs f b' s c, events_only f -> last_event f c -> b_receive b now rs f = Done (b', s) ->
  (s = ROk -> text_id c = br_tip b /\ b' = b \/ uuid_ltb (br_tip b) (text_id c) = true /\ (br_tip b = NIL \/ uorigin (text_id c) = uorigin (br_tip b))) /\
  (s <> ROk -> b' = b).
Proof.
  intros [d tp] now rs f b' s c EO (l1 & l2 & O & Sc & F2) H. unfold BranchModel.b_receive in H. cbn [br_main br_tip] in *.
  assert (NM : forall x, delivered f x -> ~ naming x) by (intros x D X; destruct (EO x D) as [[K _]|K]; unfold naming in X; rewrite X in K; vm_compute in K; discriminate K).
  apply rbind_done in H as ([[d' n] s1] & H & Q). injection Q as <- <-. split.
  - intros ->. unfold receive_frame in H. destruct (next (cursor_of f)) as [c0|c0|c0|] eqn:N; try discriminate.
    2,3: exfalso; assert (O0 : ops_of f []) by (exists (cursor_of f), c0; split; [constructor|auto]);
         pose proof (ops_unique _ _ _ O O0) as X; destruct l1; discriminate X.
    apply rbind_done in H as ([st s2] & H & Q). injection Q as <- <- ->. unfold receive in H. apply rbind_done in H as ([st1 s3] & L & H).
    destruct (receive_loop_inv sha fbits family jread (b_jprev fbits fuel) b_write active fuel f c0 fuel (commit_on family d now rs tp) [] [] (commit_on family d now rs tp) [] c0 st1 s3 N eq_refl
              (acc_none _ _ _ _ _) (pass0 c0) (Forall_nil _) (Forall_nil _) (Forall_nil _) (subl_nil _) (subl_nil _) L) as (hs & ws & A1 & A2 & A3 & _).
    change (s_base family (commit_on family d now rs tp)) with tp in A2.
    destruct (is_ok s3) eqn:E3; [|injection H as _ ->; discriminate]. apply is_ok_iff in E3. subst s3.
    destruct (receive_loop_tip sha fbits family jread (b_jprev fbits fuel) b_write active fuel f EO c0 fuel tp (commit_on family d now rs tp) [] c0 st1 N (pass0 c0) (or_introl eq_refl) L) as (l & OL & E).
    rewrite (ops_unique _ _ _ OL O) in E. rewrite lst_app in E.
    assert (E1 : lst (lst tp l1) (c :: l2) = text_id c).
    { unfold lst at 1. cbn [fold_left]. rewrite (proj2 (stampedb_iff c) Sc). clear -F2. generalize (text_id c). induction F2 as [|x l N F IH]; intro t; [reflexivity|]. cbn [fold_left].
      destruct (stampedb x) eqn:Q; [apply stampedb_iff in Q; contradiction|]. apply IH. }
    rewrite E1 in E. clear E1 L.
    destruct (save_inv family b_batch _ _ _ H) as [(Q1 & _ & Q)|[(Q1 & _)|(Q1 & Q2 & Q3 & Q4)]].
    + left. split; [congruence|]. f_equal. rewrite Q. exact (main_kept f d (commit_on family d now rs tp) st1 ws NM A1 A3 eq_refl).
    + contradiction.
    + right. rewrite E, A2 in *. auto.
  - intro NE. f_equal.
    apply (C37_atomic sha fbits family jread (b_jprev fbits fuel) b_write b_batch active fuel) with (now := now) (rs := rs) (tip := tp) (frame := f) (now' := n) (s := s1); try assumption.
    + exact jread_main.
    + clear. intros m w m' s1 H NE. unfold b_batch, rocks_batch in H. injection H as _ <-. contradiction.
Qed.
(* C54: After such writes and a restart, a frame of events whose last one is
   stamped before the made-up event is refused, and all objects are as they were
   before the writes. *)
Theorem C54_ghost : forall (P : bytes -> N -> Prop) id b t now rs f w ws now1 now2 rs2 g c b3 ss,
  let u := last_stamp active (length ws) now rs (uorigin (br_tip b)) in
  version id = TIME -> healthy id b t -> clocks (BReceive now rs f) -> uvalue (br_tip b) < uvalue u ->
  frame_lit P f (w :: ws) -> N.of_nat (length f) < 2 ^ 32 -> Forall text_write (w :: ws) -> (length (w :: ws) < fuel)%nat ->
  Forall (kept_text (br_main b)) (w :: ws) ->
  events_only g -> last_event g c -> uvalue (text_id c) < uvalue u ->
  b_run id b [BReceive now rs f; BOpen now1; BReceive now2 rs2 g] = Done (b3, ss) ->
  (exists s, ss = [ROk; ROk; s] /\ s <> ROk) /\ br_tip b3 = u /\
  forall k, k <> KEY_ZERO -> cell_at (br_main b3) k = cell_at (br_main b) k.
Proof.
  intros P id b t now rs f w ws now1 now2 rs2 g c b3 ss u VI HB CL LT FL SM TW LF KT EO LE LC R.
  destruct (C54_texts P id b t now rs f w ws VI HB CL LT FL SM TW LF KT) as (b1 & R1 & _ & _ & H1 & K1). fold u in H1.
  cbn [BranchModel.b_run] in R. apply rbind_done in R as ([b1' s1] & S1 & R). cbn [BranchModel.b_step] in S1. rewrite R1 in S1. injection S1 as <- <-.
  apply rbind_done in R as ([b3' s2] & R & Q). injection Q as <- <-.
  apply rbind_done in R as ([b2 s3] & S2 & R). apply rbind_done in R as ([b3'' s4] & R & Q). injection Q as <- <-.
  apply rbind_done in R as ([b4 s5] & S3 & R). injection R as <- <-.
  assert (RO : b_run id b1 [BOpen now1] = Done (b2, [s3])) by (cbn [BranchModel.b_run]; rewrite S2; reflexivity).
  destruct (C47_tip sha fbits active fuel id b1 u [BOpen now1] b2 [s3] VI H1 ltac:(repeat constructor) ltac:(intros n r x [X|[]]; discriminate X) RO) as (t' & RM & _).
  inversion RM as [|? ? ? ? o1 u1 ? ? ? ? RC RM1]; subst. inversion RM1; subst. inversion RC as [| | | |? ? ? E|]; subst.
  destruct (C47_reopen sha fbits active fuel id b1 now1 b2 ROk S2) as [M2 _].
  cbn [BranchModel.b_step] in S3. destruct (C54_forward b2 now2 rs2 g b4 s5 c EO LE S3) as [OK NO].
  assert (TB : br_tip b2 = u) by congruence.
  assert (NE : s5 <> ROk).
  { intro X. destruct (OK X) as [[Y _]|[Y _]]; rewrite TB in Y; [rewrite Y in LC; lia|]. unfold uuid_ltb in Y. apply orb_true_iff in Y as [Y|Y].
    - apply N.ltb_lt in Y. lia.
    - apply andb_true_iff in Y as [Y _]. apply N.eqb_eq in Y. lia. }
  rewrite (NO NE). split; [exists s5; auto|]. split; [exact TB|]. rewrite M2. exact K1.
Qed.
End More.
Print Assumptions C54_texts.
Print Assumptions C54_forward.
Print Assumptions C54_ghost.
