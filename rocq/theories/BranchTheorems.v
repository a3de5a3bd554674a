(* C47: a branch remembers its last event over restarts and compactions. *)
From Verif Require Import Prelude UuidModel UuidProofs KeyModel CodecModel TextModel BuilderSpec MergeModel MergeTextModel MergeKeeps
  StoreModel MetaModel ClockModel ReplicaModel ReplicaSpec ReplicaProofs RocksModel RocksSpec BranchModel BranchSpec BranchProofs.
From Verif Require ClockTheorems.

Lemma ops_short frame l l' : ops_of frame l -> ops_of frame l' -> (length l <= length l')%nat.
Proof.
  intros (e & d & R & St) (e' & d' & R' & St').
  destruct (Nat.le_gt_cases (length l) (length l')) as [L|L]; [exact L|exfalso].
  rewrite <- (firstn_skipn (length l') l) in R. destruct (run_to_split _ _ _ _ R) as (c1 & R1 & R2).
  destruct (run_to_det _ _ _ R1 _ _ R') as [_ ->]; [rewrite firstn_length; lia|].
  destruct (skipn (length l') l) as [|x r] eqn:Sk.
  { apply (f_equal (@length cursor)) in Sk. rewrite skipn_length in Sk. cbn in Sk. lia. }
  change (x :: r) with ([x] ++ r) in R2. destruct (run_to_split _ _ _ _ R2) as (c2 & R3 & _).
  inversion R3 as [|l0 c0 c' H N E1 E2]; subst. destruct l0 as [|y l0]; [|destruct l0; discriminate].
  inversion H as [K|k1 k2 k3 G1 G2 K]; [|destruct k1; discriminate]. subst. destruct St' as [St'|St']; congruence.
Qed.
Lemma ops_unique frame l l' : ops_of frame l -> ops_of frame l' -> l = l'.
Proof.
  intros H H'. pose proof (ops_short _ _ _ H H'). pose proof (ops_short _ _ _ H' H). destruct H as (e & d & R & _), H' as (e' & d' & R' & _).
  apply (run_to_det _ _ _ R _ _ R'). lia.
Qed.
Lemma last_unique frame c d : last_event frame c -> last_event frame d -> text_id c = text_id d.
Proof.
  intros (l1 & l2 & O & S & F) (k1 & k2 & O' & S' & F'). pose proof (ops_unique _ _ _ O O') as E.
  assert (G : forall x l1 l2 y, stamped y -> Forall (fun d => ~ stamped d) l2 -> lst x (l1 ++ y :: l2) = text_id y).
  { clear. intros x l1 l2 y S F. rewrite lst_app. unfold lst at 1. cbn [fold_left]. rewrite (proj2 (stampedb_iff y) S).
    induction l2 as [|z l2 IH]; [reflexivity|]. inversion F as [|? ? Z F2]; subst. cbn [fold_left]. destruct (stampedb z) eqn:SZ; [apply stampedb_iff in SZ; contradiction|].
    apply IH. exact F2. }
  rewrite <- (G NIL l1 l2 c S F), <- (G NIL k1 k2 d S' F'), E. reflexivity.
Qed.

Section Branch.
Variable sha : bytes -> bytes.
Variable fbits : bytes -> N.
Variable active : N.
Variable fuel : nat.
Notation b_new := (b_new sha fbits active fuel).
Notation b_step := (b_step sha fbits active fuel).
Notation b_run := (b_run sha fbits active fuel).

(* Whatever a branch receives, and however its records are compacted in between,
   it can be opened again, and it still is a branch of its yarn. *)
Theorem C47_opens id b t es b' ss : version id = TIME -> healthy id b t -> Forall clocks es ->
  b_run id b es = Done (b', ss) ->
  Forall2 opened es ss /\ exists t', healthy id b' t'.
Proof.
  intros VT H C R. destruct (run_tip sha fbits active fuel id VT _ _ _ _ _ H C R) as (t' & A1 & A2 & _). eauto.
Qed.
(* If the frames have nothing but events, then every restart finds the last
   event of the last frame that was saved. *)
Theorem C47_tip id b t es b' ss : version id = TIME -> healthy id b t -> Forall clocks es ->
  (forall now rs f, In (BReceive now rs f) es -> events_only f) ->
  b_run id b es = Done (b', ss) ->
  exists t', remembers (br_tip b) t es ss (br_tip b') t' /\ tip_record (br_main b') t'.
Proof.
  intros VT H C E R. destruct (run_tip sha fbits active fuel id VT _ _ _ _ _ H C R) as (t' & A1 & A2 & A3).
  exists t'. split; [exact (A3 E)|]. apply A1.
Qed.
(* Opening writes nothing; a failed opening leaves the store's tip, too. *)
Theorem C47_reopen id b now b' s : b_step id b (BOpen now) = Done (b', s) -> br_main b' = br_main b /\ (s <> ROk -> b' = b).
Proof.
  intro H. cbn [BranchModel.b_step] in H. apply rbind_done in H as ([[[d n] t] s1] & H & Q). injection Q as <- <-.
  assert (E : d = br_main b).
  { unfold b_open, open_store_tip in H. apply rbind_done in H as ([[d1 f] s2] & R & H). unfold b_read in R. apply rbind_done in R as ([g ks] & _ & R). injection R as <- _ _.
    destruct (is_ok s2); cbn [negb] in H; [|congruence]. destruct (next (cursor_of f)) as [c|c|c|]; try congruence.
    cbv zeta in H. remember (fst (clock_see now (text_id c))) as z eqn:EZ in H. clear EZ. destruct (_ && _) in H; congruence. }
  subst d. split; [reflexivity|]. intro N. destruct b as [m u], s1; cbn [is_ok br_main br_tip]; try reflexivity. contradiction.
Qed.
(* A read through a commit is OK only if the branch's own read is, and that of the
   commit's records; what is read is one of the two if the other is empty, else
   their merge. *)
Theorem C36_branch d w k d' w' f : b_jread fbits fuel d w k = Done (d', w', f, ROk) ->
  d' = d /\ exists fa fb, rocks_read fbits fuel d k = Done (fa, KOk) /\ read bytes [] (merge_as fbits fuel) w k [] = Done (w', fb, StOK) /\
    ((fa = [] /\ f = fb) \/ (fb = [] /\ f = fa) \/ (fa <> [] /\ fb <> [] /\ exists r, merge_frames fbits fuel [fa; fb] = Done (r, StOK) /\ f = match r with Some g => g | None => [] end)).
Proof.
  intro H. unfold b_jread in H. apply rbind_done in H as ([fa sa] & RA & H). destruct sa; try discriminate.
  apply rbind_done in H as ([[w1 fb] sb] & RB & H). destruct sb; try discriminate. destruct fa as [|x fa].
  - cbn [blank] in H. injection H as <- <- <-. split; [reflexivity|]. exists [], fb. auto 8.
  - cbn [blank] in H. destruct fb as [|y fb]; cbn [blank] in H.
    + injection H as <- <- <-. split; [reflexivity|]. exists (x :: fa), []. auto 8.
    + apply rbind_done in H as ([r s] & M & H). destruct s; try discriminate. injection H as <- <- <-. split; [reflexivity|]. exists (x :: fa), (y :: fb).
      split; [exact RA|]. split; [exact RB|]. right; right. split; [discriminate|]. split; [discriminate|]. eauto.
Qed.
(* A new branch has its first event on record; the next Open finds it. *)
Theorem C47_created now rs yarn tr b s : tr = true \/ yarn <> 0 ->
  uvalue (first_event active now rs yarn tr) < NEVER_W ->
  b_new now rs yarn tr = Done (b, s) ->
  s = ROk /\ br_tip b = NIL /\ tip_record (br_main b) (first_event active now rs yarn tr) /\
  forall now1 b1 s1, b_step (branch_id yarn) b (BOpen now1) = Done (b1, s1) ->
    s1 = ROk /\ br_tip b1 = first_event active now rs yarn tr /\ healthy (branch_id yarn) b1 (first_event active now rs yarn tr).
Proof.
  intros Y NV H. destruct (first_time active now rs yarn tr) as [VT OR]. specialize (OR Y).
  destruct (new_tip sha fbits active fuel _ _ _ _ _ _ NV H) as (-> & BT & T). split; [reflexivity|]. split; [exact BT|]. split; [apply T|].
  intros now1 b1 s1 H1.
  destruct (step_tip sha fbits active fuel (branch_id yarn) b (BOpen now1) b1 s1 _ T ltac:(rewrite BT; exact zero_tip) Logic.I H1 (or_introl OR)) as (t' & T1 & TB & _ & K & _).
  destruct (K now1 eq_refl) as (-> & -> & E). split; [reflexivity|]. split; [exact E|]. split; [exact T1|]. split; [exact TB|]. split; [exact OR|]. rewrite E. exact OR.
Qed.
(* the life of a branch from its creation, if it is opened before it is used *)
Theorem C47_life now rs yarn tr b s now1 es b' ss : tr = true \/ yarn <> 0 ->
  uvalue (first_event active now rs yarn tr) < NEVER_W -> Forall clocks es ->
  b_new now rs yarn tr = Done (b, s) ->
  b_run (branch_id yarn) b (BOpen now1 :: es) = Done (b', ss) ->
  s = ROk /\ Forall2 opened (BOpen now1 :: es) ss /\
  ((forall n r f, In (BReceive n r f) es -> events_only f) ->
   exists t', remembers NIL (first_event active now rs yarn tr) (BOpen now1 :: es) ss (br_tip b') t' /\ tip_record (br_main b') t').
Proof.
  intros Y NV C N R. destruct (C47_created _ _ _ _ _ _ Y NV N) as (-> & BT & _ & K). split; [reflexivity|].
  cbn [BranchModel.b_run] in R. apply rbind_done in R as ([b1 s1] & H1 & R). apply rbind_done in R as ([b2 s2] & H2 & R). injection R as <- <-.
  destruct (K now1 b1 s1 H1) as (-> & E & H). assert (VT : version (branch_id yarn) = TIME) by (unfold branch_id; apply ClockTheorems.time_version).
  destruct (C47_opens _ _ _ _ _ _ VT H C H2) as [O _]. split; [constructor; [reflexivity|exact O]|]. intro EO.
  destruct (C47_tip _ _ _ _ _ _ VT H C EO H2) as (t' & RM & TR). exists t'. split; [|exact TR]. rewrite E in RM. eapply rem_more; [apply rec_open|exact RM].
Qed.
(* what "remembers" comes to: a restart right after an accepted frame with events
   (not ending with the event the branch was last opened at) starts from the
   frame's last event *)
Theorem C47_restart id b t now rs f now1 b' ss c : version id = TIME -> healthy id b t -> clocks (BReceive now rs f) ->
  events_only f -> last_event f c -> text_id c <> br_tip b ->
  b_run id b [BReceive now rs f; BOpen now1] = Done (b', ROk :: ss) ->
  ss = [ROk] /\ br_tip b' = text_id c.
Proof.
  intros VT H C EO L NE R. assert (E : forall n r g, In (BReceive n r g) [BReceive now rs f; BOpen now1] -> events_only g).
  { intros n r g [I|[I|[]]]; [injection I as <- <- <-; exact EO|discriminate]. }
  assert (CS : Forall clocks [BReceive now rs f; BOpen now1]) by (apply Forall_cons; [exact C|apply Forall_cons; [exact Logic.I|constructor]]).
  destruct (C47_tip id b t _ _ _ VT H CS E R) as (t' & RM & _).
  inversion RM as [|? ? ? ? o1 u1 ? ? ? ? R1 RM1]; subst. inversion RM1 as [|? ? ? ? o2 u2 ? ? ? ? R2 RM2]; subst. inversion RM2; subst.
  inversion R2; subst. inversion R1 as [? ? ? ? ? d LD ND|? ? ? ? ? d LD ED|? ? ? ? ? NO| | |]; subst.
  - split; [reflexivity|]. exact (last_unique _ _ _ LD L).
  - exfalso. apply NE. rewrite <- (last_unique _ _ _ LD L). exact ED.
  - exfalso. destruct L as (l1 & l2 & O & S & _). apply (NO c); [|exact S]. eapply ops_delivered; [exact O|]. apply in_or_app. right. left. reflexivity.
  - contradiction.
Qed.
End Branch.
Print Assumptions C47_opens.
Print Assumptions C47_tip.
Print Assumptions C47_created.
Print Assumptions C47_life.
Print Assumptions C47_restart.
Print Assumptions C47_reopen.
Print Assumptions C36_branch.
