(* C55-C58: replicas with several branches. *)
From Verif Require Import Prelude UuidModel UuidProofs KeyModel CodecModel TextModel BuilderSpec MergeModel MergeTextModel MergeKeeps
  StoreModel StoreSpec StoreProofs MetaModel ClockModel ScanModel ReplicaModel ReplicaSpec ReplicaProofs RocksModel RocksSpec BranchModel BranchSpec BranchProofs BranchTheorems
  ForkModel ForkSpec ForkTheorems HostModel HostSpec HostProofs.
From Verif Require ClockTheorems.

Section Host.
Variable sha : bytes -> bytes.
Variable fbits : bytes -> N.
Variable fuel : nat.
Notation jread := (b_jread fbits fuel).
Notation jprev := (b_jprev fbits fuel).
Notation h_step := (h_step sha fbits fuel).
Notation h_run := (h_run sha fbits fuel).
Notation b_step a := (b_step sha fbits a fuel).
Notation b_run a := (b_run sha fbits a fuel).

(* An event is about one store: the others stay as they were, their records and
   their tips. *)
Theorem C55_apart h e h' s id : h_step h e = Done (h', s) -> ~ about e id -> find_store (h_stores h') id = find_store (h_stores h) id.
Proof.
  intros H A. destruct e as [rs y f|rs y tr|rs y x|i|rs i| | | |i k ce]; cbn [HostModel.h_step about] in *.
  - destruct (receive_inv _ _ _ _ _ _ _ _ _ H) as [(_ & -> & _)|(_ & [(_ & -> & _)|[(_ & _ & -> & _)|(b & d & _ & _ & _ & _ & _ & ->)]])]; try reflexivity.
    rewrite find_put, (eqb_other _ _ A). reflexivity.
  - destruct (create_inv _ _ _ _ _ _ _ _ _ H) as [(_ & _ & _ & -> & _)|(_ & N & _ & b & d0 & _ & _ & _ & -> & _)]; [reflexivity|].
    rewrite find_app by exact N. rewrite (eqb_other _ _ A). reflexivity.
  - destruct (fork_inv _ _ _ _ _ _ _ _ _ H) as [(_ & -> & _)|(h1 & s1 & o & _ & _ & C & _ & _ & _ & K)]; [reflexivity|].
    assert (E1 : find_store (h_stores h1) id = find_store (h_stores h) id).
    { destruct (create_inv _ _ _ _ _ _ _ _ _ C) as [(_ & _ & _ & -> & _)|(_ & N & _ & b & d0 & _ & _ & _ & -> & _)]; [reflexivity|].
      rewrite find_app by exact N. rewrite (eqb_other _ _ A). reflexivity. }
    rewrite <- E1. destruct K as [(_ & -> & _)|(_ & b & b' & _ & _ & _ & [-> | [-> _]])]; try reflexivity. rewrite find_put, (eqb_other _ _ A). reflexivity.
  - injection H as H. destruct (drop_inv _ _ _ _ H) as [(-> & _)|(_ & _ & _ & _ & _ & _ & _ & ->)]; [reflexivity|]. rewrite find_drop, (eqb_other _ _ A). reflexivity.
  - destruct (activate_inv _ _ _ _ _ H) as [(-> & _)|(m & d & f & u & _ & _ & _ & _ & _ & _ & _ & _ & _ & ->)]; [reflexivity|].
    rewrite find_put, (eqb_other NIL id) by congruence. reflexivity.
  - destruct (A Logic.I).
  - destruct (close_inv _ _ _ H) as (_ & _ & _ & _ & ->). reflexivity.
  - injection H as <- _. reflexivity.
  - destruct (compact_inv _ _ _ _ _ _ _ _ H) as (_ & _ & _ & _ & [[_ ->]|(b & d & _ & _ & ->)]); [reflexivity|]. rewrite find_put, (eqb_other _ _ A). reflexivity.
Qed.
(* Opening a replica, with success or not, writes nothing and loses no store. *)
Theorem C55_open h h' s : h_step h HOpen = Done (h', s) -> map fst (h_stores h') = map fst (h_stores h) /\
  forall id b, find_store (h_stores h) id = Some b -> exists b', find_store (h_stores h') id = Some b' /\ br_main b' = br_main b.
Proof.
  intro H. cbn [HostModel.h_step] in H. destruct (reopen_inv _ _ _ _ _ H) as [(_ & -> & _)|(_ & _ & OA & _)]; [split; [reflexivity|eauto]|].
  destruct (open_all_find _ _ _ _ _ _ _ OA) as [E K]. split; [exact E|]. intros id b F. destruct (K id b F) as (b' & F' & M & _). eauto.
Qed.

(* ---- the clock is a word ---- *)
Definition word (now : N) (rs : list N) : Prop := now < 2 ^ 64 /\ Forall (fun r => r < 2 ^ 64) rs.
Lemma word_tl n l : word n l -> word n (tl l).
Proof. intros [A B]. split; [exact A|]. destruct l; [constructor|]. inversion B; assumption. Qed.
Lemma word_now a o now rs : word now rs -> word (fst (clock_now a now (hd 0 rs) o)) (tl rs).
Proof.
  intros [A B]. unfold clock_now. cbn [fst]. split; [|apply (word_tl now); split; assumption].
  destruct (now <? hd 0 rs); [destruct rs; [reflexivity|exact (Forall_inv B)]|]. apply N.mod_lt. discriminate.
Qed.
Lemma word_see u now rs : word now rs -> word (fst (clock_see now u)) rs.
Proof.
  intros [A B]. split; [|exact B]. destruct (clock_see now u) as [n s] eqn:C. apply see_up in C as (_ & L & _). cbn [fst]. destruct L as [L|L]; [lia|].
  eapply N.lt_trans; [exact L|]. reflexivity.
Qed.
Lemma open_clock id d now d' now' t s : b_open fbits fuel id d now = Done (d', now', t, s) -> now' = now \/ now' = fst (clock_see now t).
Proof.
  intro H. unfold b_open, open_store_tip in H. apply rbind_done in H as ([[d1 f] s2] & R & H). clear R.
  destruct (is_ok s2); cbn [negb] in H; [|left; congruence]. destruct (next (cursor_of f)) as [c|c|c|]; try (left; congruence).
  cbv zeta in H. remember (fst (clock_see now (text_id c))) as z eqn:EZ in H. destruct (_ && _) in H; [left; congruence|]. right. rewrite <- EZ || congruence.
Qed.
Lemma open_all_clock now l l' now' s : now < 2 ^ 64 -> open_all fbits fuel now l = Done (l', now', s) -> now' < 2 ^ 64.
Proof.
  revert now l' now' s. induction l as [|[i x] l IH]; intros now l' now' s L H; cbn [open_all] in H; [injection H as _ <- _; exact L|].
  apply rbind_done in H as ([[[d n1] t] s1] & BO & H).
  assert (L1 : n1 < 2 ^ 64).
  { apply open_clock in BO as [-> | ->]; [exact L|]. apply (word_see t now [] (conj L (Forall_nil _))). }
  destruct (negb (is_ok s1)); [injection H as _ <- _; exact L1|]. apply rbind_done in H as ([[r' n2] s2] & OA & H). injection H as _ <- _. exact (IH _ _ _ _ L1 OA).
Qed.
Lemma create_clock h rs y tr h' s : h_now h < 2 ^ 64 -> Forall (fun r => r < 2 ^ 64) rs -> HostModel.h_create sha fbits fuel h rs y tr = Done (h', s) -> h_now h' < 2 ^ 64.
Proof.
  intros L R H. destruct (create_inv _ _ _ _ _ _ _ _ _ H) as [(_ & _ & _ & _ & _ & _ & ->)|(_ & _ & _ & b & d0 & _ & _ & CB & _)].
  - destruct tr; [exact L|]. apply (word_now (uorigin (h_active h)) y (h_now h) rs (conj L R)).
  - destruct (create_branch_good sha fbits family jread jprev b_batch fuel _ word (word_now _) word_see _ _ _ _ _ _ _ _ word_tl (conj L R) CB) as (rs' & K & _). exact K.
Qed.
Lemma step_clock h e h' s : h_now h < 2 ^ 64 -> words e -> h_step h e = Done (h', s) -> h_now h' < 2 ^ 64.
Proof.
  intros L W H. destruct e as [rs y f|rs y tr|rs y x|i|rs i| | | |i k ce]; cbn [HostModel.h_step words] in *.
  - destruct (receive_inv _ _ _ _ _ _ _ _ _ H) as [(_ & -> & _)|(_ & [(_ & -> & _)|[(_ & _ & -> & _)|(b & d & _ & _ & R & _)]])]; try exact L.
    destruct (receive_frame_good sha fbits family jread jprev b_write b_batch fuel _ word (word_now _) word_see _ _ _ _ _ _ _ _ (conj L W) R) as (rs' & K & _). exact K.
  - exact (create_clock _ _ _ _ _ _ L W H).
  - destruct (fork_inv _ _ _ _ _ _ _ _ _ H) as [(_ & -> & _)|(h1 & s1 & o & _ & _ & C & _ & -> & _)]; [exact L|]. exact (create_clock _ _ _ _ _ _ L W C).
  - injection H as H. destruct (drop_inv _ _ _ _ H) as [(-> & _)|(_ & _ & _ & _ & -> & _)]; exact L.
  - destruct (activate_inv _ _ _ _ _ H) as [(-> & _)|(m & d & f & u & _ & _ & _ & _ & CN & _)]; [exact L|].
    pose proof (word_now (uorigin (h_active h)) 0 (h_now h) rs (conj L W)) as [K _]. rewrite <- CN in K. exact K.
  - destruct (reopen_inv _ _ _ _ _ H) as [(_ & -> & _)|(_ & _ & OA & _)]; [exact L|]. exact (open_all_clock _ _ _ _ _ L OA).
  - destruct (close_inv _ _ _ H) as (_ & -> & _). exact L.
  - injection H as <- _. reflexivity.
  - destruct (compact_inv _ _ _ _ _ _ _ _ H) as (_ & -> & _). exact L.
Qed.

Lemma run_app a id es1 : forall b b1 ss1 es2 b2 ss2, b_run a id b es1 = Done (b1, ss1) -> b_run a id b1 es2 = Done (b2, ss2) -> b_run a id b (es1 ++ es2) = Done (b2, ss1 ++ ss2).
Proof.
  induction es1 as [|e es1 IH]; intros b b1 ss1 es2 b2 ss2 H1 H2; cbn [BranchModel.b_run app] in *; [injection H1 as <- <-; exact H2|].
  apply rbind_done in H1 as ([bx sx] & S1 & H1). rewrite S1. cbn [rbind]. apply rbind_done in H1 as ([by_ sy] & R1 & H1). injection H1 as <- <-.
  rewrite (IH _ _ _ _ _ _ R1 H2). reflexivity.
Qed.
Lemma run_one a id b e b' s : b_step a id b e = Done (b', s) -> b_run a id b [e] = Done (b', [s]).
Proof. intro H. cbn [BranchModel.b_run]. rewrite H. reflexivity. Qed.

Lemma step_part h e h' s id b t : version id = TIME -> h_now h < 2 ^ 64 -> words e -> h_step h e = Done (h', s) -> spares id e s ->
  find_store (h_stores h) id = Some b -> healthy id b t ->
  exists b' bes bss, find_store (h_stores h') id = Some b' /\ part id e s bes bss /\ Forall clocks bes /\ forall a, b_run a id b bes = Done (b', bss).
Proof.
  intros VT L W H SP F HT. assert (NN : id <> NIL) by (intros ->; discriminate).
  assert (BO : uorigin (br_tip b) <> 0) by (destruct HT as (_ & _ & _ & ->); apply origin_time; exact VT).
  assert (OUT : ~ about e id -> exists b' bes bss, find_store (h_stores h') id = Some b' /\ part id e s bes bss /\ Forall clocks bes /\ forall a, b_run a id b bes = Done (b', bss)).
  { intro A. exists b, [], []. split; [rewrite (C55_apart _ _ _ _ _ H A); exact F|]. split; [apply part_none; exact A|]. split; [constructor|]. reflexivity. }
  assert (STILL : h_stores h' = h_stores h -> part id e s [] [] -> exists b' bes bss, find_store (h_stores h') id = Some b' /\ part id e s bes bss /\ Forall clocks bes /\ forall a, b_run a id b bes = Done (b', bss)).
  { intros E P. exists b, [], []. split; [rewrite E; exact F|]. split; [exact P|]. split; [constructor|]. reflexivity. }
  destruct e as [rs y f|rs y tr|rs y x|i|rs i| | | |i k ce]; cbn [HostModel.h_step about words spares] in *.
  - destruct (uuid_eqb (branch_id y) id) eqn:E; [|apply OUT; intros <-; rewrite (proj2 (uuid_eqb_eq _ _) eq_refl) in E; discriminate]. apply uuid_eqb_eq in E.
    destruct (receive_inv _ _ _ _ _ _ _ _ _ H) as [(NO & -> & ->)|(_ & [(_ & -> & ->)|[(_ & N & _)|(bb & d & _ & FB & R & _ & _ & ST)]])].
    + apply STILL; [reflexivity|]. apply part_blank; assumption.
    + apply STILL; [reflexivity|]. apply part_shut. exact E.
    + congruence.
    + rewrite E in FB. assert (bb = b) by congruence. subst bb. exists (mkBranch d (br_tip b)), [BReceive (h_now h) rs f], [s].
      split; [rewrite ST, find_put, E, (proj2 (uuid_eqb_eq _ _) eq_refl); reflexivity|]. split; [apply part_frame; exact E|]. split; [constructor; [split; assumption|constructor]|].
      intro a. apply run_one. cbn [BranchModel.b_step]. unfold b_receive.
      rewrite (receive_frame_any sha fbits family jread jprev b_write b_batch fuel a (uorigin (h_active h)) _ _ _ _ _ BO), R. reflexivity.
  - destruct (uuid_eqb (branch_id y) id) eqn:E; [|apply OUT; intros <-; rewrite (proj2 (uuid_eqb_eq _ _) eq_refl) in E; discriminate]. apply uuid_eqb_eq in E.
    destruct (create_inv _ _ _ _ _ _ _ _ _ H) as [(_ & _ & -> & ST & _)|(_ & N & _)]; [|congruence]. apply STILL; [exact ST|]. apply part_twice. exact E.
  - destruct (uuid_eqb (branch_id y) id) eqn:E; [|apply OUT; intros <-; rewrite (proj2 (uuid_eqb_eq _ _) eq_refl) in E; discriminate]. apply uuid_eqb_eq in E.
    destruct (fork_inv _ _ _ _ _ _ _ _ _ H) as [(_ & -> & ->)|(h1 & s1 & o & _ & _ & C & _ & _ & _ & K)].
    + apply STILL; [reflexivity|]. apply part_onto; [exact E|discriminate].
    + destruct (create_inv _ _ _ _ _ _ _ _ _ C) as [(_ & _ & -> & ST & _)|(_ & N & _)]; [|congruence].
      destruct K as [(_ & -> & ->)|(K & _)]; [|discriminate]. apply STILL; [exact ST|]. apply part_onto; [exact E|discriminate].
  - apply OUT. exact SP.
  - apply OUT. exact NN.
  - destruct (reopen_inv _ _ _ _ _ H) as [(_ & -> & ->)|(_ & _ & OA & _)]; [apply STILL; [reflexivity|constructor]|].
    destruct SP as [-> | ->].
    + destruct (open_all_find _ _ _ _ _ _ _ OA) as [_ K]. destruct (K id b F) as (b' & F' & M & BO2). destruct (BO2 eq_refl) as (n & n' & t' & BP & ET).
      exists b', [BOpen n], [ROk]. split; [exact F'|]. split; [constructor|]. split; [constructor; [exact Logic.I|constructor]|]. intro a. apply run_one. cbn [BranchModel.b_step].
      rewrite BP. cbn [rbind is_ok]. destruct b' as [m u]. cbn [br_main br_tip] in *. subst. reflexivity.
    + exfalso. clear -OA. revert OA. generalize (h_now h). generalize (h_stores h) (h_stores h') (h_now h'). intro l. induction l as [|[i x] l IH]; intros l' n' n OA; cbn [open_all] in OA; [discriminate|].
      apply rbind_done in OA as ([[[d n1] t] s1] & BO & OA). destruct (is_ok s1) eqn:E; cbn [negb] in OA.
      * apply rbind_done in OA as ([[r' n2] s2] & OA & Q). injection Q as <- <- ->. exact (IH _ _ _ OA).
      * injection OA as _ _ ->. clear -BO. unfold b_open, open_store_tip in BO. apply rbind_done in BO as ([[d1 f] s2] & R & H).
        unfold b_read in R. apply rbind_done in R as ([g ks] & _ & R). injection R as _ _ <-. destruct ks; cbn [kst is_ok negb] in H; try congruence.
        destruct (next (cursor_of f)) as [c|c|c|]; try congruence. cbv zeta in H. remember (fst (clock_see n (text_id c))) as z eqn:EZ in H. clear EZ. destruct (_ && _) in H; congruence.
  - apply OUT. auto.
  - apply OUT. auto.
  - destruct (uuid_eqb i id) eqn:E; [|apply OUT; intros <-; rewrite (proj2 (uuid_eqb_eq _ _) eq_refl) in E; discriminate]. apply uuid_eqb_eq in E. subst i.
    destruct (compact_inv _ _ _ _ _ _ _ _ H) as (-> & _ & _ & _ & [[N _]|(bb & d & FB & C & ST)]); [congruence|]. assert (bb = b) by congruence. subst bb.
    exists (mkBranch d (br_tip b)), [BCompact k ce], [ROk]. split; [rewrite ST, find_put, (proj2 (uuid_eqb_eq _ _) eq_refl); reflexivity|]. split; [constructor|].
    split; [constructor; [exact Logic.I|constructor]|]. intro a. apply run_one. cbn [BranchModel.b_step]. rewrite C. reflexivity.
Qed.
(* What a branch comes to among the others is what it comes to by itself: the run
   of the replica makes a run of the branch, of the frames it was sent and the
   openings and compactions it went through, with the same answers. Neither the
   other branches nor the active store have a part in it. *)
Theorem C55_branch id es : version id = TIME -> forall h h' ss b t, h_now h < 2 ^ 64 -> Forall words es -> h_run h es = Done (h', ss) ->
  Forall2 (spares id) es ss -> find_store (h_stores h) id = Some b -> healthy id b t ->
  exists b' bes bss, find_store (h_stores h') id = Some b' /\ parts id es ss bes bss /\ Forall clocks bes /\ forall active, b_run active id b bes = Done (b', bss).
Proof.
  intro VT. induction es as [|e es IH]; intros h h' ss b t L W H SP F HT; cbn [HostModel.h_run] in H.
  - injection H as <- <-. exists b, [], []. split; [exact F|]. split; [constructor|]. split; [constructor|]. reflexivity.
  - apply rbind_done in H as ([h1 s] & H1 & H). apply rbind_done in H as ([h2 ss2] & H2 & H). injection H as <- <-.
    inversion W as [|? ? W1 W2]; subst. inversion SP as [|? ? ? ? SP1 SP2]; subst.
    destruct (step_part _ _ _ _ _ _ _ VT L W1 H1 SP1 F HT) as (b1 & be1 & bs1 & F1 & P1 & C1 & R1).
    destruct (run_tip sha fbits 0 fuel id VT _ _ _ _ _ HT C1 (R1 0)) as (t1 & HT1 & _ & _).
    destruct (IH _ _ _ _ _ (step_clock _ _ _ _ L W1 H1) W2 H2 SP2 F1 HT1) as (b' & bes & bss & F' & P & C & R).
    exists b', (be1 ++ bes), (bs1 ++ bss). split; [exact F'|]. split; [apply parts_more; assumption|]. split; [apply Forall_app; auto|].
    intro a. eapply run_app; [apply R1|apply R].
Qed.
(* A new branch is what CreateBranch makes by itself. *)
Theorem C55_created h rs y tr h' s : h_step h (HCreate rs y tr) = Done (h', s) ->
  (find_store (h_stores h) (branch_id y) <> None /\ s = RBadArgs /\ h_stores h' = h_stores h) \/
  (find_store (h_stores h) (branch_id y) = None /\ exists b, find_store (h_stores h') (branch_id y) = Some b /\
     b_new sha fbits (uorigin (h_active h)) fuel (h_now h) rs y tr = Done (b, s)).
Proof.
  intro H. cbn [HostModel.h_step] in H. destruct (create_inv _ _ _ _ _ _ _ _ _ H) as [(_ & (b & FB) & -> & -> & _)|(_ & N & _ & b & d0 & _ & BN & _ & -> & _)].
  - left. split; [congruence|auto].
  - right. split; [exact N|]. exists b. split; [|exact BN]. rewrite find_app by exact N. rewrite (proj2 (uuid_eqb_eq _ _) eq_refl). reflexivity.
Qed.
Theorem C55_forked h rs y x h' : h_step h (HFork rs y x) = Done (h', ROk) ->
  exists o b, find_store (h_stores h) (branch_id x) = Some o /\ find_store (h_stores h) (branch_id y) = None /\ find_store (h_stores h') (branch_id y) = Some b /\
    b_fork sha fbits (uorigin (h_active h)) fuel (br_main o) (h_now h) rs y = Done (b, ROk).
Proof.
  intro H. cbn [HostModel.h_step] in H. destruct (fork_inv _ _ _ _ _ _ _ _ _ H) as [(_ & _ & K)|(h1 & s1 & o & _ & FO & C & _ & _ & _ & K)]; [discriminate|].
  destruct K as [(K & _ & E)|(-> & b & b' & FB & _ & BF & K)]; [congruence|]. exists o, b'. split; [exact FO|].
  destruct (create_inv _ _ _ _ _ _ _ _ _ C) as [(_ & _ & K2 & _)|(_ & N & _)]; [discriminate|]. split; [exact N|]. split; [|exact BF].
  destruct K as [-> | [-> ->]]; [|exact FB]. rewrite find_put, (proj2 (uuid_eqb_eq _ _) eq_refl). reflexivity.
Qed.

(* ---- replicas in order ---- *)
Lemma branch_nil y : branch_id y <> NIL.
Proof. intro E. assert (K : version (branch_id y) = TIME) by apply ClockTheorems.time_version. rewrite E in K. discriminate. Qed.
Lemma origin_version t id : uorigin t = uorigin id -> version id = TIME -> version t = TIME.
Proof. unfold version. intros ->. auto. Qed.
Lemma shape_on h h' fr fr' p : (h_open h' = true -> h_open h = true /\ h_now h <= h_now h') -> incl fr fr' -> in_shape h fr p -> in_shape h' fr' p.
Proof.
  intros M I (A & B & C & t & T1 & T2 & T3 & T4 & T5). split; [exact A|]. split; [exact B|]. split.
  - intro O. destruct (M O) as [O' _]. destruct (C O') as [K|[K|K]]; auto.
  - exists t. split; [exact T1|]. split; [exact T2|]. split; [exact T3|]. split; [exact T4|]. intro O. destruct (M O) as [O' L]. specialize (T5 O'). lia.
Qed.
Lemma Forall_put (P : uuid * branch -> Prop) l id b : Forall P l -> P (id, b) -> Forall P (put_store l id b).
Proof.
  intros F K. induction F as [|[i x] l H F IH]; cbn [put_store]; [constructor; [exact K|constructor]|].
  destruct (uuid_eqb i id) eqn:E; [apply uuid_eqb_eq in E; subst i; constructor; assumption|constructor; assumption].
Qed.
Lemma ids_drop l id b : NoDup (map fst l) -> find_store l id = Some b -> exists l1 l2, map fst l = l1 ++ id :: l2 /\ map fst (drop_store l id) = l1 ++ l2 /\ ~ In id (l1 ++ l2).
Proof.
  unfold drop_store. induction l as [|[i x] l IH]; intros ND F; [discriminate|]. cbn [find_store map fst filter] in *. inversion ND as [|? ? N1 N2]; subst.
  destruct (uuid_eqb i id) eqn:E.
  - apply uuid_eqb_eq in E. subst i. cbn [negb]. exists [], (map fst l). split; [reflexivity|]. split; [|exact N1]. cbn [app].
    clear -N1. induction l as [|[j y] l IH]; [reflexivity|]. cbn [map fst filter In] in *. rewrite (eqb_other j id) by (intro; apply N1; left; assumption). cbn [negb map fst]. rewrite IH by tauto. reflexivity.
  - cbn [negb map fst]. destruct (IH N2 F) as (l1 & l2 & E1 & E2 & E3). exists (i :: l1), l2. rewrite E1, E2. split; [reflexivity|]. split; [reflexivity|].
    cbn [app In]. intros [K|K]; [subst i; rewrite (proj2 (uuid_eqb_eq _ _) eq_refl) in E; discriminate|contradiction].
Qed.
Lemma find_ids l id : In id (map fst l) <-> exists b, find_store l id = Some b.
Proof.
  destruct (find_store l id) as [b|] eqn:F.
  - split; [eauto|]. intros _. apply find_in in F. change id with (fst (id, b)). apply in_map. exact F.
  - apply find_out in F. split; [contradiction|]. intros (b & K). discriminate.
Qed.
Lemma tick_up a now r o : now < NEVER_W -> r < NEVER_W -> now < fst (clock_now a now r o) /\ fst (clock_now a now r o) <= NEVER_W.
Proof.
  intros A B. unfold clock_now. cbn [fst]. destruct (N.ltb_spec now r); [lia|].
  rewrite N.mod_small by (assert (NW : NEVER_W = 1134907106097364992) by reflexivity; rewrite NW in *; change two64 with 18446744073709551616; lia). lia.
Qed.
Lemma early_hd rs : early rs -> hd 0 rs < NEVER_W.
Proof. intro E. destruct rs; [reflexivity|exact (Forall_inv E)]. Qed.
Lemma early_tl rs : early rs -> early (tl rs).
Proof. intro E. destruct rs; [constructor|]. inversion E; assumption. Qed.
Lemma create_up a d now rs y tr d' now' s : now < NEVER_W -> early rs ->
  create_branch sha fbits family jread jprev b_batch a fuel d now rs y tr = Done (d', now', s) ->
  now <= now' /\ (tr = false -> now < uvalue (first_event a now rs y tr)) /\ uvalue (first_event a now rs y tr) <= now'.
Proof.
  intros L R H. unfold create_branch in H. pose proof (tick_up a now (hd 0 rs) y L (early_hd _ R)) as TK.
  assert (E : exists now1, (if tr then (now, uuid_time 0 y) else clock_now a now (hd 0 rs) y) = (now1, first_event a now rs y tr) /\ now <= now1 /\ now1 <= NEVER_W /\ (tr = false -> now < uvalue (first_event a now rs y tr)) /\ uvalue (first_event a now rs y tr) <= now1).
  { unfold first_event. destruct tr; [exists now; split; [reflexivity|]; split; [lia|]; split; [lia|]; split; [discriminate|cbn; lia]|].
    unfold clock_now in *. cbn [fst snd uuid_time uvalue] in *. eexists. split; [reflexivity|]. split; [lia|]. split; [lia|]. split; [lia|lia]. }
  destruct E as (now1 & E & L1 & L2 & L3 & L4). rewrite E in H. clear E. destruct (one_op (first_event a now rs y tr) YARN_FORM_UUID []) as [f|]; [|discriminate].
  apply rbind_done in H as (c & _ & H). apply rbind_done in H as ([[st cx] sx] & SC & H). apply rbind_done in H as ([st2 s2] & SV & H). injection H as _ <- _.
  rewrite (save_now _ _ _ _ _ SV).
  destruct (save_chain_up sha fbits family jread jprev fuel 0 (commit_on family d now1 (tl rs) NIL) _ _ _ _ ltac:(split; [cbn; lia|apply early_tl; exact R]) SC) as [[M _] _].
  cbn [commit_on s_now] in M. split; [lia|]. split; [exact L3|lia].
Qed.
Lemma open_all_ok l : forall now l' now' s, Forall (fun p => (fst p = NIL \/ exists y, fst p = branch_id y) /\ exists t, tipped (br_main (snd p)) t /\ (fst p = NIL \/ uorigin t = uorigin (fst p)) /\ (version t = TIME \/ fst p = NIL /\ t = NIL) /\ uvalue t < NEVER_W) l ->
  open_all fbits fuel now l = Done (l', now', s) -> s = ROk /\ now <= now' /\ map fst l' = map fst l /\
  Forall (fun p => tip_ok (br_tip (snd p)) /\ (fst p = NIL \/ exists y, fst p = branch_id y) /\ tipped (br_main (snd p)) (br_tip (snd p)) /\ (fst p = NIL \/ uorigin (br_tip (snd p)) = uorigin (fst p)) /\
    (version (br_tip (snd p)) = TIME \/ fst p = NIL /\ br_tip (snd p) = NIL) /\ uvalue (br_tip (snd p)) < NEVER_W /\ uvalue (br_tip (snd p)) <= now') l'.
Proof.
  induction l as [|[i x] l IH]; intros now l' now' s F H; cbn [open_all] in H; [injection H as <- <- <-; split; [reflexivity|]; split; [lia|]; split; [reflexivity|constructor]|].
  inversion F as [|? ? (D & t & T & O & V & U) F2]; subst. cbn [fst snd] in *. apply rbind_done in H as ([[[d n1] t1] s1] & BO & H).
  assert (CL : n1 = fst (clock_see now t1) \/ n1 = now) by (destruct (open_clock _ _ _ _ _ _ _ BO); auto).
  destruct (tipped_open fbits fuel i _ t now _ _ _ _ T ltac:(destruct O; auto) BO) as (-> & -> & ->).
  assert (N1 : now <= n1 /\ uvalue t <= n1).
  { assert (E : n1 = fst (clock_see now t)).
    { unfold b_open, open_store_tip in BO. apply rbind_done in BO as ([[d1 f] s2] & R & BO). clear R. destruct (is_ok s2) eqn:ES; cbn [negb] in BO; [|injection BO as _ _ _ ->; discriminate].
      destruct (next (cursor_of f)) as [c|c|c|]; try discriminate. cbv zeta in BO. remember (fst (clock_see now (text_id c))) as z eqn:EZ in BO. destruct (_ && _) in BO; congruence. }
    destruct (clock_see now t) as [n sx] eqn:CS. cbn [fst] in E. subst n. pose proof CS as CS'. apply see_up in CS as (A & _ & B). split; [exact A|]. destruct V as [V|[_ ->]]; [|apply N.le_0_l]. apply B.
    unfold clock_see in CS'. rewrite V in CS'. change (negb (TIME =? TIME)) with false in CS'. cbn iota in CS'. destruct (uvalue t <? now); [congruence|]. destruct (N.leb_spec NEVER_W (uvalue t)); [lia|congruence]. }
  cbn [is_ok negb] in H. apply rbind_done in H as ([[r' n2] s2] & OA & H). injection H as <- <- <-. destruct (IH _ _ _ _ F2 OA) as (-> & M & E & K).
  split; [reflexivity|]. split; [lia|]. split; [cbn [map fst]; rewrite E; reflexivity|]. constructor; [|exact K]. cbn [fst snd br_tip br_main]. split; [apply T|].
  split; [exact D|]. split; [exact T|]. split; [exact O|]. split; [exact V|]. split; [exact U|lia].
Qed.

Hypothesis FB : 2 * N.of_nat fuel < ROOM.
Lemma create_shape h fr rs y tr h1 s : sound h fr -> early rs -> (tr = true \/ y <> 0) -> HostModel.h_create sha fbits fuel h rs y tr = Done (h1, s) -> h_now h1 < NEVER_W ->
  sound h1 (match s with ROk => branch_id y :: fr | _ => fr end) /\ goes (h_open h) (map fst (h_stores h)) (HCreate rs y tr) s (h_open h1) (map fst (h_stores h1)).
Proof.
  intros (S1 & S2 & S3 & S4) E Y H N1. destruct (create_inv _ _ _ _ _ _ _ _ _ H) as [(O & (b & F) & -> & ST & AC & O1 & NW)|(O & F & (m & FM) & b & d0 & BC & BN & CB & ST & AC & O1)].
  - assert (M : h_now h <= h_now h1).
    { rewrite NW. destruct tr; [lia|]. pose proof (tick_up (uorigin (h_active h)) (h_now h) (hd 0 rs) y S1 (early_hd _ E)). lia. }
    split.
    + split; [exact N1|]. rewrite ST. split; [exact S2|]. split; [exact S3|]. eapply Forall_impl; [|exact S4]. intros p. apply shape_on; [auto|apply incl_refl].
    + rewrite ST, O, O1. apply goes_twice. apply find_ids. eauto.
  - destruct (create_up _ _ _ _ _ _ _ _ _ S1 E CB) as (M & _ & U).
    destruct (new_tip sha fbits (uorigin (h_active h)) fuel _ _ _ _ _ _ (N.le_lt_trans _ _ _ U N1) BN) as (-> & BT & T). destruct (first_time (uorigin (h_active h)) (h_now h) rs y tr) as [VT OR].
    apply find_out in F. split.
    + split; [exact N1|]. rewrite ST, map_app. cbn [map fst]. split; [apply NoDup_rev in S2; rewrite <- (rev_involutive (_ ++ _)); apply NoDup_rev; rewrite rev_app_distr; cbn [rev app]; constructor; [rewrite <- in_rev; exact F|exact S2]|].
      split; [apply in_or_app; left; exact S3|]. apply Forall_app. split.
      * eapply Forall_impl; [|exact S4]. intros p. apply shape_on; [auto|]. intros x X. right. exact X.
      * constructor; [|constructor]. split; [cbn [snd]; rewrite BT; exact zero_tip|]. cbn [fst snd]. split; [right; eauto|]. split; [intros _; right; left; left; reflexivity|].
        eexists. split; [exact T|]. split; [right; apply OR; exact Y|]. split; [left; exact VT|]. split; [lia|]. intros _. exact U.
    + rewrite ST, O, O1, map_app. cbn [map fst]. apply goes_new. exact F.
Qed.
Lemma step_sound h fr e h1 s : sound h fr -> sane fr e -> h_step h e = Done (h1, s) -> h_now h1 < NEVER_W ->
  sound h1 (then_fresh fr e s) /\ goes (h_open h) (map fst (h_stores h)) e s (h_open h1) (map fst (h_stores h1)).
Proof.
  intros SH SN H N1. pose proof SH as (S1 & S2 & S3 & S4). destruct e as [rs y f|rs y tr|rs y x|i|rs i| | | |i k ce]; cbn [HostModel.h_step sane then_fresh] in *.
  - destruct SN as [SN1 SN2].
    destruct (receive_inv _ _ _ _ _ _ _ _ _ H) as [(NO & -> & ->)|(NO & [(O & -> & ->)|[(O & F & -> & ->)|(b & d & O & F & R & AC & O1 & ST)]])].
    + split; [exact SH|]. apply goes_blank. exact NO.
    + split; [exact SH|]. rewrite O. apply goes_shut. exact NO.
    + split; [exact SH|]. rewrite O. apply goes_nowhere; [exact NO|]. apply find_out. exact F.
    + assert (IN := find_in _ _ _ F). pose proof (proj1 (Forall_forall _ _) S4 _ IN) as (A & B & C & t & T1 & T2 & T3 & T4 & T5). cbn [fst snd] in *.
      destruct (C O) as [K|[K|K]]; [destruct (branch_nil _ K)|contradiction|].
      assert (VT : version (branch_id y) = TIME) by apply ClockTheorems.time_version.
      destruct (receive_frame_up sha fbits family jread jprev b_write b_batch fuel (uorigin (h_active h)) _ _ _ _ _ _ _ _ (N.lt_le_incl _ _ S1) SN1 FB R) as [M UP].
      assert (W64 : forall n, n < NEVER_W -> n < 2 ^ 64) by (intros n Hn; eapply N.lt_trans; [exact Hn|reflexivity]).
      destruct (receive_tip sha fbits (uorigin (h_active h)) fuel _ t _ _ _ _ _ _ _ T1 A (W64 _ S1) ltac:(eapply Forall_impl; [|exact SN1]; exact W64) R) as [[TT _]|(-> & st & (c & NX & RL) & TT & NE & YB)].
      * split.
        -- split; [exact N1|]. rewrite ST, (ids_put _ _ _ _ F). split; [exact S2|]. split; [exact S3|].
           apply Forall_put; [eapply Forall_impl; [|exact S4]; intros p; apply shape_on; [auto|apply incl_refl]|].
           split; [exact A|]. split; [exact B|]. cbn [fst snd br_tip br_main]. split; [auto|]. exists t. split; [exact TT|]. split; [exact T2|]. split; [exact T3|]. split; [exact T4|]. intros _. specialize (T5 O). lia.
        -- rewrite ST, (ids_put _ _ _ _ F), O, O1. apply goes_frame; [exact NO|]. apply find_ids. eauto.
      * destruct (UP _ _ NX RL) as [EN [UT|UT]]; [contradiction|].
        assert (OT : uorigin (s_tip family st) = uorigin (branch_id y)).
        { destruct YB as [YB|YB]; [|congruence]. exfalso. rewrite YB in K. symmetry in K. revert K. apply origin_time. exact VT. }
        split.
        -- split; [exact N1|]. rewrite ST, (ids_put _ _ _ _ F). split; [exact S2|]. split; [exact S3|].
           apply Forall_put; [eapply Forall_impl; [|exact S4]; intros p; apply shape_on; [auto|apply incl_refl]|].
           split; [exact A|]. split; [exact B|]. cbn [fst snd br_tip br_main]. split; [auto|]. exists (s_tip family st). split; [exact TT|]. split; [right; exact OT|].
           split; [left; eapply origin_version; [exact OT|exact VT]|]. split; [lia|]. intros _. exact UT.
        -- rewrite ST, (ids_put _ _ _ _ F), O, O1. apply goes_frame; [exact NO|]. apply find_ids. eauto.
  - destruct SN as [SN1 SN2]. destruct (create_shape _ _ _ _ _ _ _ SH SN1 SN2 H N1) as [A B]. split; [|exact B]. destruct s; exact A.
  - destruct SN as [SN1 SN2]. destruct (fork_inv _ _ _ _ _ _ _ _ _ H) as [(F & -> & ->)|(h2 & s2 & o & O & FO & C & AC & NW & O1 & K)].
    + split; [exact SH|]. apply goes_lost. destruct F as [F|F]; [left; exact F|right; apply find_out; exact F].
    + assert (IX : In (branch_id x) (map fst (h_stores h))) by (apply find_ids; eauto).
      assert (N2 : h_now h2 < NEVER_W) by (rewrite <- NW; exact N1).
      destruct (create_shape _ _ _ _ _ _ _ SH SN1 (or_intror SN2) C N2) as [A B].
      destruct K as [(NE & -> & ->)|(-> & b & b' & FB' & BT & BF & ST)].
      * split; [destruct s2; (exact A || contradiction)|].
        destruct (create_inv _ _ _ _ _ _ _ _ _ C) as [(_ & (b & F) & -> & -> & _ & -> & _)|(_ & F & _ & b & d0 & BC & BN & CB & _)].
        -- rewrite O. apply goes_onto; [exact IX|]. apply find_ids. eauto.
        -- exfalso. apply NE. destruct (create_up _ _ _ _ _ _ _ _ _ S1 SN1 CB) as (_ & _ & U).
           apply (new_tip sha fbits (uorigin (h_active h)) fuel _ _ _ _ _ _ (N.le_lt_trans _ _ _ U N2) BN).
      * destruct (create_inv _ _ _ _ _ _ _ _ _ C) as [(_ & _ & K & _)|(_ & F & _ & b0 & d0 & BC & BN & CB & ST2 & _ & O2)]; [discriminate|].
        destruct (create_up _ _ _ _ _ _ _ _ _ S1 SN1 CB) as (M & _ & U).
        pose proof (proj1 (Forall_forall _ _) S4 _ (find_in _ _ _ FO)) as (_ & _ & _ & t & T1 & _). cbn [fst snd] in T1.
        destruct (C49_fork sha fbits (uorigin (h_active h)) fuel _ t _ _ _ _ _ T1 SN2 (N.le_lt_trans _ _ _ U N2) BF) as (-> & BT' & T & _).
        destruct (first_time (uorigin (h_active h)) (h_now h) rs y false) as [VT OR].
        assert (FY : find_store (h_stores h2) (branch_id y) = Some b0) by (rewrite ST2, find_app by exact F; rewrite (proj2 (uuid_eqb_eq _ _) eq_refl); reflexivity).
        assert (b = b0) by congruence. subst b0.
        assert (SHP : Forall (in_shape h1 (branch_id y :: fr)) (h_stores h1) /\ map fst (h_stores h1) = map fst (h_stores h2)).
        { destruct A as (_ & _ & _ & A4).
          assert (A5 : Forall (in_shape h1 (branch_id y :: fr)) (h_stores h2)) by (eapply Forall_impl; [|exact A4]; intros p; apply shape_on; [intros _; split; [exact O2|rewrite NW; lia]|apply incl_refl]).
          destruct ST as [ST|[ST _]]; [|rewrite ST; auto].
          rewrite ST, (ids_put _ _ _ _ FB'). split; [|reflexivity]. apply Forall_put; [exact A5|]. split; [cbn [snd]; rewrite BT'; exact zero_tip|]. cbn [fst snd]. split; [right; eauto|].
          split; [intros _; right; left; left; reflexivity|]. eexists. split; [exact T|]. split; [right; apply OR; auto|]. split; [left; exact VT|]. split; [lia|]. intros _. lia. }
        destruct SHP as [SHP EI]. split.
        -- destruct A as (_ & A2 & A3 & _). split; [exact N1|]. rewrite EI. auto.
        -- rewrite EI, ST2, map_app, O, O1. cbn [map fst]. apply goes_fork; [exact IX|]. apply find_out. exact F.
  - injection H as H. destruct (drop_inv _ _ _ _ H) as [(-> & NE & K)|(-> & O & NN & (b & F) & NW & AC & O1 & ST)].
    + split; [exact SH|]. destruct K as [(-> & K)|(-> & -> & O & K)].
      * apply goes_none. destruct K as [K|K]; [left; exact K|right; apply find_out; exact K].
      * rewrite O. apply goes_main. destruct (find_store (h_stores h) NIL) eqn:E; [|contradiction]. apply find_ids. eauto.
    + destruct (ids_drop _ _ _ S2 F) as (l1 & l2 & E1 & E2 & E3). split.
      * split; [exact N1|]. rewrite ST, E2. rewrite E1 in S2, S3. apply NoDup_remove in S2 as [S2 _]. split; [exact S2|]. split.
        { apply in_app_or in S3 as [K|[K|K]]; [apply in_or_app; auto|contradiction|apply in_or_app; auto]. }
        unfold drop_store. rewrite Forall_forall in S4 |- *. intros p Ip. apply filter_In in Ip as [Ip _]. eapply shape_on; [|apply incl_refl|exact (S4 _ Ip)]. intros _. split; [exact O|rewrite NW; lia].
      * rewrite ST, E2, E1, O, O1. apply goes_drop; assumption.
  - destruct (activate_inv _ _ _ _ _ H) as [(-> & -> & F)|(m & d & f & u & O & (b & F) & FM & -> & CN & OP & BW & AC & O1 & ST)].
    + split; [exact SH|]. apply goes_inactive. destruct F as [F|F]; [left; exact F|right; apply find_out; exact F].
    + pose proof (tick_up (uorigin (h_active h)) (h_now h) (hd 0 rs) 0 S1 (early_hd _ SN)) as [M _]. rewrite <- CN in M. cbn [fst] in M. split.
      * split; [exact N1|]. rewrite ST, (ids_put _ _ _ _ FM). split; [exact S2|]. split; [exact S3|].
        apply Forall_put; [eapply Forall_impl; [|exact S4]; intros p; apply shape_on; [intros _; split; [exact O|lia]|apply incl_refl]|].
        pose proof (proj1 (Forall_forall _ _) S4 _ (find_in _ _ _ FM)) as (A & B & C & t & T1 & T2 & T3 & T4 & T5). cbn [fst snd] in *.
        split; [exact A|]. split; [exact B|]. split; [auto|]. exists t. cbn [fst snd br_main].
        split; [eapply tipped_write; [|exact T1|exact BW]; assert (KE : key_eqb ACTIVE_KEY KEY_ZERO = false) by (vm_compute; reflexivity); intro EK; rewrite EK, key_eqb_refl in KE; discriminate|]. split; [exact T2|]. split; [exact T3|]. split; [exact T4|]. intros _. specialize (T5 O). lia.
      * rewrite ST, (ids_put _ _ _ _ FM), O, O1. apply goes_active. apply find_ids. eauto.
  - destruct (reopen_inv _ _ _ _ _ H) as [(O & -> & ->)|(O & O1 & OA & AC)].
    + split; [exact SH|]. rewrite O. apply goes_again.
    + destruct (open_all_ok _ _ _ _ _ ltac:(eapply Forall_impl; [|exact S4]; intros p (_ & B & _ & t & T1 & T2 & T3 & T4 & _); split; [exact B|exists t; auto]) OA) as (-> & M & E & K).
      split.
      * split; [exact N1|]. rewrite E. split; [exact S2|]. split; [exact S3|]. eapply Forall_impl; [|exact K]. intros p (P1 & P2 & P3 & P4 & P5 & P6 & P7).
        split; [exact P1|]. split; [exact P2|]. split; [intros _; destruct P4; auto|]. eexists. split; [exact P3|]. split; [exact P4|]. split; [exact P5|]. split; [exact P6|]. auto.
      * rewrite E, O, O1. apply goes_open.
  - destruct (close_inv _ _ _ H) as (-> & NW & AC & O1 & ST). split.
    + split; [exact N1|]. rewrite ST. split; [exact S2|]. split; [exact S3|]. eapply Forall_impl; [|exact S4]. intros p. apply shape_on; [congruence|apply incl_refl].
    + rewrite ST, O1. apply goes_close.
  - injection H as <- <-. split.
    + split; [exact N1|]. cbn [h_restart h_stores]. split; [exact S2|]. split; [exact S3|]. eapply Forall_impl; [|exact S4]. intros p. apply shape_on; [discriminate|apply incl_refl].
    + cbn [h_restart h_stores h_open]. apply goes_restart.
  - destruct (compact_inv _ _ _ _ _ _ _ _ H) as (-> & NW & AC & O1 & K).
    assert (MO : h_open h1 = true -> h_open h = true /\ h_now h <= h_now h1) by (rewrite O1, NW; intro; split; [assumption|lia]).
    assert (S5 : Forall (in_shape h1 fr) (h_stores h)) by (eapply Forall_impl; [|exact S4]; intros p; apply shape_on; [exact MO|apply incl_refl]).
    destruct K as [(F & ST)|(b & d & F & CP & ST)].
    + split; [split; [exact N1|rewrite ST; auto]|]. rewrite ST, O1. apply goes_compact.
    + split.
      * split; [exact N1|]. rewrite ST, (ids_put _ _ _ _ F). split; [exact S2|]. split; [exact S3|]. apply Forall_put; [exact S5|].
        pose proof (proj1 (Forall_forall _ _) S5 _ (find_in _ _ _ F)) as (A & B & C & t & T1 & T2). cbn [fst snd] in *.
        split; [exact A|]. split; [exact B|]. split; [exact C|]. exists t. split; [|exact T2]. cbn [fst snd br_main]. eapply tipped_compact; [exact T1|exact CP].
      * rewrite ST, (ids_put _ _ _ _ F), O1. apply goes_compact.
Qed.
(* A replica in order goes through its life cycle as it should, whatever its
   branches receive: it can always be opened again, a branch or a fork is made
   unless there is one, stores are there until they are dropped. *)
Theorem C56_life es : forall h fr h' ss, sound h fr -> careful sha fbits fuel fr h es -> h_run h es = Done (h', ss) ->
  goes_on (h_open h) (map fst (h_stores h)) es ss (h_open h') (map fst (h_stores h')) /\ exists fr', sound h' fr'.
Proof.
  induction es as [|e es IH]; intros h fr h' ss SH CA H; cbn [HostModel.h_run careful] in *.
  - injection H as <- <-. split; [constructor|eauto].
  - apply rbind_done in H as ([h1 s] & H1 & H). apply rbind_done in H as ([h2 ss2] & H2 & H). injection H as <- <-. destruct CA as [SN CA]. destruct (CA _ _ H1) as [N1 CA1].
    destruct (step_sound _ _ _ _ _ SH SN H1 N1) as [SH1 G]. destruct (IH _ _ _ _ SH1 CA1 H2) as [GO K]. split; [|exact K]. eapply go_more; eassumption.
Qed.
Lemma run_split es : forall h h' ss, h_run h es = Done (h', ss) -> forall e h2 s, h_step h' e = Done (h2, s) -> h_run h (es ++ [e]) = Done (h2, ss ++ [s]).
Proof.
  induction es as [|x es IH]; intros h h' ss H e h2 s E; cbn [HostModel.h_run app] in *; [injection H as <- <-; rewrite E; reflexivity|].
  apply rbind_done in H as ([h1 s1] & H1 & H). rewrite H1. cbn [rbind]. apply rbind_done in H as ([h3 s3] & H3 & H). injection H as <- <-. rewrite (IH _ _ _ H3 _ _ _ E). reflexivity.
Qed.
Lemma careful_run es e : forall h fr h' ss, sound h fr -> careful sha fbits fuel fr h (es ++ [e]) -> h_run h es = Done (h', ss) ->
  exists fr', sound h' fr' /\ sane fr' e /\ forall h2 s, h_step h' e = Done (h2, s) -> h_now h2 < NEVER_W.
Proof.
  induction es as [|x es IH]; intros h fr h' ss SH CA H; cbn [HostModel.h_run careful app] in *.
  - injection H as <- <-. exists fr. destruct CA as [SN CA]. split; [exact SH|]. split; [exact SN|]. intros h2 s K. apply (CA _ _ K).
  - apply rbind_done in H as ([h1 s] & H1 & H). apply rbind_done in H as ([h2 ss2] & H2 & H). injection H as <- <-. destruct CA as [SN CA]. destruct (CA _ _ H1) as [N1 CA1].
    destruct (step_sound _ _ _ _ _ SH SN H1 N1) as [SH1 _]. exact (IH _ _ _ _ SH1 CA1 H2).
Qed.
Lemma first_open d h1 s1 : tipped d NIL -> h_reopen fbits fuel (mkHost 0 NIL false [(NIL, mkBranch d NIL)]) = Done (h1, s1) ->
  h_stores h1 = [(NIL, mkBranch d NIL)] /\ h_now h1 = 0.
Proof.
  clear FB. intros T RO. destruct (reopen_inv _ _ _ _ _ RO) as [(K & _)|(_ & _ & OA & _)]; [discriminate|]. cbn [h_stores h_now open_all] in OA.
  apply rbind_done in OA as ([[[d1 n1] t] s2] & BO & OA). cbn [br_main] in BO. pose proof (open_clock _ _ _ _ _ _ _ BO) as CL.
  destruct (tipped_open fbits fuel NIL _ NIL 0 _ _ _ _ T (or_intror eq_refl) BO) as (-> & -> & ->).
  assert (Z : n1 = 0) by (destruct CL as [-> | ->]; [reflexivity|vm_compute; reflexivity]). clear CL BO. subst n1. cbn [is_ok negb rbind] in OA.
  split; congruence.
Qed.
Lemma first_saved d ev c c1 cell st cx s st2 s2 now : tipped d NIL -> d = [(KEY_ZERO, cell)] -> version ev = TIME -> uvalue ev < NEVER_W -> tip_ok ev ->
  text_id c = ev -> text_ref c = YARN_FORM_UUID -> next c = NEnd c1 -> valid c = true ->
  save_chain sha fbits family jread jprev fuel (commit_on family d now [] NIL) c = Done (st, cx, s) -> save family b_batch st = Done (st2, s2) ->
  tipped (s_main family st2) ev /\ s2 = ROk.
Proof.
  clear FB. intros T D VT NV TK TI TR NE V SC SV. destruct (first_chain sha fbits fuel _ _ ev c c1 _ _ _ _ _ T D VT NV TI TR NE V SC) as [-> TP].
  destruct (save_chain_inv sha fbits family jread jprev b_write fuel _ _ _ _ _ V SC) as (ws & MV & OW & _). destruct MV as [A1 A2].
  destruct (acts_keep fbits fuel NIL _ _ _ A1 T ltac:(constructor)) as [T1 S1]. cbn [fst snd] in T1, S1.
  assert (EV : ev <> NIL) by (intros ->; discriminate). clear SC D.
  cbn [commit_on s_base] in A2. unfold save in SV. rewrite TP, A2 in SV. rewrite (eqb_other _ _ EV) in SV. change (uuid_eqb NIL NIL) with true in SV. cbn [negb andb] in SV.
  assert (LN : uuid_ltb ev NIL = false).
  { unfold uuid_ltb. cbn [uvalue uorigin NIL]. assert (Z : forall n, (n <? 0) = false) by (intro n; apply N.ltb_ge; lia). rewrite !Z, !andb_false_r. reflexivity. }
  rewrite LN in SV. destruct (one_op ev ZERO_FORM_UUID []) as [f|] eqn:OP; [|discriminate]. destruct (write bytes (s_mem family st) KEY_ZERO f) as [w sw] eqn:WW.
  assert (SW : sw = StOK) by (unfold write in WW; change (key_eqb KEY_ZERO KEY_END) with false in WW; congruence). subst sw. cbn [rstatus_of is_ok negb] in SV.
  apply rbind_done in SV as ([m s3] & B & SV). injection SV as <- <-. cbn [s_main]. exact (batch_tip _ _ _ _ _ _ _ _ T1 TK S1 OP WW B).
Qed.
Lemma first_store d s0 : b_create = Done (d, s0) -> s0 = ROk /\ tipped d NIL /\ exists c, d = [(KEY_ZERO, c)].
Proof.
  clear FB. intro BC. unfold b_create in BC. destruct (tip_reads NIL zero_tip) as (f0 & c0 & c01 & F0 & NX0 & W0 & _). rewrite F0 in BC. unfold b_write, rocks_write in BC.
  change (key_eqb KEY_ZERO KEY_END) with false in BC. cbn [andb] in BC. unfold add_operand in BC. cbn [cell_at put cell0 ce_value ce_operands app] in BC.
  injection BC as <- <-. split; [reflexivity|]. split; [|eauto].
  split; [repeat constructor|]. split; [exact zero_tip|]. exists f0, []. split; [exact F0|]. cbn [cell_at]. rewrite key_eqb_refl. reflexivity.
Qed.
Lemma new_sound d t ev : tipped d ev -> version ev = TIME -> uvalue ev < NEVER_W -> t = NIL -> sound (mkHost 0 NIL false [(NIL, mkBranch d t)]) [].
Proof.
  clear FB. intros TT VT NV ->. split; [reflexivity|]. cbn [h_stores map fst]. split; [constructor; [intros []|constructor]|]. split; [left; reflexivity|]. constructor; [|constructor].
  split; [exact zero_tip|]. cbn [fst snd]. split; [left; reflexivity|]. split; [discriminate|]. exists ev. split; [exact TT|]. split; [left; reflexivity|]. split; [left; exact VT|]. split; [exact NV|]. discriminate.
Qed.
Strategy expand [h_new].
(* CreateReplica makes such a replica, with the one store of the metadata. *)
Theorem C56_new reading h s : reading < NEVER_W -> h_new sha fbits fuel reading = Done (h, s) ->
  s = ROk /\ sound h [] /\ h_open h = false /\ map fst (h_stores h) = [NIL] /\ records h NIL (uuid_time reading 0).
Proof.
  clear FB. intros L H. unfold h_new in H. apply rbind_done in H as ([d s0] & BC & H). destruct (first_store _ _ BC) as (-> & T & c0 & D). clear BC. cbn [is_ok negb] in H.
  apply rbind_done in H as ([h1 s1] & RO & H). destruct (first_open _ _ _ T RO) as [ST NW]. rewrite ST, NW in H. clear RO ST NW h1 s1.
  cbn [find_store] in H. rewrite (proj2 (uuid_eqb_eq NIL NIL) eq_refl) in H. cbn iota in H. cbn [br_main br_tip] in H.
  remember (uuid_time reading 0) as ev eqn:EE.
  assert (VT : version ev = TIME) by (subst ev; apply ClockTheorems.time_version).
  assert (NV : uvalue ev < NEVER_W) by (subst ev; exact L).
  assert (TK : tip_ok ev) by (subst ev; apply uuid_time_ok; eapply N.lt_trans; [exact L|reflexivity]). clear EE.
  destruct (one_reads ev YARN_FORM_UUID TK) as (fy & c & c1 & FY & NX & W & TM & V & NE & _); [split; [split|]; reflexivity|].
  rewrite FY in H. unfold next_any in H. rewrite NX in H. cbn [rbind] in H.
  apply rbind_done in H as ([[st cx] s1] & SC & H). apply rbind_done in H as ([st2 s2] & SV & Q).
  assert (TI : text_id c = ev) by (unfold wop_of_cursor in W; unfold text_id; congruence).
  assert (TR : text_ref c = YARN_FORM_UUID) by (unfold wop_of_cursor in W; unfold text_ref; congruence).
  destruct (first_saved _ _ _ _ _ _ _ _ _ _ _ T D VT NV TK TI TR NE V SC SV) as [TT ->]. clear SC SV FY NX.
  assert (EH : h = mkHost 0 NIL false [(NIL, mkBranch (s_main family st2) NIL)] /\ s = ROk) by (split; congruence). clear Q. destruct EH as [-> ->].
  split; [reflexivity|]. split; [exact (new_sound _ _ _ TT VT NV eq_refl)|]. split; [reflexivity|]. split; [reflexivity|]. exists (mkBranch (s_main family st2) NIL). split; [left; reflexivity|exact TT].
Qed.
Strategy transparent [h_new].
(* from the creation on *)
Theorem C56_start reading h0 s es h' ss : reading < NEVER_W -> h_new sha fbits fuel reading = Done (h0, s) ->
  careful sha fbits fuel [] h0 es -> h_run h0 es = Done (h', ss) -> s = ROk /\ goes_on false [NIL] es ss (h_open h') (map fst (h_stores h')).
Proof.
  intros L N CA H. destruct (C56_new _ _ _ L N) as (-> & SH & O & ID & _). split; [reflexivity|]. destruct (C56_life _ _ _ _ _ SH CA H) as [G _]. rewrite O, ID in G. exact G.
Qed.

(* ---- times ---- *)
Lemma tipped_one d t t' : tipped d t -> tipped d t' -> t = t'.
Proof.
  clear FB. intros (_ & OK & f & pre & F & E) (_ & OK' & f' & pre' & F' & E'). rewrite E in E'. apply app_inj_tail in E' as [_ <-].
  destruct (tip_reads t OK) as (g & c & c1 & G & NX & W & _). destruct (tip_reads t' OK') as (g' & c' & c1' & G' & NX' & W' & _).
  assert (g = g') by congruence. subst g'. rewrite NX in NX'. injection NX' as <-. congruence.
Qed.
(* A new branch starts later than the last event on record in any store, be it
   from before the last restart, and whatever the system clock says. *)
Theorem C57_later h fr es h1 ss rs y h2 : sound h fr -> careful sha fbits fuel fr h (es ++ [HCreate rs y false]) -> h_run h es = Done (h1, ss) ->
  h_step h1 (HCreate rs y false) = Done (h2, ROk) ->
  exists ev, records h2 (branch_id y) ev /\ forall id t, records h1 id t -> uvalue t < uvalue ev.
Proof.
  intros SH CA H C. destruct (careful_run _ _ _ _ _ _ SH CA H) as (fr' & (S1 & S2 & S3 & S4) & (E & Y) & N2). specialize (N2 _ _ C). cbn [HostModel.h_step] in C.
  destruct (create_inv _ _ _ _ _ _ _ _ _ C) as [(_ & _ & K & _)|(O & F & _ & b & d0 & BC & BN & CB & ST & AC & O1)]; [discriminate|].
  destruct (create_up _ _ _ _ _ _ _ _ _ S1 E CB) as (M & UP & U).
  destruct (new_tip sha fbits (uorigin (h_active h1)) fuel _ _ _ _ _ _ (N.le_lt_trans _ _ _ U N2) BN) as (_ & BT & T).
  exists (first_event (uorigin (h_active h1)) (h_now h1) rs y false). split.
  - exists b. split; [rewrite ST; apply in_or_app; right; left; reflexivity|exact T].
  - intros id t (b1 & I1 & T1). pose proof (proj1 (Forall_forall _ _) S4 _ I1) as (_ & _ & _ & t0 & T0 & _ & _ & _ & LE). cbn [fst snd] in T0. rewrite (tipped_one _ _ _ T1 T0).
    eapply N.le_lt_trans; [apply LE; exact O|apply UP; reflexivity].
Qed.

(* ---- the active store ---- *)
Lemma step_active h e h' s : h_step h e = Done (h', s) -> h_active h' = last_active (h_active h) [e] [s].
Proof.
  clear FB. intro H. destruct e as [rs y f|rs y tr|rs y x|i|rs i| | | |i k ce]; cbn [HostModel.h_step] in H.
  - destruct (receive_inv _ _ _ _ _ _ _ _ _ H) as [(_ & -> & _)|(_ & [(_ & -> & _)|[(_ & _ & -> & _)|(b & d & _ & _ & _ & -> & _)]])]; reflexivity.
  - destruct (create_inv _ _ _ _ _ _ _ _ _ H) as [(_ & _ & _ & _ & -> & _)|(_ & _ & _ & b & d0 & _ & _ & _ & _ & -> & _)]; reflexivity.
  - destruct (fork_inv _ _ _ _ _ _ _ _ _ H) as [(_ & -> & _)|(h1 & s1 & o & _ & _ & _ & -> & _)]; reflexivity.
  - injection H as H. destruct (drop_inv _ _ _ _ H) as [(-> & _)|(_ & _ & _ & _ & _ & -> & _)]; reflexivity.
  - destruct (activate_inv _ _ _ _ _ H) as [(-> & -> & _)|(m & d & f & u & _ & _ & _ & -> & _ & _ & _ & -> & _)]; reflexivity.
  - destruct (reopen_inv _ _ _ _ _ H) as [(_ & -> & _)|(_ & _ & _ & ->)]; reflexivity.
  - destruct (close_inv _ _ _ H) as (_ & _ & -> & _). reflexivity.
  - injection H as <- _. reflexivity.
  - destruct (compact_inv _ _ _ _ _ _ _ _ H) as (_ & _ & -> & _). reflexivity.
Qed.
(* The active store is the one chosen last in this process, dropped since or not;
   a process starts with that of the metadata, whatever is on record. *)
Theorem C58_active es : forall h h' ss, h_run h es = Done (h', ss) -> h_active h' = last_active (h_active h) es ss.
Proof.
  clear FB. induction es as [|e es IH]; intros h h' ss H; cbn [HostModel.h_run] in H; [injection H as <- <-; reflexivity|].
  apply rbind_done in H as ([h1 s] & H1 & H). apply rbind_done in H as ([h2 ss2] & H2 & H). injection H as <- <-. rewrite (IH _ _ _ H2), (step_active _ _ _ _ H1).
  destruct e; cbn [last_active]; destruct s; reflexivity.
Qed.
Theorem C58_forgotten es h h' ss : h_run h (HRestart :: es) = Done (h', ss) -> (forall rs id, ~ In (HActivate rs id) es) -> h_active h' = NIL.
Proof.
  clear FB. intros H N. rewrite (C58_active _ _ _ _ H). cbn [HostModel.h_run HostModel.h_step h_restart rbind] in H. apply rbind_done in H as ([h2 ss2] & _ & Q).
  assert (E : exists s, ss = s :: ss2) by (eexists; injection Q as _ <-; reflexivity). destruct E as (s & ->). cbn [last_active]. clear Q h2 h' h s.
  revert ss2. induction es as [|e es IH]; intro ss2; [destruct ss2; reflexivity|]. assert (IH' := IH (fun rs id I => N rs id (or_intror I))). clear IH.
  destruct ss2 as [|s ss2]; [destruct e; reflexivity|]. destruct e; try (cbn [last_active]; apply IH'). exfalso. exact (N _ _ (or_introl eq_refl)).
Qed.
End Host.
Print Assumptions C55_apart.
Print Assumptions C55_open.
Print Assumptions C55_branch.
Print Assumptions C55_created.
Print Assumptions C55_forked.
Print Assumptions C56_life.
Print Assumptions C56_new.
Print Assumptions C56_start.
Print Assumptions C57_later.
Print Assumptions C58_active.
Print Assumptions C58_forgotten.
