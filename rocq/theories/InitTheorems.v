(* C74: init in the directory of a replica. *)
From Coq Require Import Sorted.
From Verif Require ClockTheorems.
From Verif Require Import Prelude UuidModel UuidProofs KeyModel KeyProofs CodecModel CodecTheorems TextModel TextSpec BuilderSpec MetaTheorems MergeModel MergeSpec MergeTextModel
  TextMergeSpec TextCursors MergeKeeps TextMerge SizeProofs TextMergeTheorems StoreModel StoreSpec StoreProofs StoreTheorems RocksModel RocksSpec RocksProofs MetaModel ClockModel
  ReplicaModel ReplicaSpec ReplicaProofs ReplicaTheorems BranchModel BranchSpec BranchProofs BranchTheorems DurableSpec DurableProofs DurableTheorems
  ForkModel HostModel HostSpec HostProofs HostTheorems NamesModel NamesSpec NamesTheorems YarnSpec YarnProofs YarnJoin CliModel CliSpec CliProofs CliTheorems CliHistory InitModel.

Section Init.
Variable sha : bytes -> bytes.
Variable fbits : bytes -> N.
Variable fuel : nat.
Notation jread := (b_jread fbits fuel).
Notation jprev := (b_jprev fbits fuel).
Notation acts := (acts family jread b_write).
Notation save_chain := (save_chain sha fbits family jread jprev fuel).
Notation create_over := (create_over sha fbits fuel).
Notation init_over := (init_over sha fbits fuel).

(* the records of the first event of a yarn *)
Definition first_keys (ev : uuid) : list key := [key_as ev META_FORM_UUID; key_as ev LOG_FORM_UUID; key_as ev YARN_FORM_UUID].

Lemma init_chain d ev c c1 now rs st s cx : version ev = TIME -> uvalue ev < NEVER_W ->
  text_id c = ev -> text_ref c = YARN_FORM_UUID -> next c = NEnd c1 -> valid c = true ->
  save_chain (commit_on family d now rs NIL) c = Done (st, cx, s) -> s <> ROk /\ s_tip family st = NIL /\ s_main family st = d \/ s = ROk /\ s_tip family st = ev.
Proof.
  intros VT NV TI TR NE V H.
  assert (SN : check_sanity c = ROk).
  { unfold check_sanity. rewrite TI, TR, VT. cbn [negb N.eqb Pos.eqb]. reflexivity. }
  unfold ReplicaModel.save_chain in H. rewrite SN in H. apply rbind_done in H as ([[st1 m] s1] & HM & H).
  destruct (head_meta_inv sha fbits family jread jprev b_write fuel _ _ _ _ _ SN HM) as ([MV _] & TP & K). cbn [commit_on s_tip s_now s_main s_mem] in TP, MV. pose proof (acts_bare fbits fuel _ _ _ MV ltac:(constructor) eq_refl) as SM. injection SM as SM _. assert (TP1 : s_tip family st1 = NIL) by congruence. clear TP.
  destruct (is_ok s1) eqn:E1; cbn [negb] in H; [|left; injection H as <- _ <-; split; [intros ->; discriminate|auto]]. apply is_ok_iff in E1. subst s1. right.
  destruct (K eq_refl) as [MI GR]. rewrite TI in MI. clear K.
  assert (MR : m_rdt m = YARN_FORM_UUID).
  { destruct GR as [(_ & _ & _ & R)|(NY & _)]; [congruence|contradiction]. }
  assert (NQ : uuid_eqb (text_ref c) (m_id m) = false) by (rewrite MI, <- TI; apply sanity_ref; exact SN). rewrite NQ in H. cbn [negb] in H.
  apply rbind_done in H as ([st2 s2] & W1 & H). destruct (meta_save m) as [mf|]; [|discriminate].
  assert (WR : forall st k f, key_eqb k KEY_END = false -> jwrite_step family st k f = (set_stores family st (s_main family st) (insert bytes (s_mem family st) (k, f)), ROk)).
  { intros x k f E. unfold jwrite_step, write. rewrite E. reflexivity. }
  rewrite WR in W1 by (apply BranchProofs.key_not_end; vm_compute; reflexivity). injection W1 as <- <-. cbn [is_ok negb] in H.
  apply rbind_done in H as ([[[[st3 m'] data] c'] s3] & SC & H). unfold save_chainlet in SC. apply rbind_done in SC as ([[[[t2 m2] acc] c2] s4] & CH & SC).
  destruct fuel as [|n]; [discriminate|]. cbn [chainlet] in CH. rewrite NE in CH. injection CH as <- <- <- <- <-. injection SC as <- <- ED <- <-.
  cbn [is_ok negb] in H. destruct (see_step family _ (m_id m)) as [st4 s4] eqn:SE in H.
  assert (s4 = ROk).
  { unfold see_step in SE. destruct (clock_see _ (m_id m)) as [nz sz] eqn:CS in SE. injection SE as _ <-. unfold clock_see in CS. rewrite MI, VT in CS.
    change (negb (TIME =? TIME)) with false in CS. cbn match in CS. destruct (uvalue ev <? _) in CS; [injection CS as _ <-; reflexivity|].
    destruct (NEVER_W <=? uvalue ev) eqn:LE in CS; [apply N.leb_le in LE; lia|]. injection CS as _ <-. reflexivity. }
  subst s4. cbn [is_ok negb] in H. destruct data as [df|]; [|discriminate].
  rewrite WR in H by (apply BranchProofs.key_not_end; vm_compute; reflexivity). cbn [is_ok negb] in H.
  rewrite MR in H. rewrite WR in H by (apply BranchProofs.key_not_end; vm_compute; reflexivity). cbn [is_ok negb] in H.
  injection H as <- _ <-. split; [reflexivity|]. cbn [set_tip s_tip]. exact MI.
Qed.
Lemma adds_keys l : forall d k, In k (map fst (adds d l)) <-> In k (map fst d) \/ In k (map fst l).
Proof.
  induction l as [|[k1 f] l IH]; intros d k; [cbn; tauto|]. change (adds d ((k1, f) :: l)) with (adds (add_operand d k1 f) l). rewrite IH. unfold add_operand. rewrite put_keys. cbn [map fst In]. intuition congruence.
Qed.

(* the chain is refused and nothing is written, or it is saved with a new tip *)
Lemma init_saved d ev c c1 st cx s st2 s2 now : tipped d NIL -> version ev = TIME -> uvalue ev < NEVER_W -> tip_ok ev -> wop_of_cursor c = mkWop ev YARN_FORM_UUID [] ->
  text_id c = ev -> text_ref c = YARN_FORM_UUID -> next c = NEnd c1 -> valid c = true ->
  save_chain (commit_on family d now [] NIL) c = Done (st, cx, s) -> save family b_batch st = Done (st2, s2) ->
  s2 = ROk /\ (s_main family st2 = d \/
    exists mf df f, no_tip family jread jprev d [] (uorigin ev) /\ is_record mf ev ev YARN_FORM_UUID /\ one_op ev YARN_FORM_UUID [] = Some df /\ one_op ev ZERO_FORM_UUID [] = Some f /\
      tipped (s_main family st2) ev /\
      (forall k, cell_at (s_main family st2) k = mkCell (ce_value (cell_at d k)) (ce_operands (cell_at d k) ++ contents [(key_as ev META_FORM_UUID, mf); (key_as ev LOG_FORM_UUID, df); (key_as ev YARN_FORM_UUID, df); (KEY_ZERO, f)] k)) /\
      (forall k, In k (map fst (s_main family st2)) <-> In k (map fst d) \/ In k (KEY_ZERO :: first_keys ev))).
Proof.
  intros T VT NV TK WC TI TR NE V SC SV. pose proof (init_chain d ev c c1 _ _ _ _ _ VT NV TI TR NE V SC) as CH.
  destruct (save_chain_inv sha fbits family jread jprev b_write fuel _ _ _ _ _ V SC) as (ws & MV & OW & OK).
  destruct CH as [(NK & TP & MM)|[-> TP]].
  - destruct MV as [A1 A2]. cbn [commit_on s_base] in A2. unfold save in SV. rewrite A2, TP in SV. change (uuid_eqb NIL NIL) with true in SV. cbn iota in SV. injection SV as <- <-. auto.
  - destruct (OK eq_refl) as (h & l & HC & AD & WR & PS & _ & _ & _ & _ & _ & IL & SL). clear OK. assert (EV : ev <> NIL) by (intros ->; discriminate).
    assert (CO : ch_ops h = [c]).
    { assert (VC1 : valid c1 = false) by (apply (next_stop c); left; exact NE).
      assert (L1 : l = [c] /\ pend cx = []).
      { assert (G : forall d m, passes c m d -> m = [] /\ d = c \/ m = [c] /\ d = c1).
        { intros d0 m PM. induction PM as [|m x y PM IH VX NN]; [left; auto|]. destruct IH as [[-> ->]|[-> ->]]; [|congruence].
          right. split; [reflexivity|]. rewrite NE in NN. destruct NN as [NN|[NN|NN]]; congruence. }
        destruct (G _ _ PS) as [[-> _]|[-> ->]]; [destruct IL|]. split; [reflexivity|]. unfold pend. rewrite VC1. reflexivity. }
      destruct L1 as [-> PD]. rewrite PD in SL. cbn [app] in SL. apply subl_length in SL. unfold ch_ops in *. rewrite HC in *. destruct (ch_rest h); [reflexivity|cbn in SL; lia]. }
    destruct MV as [A1 A2]. cbn [commit_on s_main s_mem s_base] in A1, A2. assert (IO : in_order d) by apply T.
    destruct (acts_keep fbits fuel NIL _ _ _ A1 T ltac:(constructor)) as [T1 S1]. cbn [fst snd] in T1, S1.
    destruct (acts_mem fbits fuel _ _ _ OW A1 ltac:(constructor)) as (MM & _ & _). cbn [fst] in MM.
    unfold admitted in AD. cbv zeta in AD. destruct AD as (_ & _ & _ & RC & OT & [(_ & NT & OB & RD)|(K & _)]); [|rewrite HC, TR in K; congruence].
    unfold ch_id in *. rewrite HC, TI in NT, RC, OB. rewrite HC, TR in RD. rewrite OB, RD in RC. rewrite CO in OT. unfold ops_text in OT. cbn [map] in OT. rewrite WC in OT.
    assert (WR' : writes_of ws = [(key_as ev META_FORM_UUID, ch_record h); (key_as ev LOG_FORM_UUID, ch_text h); (key_as ev YARN_FORM_UUID, ch_text h)]) by (rewrite WR; unfold ch_records, ch_id; rewrite HC, TI, OB, RD; reflexivity).
    assert (CW : forall k, contents (s_mem family st) k = contents (writes_of ws) k).
    { intro k. pose proof (acts_few fbits fuel k _ _ _ OW A1 ltac:(constructor)) as Q. cbn [snd] in Q. change (contents [] k) with (@nil bytes) in Q. cbn [app] in Q. apply Q. rewrite WR'. change [?a; ?b; ?e] with ([a] ++ [b] ++ [e]). rewrite !contents_app, !contents_one.
      assert (KF : key_form (key_as ev META_FORM_UUID) = META_META_FORM /\ key_form (key_as ev LOG_FORM_UUID) = LOG_RAW_FORM /\ key_form (key_as ev YARN_FORM_UUID) = YARN_RAW_FORM) by (unfold key_as; rewrite !key_form_of by reflexivity; repeat split).
      destruct KF as (KF1 & KF2 & KF3).
      destruct (key_eqb (key_as ev META_FORM_UUID) k) eqn:E1; [apply key_eqb_eq in E1; subst k; rewrite !key_eqb_neq by (apply form_key_neq; rewrite ?KF1, ?KF2, ?KF3; discriminate); apply le_n|].
      destruct (key_eqb (key_as ev LOG_FORM_UUID) k) eqn:E2; [apply key_eqb_eq in E2; subst k; rewrite !key_eqb_neq by (apply form_key_neq; rewrite ?KF1, ?KF2, ?KF3; discriminate); apply le_n|].
      destruct (key_eqb (key_as ev YARN_FORM_UUID) k); [apply le_n|apply Nat.le_0_l]. }
    unfold save in SV. rewrite TP, A2 in SV. rewrite (eqb_other _ _ EV) in SV. change (uuid_eqb NIL NIL) with true in SV. cbn [negb andb] in SV.
    assert (LN : uuid_ltb ev NIL = false).
    { unfold uuid_ltb. cbn [uvalue uorigin NIL]. assert (Z : forall n, (n <? 0) = false) by (intro n; apply N.ltb_ge; lia). rewrite !Z, !andb_false_r. reflexivity. }
    rewrite LN in SV. destruct (one_op ev ZERO_FORM_UUID []) as [f|] eqn:OP; [|discriminate]. destruct (write bytes (s_mem family st) KEY_ZERO f) as [w sw] eqn:WW.
    assert (SW : sw = StOK) by (unfold write in WW; change (key_eqb KEY_ZERO KEY_END) with false in WW; congruence). subst sw. cbn [rstatus_of is_ok negb] in SV.
    apply rbind_done in SV as ([m s3] & B & SV). injection SV as <- <-. cbn [s_main]. destruct (batch_tip _ _ _ _ _ _ _ _ T1 TK S1 OP WW B) as [TT ->].
    split; [reflexivity|]. right. exists (ch_record h), (ch_text h), f. split; [exact NT|]. split; [exact RC|]. split; [exact OT|]. split; [reflexivity|]. split; [exact TT|].
    pose proof (write_ok (s_mem family st) KEY_ZERO f S1) as K. rewrite WW in K. destruct K as (_ & K & _).
    assert (CF : forall k, contents w k = contents [(key_as ev META_FORM_UUID, ch_record h); (key_as ev LOG_FORM_UUID, ch_text h); (key_as ev YARN_FORM_UUID, ch_text h); (KEY_ZERO, f)] k).
    { intro k. rewrite K, CW, WR'. cbn [before_end]. change (key_eqb KEY_ZERO KEY_END) with false. cbn iota. rewrite <- contents_app. reflexivity. }
    unfold b_batch, rocks_batch in B. injection B as <-. rewrite MM. split.
    + intro k. destruct (adds_at w d k IO) as [_ E]. unfold adds in E. rewrite E, CF. reflexivity.
    + intro k. change (fold_left _ w d) with (adds d w). rewrite adds_keys, <- (contents_in w), CF, contents_in. unfold first_keys. cbn [map fst In]. tauto.
Qed.

Lemma zero_write d f0 d1 s : in_order d -> one_op NIL ZERO_FORM_UUID [] = Some f0 -> b_write d KEY_ZERO f0 = Done (d1, s) ->
  s = ROk /\ tipped d1 NIL /\ d1 = add_operand d KEY_ZERO f0.
Proof.
  intros IO F W. unfold b_write, rocks_write in W. change (key_eqb KEY_ZERO KEY_END) with false in W. cbn [andb] in W. injection W as <- <-. split; [reflexivity|]. split; [|reflexivity].
  split; [apply put_order; exact IO|]. split; [exact zero_tip|]. exists f0, (held (ce_value (cell_at d KEY_ZERO)) ++ ce_operands (cell_at d KEY_ZERO)). split; [exact F|].
  rewrite add_at by exact IO. rewrite key_eqb_refl. cbn [ce_value ce_operands]. rewrite app_assoc. reflexivity.
Qed.
(* the metadata after the command: the tip is forgotten, or it is the new event *)
Lemma create_over_inv d reading d' s : in_order d -> reading < NEVER_W -> create_over d reading = Done (d', s) -> let ev := uuid_time reading 0 in
  exists f0 d1, one_op NIL ZERO_FORM_UUID [] = Some f0 /\ d1 = add_operand d KEY_ZERO f0 /\ tipped d1 NIL /\ s = ROk /\ (d' = d1 \/
    exists mf df f, no_tip family jread jprev d1 [] (uorigin ev) /\ is_record mf ev ev YARN_FORM_UUID /\ one_op ev YARN_FORM_UUID [] = Some df /\ one_op ev ZERO_FORM_UUID [] = Some f /\
      tipped d' ev /\
      (forall k, cell_at d' k = mkCell (ce_value (cell_at d1 k)) (ce_operands (cell_at d1 k) ++ contents [(key_as ev META_FORM_UUID, mf); (key_as ev LOG_FORM_UUID, df); (key_as ev YARN_FORM_UUID, df); (KEY_ZERO, f)] k)) /\
      (forall k, In k (map fst d') <-> In k (map fst d1) \/ In k (KEY_ZERO :: first_keys ev))).
Proof.
  intros IO L H ev. unfold InitModel.create_over in H. destruct (one_op NIL ZERO_FORM_UUID []) as [f0|] eqn:F0; [|discriminate]. exists f0, (add_operand d KEY_ZERO f0). split; [reflexivity|]. split; [reflexivity|].
  apply rbind_done in H as ([d1 s0] & W & H). destruct (zero_write _ _ _ _ IO F0 W) as (-> & T & ED). rewrite <- ED. split; [exact T|]. clear W ED. cbn [is_ok negb] in H.
  apply rbind_done in H as ([h1 s1] & RO & H). destruct (first_open _ _ _ _ _ T RO) as [ST NW]. rewrite ST, NW in H. clear RO ST NW h1 s1.
  cbn [find_store] in H. rewrite (proj2 (uuid_eqb_eq NIL NIL) eq_refl) in H. cbn iota in H. cbn [br_main br_tip] in H.
  assert (VT : version ev = TIME) by apply ClockTheorems.time_version.
  assert (NV : uvalue ev < NEVER_W) by exact L.
  assert (TK : tip_ok ev) by (apply uuid_time_ok; eapply N.lt_trans; [exact L|reflexivity]). fold ev in H. clearbody ev.
  destruct (one_reads ev YARN_FORM_UUID TK) as (fy & c & c1 & FY & NX & W & TM & V & NE & _); [split; [split|]; reflexivity|].
  rewrite FY in H. unfold next_any in H. rewrite NX in H. cbn [rbind] in H.
  apply rbind_done in H as ([[st cx] s1] & SC & H). apply rbind_done in H as ([st2 s2] & SV & Q).
  assert (TI : text_id c = ev) by (unfold wop_of_cursor in W; unfold text_id; congruence).
  assert (TR : text_ref c = YARN_FORM_UUID) by (unfold wop_of_cursor in W; unfold text_ref; congruence).
  destruct (init_saved _ _ _ _ _ _ _ _ _ _ T VT NV TK W TI TR NE V SC SV) as [-> IS]. assert (ES : s = ROk) by congruence. assert (EM : s_main family st2 = d') by congruence. rewrite EM in IS. split; [exact ES|exact IS].
Qed.
Lemma zero_same d f0 : in_order d -> same_but [KEY_ZERO] d (add_operand d KEY_ZERO f0).
Proof. intros IO k NI. rewrite add_at by exact IO. rewrite key_eqb_neq; [reflexivity|]. intro Q. apply NI. left. congruence. Qed.

(* ---- the command ---- *)
(* what it may do to the records of the metadata *)
Inductive init_effect (reading : N) (d d' : family) : Prop :=
| ie_forgets : same_but [KEY_ZERO] d d' -> tipped d' NIL -> init_effect reading d d'
| ie_begins : same_but (KEY_ZERO :: first_keys (uuid_time reading 0)) d d' -> tipped d' (uuid_time reading 0) -> init_effect reading d d'.

Lemma sound_nil d t : tipped d t -> uvalue t < NEVER_W -> version t = TIME \/ t = NIL -> world_ok [(NIL, d)].
Proof.
  intros T NV VT. split; [|intros [K|[]]; exact (branch_nil 0 (eq_sym K))]. unfold shut. cbn [map fst snd].
  split; [reflexivity|]. cbn [h_stores map fst]. split; [constructor; [intros []|constructor]|]. split; [left; reflexivity|]. constructor; [|constructor].
  split; [exact zero_tip|]. cbn [fst snd]. split; [left; reflexivity|]. split; [discriminate|]. exists t. split; [exact T|]. split; [left; reflexivity|]. split; [destruct VT; auto|]. split; [exact NV|]. discriminate.
Qed.
Theorem C74_effect fs reading fs' s : world_ok fs -> reading < NEVER_W -> init_over fs reading = Done (fs', s) ->
  world_ok fs' /\
  (s = RDbFail /\ fs' = fs /\ map fst fs <> [NIL] \/
   s = ROk /\ exists d d', fs = [(NIL, d)] /\ fs' = [(NIL, d')] /\ init_effect reading d d').
Proof.
  intros WO L H. unfold InitModel.init_over in H. assert (HN : In NIL (map fst fs)) by (destruct WO as [(_ & _ & I & _) _]; rewrite ids_shut in I; exact I).
  destruct fs as [|[id d] [|q r]]; [destruct HN| |injection H as <- <-; split; [exact WO|left; split; [reflexivity|split; [reflexivity|discriminate]]]].
  destruct HN as [HN|[]]. cbn [fst] in HN. subst id. rewrite (proj2 (uuid_eqb_eq NIL NIL) eq_refl) in H. apply rbind_done in H as ([d' s0] & C & H). injection H as <- <-.
  assert (IO : in_order d).
  { destruct WO as [(_ & _ & _ & F) _]. inversion F as [|? ? (_ & _ & _ & t & (IO & _) & _) _]; subst. exact IO. }
  destruct (create_over_inv _ _ _ _ IO L C) as (f0 & d1 & F0 & E1 & T1 & -> & K). cbv zeta in K.
  destruct K as [->|(mf & df & f & NT & RC & OD & OF & T2 & CA & KS)].
  - split; [exact (sound_nil _ _ T1 ltac:(reflexivity) (or_intror eq_refl))|]. right. split; [reflexivity|]. exists d, d1. split; [reflexivity|]. split; [reflexivity|]. apply ie_forgets; [rewrite E1; apply zero_same; exact IO|exact T1].
  - split; [exact (sound_nil _ _ T2 L (or_introl (ClockTheorems.time_version _ _)))|]. right. split; [reflexivity|]. exists d, d'. split; [reflexivity|]. split; [reflexivity|]. apply ie_begins; [|exact T2].
    intros k NI. rewrite CA. assert (E : contents [(key_as (uuid_time reading 0) META_FORM_UUID, mf); (key_as (uuid_time reading 0) LOG_FORM_UUID, df); (key_as (uuid_time reading 0) YARN_FORM_UUID, df); (KEY_ZERO, f)] k = []).
    { change [?a; ?b; ?e; ?g] with ([a] ++ [b] ++ [e] ++ [g]). rewrite !contents_app, !contents_one. unfold first_keys in NI. cbn [In] in NI. rewrite !key_eqb_neq by (intro Q; apply NI; rewrite <- Q; tauto). reflexivity. }
    rewrite E, app_nil_r. assert (NZ : ~ In k [KEY_ZERO]) by (intros [Q|[]]; apply NI; left; exact Q). rewrite E1, (zero_same d f0 IO k NZ). destruct (cell_at d k). reflexivity.
Qed.
End Init.
Print Assumptions C74_effect.
