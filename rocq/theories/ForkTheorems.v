(* C49: a fork of a branch. *)
From Coq Require Import Sorted.
From Verif Require ClockTheorems.
From Verif Require Import Prelude UuidModel UuidProofs KeyModel KeyProofs CodecModel TextModel TextSpec BuilderSpec BuilderProofs MergeModel MergeSpec MergeTextModel
  TextMergeSpec TextCursors MergeKeeps TextMerge SizeProofs TextMergeTheorems StoreModel StoreSpec StoreProofs StoreTheorems RocksModel RocksSpec RocksProofs MetaModel ClockModel
  ReplicaModel ReplicaSpec ReplicaProofs ReplicaTheorems BranchModel BranchSpec BranchProofs BranchTheorems DurableSpec DurableProofs DurableTheorems ForkModel ForkSpec.

Lemma nothing_says : frame_says [] [].
Proof. split; [apply (fl [] [] [] []); [constructor|constructor|left; reflexivity]|reflexivity]. Qed.

Section Fork.
Variable sha : bytes -> bytes.
Variable fbits : bytes -> N.
Variable active : N.
Variable fuel : nat.
Notation b_step := (b_step sha fbits active fuel).
Notation b_run := (b_run sha fbits active fuel).
Notation rread := (rocks_read fbits fuel).
Notation fork_loop := (fork_loop fbits fuel).
Notation copies := (copies fbits fuel).

Lemma nth_skipn {T} (l : list T) : forall i, match nth_error l i with Some x => skipn i l = x :: skipn (S i) l | None => skipn i l = [] end.
Proof. induction l as [|x l IH]; intros [|i]; cbn [nth_error skipn]; auto. apply IH. Qed.
Lemma fork_copies orig n : forall i d d' s, fork_loop n orig (mkRiter orig (Some i)) d = Done (d', s) ->
  (s = ROk /\ exists l, copies orig (skipn (S i) orig) l /\ d' = adds d l) \/
  exists k c, In (k, c) (skipn (S i) orig) /\ cell_get fbits fuel k c <> Done GFail /\ exists f s1, rread orig k = Done (f, s1) /\ s1 <> KOk.
Proof.
  induction n as [|n IH]; intros i d d' s H; [discriminate|]. cbn [ForkModel.fork_loop] in H. unfold ri_next in H. cbn [ri_at ri_snap] in H.
  pose proof (nth_skipn orig (S i)) as NS. destruct (Nat.ltb (S i) (length orig)) eqn:LT.
  2:{ cbn [rbind] in H. injection H as <- <-. left. split; [reflexivity|]. exists []. apply Nat.ltb_ge in LT.
      rewrite skipn_all2 by exact LT. split; [constructor|reflexivity]. }
  destruct (nth_error orig (S i)) as [[k c]|] eqn:NE; [|apply Nat.ltb_lt in LT; apply nth_error_None in NE; lia].
  unfold settle, ri_value in H. cbn [ri_at ri_snap] in H. rewrite NE in H. destruct (cell_get fbits fuel k c) as [g| |] eqn:G; cbn [rbind] in H; try discriminate.
  assert (GO : g = GFail \/ g <> GFail) by (destruct g; [right|right|left]; congruence). destruct GO as [->|NG].
  - injection H as <- <-. left. split; [reflexivity|]. exists []. rewrite NS. split; [apply copies_stop; exact G|reflexivity].
  - assert (E : (match g with GFail => (mkRiter orig None, KDbFail) | _ => (mkRiter orig (Some (S i)), KOk) end) = (mkRiter orig (Some (S i)), KOk)) by (destruct g; congruence).
    cbn [ri_snap] in H. rewrite E in H. clear E. cbn [rbind] in H. unfold ri_key in H. cbn [ri_at ri_snap] in H. rewrite NE in H. unfold b_read in H.
    destruct (rread orig k) as [[f s1]| |] eqn:R; cbn [rbind] in H; try discriminate.
    destruct s1; cbn [kst is_ok negb] in H.
    2-4: right; exists k, c; split; [rewrite NS; left; reflexivity|]; split; [congruence|]; eexists; eexists; split; [exact R|discriminate].
    unfold b_write, rocks_write in H. assert (W : key_eqb k KEY_END && negb match f with [] => true | _ => false end = false).
    { unfold rocks_read in R. destruct (key_eqb k KEY_END); [injection R as <-; reflexivity|reflexivity]. }
    rewrite W in H. cbn [rbind kst is_ok negb] in H. destruct (IH _ _ _ _ H) as [(-> & l & C & ->)|(k1 & c1 & I & K)].
    + left. split; [reflexivity|]. exists ((k, f) :: l). rewrite NS. split; [apply copies_more; assumption|reflexivity].
    + right. exists k1, c1. split; [rewrite NS; right; exact I|exact K].
Qed.
(* a record that the iterator shows is read *)
Lemma shown_read d k c : in_order d -> In (k, c) d -> cell_get fbits fuel k c <> Done GFail -> forall f s, rread d k = Done (f, s) -> s = KOk.
Proof.
  intros O I G f s R. unfold rocks_read in R. destruct (key_eqb k KEY_END); [congruence|].
  assert (E : cell_at d k = c).
  { clear -O I. induction O as [|[k1 c1] d O IH F]; [destruct I|]. cbn [cell_at]. destruct I as [E|I].
    - injection E as -> ->. rewrite key_eqb_refl. reflexivity.
    - rewrite Forall_forall in F. specialize (F _ I). cbn [fst] in F. rewrite key_eqb_neq by (intros ->; exact (key_lt_irrefl _ F)). apply IH. exact I. }
  rewrite E in R. destruct (cell_get fbits fuel k c) as [g| |] eqn:GG; cbn [rbind] in R; try discriminate. destruct g; congruence.
Qed.

(* the tip record comes first *)
Lemma zero_first d t : tipped d t -> exists c rest, d = (KEY_ZERO, c) :: rest /\ Forall (fun r => key_lt KEY_ZERO (fst r)) rest.
Proof.
  intros (O & _ & f & r & _ & C). destruct O as [|[k c] d O F]; [destruct r; discriminate|]. exists c, d.
  assert (E : k = KEY_ZERO).
  { destruct (key_eqb k KEY_ZERO) eqn:E; [apply key_eqb_eq; exact E|]. exfalso. cbn [cell_at] in C. rewrite E in C.
    assert (I : exists c1, In (KEY_ZERO, c1) d).
    { clear -C. induction d as [|[k1 c1] d IH]; [destruct r; discriminate|]. cbn [cell_at] in C. destruct (key_eqb k1 KEY_ZERO) eqn:E1.
      - apply key_eqb_eq in E1. subst. exists c1. left. reflexivity.
      - destruct (IH C) as (c2 & I). exists c2. right. exact I. }
    destruct I as (c1 & I). rewrite Forall_forall in F. specialize (F _ I). cbn [fst] in F. unfold key_lt in F. rewrite key_from_zero in F. discriminate. }
  subst k. auto.
Qed.
Lemma copies_in orig d l : copies orig d l -> forall k f, In (k, f) l -> rread orig k = Done (f, KOk) /\ exists c, In (k, c) d.
Proof.
  induction 1 as [|k c rest G|k c rest f l R C IH]; intros k1 f1 I; [destruct I|destruct I|]. destruct I as [E|I].
  - injection E as <- <-. split; [exact R|]. exists c. left. reflexivity.
  - destruct (IH _ _ I) as (A & c1 & B). split; [exact A|]. exists c1. right. exact B.
Qed.
(* a readable record with readable ones before it is copied, once *)
Lemma copies_at orig d l k : copies orig d l -> in_order d -> (forall k1 c, In (k1, c) d -> key_lt k k1 \/ cell_get fbits fuel k1 c <> Done GFail) ->
  contents l k = [] /\ ~ In k (map fst d) \/ exists f, contents l k = [f] /\ rread orig k = Done (f, KOk).
Proof.
  intro C. induction C as [|k1 c rest G|k1 c rest f l R C IH]; intros O A.
  - left. split; [reflexivity|]. intros [].
  - left. split; [reflexivity|]. destruct (A k1 c (or_introl eq_refl)) as [L|L]; [|contradiction].
    inversion O as [|? ? O1 F]; subst. intros [E|I]; cbn [fst] in *; [subst; exact (key_lt_irrefl _ L)|].
    apply in_map_iff in I as ([k2 c2] & E & I). cbn [fst] in E. subst k2. rewrite Forall_forall in F. specialize (F _ I). cbn [fst] in F.
    exact (key_lt_irrefl _ (key_lt_trans _ _ _ L F)).
  - inversion O as [|? ? O1 F]; subst. specialize (IH O1 (fun k2 c2 I => A k2 c2 (or_intror I))).
    change ((k1, f) :: l) with ([(k1, f)] ++ l). rewrite contents_app, contents_one. destruct (key_eqb k1 k) eqn:E.
    + apply key_eqb_eq in E. subst k1. right. exists f. split; [|exact R]. cbn [app]. f_equal.
      assert (Z : forall g, ~ In (k, g) l).
      { intros g I. destruct (copies_in _ _ _ C _ _ I) as (_ & c1 & J). rewrite Forall_forall in F. specialize (F _ J). exact (key_lt_irrefl _ F). }
      clear -Z. unfold contents. induction l as [|[k2 g] l IH]; [reflexivity|]. cbn [filter fst].
      destruct (key_eqb k2 k) eqn:E; [apply key_eqb_eq in E; subst; exfalso; apply (Z g); left; reflexivity|]. apply IH. intros h I. apply (Z h). right. exact I.
    + cbn [app]. destruct IH as [[IH1 IH2]|IH]; [left|right; exact IH]. split; [exact IH1|]. intros [Q|Q]; [|contradiction].
      cbn [fst] in Q. subst k1. rewrite key_eqb_refl in E. discriminate.
Qed.

(* A fork succeeds. Its tip record is the first event of the new yarn, so it can
   be opened as a branch of that yarn; it has what a new branch has, and a copy
   of what a read of the original gives, for each key up to the first one that
   cannot be merged. *)
Theorem C49_fork d t now rs yarn b' s : tipped d t -> yarn <> 0 -> let ev := first_event active now rs yarn false in
  uvalue ev < NEVER_W -> b_fork sha fbits active fuel d now rs yarn = Done (b', s) ->
  s = ROk /\ br_tip b' = NIL /\ tipped (br_main b') ev /\
  (exists b0 l c0 rest, b_new sha fbits active fuel now rs yarn false = Done (b0, ROk) /\ d = (KEY_ZERO, c0) :: rest /\ copies d rest l /\
     forall k, cell_at (br_main b') k = mkCell (ce_value (cell_at (br_main b0) k)) (ce_operands (cell_at (br_main b0) k) ++ contents l k)) /\
  forall now1 b1 s1, b_step (branch_id yarn) b' (BOpen now1) = Done (b1, s1) ->
    s1 = ROk /\ br_tip b1 = ev /\ healthy (branch_id yarn) b1 ev /\ br_main b1 = br_main b'.
Proof.
  intros T Y ev NV H. unfold b_fork in H. apply rbind_done in H as ([b0 s0] & BN & H).
  destruct (new_tip sha fbits active fuel _ _ _ _ _ _ NV BN) as (-> & BT & T0). cbn [is_ok negb] in H.
  destruct (zero_first _ _ T) as (c0 & rest & ED & FR). pose proof T as (O & _ & f0 & r0 & _ & CZ).
  apply rbind_done in H as ([it s1] & SK & H).
  assert (IT : it = mkRiter d (Some 0%nat) /\ s1 = KOk).
  { unfold ri_seek in SK. cbn [ri_new ri_snap] in SK. assert (FF : first_from d KEY_ZERO 0 = Some 0%nat) by (rewrite ED; cbn [first_from]; rewrite key_from_zero; reflexivity).
    rewrite FF in SK. unfold settle in SK. apply rbind_done in SK as (g & VG & SK). unfold ri_value in VG. cbn [ri_at ri_snap] in VG.
    assert (NE : nth_error d 0 = Some (KEY_ZERO, c0)) by (rewrite ED; reflexivity). rewrite NE in VG.
    assert (CA : cell_at d KEY_ZERO = c0) by (rewrite ED; cbn [cell_at]; rewrite key_eqb_refl; reflexivity).
    assert (RB : b_read fbits fuel d KEY_ZERO = Done (d, match g with GValue f => f | _ => [] end, kst match g with GFail => KDbFail | _ => KOk end)).
    { unfold b_read, rocks_read. change (key_eqb KEY_ZERO KEY_END) with false. cbn match. rewrite CA, VG. destruct g; reflexivity. }
    destruct (tipped_read fbits fuel _ _ _ _ _ T RB) as (_ & K & _). destruct g; cbn in K; try discriminate; injection SK as <- <-; auto. }
  destruct IT as [-> ->]. apply rbind_done in H as ([d2 s2] & FL & H). injection H as <- <-. cbn [br_main br_tip].
  assert (SK1 : skipn 1 d = rest) by (rewrite ED; reflexivity).
  destruct (fork_copies _ _ _ _ _ _ FL) as [(-> & l & CP & ->)|(k & c & I & G & f & s1 & R & NK)].
  2:{ exfalso. apply NK. eapply shown_read; [exact O| |exact G|exact R]. rewrite SK1 in I. rewrite ED. right. exact I. }
  rewrite SK1 in CP. pose proof T0 as (O0 & TK & TR).
  assert (CELL : forall k, cell_at (adds (br_main b0) l) k = mkCell (ce_value (cell_at (br_main b0) k)) (ce_operands (cell_at (br_main b0) k) ++ contents l k)).
  { intro k. apply (adds_at l _ k O0). }
  assert (CZ0 : contents l KEY_ZERO = []).
  { assert (Z : forall g, ~ In (KEY_ZERO, g) l).
    { intros g I. destruct (copies_in _ _ _ CP _ _ I) as (_ & c1 & J). rewrite Forall_forall in FR. exact (key_lt_irrefl _ (FR _ J)). }
    clear -Z. unfold contents. induction l as [|[k2 g] l IH]; [reflexivity|]. cbn [filter fst].
    destruct (key_eqb k2 KEY_ZERO) eqn:E; [apply key_eqb_eq in E; subst; exfalso; apply (Z g); left; reflexivity|]. apply IH. intros h I. apply (Z h). right. exact I. }
  assert (T1 : tipped (adds (br_main b0) l) ev).
  { split; [apply (adds_at l _ KEY_ZERO O0)|]. split; [exact TK|]. destruct TR as (f & pre & F & E). exists f, pre. split; [exact F|]. rewrite CELL, CZ0, app_nil_r. exact E. }
  split; [reflexivity|]. split; [exact BT|]. split; [exact T1|]. split.
  { exists b0, l, c0, rest. auto. }
  intros now1 b1 s1 H1. destruct (first_time active now rs yarn false) as [_ OR]. specialize (OR (or_intror Y)).
  cbn [BranchModel.b_step br_main] in H1. apply rbind_done in H1 as ([[[d1 n1] t1] s3] & H1 & Q). 
  destruct (tipped_open fbits fuel _ _ _ _ _ _ _ _ T1 (or_introl OR) H1) as (-> & -> & ->). injection Q as <- <-. cbn [br_tip br_main].
  split; [reflexivity|]. split; [reflexivity|]. split; [|reflexivity]. split; [exact T1|]. cbn [br_tip]. auto.
Qed.

(* What the fork says under a key *)
Lemma fork_cell d t now rs yarn b' s k : tipped d t -> yarn <> 0 -> uvalue (first_event active now rs yarn false) < NEVER_W ->
  b_fork sha fbits active fuel d now rs yarn = Done (b', s) -> k <> KEY_ZERO -> readable_to fbits fuel d k ->
  exists b0, b_new sha fbits active fuel now rs yarn false = Done (b0, ROk) /\ in_order (br_main b') /\
    (cell_at d k = cell0 /\ cell_at (br_main b') k = cell_at (br_main b0) k \/
     exists f, rread d k = Done (f, KOk) /\
       cell_at (br_main b') k = mkCell (ce_value (cell_at (br_main b0) k)) (ce_operands (cell_at (br_main b0) k) ++ [f])).
Proof.
  intros T Y NV H NZ RD. destruct (C49_fork d t now rs yarn b' s T Y NV H) as (_ & _ & TF & (b0 & l & c0 & rest & BN & ED & CP & CELL) & _).
  exists b0. split; [exact BN|]. split; [apply TF|]. pose proof T as (O & _). rewrite ED in O. inversion O as [|? ? OR F]; subst.
  destruct (copies_at _ _ _ k CP OR) as [[C0 NI]|(f & C1 & R)].
  - intros k1 c I. apply (RD k1 c). right. exact I.
  - left. split; [|rewrite CELL, C0, app_nil_r; destruct (cell_at (br_main b0) k); reflexivity].
    cbn [cell_at]. rewrite key_eqb_neq by (intro Q; apply NZ; symmetry; exact Q). clear -NI. induction rest as [|[k1 c] rest IH]; [reflexivity|].
    cbn [cell_at]. destruct (key_eqb k1 k) eqn:E; [apply key_eqb_eq in E; subst; exfalso; apply NI; left; reflexivity|]. apply IH. intro I. apply NI. right. exact I.
  - right. exists f. rewrite CELL, C1. auto.
Qed.
(* The log of an object: what the original has, after what the new branch has
   (nothing, unless the object is the first event of the new yarn). *)
Theorem C49_log d t now rs yarn b' s k W : let ev := first_event active now rs yarn false in let said := first_ops k ev ++ W in
  tipped d t -> yarn <> 0 -> uvalue ev < NEVER_W -> b_fork sha fbits active fuel d now rs yarn = Done (b', s) ->
  key_form k = LOG_RAW_FORM -> readable_to fbits fuel d k -> log_at d k W -> keep_bound fuel said [] -> spanless said ->
  log_at (br_main b') k said /\
  (said <> [] -> exists text ops, rread (br_main b') k = Done (text, KOk) /\ frame_lit canon text ops /\ map bare ops = said).
Proof.
  intros ev said T Y NV H FM RD LA KB SP.
  assert (N2 : k <> KEY_ZERO) by (apply form_key_neq; rewrite FM; vm_compute; discriminate).
  assert (N3 : k <> KEY_END) by (apply form_key_neq; rewrite FM; vm_compute; discriminate).
  destruct (fork_cell d t now rs yarn b' s k T Y NV H N2 RD) as (b0 & BN & O & CELL).
  assert (SUB : forall V, incl V said -> (length V <= length said)%nat -> (room V <= room said)%nat -> keep_bound fuel V [] /\ spanless V).
  { clear -KB SP. intros V I L R. destruct KB as (M & L1 & L2 & R1). unfold keep_bound. cbn [map length] in *. rewrite app_nil_r in *. change (room []) with 0%nat in *.
    split; [split; [eapply mergeable_incl; eassumption|split; [lia|split; lia]]|]. intros a b IA IB. apply SP; apply I; assumption. }
  assert (L0 : log_at (br_main b0) k (first_ops k ev)).
  { destruct (SUB (first_ops k ev)) as [K1 K2]; [apply incl_appl, incl_refl|subst said; rewrite app_length; lia|subst said; rewrite room_app; lia|].
    apply (C48_created sha fbits active fuel now rs yarn false b0 ROk NV BN k K1); assumption. }
  assert (LF : log_at (br_main b') k said).
  { destruct CELL as [[CD CE]|(f & R & CE)].
    - destruct LA as (ds & F & E). rewrite CD in F. inversion F; subst. cbn in said. subst said. rewrite app_nil_r. destruct L0 as (ds & F0 & E0). exists ds. rewrite CE. auto.
    - assert (FS : exists dd, frame_says f dd /\ map bare dd = W).
      { unfold rocks_read in R. rewrite (key_eqb_neq _ _ N3) in R. apply rbind_done in R as (g & G & R).
        destruct (held (ce_value (cell_at d k)) ++ ce_operands (cell_at d k)) as [|x xs] eqn:HE.
        - apply app_eq_nil in HE as [HE1 HE2]. destruct (ce_value (cell_at d k)) eqn:EV; [discriminate|]. unfold cell_get in G. rewrite HE2, EV in G. injection G as <-. injection R as <-.
          exists []. split; [exact nothing_says|]. destruct LA as (dd & F & E). rewrite EV, HE2 in F. inversion F; subst. reflexivity.
        - pose proof LA as LB. apply log_inv_at in LA as (W0 & LI & EW). destruct (SUB W) as [K1 K2]; [apply incl_appr, incl_refl|subst said; rewrite app_length; lia|subst said; rewrite room_app; lia|].
          rewrite <- EW in K1, K2. pose proof (log_of_keep fuel W0 K1 K2) as LB0.
          destruct (log_get_small fbits fuel k FM (cell_at d k) W0 LI LB0) as (text & ops & G2 & FL & EO & SM); [rewrite HE; discriminate|].
          rewrite G2 in G. injection G as <-. injection R as <-. exists ops. split; [split; [exact FL|exact SM]|]. rewrite EO. exact EW. }
      destruct FS as (dd & FS & ED). destruct L0 as (ds & F0 & E0). exists (ds ++ [dd]). rewrite CE. cbn [ce_value ce_operands]. rewrite app_assoc. split.
      + apply Forall2_app; [exact F0|repeat constructor; apply FS].
      + rewrite concat_app, map_app, E0. cbn [concat]. rewrite app_nil_r, ED. reflexivity. }
  split; [exact LF|]. intro NV2. pose proof (log_nonvoid _ _ _ LF NV2) as NH. apply log_inv_at in LF as (W0 & LI & EW).
  rewrite <- EW in KB, SP. destruct (log_get fbits fuel k FM (cell_at (br_main b') k) W0 LI (log_of_keep fuel W0 KB SP) NH) as (text & ops & G & FL & EO).
  exists text, ops. split; [apply read_of; assumption|]. split; [exact FL|]. rewrite EO. exact EW.
Qed.
(* The state of an object: the ops the original has and those the new branch has. *)
Theorem C49_state d t now rs yarn b' s k W : let ev := first_event active now rs yarn false in let said := first_ops k ev ++ W in
  tipped d t -> yarn <> 0 -> uvalue ev < NEVER_W -> b_fork sha fbits active fuel d now rs yarn = Done (b', s) ->
  In (key_form k) [LWW_RDT_FORM; MX_RDT_FORM; YARN_RAW_FORM] ->
  readable_to fbits fuel d k -> state_at d k W -> keep_bound fuel said [] ->
  state_at (br_main b') k said /\
  (said <> [] -> exists text us, rread (br_main b') k = Done (text, KOk) /\ frame_lit canon text (chunk_of us) /\ increasing_ids (chunk_of us) /\
     forall u, In u us <-> In u said).
Proof.
  intros ev said T Y NV H FM RD LA KB.
  assert (N2 : k <> KEY_ZERO) by (apply form_key_neq; destruct FM as [<-|[<-|[<-|[]]]]; vm_compute; discriminate).
  assert (N3 : k <> KEY_END) by (apply form_key_neq; destruct FM as [<-|[<-|[<-|[]]]]; vm_compute; discriminate).
  assert (FM2 : In (key_form k) [LWW_RDT_FORM; MX_RDT_FORM; YARN_RAW_FORM; META_META_FORM]) by (cbn [In] in *; tauto).
  destruct (fork_cell d t now rs yarn b' s k T Y NV H N2 RD) as (b0 & BN & O & CELL).
  assert (SUB : forall V, incl V said -> (length V <= length said)%nat -> (room V <= room said)%nat -> keep_bound fuel V []).
  { clear -KB. intros V I L R. destruct KB as (M & L1 & L2 & R1). unfold keep_bound. cbn [map length] in *. rewrite app_nil_r in *. change (room []) with 0%nat in *.
    split; [eapply mergeable_incl; eassumption|split; [lia|split; lia]]. }
  assert (K1 : keep_bound fuel (first_ops k ev) []) by (apply SUB; [apply incl_appl, incl_refl|subst said; rewrite app_length; lia|subst said; rewrite room_app; lia]).
  assert (K2 : keep_bound fuel W []) by (apply SUB; [apply incl_appr, incl_refl|subst said; rewrite app_length; lia|subst said; rewrite room_app; lia]).
  assert (L0 : state_at (br_main b0) k (first_ops k ev)).
  { apply (C48_created sha fbits active fuel now rs yarn false b0 ROk NV BN k K1); assumption. }
  assert (LF : state_at (br_main b') k said).
  { destruct CELL as [[CD CE]|(f & R & CE)].
    - assert (W = []).
      { destruct LA as (ds & F & U & _). rewrite CD in F. inversion F; subst. destruct W as [|u W]; [reflexivity|]. destruct (proj2 (U u) (or_introl eq_refl)). }
      subst W. subst said. rewrite app_nil_r. unfold state_at in *. rewrite CE. exact L0.
    - assert (FS : exists dd, frame_says f dd /\ sorted_ids dd /\ (forall u, In u (map bare dd) <-> In u W) /\ (length dd <= length W)%nat /\ (room (map bare dd) <= room W)%nat).
      { unfold rocks_read in R. rewrite (key_eqb_neq _ _ N3) in R. apply rbind_done in R as (g & G & R).
        destruct (held (ce_value (cell_at d k)) ++ ce_operands (cell_at d k)) as [|x xs] eqn:HE.
        - apply app_eq_nil in HE as [HE1 HE2]. destruct (ce_value (cell_at d k)) eqn:EV; [discriminate|]. unfold cell_get in G. rewrite HE2, EV in G. injection G as <-. injection R as <-.
          exists []. split; [exact nothing_says|]. split; [constructor|]. destruct LA as (dd & F & U & L & RR & _). rewrite EV, HE2 in F. inversion F; subst. auto.
        - apply union_inv_at in LA as (W0 & LI & EW). rewrite <- EW in K2. pose proof (union_of_keep fuel W0 K2 Logic.I) as UB.
          assert (CC : concat (W0 ++ [[]]) = concat W0) by (rewrite concat_app; cbn [concat]; rewrite !app_nil_r; reflexivity).
          assert (LI1 : union_inv (ce_value (cell_at d k)) (ce_operands (cell_at d k)) (W0 ++ [[]])) by (unfold union_inv, says in *; rewrite CC; exact LI).
          assert (UB1 : union_bound fuel (W0 ++ [[]])) by (unfold union_bound in *; rewrite CC; exact UB).
          destruct (union_get_small fbits fuel k FM2 (cell_at d k) _ LI1 UB1) as (text & us & G2 & FL & I & U & SM & L & RR); [destruct W0; discriminate|rewrite HE; discriminate|].
          rewrite CC in U, L, RR. rewrite G2 in G. injection G as <-. injection R as <-. exists (chunk_of us). split; [split; [exact FL|exact SM]|]. split; [apply increasing_sorted; exact I|].
          unfold chunk_of at 1 3. rewrite bare_denote, chunk_length. rewrite <- EW, map_length. auto. }
      destruct FS as (dd & FS & SD & U & L & RR). destruct L0 as (ds & F0 & U0 & LL0 & RR0 & V0). exists (ds ++ [dd]). rewrite CE. cbn [ce_value ce_operands]. rewrite app_assoc. split; [|split; [|split; [|split]]].
      + apply Forall2_app; [exact F0|]. constructor; [split; assumption|constructor].
      + intro u. rewrite concat_app, map_app. cbn [concat]. rewrite app_nil_r. subst said. rewrite !in_app_iff, U0, U. reflexivity.
      + rewrite concat_app, app_length. cbn [concat]. rewrite app_nil_r. subst said. rewrite app_length. lia.
      + rewrite concat_app, map_app, room_app. cbn [concat]. rewrite app_nil_r. subst said. rewrite room_app. lia.
      + intro NN. destruct (V0 NN) as (us & ds' & -> & I). exists us, (ds' ++ [dd]). auto. }
  split; [exact LF|]. intro NV2. apply union_inv_at in LF as (W0 & LI & EW). rewrite <- EW in *.
  destruct (union_get fbits fuel k FM2 (cell_at (br_main b') k) W0 LI (union_of_keep fuel W0 KB Logic.I)) as (text & us & G & FL & I & U).
  - intro Z. rewrite Z in NV2. apply NV2. reflexivity.
  - intro Z. destruct LI as (ds & (F & UU & _) & _). rewrite Z in F. inversion F; subst. destruct (map bare (concat W0)) as [|u us0] eqn:EM; [apply NV2; reflexivity|].
    destruct (proj2 (UU u) (or_introl eq_refl)).
  - exists text, us. split; [apply read_of; assumption|auto].
Qed.
(* The life of a fork: a log has what the new branch has, what the original had
   at the time of the fork, and what is saved in the fork. *)
Theorem C49_life d t now rs yarn b' s now1 es b2 s1 ss E : let ev := first_event active now rs yarn false in
  tipped d t -> yarn <> 0 -> uvalue ev < NEVER_W -> b_fork sha fbits active fuel d now rs yarn = Done (b', s) -> Forall clocks es ->
  (forall n r f, In (BReceive n r f) es -> events_only f) ->
  b_run (branch_id yarn) b' (BOpen now1 :: es) = Done (b2, s1 :: ss) -> received es ss E ->
  exists hs, keeps ev ev es ss hs /\
    forall k W, let said := (first_ops k ev ++ W) ++ says_ops (filed k hs) in
      key_form k = LOG_RAW_FORM -> readable_to fbits fuel d k -> log_at d k W -> keep_bound fuel (first_ops k ev ++ W) E ->
      spanless ((first_ops k ev ++ W) ++ map bare E) -> said <> [] ->
      exists text ops, rread (br_main b2) k = Done (text, KOk) /\ frame_says text ops /\ map bare ops = said.
Proof.
  intros ev T Y NV H C EO R RV. cbn [BranchModel.b_run] in R. apply rbind_done in R as ([b1 s2] & R1 & R). apply rbind_done in R as ([b3 ss2] & R & Q). injection Q as -> -> ->.
  destruct (C49_fork d t now rs yarn b' s T Y NV H) as (_ & _ & TF & _ & OP). destruct (OP _ _ _ R1) as (-> & BT & HT & MB). fold ev in TF, BT, HT.
  assert (VT : version (branch_id yarn) = TIME) by apply ClockTheorems.time_version.
  destruct (C48_log sha fbits active fuel (branch_id yarn) b1 ev es b2 ss E VT HT C EO R RV) as (hs & KP & K). rewrite BT in KP. exists hs. split; [exact KP|].
  intros k W said FM RD LA KB SP NE.
  destruct (C49_log d t now rs yarn b' s k W T Y NV H FM RD LA) as [LF _].
  { fold ev. clear -KB. destruct KB as (M & L & N & RR). unfold keep_bound. cbn [map length] in *. change (room []) with 0%nat. rewrite app_nil_r. split; [|split; [lia|split; lia]].
    eapply mergeable_incl; [exact M|]. apply incl_appl, incl_refl. }
  { intros x y IX IY. apply SP; apply in_or_app; left; assumption. }
  fold ev in LF. rewrite <- MB in LF. destruct (K k (first_ops k ev ++ W) FM LF KB SP) as [_ K2]. apply K2. exact NE.
Qed.
End Fork.
Print Assumptions C49_fork.
Print Assumptions C49_log.
Print Assumptions C49_state.
Print Assumptions C49_life.
