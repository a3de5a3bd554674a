(* C60, C61, C62: what a branch stores of each yarn and under each object. *)
From Coq Require Import Sorted.
From Verif Require ClockTheorems.
From Verif Require Import Prelude UuidModel UuidProofs KeyModel KeyProofs CodecModel TextModel TextSpec BuilderSpec BuilderProofs MetaTheorems MergeModel MergeSpec MergeTextModel
  TextMergeSpec TextCursors MergeKeeps TextMerge SizeProofs TextMergeTheorems StoreModel StoreSpec StoreProofs StoreTheorems RocksModel RocksSpec RocksProofs MetaModel ClockModel
  ReplicaModel ReplicaSpec ReplicaProofs ReplicaTheorems BranchModel BranchSpec BranchProofs BranchTheorems DurableSpec DurableProofs DurableTheorems YarnSpec YarnProofs YarnJoin.

Section Yarns.
Variable sha : bytes -> bytes.
Variable fbits : bytes -> N.
Variable active : N.
Variable fuel : nat.
Notation b_run := (b_run sha fbits active fuel).
Notation rread := (rocks_read fbits fuel).

Notation opener ev := (mkUop ev YARN_FORM_UUID []).

Lemma first_filed k h ev : key_form k = LOG_RAW_FORM -> ch_obj h = ev -> ch_rdt h = YARN_FORM_UUID -> says_ops [h] = [opener ev] ->
  says_ops (filed k [h]) = first_ops k ev.
Proof.
  intros FK OB RD SO. unfold first_ops, filed. cbn [flat_map]. rewrite app_nil_r, OB, RD.
  assert (K2 : key_eqb (key_as ev YARN_FORM_UUID) k = false).
  { apply key_eqb_neq. intro Q. rewrite <- Q in FK. unfold key_as in FK. rewrite key_form_of in FK by reflexivity. discriminate. }
  rewrite K2. destruct (key_eqb (key_of ev LOG_RAW_FORM) k); cbn [orb app]; [exact SO|reflexivity].
Qed.
(* the branch as created: one chain, which opens the yarn of its author *)
Lemma start now rs yarn tr b s U E : let ev := first_event active now rs yarn tr in
  tr = true \/ yarn <> 0 -> uvalue ev < NEVER_W -> b_new sha fbits active fuel now rs yarn tr = Done (b, s) -> sound U -> In (opener ev) U ->
  keep_bound fuel [opener ev] E -> spanless (opener ev :: map bare E) ->
  exists h, says_ops [h] = [opener ev] /\ ch_obj h = ev /\ ch_rdt h = YARN_FORM_UUID /\ good U [h] /\ rooted [h] /\ base (br_main b) [h] /\ roomy fuel [h] E.
Proof.
  intros ev Y NV H SU IU KB SP. subst ev. destruct (C47_created sha fbits active fuel _ _ _ _ _ _ Y NV H) as (-> & _).
  pose proof (C48_created sha fbits active fuel now rs yarn tr b ROk NV H) as CR.
  destruct (new_inv sha fbits active fuel _ _ _ _ _ _ NV H) as (f0 & c & h & ws & m & w & f & batch & TK & T & OW & A1 & WO & CH & OB & RD & WC & TX & F & WW & B & BT & AD & fy & OY & FY).
  set (ev := first_event active now rs yarn tr) in *. clearbody ev.
  assert (FS : frame_says fy [mkRop ev YARN_FORM_UUID [] RAW]) by (apply one_says; [exact TK|split; [split|]; reflexivity|exact OY]).
  destruct (frame_cursors _ _ _ FS FY) as [RC CC]. cbn [map] in RC.
  assert (RC1 : rop_of c = mkRop ev YARN_FORM_UUID [] RAW) by congruence.
  assert (OP : opof c = opener ev) by (unfold opof; rewrite RC1; reflexivity).
  assert (SO : says_ops [h] = [opener ev]) by (rewrite says_one, CH; unfold as_ops; cbn [map]; f_equal; exact OP).
  exists h. split; [exact SO|]. split; [exact OB|]. split; [exact RD|].
  assert (G : good U [h]).
  { split; [|split; [|split; [|split; [|split]]]].
    - constructor; [|constructor]. destruct AD as (V & L & BB & _ & TT & _). split; [exact V|]. auto.
    - cbn [flat_map]. rewrite app_nil_r, CH. exact CC.
    - rewrite SO. repeat constructor.
    - intros h' c' [<-|[]] J. rewrite CH in J. destruct J as [<-|[]]. rewrite SO, OP, OB, RD. apply (bl_root [opener ev] (opener ev)); [left; reflexivity|reflexivity].
    - constructor; [|constructor]. rewrite RD. destruct (type_value YARN_FORM_UUID) as [V1 V2]; [discriminate|discriminate|]. split; [exact V1|]. split; [exact V2|]. left. reflexivity.
    - rewrite SO. intros u [<-|[]]. exact IU. }
  split; [exact G|]. split.
  { intros h' [<-|[]]. exists (opener ev), []. assert (F2 : logkey h = key_of ev LOG_RAW_FORM) by (unfold logkey; rewrite OB; reflexivity). rewrite (first_filed _ h ev (form_of_log h) OB RD SO).
    unfold first_ops. rewrite F2, key_eqb_refl. cbn [orb]. split; [reflexivity|]. split; [reflexivity|]. rewrite RD. reflexivity. }
  assert (RM : roomy fuel [h] E).
  { intros k FK. rewrite (first_filed k h ev FK OB RD SO). unfold first_ops. destruct (_ || _); [split; assumption|]. destruct KB as (M & L & NN & R). split.
    - split; [eapply mergeable_incl; [exact M|]; apply incl_appr, incl_refl|]. cbn [length] in *. unfold room in *. cbn [map list_sum fold_right] in *. split; [lia|]. split; lia.
    - eapply spanless_incl; [|exact SP]. apply incl_tl, incl_refl. }
  split; [|exact RM].
  assert (FT := roomy_fits fuel _ _ RM). assert (F1 := fuel_one fuel [h] ltac:(discriminate) FT).
  change [h] with ([] ++ [h]).
  apply (base_grows fbits fuel U [(KEY_ZERO, mkCell None [f0])] [] [h] (br_main b)); try assumption.
  - split; [apply T|]. split; [|split].
    + intro k. cbn [map fst In]. split; [intros [<-|[]]; left; reflexivity|]. intros [->|(h' & [] & _)]. left. reflexivity.
    + intros k FK. exists []. assert (NZ : k <> KEY_ZERO) by (apply form_key_neq; rewrite FK; vm_compute; discriminate).
      assert (C0 : cell_at [(KEY_ZERO, mkCell None [f0])] k = cell0).
      { cbn [cell_at]. rewrite key_eqb_neq by (intro Q; apply NZ; symmetry; exact Q). destruct (key_ltb k KEY_ZERO); reflexivity. }
      rewrite C0. split; [constructor|reflexivity].
    + intros h' [].
  - constructor; [|constructor]. destruct AD as (_ & _ & _ & R & _). exact R.
  - right. exists ws, m, w, f, batch. split; [exact OW|]. split; [|split; [exact WW|]].
    + change [h] with ([] ++ [h]). change ws with ([] ++ ws). eapply acc_chain; [apply acc_none|exact AD|exact A1|exact WO].
    + exact B.
  - intros k FK. cbn [app]. rewrite (first_filed k h ev FK OB RD SO). destruct (FT k FK) as [KF SF]. rewrite (first_filed k h ev FK OB RD SO) in KF, SF.
    destruct (CR k KF) as [L _]. apply L; assumption.
Qed.

Lemma first_bound k ev E : keep_bound fuel [opener ev] E -> keep_bound fuel (first_ops k ev) E.
Proof.
  intro KB. unfold first_ops. destruct (_ || _); [exact KB|]. destruct KB as (M & L & NN & R). split; [eapply mergeable_incl; [exact M|]; apply incl_appr, incl_refl|].
  cbn [length] in *. unfold room in *. cbn [map list_sum fold_right] in *. split; [lia|]. split; lia.
Qed.
Lemma story_stored d es ss hss d' : story fbits fuel d es ss hss d' -> stored_of es ss hss.
Proof.
  induction 1 as [d|d e s hs d1 es ss hss d2 GR SO ST IH]; [constructor|]. constructor; [|exact IH].
  destruct SO as [->|(now & rs & f & -> & -> & _ & C & PR)]; [left; reflexivity|right]. exists now, rs, f. split; [reflexivity|]. split; [exact C|].
  eapply Forall_impl; [|exact PR]. intros h (V & _). exact V.
Qed.
Lemma subl_two {T} (a b : T) r l : subl (a :: b :: r) l -> exists l1 l2 l3, l = l1 ++ a :: l2 ++ b :: l3.
Proof.
  assert (ONE : forall (b : T) r l, subl (b :: r) l -> exists l1 l2, l = l1 ++ b :: l2).
  { clear. intros b r l H. assert (I : In b l) by (eapply subl_in; [exact H|left; reflexivity]). apply in_split. exact I. }
  induction l as [|x l IH]; intro H; [inversion H|].
  assert (K : x = a /\ subl (b :: r) l \/ subl (a :: b :: r) l) by (inversion H; subst; auto). destruct K as [[-> K]|K].
  - destruct (ONE _ _ _ K) as (l2 & l3 & ->). exists [], l2, l3. reflexivity.
  - destruct (IH K) as (l1 & l2 & l3 & ->). exists (x :: l1), l2, l3. reflexivity.
Qed.
(* two chains of a frame *)
Lemma two_heads f hs a h1 b h2 c : events_only f -> chains_of f hs -> Forall (fun h => version (ch_id h) = TIME) hs -> hs = a ++ h1 :: b ++ h2 :: c ->
  exists l1 l2 l3, ops_of f (l1 ++ ch_head h1 :: l2 ++ ch_head h2 :: l3) /\ stamped (ch_head h1) /\ stamped (ch_head h2).
Proof.
  intros EO (_ & _ & _ & l & OL & SB) VT EQ. subst hs.
  assert (S2 : subl [ch_head h1; ch_head h2] l).
  { eapply subl_trans; [exact SB|]. rewrite map_app. change [ch_head h1; ch_head h2] with ([] ++ [ch_head h1; ch_head h2]). apply subl_app; [apply subl_nil|]. cbn [map]. apply subl_take. rewrite map_app.
    change [ch_head h2] with ([] ++ [ch_head h2]). apply subl_app; [apply subl_nil|]. cbn [map]. apply subl_take, subl_nil. }
  destruct (subl_two _ _ _ _ S2) as (l1 & l2 & l3 & ->). exists l1, l2, l3. split; [exact OL|]. rewrite Forall_forall in VT.
  assert (ST2 : forall h, version (ch_id h) = TIME -> In (ch_head h) (l1 ++ ch_head h1 :: l2 ++ ch_head h2 :: l3) -> stamped (ch_head h)).
  { intros h V J. destruct (EO (ch_head h) (ops_delivered _ _ _ OL J)) as [K|K]; [exact K|]. unfold ch_id in V. rewrite K in V. vm_compute in V. discriminate. }
  split; apply ST2.
  - apply VT, in_or_app. right. left. reflexivity.
  - apply in_or_app. right. left. reflexivity.
  - apply VT, in_or_app. right. right. apply in_or_app. right. left. reflexivity.
  - apply in_or_app. right. right. apply in_or_app. right. left. reflexivity.
Qed.
(* Frames with one event at most. Or frames that open the yarn of an author before
   its other events, if all the objects are of types that are merged by ids. *)
Theorem C60_frames us es ss hss : stored_of es ss hss -> (forall n r f, In (BReceive n r f) es -> events_only f) ->
  (forall n r f, In (BReceive n r f) es -> solo f) \/ (forall n r f, In (BReceive n r f) es -> opens_first f) /\ plain_objects us ->
  Forall (apart us) hss.
Proof.
  intros ST EO HOW. unfold stored_of in ST. assert (IN : forall e s, In (e, s) (combine es ss) -> In e es) by (intros e s; apply in_combine_l).
  revert IN ST. generalize (combine es ss). intros xs IN ST. induction ST as [|x hs xs hss SO ST IH]; [constructor|].
  constructor; [|apply IH; intros e s I; eapply IN; right; exact I].
  destruct SO as [->|(now & rs & f & -> & CO & VT)]; [split; [intros a g b h c E; destruct a; discriminate E|left; constructor]|]. pose proof (IN _ _ (or_introl eq_refl)) as IF. specialize (EO _ _ _ IF).
  destruct HOW as [SL|[OB PO]].
  - destruct hs as [|h1 [|h2 hs]]; [split; [intros a g b h c E; destruct a; discriminate E|left; constructor]|split; [intros a g b h c E; destruct a as [|? [|]]; [|discriminate E|discriminate E]; destruct b; discriminate E|left; constructor]|exfalso].
    destruct (two_heads f _ [] h1 [] h2 hs EO CO VT eq_refl) as (l1 & l2 & l3 & OL & T1 & T2). exact (SL _ _ _ IF _ _ _ _ _ OL T1 T2).
  - split; [|right; exact PO]. specialize (OB _ _ _ IF).
    intros a g b h c E RY. destruct (two_heads f hs a g b h c EO CO VT E) as (l1 & l2 & l3 & OL & T1 & T2). exact (OB _ _ _ _ _ OL T1 T2 RY).
Qed.

(* the life of a branch, from its creation *)
Definition lives now rs yarn tr (es : list bevent) (ss : list rstatus) (E : list rop) (b' : branch) : Prop :=
  let ev := first_event active now rs yarn tr in
  (tr = true \/ yarn <> 0) /\ uvalue ev < NEVER_W /\ Forall clocks es /\ (forall n r f, In (BReceive n r f) es -> events_only f) /\
  (exists b s now1 s1, b_new sha fbits active fuel now rs yarn tr = Done (b, s) /\ b_run (branch_id yarn) b (BOpen now1 :: es) = Done (b', s1 :: ss)) /\
  received es ss E /\ keep_bound fuel [opener ev] E /\ spanless (opener ev :: map bare E) /\ calm (opener ev :: map bare E).

Lemma life_start now rs yarn tr es ss E b' : let ev := first_event active now rs yarn tr in lives now rs yarn tr es ss E b' ->
  exists hss h b1, base (br_main b1) [h] /\ keeps ev ev es ss (concat hss) /\ story fbits fuel (br_main b1) es ss hss (br_main b') /\ in_order (br_main b1) /\
    says_ops [h] = [opener ev] /\ ch_obj h = ev /\ ch_rdt h = YARN_FORM_UUID /\
    (forall k, In (key_form k) [LWW_RDT_FORM; MX_RDT_FORM; YARN_RAW_FORM] -> state_at (br_main b1) k (first_ops k ev)) /\
    sound (opener ev :: map bare E) /\
    (Forall (apart (opener ev :: map bare E)) hss -> good (opener ev :: map bare E) ([h] ++ concat hss) /\ base (br_main b') ([h] ++ concat hss) /\ fits fuel ([h] ++ concat hss)).
Proof.
  intros ev (Y & NV & C & EO & (b & s & now1 & s1 & H & R) & RV & KB & SP & CA). fold ev in NV, KB, SP, CA.
  cbn [BranchModel.b_run] in R. apply rbind_done in R as ([b1 s2] & R1 & R). apply rbind_done in R as ([b2 ss2] & R & Q). injection Q as -> -> ->.
  destruct (C47_created sha fbits active fuel _ _ _ _ _ _ Y NV H) as (-> & _ & _ & K). destruct (K _ _ _ R1) as (-> & BT & HT). clear K.
  assert (MB : br_main b1 = br_main b).
  { destruct (new_tip sha fbits active fuel _ _ _ _ _ _ NV H) as (_ & _ & T). cbn [BranchModel.b_step] in R1. apply rbind_done in R1 as ([[[d n'] t'] s1] & H1 & Q).
    destruct (first_time active now rs yarn tr) as [_ OR]. destruct (tipped_open fbits fuel _ _ _ _ _ _ _ _ T (or_introl (OR Y)) H1) as (-> & -> & ->). injection Q as <-. reflexivity. }
  assert (VT : version (branch_id yarn) = TIME) by apply ClockTheorems.time_version.
  destruct (run_keeps sha fbits active fuel _ VT es b1 b' ss _ HT C R EO) as (hss & KP & ST). rewrite BT in KP. fold ev in KP.
  assert (IO : in_order (br_main b1)) by apply HT.
  assert (SU : sound (opener ev :: map bare E)) by (split; [apply KB|exact CA]).
  destruct (start now rs yarn tr b ROk (opener ev :: map bare E) E Y NV H SU (or_introl eq_refl) KB SP) as (h & SO & OB & RD & G & RT & B & RM). fold ev in SO, OB.
  exists hss, h, b1. split; [rewrite MB; exact B|]. split; [exact KP|]. split; [exact ST|]. split; [exact IO|]. split; [exact SO|]. split; [exact OB|]. split; [exact RD|].
  split; [|split; [exact SU|]].
  - intros k FK. rewrite MB. assert (KB1 : keep_bound fuel (first_ops k ev) []).
    { pose proof (first_bound k ev E KB) as (M & L & NN & RR). unfold keep_bound. cbn [map length]. change (room []) with 0%nat. rewrite app_nil_r. split; [|split; [lia|split; lia]].
      eapply mergeable_incl; [exact M|]. apply incl_appl, incl_refl. }
    destruct (C48_created sha fbits active fuel now rs yarn tr b ROk NV H k KB1) as [_ L]. apply L. exact FK.
  - intro ONE. apply (story_good sha fbits fuel _ (br_main b1) es ss hss (br_main b') ST ONE SU E [h]); try assumption.
    + apply incl_tl, incl_refl.
    + discriminate.
    + rewrite MB. exact B.
Qed.
Lemma life_good now rs yarn tr es ss E b' : let ev := first_event active now rs yarn tr in lives now rs yarn tr es ss E b' ->
  exists hss h b1, keeps ev ev es ss (concat hss) /\ story fbits fuel (br_main b1) es ss hss (br_main b') /\ in_order (br_main b1) /\
    says_ops [h] = [opener ev] /\ ch_obj h = ev /\ ch_rdt h = YARN_FORM_UUID /\
    (forall k, In (key_form k) [LWW_RDT_FORM; MX_RDT_FORM; YARN_RAW_FORM] -> state_at (br_main b1) k (first_ops k ev)) /\
    sound (opener ev :: map bare E) /\
    (Forall (apart (opener ev :: map bare E)) hss -> good (opener ev :: map bare E) ([h] ++ concat hss) /\ base (br_main b') ([h] ++ concat hss) /\ fits fuel ([h] ++ concat hss)).
Proof.
  intros ev L. destruct (life_start _ _ _ _ _ _ _ _ L) as (hss & h & b1 & _ & K). exists hss, h, b1. exact K.
Qed.

(* The events of one yarn are stored in order, each once. *)
Theorem C60_order now rs yarn tr es ss E b' : lives now rs yarn tr es ss E b' ->
  let ev := first_event active now rs yarn tr in
  exists hss, keeps ev ev es ss (concat hss) /\ stored_of es ss hss /\ (Forall (apart (opener ev :: map bare E)) hss -> in_turn (opener ev :: says_ops (concat hss)) /\ NoDup (map u_id (opener ev :: says_ops (concat hss)))).
Proof.
  intros LV ev. destruct (life_good _ _ _ _ _ _ _ _ LV) as (hss & h & b1 & KP & ST & _ & SO & _ & _ & _ & _ & G). fold ev in KP, SO, G.
  exists hss. split; [exact KP|]. split; [eapply story_stored; exact ST|]. intro ONE. destruct (G ONE) as ((_ & _ & IT & _) & _). rewrite says_app, SO in IT. split; [exact IT|]. apply in_turn_nodup in IT. exact IT.
Qed.
Lemma filter_says p H : subl (says_ops (filter p H)) (says_ops H).
Proof.
  induction H as [|h H IH]; [constructor|]. change (h :: H) with ([h] ++ H). rewrite filter_app, !says_app. apply subl_app; [|exact IH].
  cbn [filter]. destruct (p h); [apply subl_refl|apply subl_nil].
Qed.
(* the chains of an object *)
Lemma whose U H u o t : sound U -> good U H -> belongs (says_ops H) u o t ->
  exists h c, In h H /\ In c (ch_ops h) /\ u = opof c /\ ch_obj h = o /\ ch_rdt h = t.
Proof.
  intros SU (_ & _ & IT & BL & _) B. pose proof (belongs_in _ _ _ _ B) as I. apply says_in in I as (h & c & I1 & I2 & ->).
  destruct (belongs_one _ _ _ _ _ _ (in_turn_nodup _ IT) (BL h c I1 I2) B) as [E1 E2]. exists h, c. auto.
Qed.
Lemma objects_log U d H u o t : sound U -> good U H -> base d H -> fits fuel H -> belongs (says_ops H) u o t ->
  exists text ops, rread d (key_of o LOG_RAW_FORM) = Done (text, KOk) /\ frame_says text ops /\ subl (map bare ops) (says_ops H) /\
    forall v, In v (map bare ops) <-> exists t', belongs (says_ops H) v o t'.
Proof.
  intros SU G B FT BU. destruct (whose U H u o t SU G BU) as (h & c & IH & IC & -> & OB & RD). pose proof B as (IO & _ & LG & _). subst o t.
  change (key_of (ch_obj h) LOG_RAW_FORM) with (logkey h). pose proof (form_of_log h) as FK. destruct (FT _ FK) as [KB SP].
  destruct (log_kept sha fbits fuel d [] [] [] d [] (logkey h) (says_ops (filed (logkey h) H)) IO ltac:(constructor) ltac:(constructor) FK (LG _ FK) KB) as (_ & _ & RD).
  { cbn [map]. rewrite app_nil_r. exact SP. }
  cbn [concat] in RD. change (filed (logkey h) []) with (@nil chain) in RD. change (says_ops []) with (@nil uop) in RD. rewrite app_nil_r in RD.
  destruct (RD (says_filed H h IH)) as (text & ops & R & FS & EQ). exists text, ops. split; [exact R|]. split; [exact FS|]. rewrite EQ, (filed_filter U H _ G FK).
  split; [apply filter_says|]. intro v. rewrite says_in. split.
  - intros (h' & c' & I' & J' & ->). apply filter_In in I' as [I' K']. apply key_eqb_eq in K'. exists (ch_rdt h').
    assert (E : ch_obj h' = ch_obj h).
    { destruct (obj_ids U H h SU G IH) as (K1 & _). destruct (obj_ids U H h' SU G I') as (K2 & _). apply (key_inj _ _ LOG_RAW_FORM LOG_RAW_FORM); [exact K2|exact K1|reflexivity|reflexivity|exact K']. }
    rewrite <- E. destruct G as (_ & _ & _ & BL & _). apply BL; assumption.
  - intros (t' & BV). destruct (whose U H v _ t' SU G BV) as (h' & c' & I' & J' & -> & OB & _). exists h', c'. split; [|auto]. apply filter_In. split; [exact I'|].
    apply key_eqb_eq. unfold logkey. rewrite OB. reflexivity.
Qed.
Lemma state_ops U H o t v : sound U -> good U H -> (exists u, belongs (says_ops H) u o t) -> 
  In v (says_ops (filed (key_as o t) H)) <-> belongs (says_ops H) v o t.
Proof.
  intros SU G (u & BU). destruct (whose U H u o t SU G BU) as (h & c & IH & IC & -> & OB & RD). subst o t. change (key_as (ch_obj h) (ch_rdt h)) with (statekey h).
  destruct (obj_ids U H h SU G IH) as (K1 & _). pose proof G as (_ & _ & _ & BL & TY & _). rewrite Forall_forall in TY. destruct (TY h IH) as [_ OW].
  assert (ME : forall h', In h' H -> In h' (filed (statekey h) H) <-> ch_obj h' = ch_obj h).
  { intros h' I'. destruct (obj_ids U H h' SU G I') as (K2 & _). destruct (TY h' I') as [_ OW']. unfold filed. rewrite in_flat_map. split.
    - intros (x & IX & J). assert (E : x = h' /\ (logkey h' = statekey h \/ statekey h' = statekey h)).
      { apply in_app_or in J as [J|J]; [destruct (key_eqb (key_of (ch_obj x) LOG_RAW_FORM) (statekey h)) eqn:K|destruct (key_eqb (key_as (ch_obj x) (ch_rdt x)) (statekey h)) eqn:K]; [| destruct J | |destruct J];
          (destruct J as [->|[]]; apply key_eqb_eq in K; auto). }
      destruct E as [_ [E|E]].
      + exfalso. apply (f_equal key_form) in E. rewrite form_of_log, (form_of_state h OW) in E. destruct OW as [_ OW]. rewrite <- E in OW. unfold LOG_RAW_FORM, META_META_FORM in OW. lia.
      + unfold statekey, key_as in E. apply key_inj in E; [exact (proj1 E)|exact K2|exact K1|apply OW'|apply OW].
    - intro E. exists h'. split; [exact I'|]. apply in_or_app. right. pose proof (obj_type U H h' h SU G I' IH E) as E2. rewrite E, E2. change (key_as (ch_obj h) (ch_rdt h)) with (statekey h). rewrite key_eqb_refl. left. reflexivity. }
  rewrite says_in. split.
  - intros (h' & c' & I' & J' & ->). assert (IH' := filed_in _ _ _ I'). apply (ME h' IH') in I'. rewrite <- I', <- (obj_type U H h' h SU G IH' IH I'). apply BL; assumption.
  - intro BV. destruct (whose U H v _ _ SU G BV) as (h' & c' & I' & J' & -> & OB & _). exists h', c'. split; [|auto]. apply ME; assumption.
Qed.
Lemma objects_state now rs yarn tr d es ss hss d' h E : let ev := first_event active now rs yarn tr in let U := opener ev :: map bare E in
  let H := [h] ++ concat hss in in_order d -> story fbits fuel d es ss hss d' -> received es ss E -> keep_bound fuel [opener ev] E ->
  says_ops [h] = [opener ev] -> ch_obj h = ev -> ch_rdt h = YARN_FORM_UUID ->
  (forall k, In (key_form k) [LWW_RDT_FORM; MX_RDT_FORM; YARN_RAW_FORM] -> state_at d k (first_ops k ev)) ->
  sound U -> good U H -> forall u o t, belongs (says_ops H) u o t -> In (uuid2form t) [LWW_RDT_FORM; MX_RDT_FORM; YARN_RAW_FORM] ->
  exists text us, rread d' (key_as o t) = Done (text, KOk) /\ frame_lit canon text (chunk_of us) /\ increasing_ids (chunk_of us) /\
    forall v, In v us <-> belongs (says_ops H) v o t.
Proof.
  intros ev U H IO ST RV KB SO OB RD SA SU G u o t BU FM.
  destruct (whose U H u o t SU G BU) as (h1 & c1 & I1 & J1 & E1 & OB1 & RD1).
  assert (FK : key_form (key_as o t) = uuid2form t) by (apply key_form_of; destruct FM as [<-|[<-|[<-|[]]]]; reflexivity).
  assert (FM' : In (key_form (key_as o t)) [LWW_RDT_FORM; MX_RDT_FORM; YARN_RAW_FORM]) by (rewrite FK; exact FM).
  destruct (state_story sha fbits fuel d es ss hss d' E (key_as o t) (first_ops (key_as o t) ev) IO ST RV FM' (SA _ FM') (first_bound _ _ _ KB)) as [_ RR].
  assert (EQ : forall v, In v (first_ops (key_as o t) ev ++ says_ops (filed (key_as o t) (concat hss))) <-> In v (says_ops (filed (key_as o t) H))).
  { intro v. unfold H. rewrite filed_app, says_app, !in_app_iff. apply or_iff_compat_r.
    unfold first_ops, filed. cbn [flat_map]. rewrite app_nil_r, OB, RD.
    destruct (key_eqb (key_of ev LOG_RAW_FORM) (key_as o t)) eqn:K1.
    { exfalso. apply key_eqb_eq in K1. apply (f_equal key_form) in K1. rewrite FK, key_form_of in K1 by reflexivity. rewrite <- K1 in FM. destruct FM as [Q|[Q|[Q|[]]]]; vm_compute in Q; discriminate. }
    destruct (key_eqb (key_as ev YARN_FORM_UUID) (key_as o t)); cbn [orb app]; [rewrite SO|]; reflexivity. }
  destruct RR as (text & us & R & FL & IC & ME).
  { intro Q. assert (J : In u (says_ops (filed (key_as o t) H))) by (apply (state_ops U H o t u SU G); [eauto|exact BU]). apply EQ in J. rewrite Q in J. destruct J. }
  exists text, us. split; [exact R|]. split; [exact FL|]. split; [exact IC|]. intro v. rewrite ME, EQ. apply (state_ops U); [exact SU|exact G|eauto].
Qed.

(* Every stored event belongs to one object. The log of an object has the events
   that belong to it, each once, in the order in which they were stored. Its
   state, if the type keeps all its events, has the same events in the order of
   their ids. *)
Theorem C61_objects now rs yarn tr es ss E b' : lives now rs yarn tr es ss E b' ->
  let ev := first_event active now rs yarn tr in
  exists hss, keeps ev ev es ss (concat hss) /\ stored_of es ss hss /\ (Forall (apart (opener ev :: map bare E)) hss -> let all := opener ev :: says_ops (concat hss) in
    (forall u, In u all -> exists o t, belongs all u o t /\ forall o' t', belongs all u o' t' -> o' = o /\ t' = t) /\
    (forall u o t, belongs all u o t ->
       (exists text ops, rread (br_main b') (key_of o LOG_RAW_FORM) = Done (text, KOk) /\ frame_says text ops /\ subl (map bare ops) all /\ NoDup (map bare ops) /\
          forall v, In v (map bare ops) <-> belongs all v o t) /\
       (In (uuid2form t) [LWW_RDT_FORM; MX_RDT_FORM; YARN_RAW_FORM] ->
        exists text us, rread (br_main b') (key_as o t) = Done (text, KOk) /\ frame_lit canon text (chunk_of us) /\ increasing_ids (chunk_of us) /\
          forall v, In v us <-> belongs all v o t))).
Proof.
  intros LV ev. destruct (life_good _ _ _ _ _ _ _ _ LV) as (hss & h & b1 & KP & ST & IO & SO & OB & RD & SA & SU & G). fold ev in KP, SO, G, OB, SA, SU.
  destruct LV as (_ & _ & _ & _ & _ & RV & KB & _). fold ev in KB.
  exists hss. split; [exact KP|]. split; [eapply story_stored; exact ST|]. intros ONE all. destruct (G ONE) as (GD & B & FT). clear G.
  assert (EA : says_ops ([h] ++ concat hss) = all) by (rewrite says_app, SO; reflexivity).
  pose proof GD as (_ & _ & IT & BL & _). pose proof (in_turn_nodup _ IT) as ND. rewrite EA in *. split.
  - intros u I. rewrite <- EA in I. apply says_in in I as (h1 & c & I1 & I2 & ->). exists (ch_obj h1), (ch_rdt h1). pose proof (BL h1 c I1 I2) as BC. split; [exact BC|].
    intros o' t' BC'. destruct (belongs_one _ _ _ _ _ _ ND BC BC') as [-> ->]. auto.
  - intros u o t BU. split.
    + rewrite <- EA in BU. destruct (objects_log _ _ _ _ _ _ SU GD B FT BU) as (text & ops & R & FS & SB & ME). exists text, ops. rewrite EA in *. split; [exact R|]. split; [exact FS|]. split; [exact SB|].
      split.
      { apply (subl_map u_id) in SB. apply NoDup_map_inv with (f := u_id). revert SB ND. generalize (map u_id (map bare ops)), (map u_id all). clear.
        intros a b S0. induction S0 as [|x a b S0 IH|x a b S0 IH]; intro ND; [constructor|inversion ND; auto|]. inversion ND; subst. constructor; [|auto].
        intro Q. match goal with K : ~ In _ b |- _ => apply K end. eapply subl_in; eassumption. }
      intro v. rewrite ME. split; [|eauto]. intros (t' & BV). rewrite (belongs_type _ _ _ _ _ _ ND BU BV). exact BV.
    + intro FM. rewrite <- EA in BU |- *. apply (objects_state now rs yarn tr (br_main b1) es ss hss (br_main b') h E IO ST RV KB SO OB RD SA SU GD u o t BU FM).
Qed.

(* Two branches that have stored the same events show the same state of an
   object, whatever the order in which they got the events, however often they
   were opened again and compacted. *)
Theorem C62_agree now1 rs1 yarn1 tr1 es1 ss1 E1 b1 now2 rs2 yarn2 tr2 es2 ss2 E2 b2 :
  lives now1 rs1 yarn1 tr1 es1 ss1 E1 b1 -> lives now2 rs2 yarn2 tr2 es2 ss2 E2 b2 ->
  let ev1 := first_event active now1 rs1 yarn1 tr1 in let ev2 := first_event active now2 rs2 yarn2 tr2 in
  exists hss1 hss2, keeps ev1 ev1 es1 ss1 (concat hss1) /\ keeps ev2 ev2 es2 ss2 (concat hss2) /\ stored_of es1 ss1 hss1 /\ stored_of es2 ss2 hss2 /\
    (Forall (apart (opener ev1 :: map bare E1)) hss1 -> Forall (apart (opener ev2 :: map bare E2)) hss2 ->
     let all1 := opener ev1 :: says_ops (concat hss1) in let all2 := opener ev2 :: says_ops (concat hss2) in
     (forall u, In u all1 <-> In u all2) -> forall u o t, belongs all1 u o t -> In (uuid2form t) [LWW_RDT_FORM; MX_RDT_FORM; YARN_RAW_FORM] ->
     exists text1 text2 us, rread (br_main b1) (key_as o t) = Done (text1, KOk) /\ rread (br_main b2) (key_as o t) = Done (text2, KOk) /\
       frame_lit canon text1 (chunk_of us) /\ frame_lit canon text2 (chunk_of us) /\ (forall v, In v us <-> belongs all1 v o t)).
Proof.
  intros L1 L2 ev1 ev2. destruct (C61_objects _ _ _ _ _ _ _ _ L1) as (hss1 & K1 & S1 & R1). destruct (C61_objects _ _ _ _ _ _ _ _ L2) as (hss2 & K2 & S2 & R2).
  exists hss1, hss2. split; [exact K1|]. split; [exact K2|]. split; [exact S1|]. split; [exact S2|]. intros O1 O2 all1 all2 SAME u o t B FM.
  assert (SB : forall v, belongs all1 v o t <-> belongs all2 v o t) by (intro v; split; apply belongs_more; intros w; apply SAME).
  destruct (R1 O1) as [_ P1]. destruct (R2 O2) as [_ P2]. destruct (P1 u o t B) as [_ Q1]. destruct (P2 u o t (proj1 (SB u) B)) as [_ Q2].
  destruct (Q1 FM) as (text1 & us1 & A1 & A2 & A3 & A4). destruct (Q2 FM) as (text2 & us2 & B1 & B2 & B3 & B4).
  assert (E : us1 = us2). { apply chunk_same; [exact A3|exact B3|]. intro v. rewrite A4, B4. apply SB. }
  exists text1, text2, us1. split; [exact A1|]. split; [exact B1|]. split; [exact A2|]. split; [rewrite E; exact B2|exact A4].
Qed.
(* ---- all the events that came ---- *)
Lemma some_last f l : ops_of f l -> (exists c, In c l /\ stamped c) -> exists c, last_event f c.
Proof.
  intros O (c & I & ST). assert (K : forall l : list cursor, (exists c, In c l /\ stamped c) -> exists l1 c l2, l = l1 ++ c :: l2 /\ stamped c /\ Forall (fun d => ~ stamped d) l2).
  { clear. induction l as [|x l IH]; intros (c & I & ST); [destruct I|]. destruct (existsb stampedb l) eqn:Q.
    - apply existsb_exists in Q as (d & J & Q). apply stampedb_iff in Q. destruct IH as (l1 & e & l2 & -> & E1 & E2); [eauto|]. exists (x :: l1), e, l2. auto.
    - assert (F : Forall (fun d => ~ stamped d) l).
      { apply Forall_forall. intros d J SD. apply stampedb_iff in SD. assert (Q2 : existsb stampedb l = true) by (apply existsb_exists; eauto). congruence. }
      destruct I as [->|I]; [exists [], c, l; auto|]. rewrite Forall_forall in F. exfalso. exact (F c I ST). }
  destruct (K l) as (l1 & e & l2 & -> & E1 & E2); [eauto|]. exists e, l1, l2. auto.
Qed.
(* the chains of a frame have its events and nothing else *)
Lemma chains_events f d hs : frame_says f d -> events_only f -> chains_of f hs -> Forall (fun h => version (ch_id h) = TIME) hs ->
  forall x, In x (says_ops hs) <-> In x (map bare (filter event_op d)).
Proof.
  intros FS EO (ALL & (l & OL & SB) & LK & _) VT x. destruct (frame_cursors f d l FS OL) as [ED _]. unfold says_ops. rewrite <- ED, filter_ops, map_map. rewrite !in_map_iff. split.
  - intros (c & <- & I). exists c. split; [reflexivity|]. assert (IL : In c l) by (apply twice_in; eapply subl_in; eassumption). apply filter_In. split; [exact IL|]. apply stampedb_iff.
    destruct (EO c (ops_delivered _ _ _ OL IL)) as [K|K]; [exact K|exfalso]. apply in_flat_map in I as (h & IH & IC). rewrite Forall_forall in LK, VT. specialize (VT h IH).
    pose proof (linked_origins _ _ _ (LK h IH) IC) as O. unfold ch_id in VT. unfold version in VT. rewrite <- O, K in VT. vm_compute in VT. discriminate.
  - intros (c & <- & I). apply filter_In in I as [I ST]. exists c. split; [reflexivity|]. apply ALL; [eapply ops_delivered; eassumption|apply stampedb_iff; exact ST].
Qed.
(* if no event comes twice, all that came in accepted frames are stored *)
Lemma keeps_all o u es ss hs : keeps o u es ss hs -> forall E, received es ss E -> (forall n r f, In (BReceive n r f) es -> events_only f) ->
  Forall (fun h => version (ch_id h) = TIME) hs -> NoDup (map r_id E) -> ~ In o (map r_id E) -> ~ In u (map r_id E) -> forall x, In x (says_ops hs) <-> In x (map bare E).
Proof.
  induction 1 as [o u|o u e s o1 u1 hs es ss hs' RC SO KP IH]; intros E RV EO VT ND NO NU x.
  - inversion RV; subst. reflexivity.
  - apply Forall_app in VT as [VT1 VT2]. rewrite says_app, in_app_iff.
    assert (EO2 : forall n r f, In (BReceive n r f) es -> events_only f) by (intros n r f I; eapply EO; right; exact I).
    assert (QUIET : hs = [] -> received es ss E -> ~ In o1 (map r_id E) -> ~ In u1 (map r_id E) -> In x (says_ops hs) \/ In x (says_ops hs') <-> In x (map bare E)).
    { intros -> RV2 N1 N2. rewrite (IH E RV2 EO2 VT2 ND N1 N2 x). cbn. tauto. }
    inversion RV as [|now rs f d es1 ss1 E1 FS RV2|now rs f s1 es1 ss1 E1 NS RV2|now s1 es1 ss1 E1 RV2|k c s1 es1 ss1 E1 RV2]; subst.
    + assert (EF : events_only f) by (eapply EO; left; reflexivity). rewrite map_app, in_app_iff. rewrite map_app in ND, NO, NU.
      assert (ND2 : NoDup (map r_id E1)) by (clear -ND; induction (map r_id (filter event_op d)) as [|z l IHl]; [exact ND|inversion ND; auto]).
      assert (ID : forall c, last_event f c -> In (text_id c) (map r_id (filter event_op d))).
      { intros c (l1 & l2 & OL & ST & _). destruct (frame_cursors f d _ FS OL) as [ED _]. rewrite <- ED, filter_ops, map_map. apply (in_map (fun z => r_id (rop_of z))). apply filter_In. split; [apply in_or_app; right; left; reflexivity|apply stampedb_iff; exact ST]. }
      assert (N1 : ~ In o1 (map r_id E1) /\ ~ In u1 (map r_id E1)).
      { assert (B1 : ~ In o (map r_id E1)) by (intro Q; apply NO, in_or_app; right; exact Q). assert (B2 : ~ In u (map r_id E1)) by (intro Q; apply NU, in_or_app; right; exact Q).
        inversion RC as [? ? ? ? ? c L NE|? ? ? ? ? c L NE|? ? ? ? ? NV|? ? ? ? ? ? NS| |]; subst; auto; try (exfalso; apply NS; reflexivity).
        split; [exact B1|]. intro Q. specialize (ID c L). revert ND ID Q. generalize (map r_id (filter event_op d)), (map r_id E1), (text_id c). clear. intros a b z ND. induction a as [|y a IHa]; intros IA IB; [destruct IA|].
        cbn [app] in ND. inversion ND as [|? ? NI ND']; subst. destruct IA as [->|IA]; [apply NI, in_or_app; right; exact IB|exact (IHa ND' IA IB)]. }
      rewrite (IH E1 RV2 EO2 VT2 ND2 (proj1 N1) (proj2 N1) x). apply or_iff_compat_r. cbn [stores] in SO. destruct SO as [(c & _ & _ & CO)|[NL ->]].
      * apply (chains_events f); assumption.
      * split; [intros []|]. intro I. exfalso. apply in_map_iff in I as (op & <- & I).
        assert (X : exists l, ops_of f l). { destruct (frame_ops f d FS) as (l & OL & _). eauto. } destruct X as (l & OL). destruct (frame_cursors f d l FS OL) as [ED _]. rewrite <- ED, filter_ops in I. apply in_map_iff in I as (c & <- & I). apply filter_In in I as [I ST]. apply stampedb_iff in ST.
        destruct (some_last f l OL) as (z & LZ); [eauto|]. apply NO. rewrite <- (NL z LZ). apply in_or_app. left. exact (ID z LZ).
    + apply QUIET; [destruct s; cbn in SO; try exact SO; exfalso; apply NS; reflexivity|exact RV2| |]; inversion RC; subst; auto; exfalso; apply NS; reflexivity.
    + apply QUIET; [exact SO|exact RV2| |]; inversion RC; subst; auto.
    + apply QUIET; [exact SO|exact RV2| |]; inversion RC; subst; auto.
Qed.
(* Two branches to which the same events came, in some order, each once, in frames
   they accepted, show the same state of every object. The objects are of types
   that are merged by ids; a frame opens a yarn before it goes on with it. *)
Theorem C62_delivered now1 rs1 yarn1 tr1 es1 ss1 E1 b1 now2 rs2 yarn2 tr2 es2 ss2 E2 b2 :
  lives now1 rs1 yarn1 tr1 es1 ss1 E1 b1 -> lives now2 rs2 yarn2 tr2 es2 ss2 E2 b2 ->
  let ev1 := first_event active now1 rs1 yarn1 tr1 in let ev2 := first_event active now2 rs2 yarn2 tr2 in
  let all1 := opener ev1 :: map bare E1 in let all2 := opener ev2 :: map bare E2 in
  NoDup (map u_id all1) -> NoDup (map u_id all2) -> (forall u, In u all1 <-> In u all2) -> plain_objects all1 ->
  (forall n r f, In (BReceive n r f) (es1 ++ es2) -> opens_first f) ->
  forall u o t, belongs all1 u o t ->
  exists text1 text2 us, rread (br_main b1) (key_as o t) = Done (text1, KOk) /\ rread (br_main b2) (key_as o t) = Done (text2, KOk) /\
    frame_lit canon text1 (chunk_of us) /\ frame_lit canon text2 (chunk_of us) /\ (forall v, In v us <-> belongs all1 v o t).
Proof.
  intros L1 L2 ev1 ev2 all1 all2 ND1 ND2 SAME PO OF u o t BU.
  destruct (C62_agree _ _ _ _ _ _ _ _ _ _ _ _ _ _ _ _ L1 L2) as (hss1 & hss2 & K1 & K2 & S1 & S2 & R). fold ev1 ev2 in K1, K2, R.
  assert (EO1 : forall n r f, In (BReceive n r f) es1 -> events_only f) by apply L1. assert (EO2 : forall n r f, In (BReceive n r f) es2 -> events_only f) by apply L2.
  assert (VS : forall es ss hss, stored_of es ss hss -> Forall (fun h => version (ch_id h) = TIME) (concat hss)).
  { clear. intros es ss hss ST. unfold stored_of in ST. revert ST. generalize (combine es ss). intros xs ST. induction ST as [|x hs xs hss SO ST IH]; [constructor|]. cbn [concat]. apply Forall_app. split; [|exact IH].
    destruct SO as [->|(now & rs & f & _ & _ & V)]; [constructor|exact V]. }
  assert (PO2 : plain_objects all2) by (apply Forall_forall; intros v I; apply SAME in I; unfold plain_objects in PO; rewrite Forall_forall in PO; exact (PO v I)).
  assert (A1 : forall x, In x (opener ev1 :: says_ops (concat hss1)) <-> In x all1).
  { intro x. cbn [In]. unfold all1 in ND1. cbn [map u_id] in ND1. rewrite map_map in ND1. inversion ND1 as [|? ? NI ND]; subst. apply or_iff_compat_l. apply (keeps_all ev1 ev1 es1 ss1); auto; [apply L1|exact (VS _ _ _ S1)]. }
  assert (A2 : forall x, In x (opener ev2 :: says_ops (concat hss2)) <-> In x all2).
  { intro x. cbn [In]. unfold all2 in ND2. cbn [map u_id] in ND2. rewrite map_map in ND2. inversion ND2 as [|? ? NI ND]; subst. apply or_iff_compat_l. apply (keeps_all ev2 ev2 es2 ss2); auto; [apply L2|exact (VS _ _ _ S2)]. }
  assert (P1 : Forall (apart all1) hss1) by (apply (C60_frames all1 es1 ss1); [exact S1|exact EO1|right; split; [intros n r f I; eapply OF; apply in_or_app; left; exact I|exact PO]]).
  assert (P2 : Forall (apart all2) hss2) by (apply (C60_frames all2 es2 ss2); [exact S2|exact EO2|right; split; [intros n r f I; eapply OF; apply in_or_app; right; exact I|exact PO2]]).
  assert (BB : forall v, belongs (opener ev1 :: says_ops (concat hss1)) v o t <-> belongs all1 v o t) by (intro v; split; apply belongs_more; intros w; apply A1).
  assert (FM : In (uuid2form t) [LWW_RDT_FORM; MX_RDT_FORM; YARN_RAW_FORM]).
  { clear -BU PO. induction BU as [v I V|v w o t I V E B IH]; [|exact IH]. unfold plain_objects in PO. rewrite Forall_forall in PO. exact (PO v I V). }
  destruct (R P1 P2) with (u := u) (o := o) (t := t) as (text1 & text2 & us & R1 & R2 & F1 & F2 & ME); [|apply BB; exact BU|exact FM|].
  - intro x. rewrite A1, A2. apply SAME.
  - exists text1, text2, us. do 4 (split; [assumption|]). intro v. rewrite ME. apply BB.
Qed.
End Yarns.
Print Assumptions C60_order.
Print Assumptions C60_frames.
Print Assumptions C61_objects.
Print Assumptions C62_agree.
Print Assumptions C62_delivered.
