(* C72: a text object of a branch is never lost: some compactions of its record
   make it readable. *)
From Coq Require Import Sorted Permutation.
From Verif Require ClockTheorems.
From Verif Require Import Prelude UuidModel UuidProofs KeyModel KeyProofs CodecModel TextModel TextSpec BuilderSpec BuilderProofs MergeModel MergeSpec MergeProofs RgaProofs RgaTree MergeTextModel
  TextMergeSpec TextCursors MergeKeeps TextMerge SizeProofs TextMergeTheorems StoreModel StoreSpec StoreProofs StoreTheorems RocksModel RocksSpec RocksProofs MetaModel ClockModel
  ReplicaModel ReplicaSpec ReplicaProofs ReplicaTheorems BranchModel BranchSpec BranchProofs BranchTheorems DurableSpec DurableProofs DurableTheorems YarnSpec YarnProofs YarnJoin YarnTheorems
  TextObjSpec TextObjProofs TextObjStory TextObjTheorems StepsTheorems StepsStore.

Section Recover.
Variable sha : bytes -> bytes.
Variable fbits : bytes -> N.
Variable active : N.
Variable fuel : nat.
Notation rread := (rocks_read fbits fuel).
Notation lives := (lives sha fbits active fuel).
Notation opener ev := (mkUop ev YARN_FORM_UUID []).
Notation apt := (apt fuel).

(* ---- the beginning of a life ---- *)
Lemma story_split d es ss hss d' : story fbits fuel d es ss hss d' -> forall a b, hss = a ++ b ->
  exists es1 es2 ss1 ss2 d1, es = es1 ++ es2 /\ ss = ss1 ++ ss2 /\ length es1 = length ss1 /\ story fbits fuel d es1 ss1 a d1.
Proof.
  induction 1 as [d|d e s hs d1 es ss hss d2 GR SO ST IH]; intros a b E.
  - symmetry in E. apply app_eq_nil in E as [-> ->]. exists [], [], [], [], d. split; [reflexivity|]. split; [reflexivity|]. split; [reflexivity|constructor].
  - destruct a as [|x a]; [exists [], (e :: es), [], (s :: ss), d; split; [reflexivity|]; split; [reflexivity|]; split; [reflexivity|constructor]|].
    cbn [app] in E. injection E as <- E. destruct (IH a b E) as (es1 & es2 & ss1 & ss2 & dd & -> & -> & LE & S1).
    exists (e :: es1), es2, (s :: ss1), ss2, dd. split; [reflexivity|]. split; [reflexivity|]. split; [cbn [length]; lia|]. eapply story_more; eassumption.
Qed.
Lemma received_split es1 : forall ss1 es2 ss2 E, length es1 = length ss1 -> received (es1 ++ es2) (ss1 ++ ss2) E -> exists E1 E2, E = E1 ++ E2 /\ received es1 ss1 E1.
Proof.
  induction es1 as [|e es1 IH]; intros [|s ss1] es2 ss2 E LE RV; try discriminate LE; [exists [], E; split; [reflexivity|constructor]|].
  cbn [app length] in *. injection LE as LE.
  inversion RV as [|? ? ? dd ? ? E2 FS RV2|? ? ? ? ? ? ? NE RV2|? ? ? ? ? RV2|? ? ? ? ? ? RV2]; subst; destruct (IH _ _ _ _ LE RV2) as (A & B & -> & R).
  - exists (filter event_op dd ++ A), B. rewrite app_assoc. split; [reflexivity|]. constructor; assumption.
  - exists A, B. split; [reflexivity|]. constructor; assumption.
  - exists A, B. split; [reflexivity|]. constructor; assumption.
  - exists A, B. split; [reflexivity|]. constructor; assumption.
Qed.
Lemma roomy_prefix H E1 E2 : roomy fuel H (E1 ++ E2) -> roomy fuel H E1.
Proof.
  intros R k FK. destruct (R k FK) as [(M & L & NN & RR) SP]. rewrite map_app in *. rewrite app_length in L, NN. rewrite room_app in RR. split.
  - split; [eapply mergeable_incl; [exact M|]; apply incl_app; [apply incl_appl, incl_refl|apply incl_appr, incl_appl, incl_refl]|]. split; [lia|]. split; lia.
  - eapply spanless_incl; [|exact SP]. apply incl_app; [apply incl_appl, incl_refl|apply incl_appr, incl_appl, incl_refl].
Qed.
Lemma life_turns now rs yarn tr es ss E b' : let ev := first_event active now rs yarn tr in lives now rs yarn tr es ss E b' ->
  exists hss h b1, base (br_main b1) [h] /\ keeps ev ev es ss (concat hss) /\ story fbits fuel (br_main b1) es ss hss (br_main b') /\ in_order (br_main b1) /\
    says_ops [h] = [opener ev] /\ ch_obj h = ev /\ ch_rdt h = YARN_FORM_UUID /\ sound (opener ev :: map bare E) /\
    (Forall (apart (opener ev :: map bare E)) hss -> fits fuel ([h] ++ concat hss) /\ forall a b, hss = a ++ b -> good (opener ev :: map bare E) ([h] ++ concat a)).
Proof.
  intros ev (Y & NV & C & EO & (b & s & now1 & s1 & H & R) & RV & KB & SP & CA). fold ev in NV, KB, SP, CA.
  cbn [BranchModel.b_run] in R. apply rbind_done in R as ([b1 s2] & R1 & R). apply rbind_done in R as ([b2 ss2] & R & Q). injection Q as -> -> ->.
  destruct (C47_created sha fbits active fuel _ _ _ _ _ _ Y NV H) as (-> & _ & _ & K). destruct (K _ _ _ R1) as (-> & BT & HT). clear K.
  assert (MB : br_main b1 = br_main b).
  { destruct (new_tip sha fbits active fuel _ _ _ _ _ _ NV H) as (_ & _ & T). cbn [BranchModel.b_step] in R1. apply rbind_done in R1 as ([[[d n'] t'] s1] & H1 & Q).
    destruct (first_time active now rs yarn tr) as [_ OR]. destruct (tipped_open fbits fuel _ _ _ _ _ _ _ _ T (or_introl (OR Y)) H1) as (-> & -> & ->). injection Q as <-. reflexivity. }
  assert (VT : version (branch_id yarn) = TIME) by apply ClockTheorems.time_version.
  destruct (run_keeps sha fbits active fuel _ VT es b1 b' ss _ HT C R EO) as (hss & KP & ST). rewrite BT in KP. fold ev in KP.
  assert (IO : in_order (br_main b1)) by apply HT.
  assert (SU : sound (opener ev :: map bare E)) by (split; [apply KB|exact CA]).
  destruct (start sha fbits active fuel now rs yarn tr b ROk (opener ev :: map bare E) E Y NV H SU (or_introl eq_refl) KB SP) as (h & SO & OB & RD & G & RT & B & RM). fold ev in SO, OB.
  exists hss, h, b1. split; [rewrite MB; exact B|]. split; [exact KP|]. split; [exact ST|]. split; [exact IO|]. split; [exact SO|]. split; [exact OB|]. split; [exact RD|]. split; [exact SU|].
  intro ONE. split.
  - apply (story_good sha fbits fuel _ (br_main b1) es ss hss (br_main b') ST ONE SU E [h]); try assumption; [apply incl_tl, incl_refl|discriminate|rewrite MB; exact B].
  - intros x y EQ. destruct (story_split _ _ _ _ _ ST x y EQ) as (es1 & es2 & ss1 & ss2 & d1 & -> & -> & LE & ST1).
    destruct (received_split es1 ss1 es2 ss2 E LE RV) as (E1 & E2 & EE & RV1).
    apply (story_good sha fbits fuel _ (br_main b1) es1 ss1 x d1 ST1) with (E := E1) (H := [h]); try assumption.
    + rewrite EQ in ONE. apply Forall_app in ONE. apply ONE.
    + rewrite EE, map_app. apply incl_tl, incl_appl, incl_refl.
    + discriminate.
    + rewrite MB. exact B.
    + rewrite EE in RM. eapply roomy_prefix. exact RM.
Qed.

(* ---- pieces under a key ---- *)
(* the new events are the first ones or hang on those before *)
Definition hang (us new : list uop) : Prop := us = [] \/ forall u, In u new -> In (u_ref u) (map u_id (us ++ new)).
Lemma pieces_add fs us f T new : pieces fs us -> frame_says f (listing T) -> causal T -> Permutation (map bare (listing T)) new -> apt new -> hang us new -> pieces (fs ++ [f]) (us ++ new).
Proof.
  intros (ts & F & C & P & IT) FS CT PT AN HG. exists (ts ++ [T]). split; [apply Forall2_app; [exact F|constructor; [exact FS|constructor]]|]. split; [apply Forall_app; auto|]. split.
  { rewrite flat_map_app, map_app. cbn [flat_map]. rewrite app_nil_r. apply Permutation_app; assumption. }
  destruct ts as [|t ts]; [exact I|]. cbn [app in_turns] in *. apply follow_app. split; [exact IT|]. cbn [follow]. split; [|exact I].
  assert (NT : NoDup (ids (listing T))) by (rewrite ids_bare; eapply Permutation_NoDup; [apply Permutation_map, Permutation_sym; exact PT|apply AN]).
  assert (IN : In (bare (root T)) new) by (eapply Permutation_in; [exact PT|apply in_map, root_in]).
  destruct HG as [-> |HG]; [exfalso; apply Permutation_length in P; destruct t; cbn in P; discriminate P|].
  specialize (HG _ IN). rewrite map_app in HG. apply in_app_iff in HG as [Q|Q].
  - change (In (r_ref (root T)) (ids (flat_map listing (t :: ts)))). rewrite ids_bare. eapply Permutation_in; [|exact Q]. apply Permutation_map, Permutation_sym. exact P.
  - exfalso. apply in_map_iff in Q as (w & E & Q). assert (IW : In w (map bare (listing T))) by (eapply Permutation_in; [apply Permutation_sym; exact PT|exact Q]).
    apply in_map_iff in IW as (x & <- & IX). destruct AN as (_ & _ & B & _). pose proof (B _ _ IN Q (eq_sym E)) as LT. cbn [bare u_id] in LT.
    destruct (tree_min T x CT NT IX) as [-> |L2]; [rewrite uuid_ltb_irrefl in LT; discriminate|]. pose proof (uuid_ltb_trans _ _ _ LT L2) as K. rewrite uuid_ltb_irrefl in K. discriminate.
Qed.
Lemma grows_pieces k d hs d1 us : key_form k = RGA_RDT_FORM -> in_order d -> pieces (held (ce_value (cell_at d k)) ++ ce_operands (cell_at d k)) us ->
  grows fbits fuel d hs d1 -> (length (filed k hs) <= 1)%nat -> trees_in (map ch_text (filed k hs)) (says_ops (filed k hs)) -> apt (us ++ says_ops (filed k hs)) ->
  hang us (says_ops (filed k hs)) ->
  in_order d1 /\ pieces (held (ce_value (cell_at d1 k)) ++ ce_operands (cell_at d1 k)) (us ++ says_ops (filed k hs)).
Proof.
  intros FK IO CT GR LE TI AP HG. assert (AU : apt us /\ apt (says_ops (filed k hs))) by (apply apt_app; exact AP). destruct AU as [AU AN].
  assert (NZ : k <> KEY_ZERO) by (apply form_key_neq; rewrite FK; vm_compute; discriminate).
  destruct GR as [(-> & HOW)|(ws & m & w & f & batch & OW & A & WR & BB)].
  - change (filed k []) with (@nil chain) in *. change (says_ops []) with (@nil uop) in *. rewrite app_nil_r. destruct HOW as [-> |[(ws & w & OW & A)|(k1 & ce & CP)]].
    + auto.
    + destruct (acts_cell fbits fuel k _ _ _ OW A IO ltac:(constructor)) as (O1 & _ & C1). cbn [fst] in *. split; [exact O1|]. rewrite C1. exact CT.
    + destruct (key_eqb k1 k) eqn:EK.
      * apply key_eqb_eq in EK. subst k1.
        apply (compact_ok fbits fuel k (fun _ => apt us) (fun v ops _ => pieces (held v ++ ops) us)) with (d := d) (e := ce) (W := []); [| |exact IO|exact CT|exact AU|exact CP].
        -- intros v a b c W g P B NB. rewrite FK. intro OM. rewrite app_assoc in P |- *. exact (pieces_swap fbits fuel _ _ _ _ _ P B NB OM).
        -- intros v b c W g P B NB. rewrite FK. intro OM. rewrite app_assoc in P. apply (pieces_swap fbits fuel [] (held v ++ b) c us g P B); [destruct v; [discriminate|exact NB]|exact OM].
      * destruct (compact_other fbits fuel k d k1 ce d1 IO) as [O1 C1]; [intros ->; rewrite key_eqb_refl in EK; discriminate|exact CP|]. rewrite C1. auto.
  - pose proof (accepted_acts _ _ _ _ _ _ _ _ A) as AC. pose proof (accepted_writes _ _ _ _ _ _ _ _ A) as AW.
    assert (RF : contents (flat_map ch_records hs) k = map ch_text (filed k hs)) by (apply records_filed; rewrite FK; vm_compute; discriminate).
    destruct (acts_mem fbits fuel _ _ _ OW AC ltac:(constructor)) as (E & SW & _). cbn [fst snd] in *. subst m.
    assert (CW : contents w k = map ch_text (filed k hs)).
    { pose proof (acts_few fbits fuel k _ _ _ OW AC ltac:(constructor)) as Q. cbn [fst snd] in Q. rewrite AW, RF in Q. change (contents [] k) with (@nil bytes) in Q. cbn [app] in Q. apply Q. rewrite map_length. exact LE. }
    pose proof (write_ok w KEY_ZERO f SW) as K. rewrite WR in K. destruct K as (_ & K & _).
    unfold b_batch, rocks_batch in BB. injection BB as <-. destruct (adds_at batch d k IO) as [O2 E]. unfold adds in *. split; [exact O2|].
    rewrite E. cbn [ce_value ce_operands]. rewrite K. cbn [before_end]. change (key_eqb KEY_ZERO KEY_END) with false. cbn match.
    rewrite contents_one, key_eqb_neq by (intro Q; apply NZ; symmetry; exact Q). rewrite app_nil_r, CW, app_assoc.
    destruct (filed k hs) as [|x [|y r]]; [cbn [map]; change (says_ops []) with (@nil uop); rewrite !app_nil_r; exact CT| |cbn [length] in LE; lia].
    cbn [map] in *. destruct TI as (ts & F & CS & PT). inversion F as [|? T ? ts' F1 F2]; subst. inversion F2; subst. cbn [flat_map] in PT. rewrite app_nil_r in PT.
    eapply pieces_add; try eassumption. exact (Forall_inv CS).
Qed.
Lemma story_pieces k d es ss hss d' : story fbits fuel d es ss hss d' -> key_form k = RGA_RDT_FORM -> in_order d -> forall us,
  pieces (held (ce_value (cell_at d k)) ++ ce_operands (cell_at d k)) us -> Forall (fun hs => (length (filed k hs) <= 1)%nat) hss ->
  Forall (fun hs => trees_in (map ch_text (filed k hs)) (says_ops (filed k hs))) hss -> apt (us ++ says_ops (filed k (concat hss))) ->
  (forall a hs b, hss = a ++ hs :: b -> hang (us ++ says_ops (filed k (concat a))) (says_ops (filed k hs))) ->
  in_order d' /\ pieces (held (ce_value (cell_at d' k)) ++ ce_operands (cell_at d' k)) (us ++ says_ops (filed k (concat hss))).
Proof.
  intros ST FK. induction ST as [d|d e s hs d1 es ss hss d2 GR SO ST IH]; intros IO us CT L1 T1 AP HG.
  - cbn [concat] in *. change (filed k []) with (@nil chain) in *. change (says_ops []) with (@nil uop) in *. rewrite app_nil_r. auto.
  - inversion L1 as [|? ? L2 L3]; subst. inversion T1 as [|? ? T2 T3]; subst. cbn [concat] in *. rewrite filed_app, says_app, app_assoc in *.
    destruct (grows_pieces k d hs d1 us FK IO CT GR L2 T2) as [O1 C1]; [apply apt_app in AP as [AP _]; exact AP| |].
    { pose proof (HG [] hs hss eq_refl) as Q. cbn [concat] in Q. change (filed k []) with (@nil chain) in Q. change (says_ops []) with (@nil uop) in Q. rewrite app_nil_r in Q. exact Q. }
    apply IH; try assumption. intros a x b E. pose proof (HG (hs :: a) x b) as Q. cbn [concat app] in Q. rewrite filed_app, says_app, app_assoc in Q. apply Q. rewrite E. reflexivity.
Qed.

(* the chains of an object come after those they hang on *)
Lemma comes_after U H hs o t : sound U -> good U H -> good U (H ++ hs) -> (exists u, belongs (says_ops (H ++ hs)) u o t) ->
  hang (says_ops (filed (key_as o t) H)) (says_ops (filed (key_as o t) hs)).
Proof.
  intros SU G G2 EX. pose proof (state_ops U (H ++ hs) o t) as SO. set (k := key_as o t) in *.
  assert (ME : forall v, In v (says_ops (filed k H) ++ says_ops (filed k hs)) <-> belongs (says_ops (H ++ hs)) v o t).
  { intro v. rewrite <- says_app, <- filed_app. apply SO; assumption. }
  destruct (says_ops (filed k H)) as [|w before] eqn:EB; [left; reflexivity|right]. rewrite <- EB in *. intros u IU.
  assert (BU : belongs (says_ops (H ++ hs)) u o t) by (apply ME, in_or_app; right; exact IU).
  pose proof G2 as (_ & _ & IT2 & _). pose proof (in_turn_nodup _ IT2) as ND.
  inversion BU as [x Ix Vx Q1 Q2|x y o' t' Ix Vx Ex By Q1 Q2 Q3]; subst.
  - exfalso. assert (IW : In w (says_ops (filed k H))) by (rewrite EB; left; reflexivity).
    assert (BW : belongs (says_ops (H ++ hs)) w (u_id u) (u_ref u)) by (apply ME, in_or_app; left; exact IW).
    apply says_in in IW as (h & c & I1 & I2 & EW). apply filed_in in I1. pose proof G as (_ & _ & _ & BL & _). specialize (BL h c I1 I2). rewrite <- EW in BL.
    assert (B2 : belongs (says_ops (H ++ hs)) w (ch_obj h) (ch_rdt h)) by (eapply belongs_more; [|exact BL]; rewrite says_app; apply incl_appl, incl_refl).
    destruct (belongs_one _ _ _ _ _ _ ND B2 BW) as [E1 E2]. rewrite E1, E2 in BL. destruct (TextObjTheorems.belongs_root _ _ _ _ BL) as (r & IR & RI & _).
    assert (IUH : In u (says_ops hs)) by (apply says_in in IU as (h2 & c2 & J1 & J2 & ->); apply says_in; exists h2, c2; split; [eapply filed_in; exact J1|auto]).
    rewrite says_app, map_app in ND. clear -ND IR RI IUH. induction (says_ops H) as [|z l IHl]; [destruct IR|]. cbn [map app] in ND. inversion ND as [|? ? N1 N2]; subst.
    destruct IR as [<-|IR]; [apply N1, in_or_app; right; rewrite RI; apply in_map; exact IUH|auto].
  - rewrite <- Ex. apply in_map. apply ME. exact By.
Qed.

Lemma compact_runs id k es : forall b d', compact_all fbits fuel (br_main b) k es = Done d' ->
  b_run sha fbits active fuel id b (map (BCompact k) es) = Done (mkBranch d' (br_tip b), repeat ROk (length es)).
Proof.
  induction es as [|e es IH]; intros b d' E; cbn [compact_all map BranchModel.b_run length repeat] in *.
  - injection E as <-. destruct b. reflexivity.
  - apply rbind_done in E as (d1 & E1 & E). cbn [BranchModel.b_step]. rewrite E1. cbn [rbind]. rewrite (IH (mkBranch d1 (br_tip b)) d' E). reflexivity.
Qed.
Lemma compacts_trees k us es : key_form k = RGA_RDT_FORM -> apt us -> forall d d', in_order d -> cell_trees (ce_value (cell_at d k)) (ce_operands (cell_at d k)) us ->
  compact_all fbits fuel d k es = Done d' -> in_order d' /\ cell_trees (ce_value (cell_at d' k)) (ce_operands (cell_at d' k)) us.
Proof.
  intros FK AP. induction es as [|e es IH]; intros d d' IO CT E; cbn [compact_all] in E; [injection E as <-; auto|].
  apply rbind_done in E as (d1 & E1 & E). assert (K : in_order d1 /\ cell_trees (ce_value (cell_at d1 k)) (ce_operands (cell_at d1 k)) us); [|destruct K as [O1 C1]; exact (IH d1 d' O1 C1 E)].
  apply (compact_ok fbits fuel k (fun _ => apt us) (fun v ops _ => cell_trees v ops us)) with (d := d) (e := e) (W := []); [| |exact IO|exact CT|exact AP|exact E1].
  - intros v a b c W g. rewrite FK. intros. eapply cell_partial; eassumption.
  - intros v b c W g. rewrite FK. intros. eapply cell_full; eassumption.
Qed.

(* Whatever came to the branch and whatever was compacted: some compactions of the
   record of a text object make it readable, with all its events; they change
   neither the tip nor the other records. *)
Theorem C72_recovers now rs yarn tr es ss E b' : lives now rs yarn tr es ss E b' -> let ev := first_event active now rs yarn tr in
  exists hss, keeps ev ev es ss (concat hss) /\ stored_of es ss hss /\ (Forall (apart (opener ev :: map bare E)) hss -> let all := opener ev :: says_ops (concat hss) in
    forall u o t, belongs all u o t -> uuid2form t = RGA_RDT_FORM ->
    exists T n b2 text, tree_of all o t T /\ b_run sha fbits active fuel (branch_id yarn) b' (repeat (BCompact (key_as o t) (CFull 1)) n) = Done (b2, repeat ROk n) /\
      rread (br_main b2) (key_as o t) = Done (text, KOk) /\ told text (map bare (listing T)) /\
      br_tip b2 = br_tip b' /\ forall k, k <> key_as o t -> cell_at (br_main b2) k = cell_at (br_main b') k).
Proof.
  intros LV ev. destruct (life_turns _ _ _ _ _ _ _ _ LV) as (hss & h & b1 & B1 & KP & ST & IO & SO & OB & RD & SU & G). fold ev in KP, SO, G, OB, SU.
  exists hss. split; [exact KP|]. split; [eapply story_stored; exact ST|]. intros ONE all u o t BU FM. destruct (G ONE) as (FT & GP). clear G.
  pose proof (GP hss [] (eq_sym (app_nil_r hss))) as GD.
  set (U := opener ev :: map bare E) in *. set (H := [h] ++ concat hss) in *.
  assert (EA : says_ops H = all) by (unfold H; rewrite says_app, SO; reflexivity). rewrite <- EA in BU |- *. clear EA all.
  destruct (whose U H u o t SU GD BU) as (h1 & c1 & I1 & J1 & E1 & OB1 & RD1). set (k := key_as o t) in *.
  assert (SK : k = statekey h1) by (unfold k, statekey; rewrite OB1, RD1; reflexivity).
  assert (FK : key_form k = RGA_RDT_FORM) by (unfold k, key_as; rewrite key_form_of; [exact FM|rewrite FM; reflexivity]).
  pose proof (state_apt fuel U H h1 SU GD FT I1) as AP. rewrite <- SK in AP.
  assert (F0 : filed k [h] = []).
  { unfold filed. cbn [flat_map]. rewrite OB, RD, !key_eqb_neq; [reflexivity| |].
    - intro Q. apply (f_equal key_form) in Q. rewrite FK in Q. unfold key_as in Q. rewrite key_form_of in Q by reflexivity. discriminate.
    - intro Q. apply (f_equal key_form) in Q. rewrite FK, key_form_of in Q by reflexivity. discriminate. }
  assert (EF : filed k H = filed k (concat hss)) by (unfold H; rewrite filed_app, F0; reflexivity).
  assert (ABS : cell_at (br_main b1) k = cell0).
  { apply cell_at_absent. destruct B1 as (_ & KS & _). rewrite KS. intros [Q|(h' & [<-|[]] & [Q|[Q|[Q|[]]]])].
    - revert Q. apply form_key_neq. rewrite FK. vm_compute. discriminate.
    - apply (f_equal key_form) in Q. rewrite FK, meta_key_form in Q. discriminate.
    - apply (f_equal key_form) in Q. rewrite FK, form_of_log in Q. discriminate.
    - apply (f_equal key_form) in Q. rewrite FK in Q. unfold statekey in Q. rewrite RD in Q. unfold key_as in Q. rewrite key_form_of in Q by reflexivity. discriminate. }
  pose proof GD as (PR & CN & IT & BL & TY & INU). pose proof (in_turn_nodup _ IT) as ND.
  destruct (TextObjTheorems.belongs_root _ _ _ _ BU) as (r & IR & RI & RR & RV).
  assert (NP : ~ plain_objects U).
  { intro PO. unfold plain_objects in PO. rewrite Forall_forall in PO. specialize (PO r (INU r IR)). rewrite RR in PO. specialize (PO RV). unfold plain_type in PO. rewrite FM in PO.
    destruct PO as [Q|[Q|[Q|[]]]]; discriminate. }
  pose proof AP as (_ & _ & _ & LF & L2 & RM).
  assert (LEN : Forall (fun hs => (length (filed k hs) <= 1)%nat) hss) by (eapply Forall_impl; [|exact ONE]; intros hs A; cbn beta in A; apply (one_filed U); assumption).
  assert (TRS : Forall (fun hs => trees_in (map ch_text (filed k hs)) (says_ops (filed k hs))) hss).
  { rewrite EF in L2, RM. apply Forall_forall. intros hs I. assert (K : exists a b, filed k (concat hss) = a ++ filed k hs ++ b).
    { apply in_split in I as (x & y & ->). rewrite concat_app. cbn [concat]. rewrite !filed_app. eauto. }
    destruct K as (x & y & K). rewrite K, !says_app, !app_length in L2. rewrite K, !says_app, !room_app in RM.
    assert (SUB : forall z, In z (filed k hs) -> In z H) by (intros z J; eapply filed_in; rewrite EF, K; apply in_or_app; right; apply in_or_app; left; exact J).
    apply (some_trees U); [apply SU| | | |lia|lia].
    - rewrite Forall_forall in *. auto.
    - rewrite Forall_forall in *. intros c J. apply in_flat_map in J as (z & Y1 & Y2). apply CN. apply in_flat_map. exists z. auto.
    - intros v J. apply INU. apply says_in in J as (z & c & Y1 & Y2 & ->). apply says_in. exists z, c. auto. }
  destruct (story_trees fbits fuel k (br_main b1) es ss hss (br_main b') ST FK IO []) as [O' CT]; [|exact LEN|exact TRS|cbn [app]; rewrite <- EF; exact AP|].
  { rewrite ABS. split; [|discriminate]. exists []. split; [constructor|]. split; [constructor|apply Permutation_refl]. }
  cbn [app] in CT. rewrite <- EF in CT.
  destruct (story_pieces k (br_main b1) es ss hss (br_main b') ST FK IO []) as [_ PC]; [|exact LEN|exact TRS|cbn [app]; rewrite <- EF; exact AP| |].
  { rewrite ABS. exists []. split; [constructor|]. split; [constructor|]. split; [apply Permutation_refl|exact I]. }
  { intros a hs b EQ. cbn [app]. destruct (filed k hs) as [|x l] eqn:EX.
    { right. intros v []. }
    rewrite <- EX. assert (GA : good U ([h] ++ concat a)) by (apply (GP a (hs :: b)); exact EQ).
    assert (GB : good U (([h] ++ concat a) ++ hs)).
    { rewrite <- app_assoc. assert (Q : concat a ++ hs = concat (a ++ [hs])) by (rewrite concat_app; cbn [concat]; rewrite app_nil_r; reflexivity). rewrite Q. apply (GP (a ++ [hs]) b). rewrite <- app_assoc. exact EQ. }
    pose proof (comes_after U ([h] ++ concat a) hs o t SU GA GB) as Q. fold k in Q. rewrite filed_app, F0 in Q. cbn [app] in Q. apply Q.
    assert (IX : In x (filed k hs)) by (rewrite EX; left; reflexivity). pose proof (filed_in _ _ _ IX) as IXH.
    pose proof GB as (_ & _ & _ & BLB & _). assert (IXB : In x ([h] ++ concat a ++ hs)) by (apply in_or_app; right; apply in_or_app; right; exact IXH).
    exists (opof (ch_head x)). pose proof (BLB x (ch_head x) IXB (head_in x)) as BX.
    assert (IH2 : In x H) by (unfold H; rewrite EQ, concat_app; cbn [concat]; apply in_or_app; right; apply in_or_app; right; apply in_or_app; left; exact IXH).
    assert (BO : belongs (says_ops H) (opof (ch_head x)) o t).
    { apply (state_ops U H o t); [exact SU|exact GD|exists u; exact BU|]. apply says_in. exists x, (ch_head x). split; [|split; [apply head_in|reflexivity]]. fold k. rewrite EF, EQ, concat_app. cbn [concat]. rewrite !filed_app. apply in_or_app. right. apply in_or_app. left. exact IX. }
    destruct (belongs_one _ _ _ _ _ _ ND (BL x (ch_head x) IH2 (head_in x)) BO) as [Q1 Q2]. rewrite Q1, Q2 in BX. exact BX. }
  cbn [app] in PC. rewrite <- EF in PC. set (us := says_ops (filed k H)) in *.
  assert (ME : forall v, In v us <-> belongs (says_ops H) v o t) by (intro v; apply (state_ops U); eauto).
  assert (NE : us <> []) by (apply ME in BU; intro Q; rewrite Q in BU; destruct BU).
  destruct PC as (sts & FS & CS & PS & IS).
  destruct (held (ce_value (cell_at (br_main b') k)) ++ ce_operands (cell_at (br_main b') k)) as [|f fs] eqn:HE.
  { exfalso. inversion FS; subst. apply Permutation_nil in PS. congruence. }
  destruct sts as [|s0 sts]; [inversion FS|].
  assert (IK : In k (map fst (br_main b'))).
  { destruct (existsb (fun r => key_eqb (fst r) k) (br_main b')) eqn:EX.
    - apply existsb_exists in EX as (x & J & Q). apply key_eqb_eq in Q. rewrite <- Q. apply in_map. exact J.
    - exfalso. rewrite cell_at_absent in HE; [discriminate|]. intro J. rewrite (present (br_main b') k cell0 J) in EX. discriminate. }
  destruct (C83_recovers fbits fuel (br_main b') k s0 sts f fs O' IK FK HE FS CS) as (d2 & g & T & CA & RD2 & CT2 & PT & FT2 & OT & CE); [apply (apt_perm fuel _ _ (Permutation_sym PS) AP)|exact IS|].
  assert (PU : Permutation (map bare (listing T)) us) by (eapply Permutation_trans; [exact PT|exact PS]).
  set (n := length (ce_operands (cell_at (br_main b') k))) in *.
  exists T, n, (mkBranch d2 (br_tip b')), g. split.
  { split; [exact CT2|]. split; [rewrite ids_bare; eapply Permutation_NoDup; [apply Permutation_map, Permutation_sym; exact PU|apply AP]|].
    intro v. rewrite <- ME. split; apply Permutation_in; [exact PU|apply Permutation_sym; exact PU]. }
  split.
  { assert (Q : repeat (BCompact k (CFull 1)) n = map (BCompact k) (repeat (CFull 1) n)) by (generalize n; induction n0 as [|m IHm]; [reflexivity|cbn [repeat map]; rewrite IHm; reflexivity]).
    rewrite Q, (compact_runs _ _ _ _ _ CA), repeat_length. reflexivity. }
  cbn [br_main br_tip]. split; [exact RD2|]. split; [|split; [reflexivity|exact OT]].
  destruct (compacts_trees k us _ FK AP (br_main b') d2 O' CT CA) as [_ CT3].
  rewrite CE in CT3. cbn [ce_value ce_operands] in CT3.
  assert (CL : forall v, In v us -> v = r \/ uuid_ltb (u_id r) (u_id v) = true /\ exists w, In w us /\ u_id w = u_ref v).
  { intros v J. apply ME in J. assert (UP : forall v, belongs (says_ops H) v o t -> u_id v = u_id r \/ uuid_ltb (u_id r) (u_id v) = true).
    { clear v J. intros v BV. induction BV as [x Ix Vx|x y o t Ix Vx Ex By IH]; [left; symmetry; exact RI|].
      assert (LT : uuid_ltb (u_id y) (u_id x) = true) by (apply (refs_back U H); [exact SU|exact GD|exact Ix|exact (belongs_in _ _ _ _ By)|symmetry; exact Ex]).
      assert (D : u_id y = u_id r \/ uuid_ltb (u_id r) (u_id y) = true) by (apply IH; assumption). destruct D as [<-|D]; [auto|]. right. eapply uuid_ltb_trans; eassumption. }
    assert (SAME : forall x y, In x (says_ops H) -> In y (says_ops H) -> u_id x = u_id y -> x = y) by (intros x y; apply (nodup_ids (says_ops H)); exact ND).
    pose proof (belongs_in _ _ _ _ J) as IV. inversion J as [x Ix Vx Q1 Q2|x y o' t' Ix Vx Ex By Q1 Q2 Q3]; subst.
    - left. apply SAME; [assumption|assumption|congruence].
    - destruct (UP v J) as [Q|Q]; [left; apply SAME; assumption|]. right. split; [exact Q|]. exists y. split; [apply ME; exact By|exact Ex]. }
  destruct (cell_read fbits fuel (Some g) [] us r k FK CT3 AP NE CL) as (_ & RD3 & _). destruct (RD3 (or_introl eq_refl)) as (g2 & T2 & CG & CC & P2 & TD & _).
  cbn [cell_get ce_operands ce_value] in CG. injection CG as <-.
  assert (EQ : map bare (listing T) = map bare (listing T2)); [|rewrite EQ; exact TD]. apply one_tree; [exact CT2|exact CC| |].
  - rewrite ids_bare. eapply Permutation_NoDup; [apply Permutation_map, Permutation_sym; exact PU|apply AP].
  - eapply Permutation_trans; [exact PU|apply Permutation_sym; exact P2].
Qed.

(* Two branches that know the same events of a text object can both be made to
   read the same tree, however many pieces they have it in. *)
Theorem C72_agree_recovered now1 rs1 yarn1 tr1 es1 ss1 E1 b1 now2 rs2 yarn2 tr2 es2 ss2 E2 b2 :
  lives now1 rs1 yarn1 tr1 es1 ss1 E1 b1 -> lives now2 rs2 yarn2 tr2 es2 ss2 E2 b2 ->
  let ev1 := first_event active now1 rs1 yarn1 tr1 in let ev2 := first_event active now2 rs2 yarn2 tr2 in
  exists hss1 hss2, keeps ev1 ev1 es1 ss1 (concat hss1) /\ keeps ev2 ev2 es2 ss2 (concat hss2) /\ stored_of es1 ss1 hss1 /\ stored_of es2 ss2 hss2 /\
    (Forall (apart (opener ev1 :: map bare E1)) hss1 -> Forall (apart (opener ev2 :: map bare E2)) hss2 ->
     let all1 := opener ev1 :: says_ops (concat hss1) in let all2 := opener ev2 :: says_ops (concat hss2) in
     forall u o t, belongs all1 u o t -> uuid2form t = RGA_RDT_FORM -> (forall v, belongs all1 v o t <-> belongs all2 v o t) ->
     exists us n1 n2 c1 c2 text1 text2,
       b_run sha fbits active fuel (branch_id yarn1) b1 (repeat (BCompact (key_as o t) (CFull 1)) n1) = Done (c1, repeat ROk n1) /\
       b_run sha fbits active fuel (branch_id yarn2) b2 (repeat (BCompact (key_as o t) (CFull 1)) n2) = Done (c2, repeat ROk n2) /\
       rread (br_main c1) (key_as o t) = Done (text1, KOk) /\ rread (br_main c2) (key_as o t) = Done (text2, KOk) /\ told text1 us /\ told text2 us /\
       NoDup (map u_id us) /\ forall v, In v us <-> belongs all1 v o t).
Proof.
  intros L1 L2 ev1 ev2. destruct (C72_recovers _ _ _ _ _ _ _ _ L1) as (hss1 & K1 & S1 & R1). destruct (C72_recovers _ _ _ _ _ _ _ _ L2) as (hss2 & K2 & S2 & R2).
  exists hss1, hss2. split; [exact K1|]. split; [exact K2|]. split; [exact S1|]. split; [exact S2|]. intros A1 A2 all1 all2 u o t BU FM SAME.
  destruct (R1 A1 u o t BU FM) as (T1 & n1 & c1 & x1 & (C1 & N1 & M1) & G1 & D1 & X1 & _). destruct (R2 A2 u o t (proj1 (SAME u) BU) FM) as (T2 & n2 & c2 & x2 & (C2 & N2 & M2) & G2 & D2 & X2 & _).
  change (forall v, In v (map bare (listing T1)) <-> belongs all1 v o t) in M1. change (forall v, In v (map bare (listing T2)) <-> belongs all2 v o t) in M2.
  assert (EQ : map bare (listing T1) = map bare (listing T2)).
  { apply one_tree; [exact C1|exact C2|exact N1|]. rewrite ids_bare in N1, N2. apply NoDup_Permutation; [apply NoDup_map_inv in N1; exact N1|apply NoDup_map_inv in N2; exact N2|].
    intro v. rewrite M1, M2. apply SAME. }
  exists (map bare (listing T1)), n1, n2, c1, c2, x1, x2. rewrite <- EQ in X2. rewrite <- ids_bare. auto 9.
Qed.

(* ---- also where events are written in spans ---- *)
(* the chain stored under the object in a step hangs on what was stored before *)
Definition each_hangs (hss : list (list chain)) (o : uuid) : Prop :=
  forall a hs b, hss = a ++ hs :: b -> hang (stored_text a o) (stored_text [hs] o).
Lemma trees_none fs : trees_in fs [] -> fs = [].
Proof.
  intros (ts & F & _ & P). apply Permutation_sym, Permutation_nil in P. destruct ts as [|t ts]; [inversion F; reflexivity|]. destruct t as [x cs]. discriminate.
Qed.
Lemma filed_recovers now rs yarn tr es ss E b' : lived sha fbits active fuel now rs yarn tr es ss E b' -> let ev := first_event active now rs yarn tr in
  exists hss, keeps ev ev es ss (concat hss) /\ stored_of es ss hss /\
    forall o r, one_a_step hss o -> grown (stored_text hss o) r -> each_hangs hss o ->
    exists T n b2 text, apt (stored_text hss o) /\ causal T /\ Permutation (map bare (listing T)) (stored_text hss o) /\
      b_run sha fbits active fuel (branch_id yarn) b' (repeat (BCompact (key_of o RGA_RDT_FORM) (CFull 1)) n) = Done (b2, repeat ROk n) /\
      rread (br_main b2) (key_of o RGA_RDT_FORM) = Done (text, KOk) /\ told text (map bare (listing T)) /\ N.of_nat (length text) < 2 ^ 32 /\
      br_tip b2 = br_tip b' /\ forall k, k <> key_of o RGA_RDT_FORM -> cell_at (br_main b2) k = cell_at (br_main b') k.
Proof.
  intros (Y & NV & C & EO & (b & s & now1 & s1 & H & R) & RV & KB) ev. fold ev in NV.
  cbn [BranchModel.b_run] in R. apply rbind_done in R as ([b1 s2] & R1 & R). apply rbind_done in R as ([b2 ss2] & R & Q). injection Q as -> -> ->.
  destruct (C47_created sha fbits active fuel _ _ _ _ _ _ Y NV H) as (-> & _ & _ & K). destruct (K _ _ _ R1) as (-> & BT & HT). clear K.
  assert (MB : br_main b1 = br_main b).
  { destruct (new_tip sha fbits active fuel _ _ _ _ _ _ NV H) as (_ & _ & T). cbn [BranchModel.b_step] in R1. apply rbind_done in R1 as ([[[d n'] t'] s1] & H1 & Q).
    destruct (first_time active now rs yarn tr) as [_ OR]. destruct (tipped_open fbits fuel _ _ _ _ _ _ _ _ T (or_introl (OR Y)) H1) as (-> & -> & ->). injection Q as <-. reflexivity. }
  assert (VT : version (branch_id yarn) = TIME) by apply ClockTheorems.time_version.
  destruct (run_keeps sha fbits active fuel _ VT es b1 b' ss _ HT C R EO) as (hss & KP & ST). rewrite BT in KP. fold ev in KP.
  exists hss. split; [exact KP|]. split; [eapply story_stored; exact ST|]. intros o r OS (ND & IR & BK & CL) HG.
  unfold one_a_step in OS. unfold each_hangs in HG. unfold stored_text in *. set (k := key_of o RGA_RDT_FORM) in *. assert (FK : key_form k = RGA_RDT_FORM) by (apply key_form_of; reflexivity).
  destruct (story_texts fbits fuel k _ _ _ _ _ ST E [] RV KB) as [TI KF]. cbn [app] in KF. set (us := says_ops (filed k (concat hss))) in *.
  assert (AP : apt us).
  { destruct KF as (M & L & NN & RM). cbn [map length] in *. change (room []) with 0%nat in RM. rewrite app_nil_r in M. split; [exact M|]. split; [exact ND|]. split; [exact BK|]. split; [lia|split; lia]. }
  assert (F1 : (1 <= fuel)%nat) by (destruct KB as (_ & L & _); lia).
  assert (CT0 : cell_trees (ce_value (cell_at (br_main b1) k)) (ce_operands (cell_at (br_main b1) k)) []) by (rewrite MB; eapply start_trees; [exact NV|exact F1|exact FK|exact H|reflexivity]).
  destruct (story_trees fbits fuel k (br_main b1) es ss hss (br_main b') ST FK ltac:(apply HT) []) as [O' CT]; [exact CT0|exact OS|exact TI|exact AP|].
  cbn [app] in CT. fold us in CT. assert (NE : us <> []) by (intro Q; rewrite Q in IR; destruct IR).
  destruct (story_pieces k (br_main b1) es ss hss (br_main b') ST FK ltac:(apply HT) []) as [_ PC]; [|exact OS|exact TI|exact AP| |].
  { destruct CT0 as [CT0 _]. rewrite (trees_none _ CT0). exists []. split; [constructor|]. split; [constructor|]. split; [apply Permutation_refl|exact I]. }
  { intros a hs b0 EQ. cbn [app]. specialize (HG a hs b0 EQ). cbn [concat] in HG. rewrite app_nil_r in HG. exact HG. }
  cbn [app] in PC. fold us in PC. destruct PC as (sts & FS & CS & PS & IS).
  destruct (held (ce_value (cell_at (br_main b') k)) ++ ce_operands (cell_at (br_main b') k)) as [|f fs] eqn:HE.
  { exfalso. inversion FS; subst. apply Permutation_nil in PS. congruence. }
  destruct sts as [|s0 sts]; [inversion FS|].
  assert (IK : In k (map fst (br_main b'))).
  { destruct (existsb (fun r => key_eqb (fst r) k) (br_main b')) eqn:EX.
    - apply existsb_exists in EX as (x & J & Q). apply key_eqb_eq in Q. rewrite <- Q. apply in_map. exact J.
    - exfalso. rewrite cell_at_absent in HE; [discriminate|]. intro J. rewrite (present (br_main b') k cell0 J) in EX. discriminate. }
  destruct (C83_recovers fbits fuel (br_main b') k s0 sts f fs O' IK FK HE FS CS) as (d2 & g & T & CA & RD2 & CT2 & PT & FT2 & OT & CE); [apply (apt_perm fuel _ _ (Permutation_sym PS) AP)|exact IS|].
  assert (PU : Permutation (map bare (listing T)) us) by (eapply Permutation_trans; [exact PT|exact PS]).
  set (n := length (ce_operands (cell_at (br_main b') k))) in *.
  exists T, n, (mkBranch d2 (br_tip b')), g. split; [exact AP|]. split; [exact CT2|]. split; [exact PU|]. split.
  { assert (Q : repeat (BCompact k (CFull 1)) n = map (BCompact k) (repeat (CFull 1) n)) by (generalize n; induction n0 as [|m IHm]; [reflexivity|cbn [repeat map]; rewrite IHm; reflexivity]).
    rewrite Q, (compact_runs _ _ _ _ _ CA), repeat_length. reflexivity. }
  cbn [br_main br_tip]. split; [exact RD2|].
  destruct (compacts_trees k us _ FK AP (br_main b') d2 O' CT CA) as [_ CT3].
  rewrite CE in CT3. cbn [ce_value ce_operands] in CT3.
  destruct (cell_read fbits fuel (Some g) [] us r k FK CT3 AP NE CL) as (_ & RD3 & _). destruct (RD3 (or_introl eq_refl)) as (g2 & T2 & CG & CC & P2 & TD & SMG).
  cbn [cell_get ce_operands ce_value] in CG. injection CG as <-.
  assert (EQ : map bare (listing T) = map bare (listing T2)); [|rewrite EQ; split; [exact TD|]; split; [exact SMG|]; split; [reflexivity|exact OT]]. apply one_tree; [exact CT2|exact CC| |].
  - rewrite ids_bare. eapply Permutation_NoDup; [apply Permutation_map, Permutation_sym; exact PU|apply AP].
  - eapply Permutation_trans; [exact PU|apply Permutation_sym; exact P2].
Qed.

(* A branch that has stored the events of a text object, each piece after those it
   hangs on, can be brought by compactions to read the one tree of these events and
   to answer a query for the text with its characters, however many pieces it had
   the text in. *)
Theorem C72_text_recovered now rs yarn tr es ss E b' : lived sha fbits active fuel now rs yarn tr es ss E b' -> let ev := first_event active now rs yarn tr in
  exists hss, keeps ev ev es ss (concat hss) /\ stored_of es ss hss /\
    forall o r, one_a_step hss o -> grown (stored_text hss o) r -> each_hangs hss o ->
    u_ref r = RGA_FORM_UUID -> Forall (fun u => version (u_id u) = TIME /\ uvalue (u_id u) < NEVER_W) (stored_text hss o) ->
    exists n b2 state, b_run sha fbits active fuel (branch_id yarn) b' (repeat (BCompact (key_of o RGA_RDT_FORM) (CFull 1)) n) = Done (b2, repeat ROk n) /\
      br_tip b2 = br_tip b' /\ (forall k, k <> key_of o RGA_RDT_FORM -> cell_at (br_main b2) k = cell_at (br_main b') k) /\
      rread (br_main b2) (key_of o RGA_RDT_FORM) = Done (state, KOk) /\
      forall V, causal V -> Permutation (map bare (listing V)) (stored_text hss o) -> told state (map bare (listing V)) /\
      (listing V = chunk_of (map bare (listing V)) ->
      (forall p, In p (ScanSpec.places [] V) -> ~ ScanSpec.stray p /\ (ScanSpec.hidden p \/ TextAnswerSpec.piece (root (snd p)))) ->
      forall (P : bytes -> N -> Prop) f q now2 rs2, frame_lit P f [q] -> N.of_nat (length f) < 2 ^ 32 -> TextAnswerSpec.text_query q -> id_ok (r_id q) -> TextAnswerSpec.object_of q = o ->
      exists hs text, Forall2 (fun p (h : bool) => h = true <-> ScanSpec.hidden p) (ScanSpec.places [] V) hs /\
        AnswerModel.b_ask sha fbits active fuel b2 now2 rs2 f = Done (b2, ROk, Some text) /\
        frame_lit canon text (TextAnswerSpec.text_answer q AnswerModel.TXT_MAP_ID (TextAnswerSpec.spelled (listing V) hs (in_runs origin_op (map UAppend (map bare (listing V)) ++ [UEnd RAW]))))).
Proof.
  intros LV ev. destruct (filed_recovers _ _ _ _ _ _ _ _ LV) as (hss & KP & SO & R). exists hss. split; [exact KP|]. split; [exact SO|]. intros o r OS GR HG RR VS.
  destruct (R o r OS GR HG) as (T & n & b2 & state & AP & CT & PT & RN & RD & TD & SM & BT & OT). exists n, b2, state.
  split; [exact RN|]. split; [exact BT|]. split; [exact OT|]. split; [exact RD|]. intros V CV PV. set (us := stored_text hss o) in *.
  assert (EW : map bare (listing V) = map bare (listing T)).
  { apply one_tree; [exact CV|exact CT| |].
    - rewrite ids_bare. eapply Permutation_NoDup; [apply Permutation_map, Permutation_sym; exact PV|apply AP].
    - eapply Permutation_trans; [exact PV|apply Permutation_sym; exact PT]. }
  rewrite <- EW in TD. split; [exact TD|]. intros LL CALM P f q now2 rs2 FQ SQ TQ IQ OQ.
  assert (VN : Forall (fun v => version (u_id v) = TIME /\ uvalue (u_id v) < NEVER_W) (map bare (listing V))).
  { rewrite Forall_forall in VS |- *. intros v J. apply VS. eapply Permutation_in; [exact PV|exact J]. }
  assert (RT : ScanSpec.rga_tree V).
  { split; [apply causal_linked; exact CV|]. split; [|split].
    - destruct GR as (_ & IR & _ & CL). assert (RF : bare (root V) = r); [|rewrite <- RF in RR; exact RR].
      apply root_first; [exact CV|eapply Permutation_in; [apply Permutation_sym; exact PV|exact IR]|]. intros x J. apply (Permutation_in _ PV) in J. destruct (CL x J) as [Q|[Q _]]; auto.
    - rewrite Forall_map in VN. eapply Forall_impl; [|exact VN]. intros x [A _]. exact A.
    - rewrite Forall_map, Forall_forall in VN. destruct (VN (root V) (root_in V)) as [_ LT]. cbn [bare u_id] in LT. unfold uuid_ltb.
      change (uvalue (Time WORD_NEVER 0)) with NEVER_W. replace (NEVER_W <? uvalue (r_id (root V))) with false by (symmetry; apply N.ltb_ge; lia).
      replace (NEVER_W =? uvalue (r_id (root V))) with false by (symmetry; apply N.eqb_neq; lia). reflexivity. }
  assert (LW : length (listing V) = length us) by (rewrite <- (map_length bare); apply Permutation_length; exact PV).
  assert (LF : (length (listing V) < fuel)%nat) by (rewrite LW; apply AP).
  assert (LN : N.of_nat (length (listing V)) < 2 ^ 30).
  { rewrite LW. destruct AP as (_ & _ & _ & _ & _ & RM). clear -RM. assert (K : (length us * 4 <= room us)%nat).
    { clear. induction us as [|x l IH]; [cbn; lia|]. change (x :: l) with ([x] ++ l). rewrite app_length, room_app. cbn [length]. assert (4 <= room [x])%nat by (unfold room; cbn [map list_sum fold_right]; unfold op_room; lia). lia. }
    change (2 ^ 32) with 4294967296 in RM. change (2 ^ 30) with 1073741824. lia. }
  unfold told in TD. rewrite <- LL in TD.
  assert (KK : TextAnswerSpec.text_key q = key_of o RGA_RDT_FORM) by (unfold TextAnswerSpec.text_key; rewrite OQ; reflexivity).
  destruct (TextAnswerTheorems.C53_text sha fbits active fuel P b2 now2 rs2 f q state V _ FQ SQ TQ IQ ltac:(rewrite KK; exact RD) TD SM RT LF LN) as (hs & text & F1 & X1 & Y1);
    [intros p J; apply (CALM p J)|intros p J; apply (CALM p J)|]. exists hs, text. auto.
Qed.
End Recover.
Print Assumptions C72_recovers.
Print Assumptions C72_agree_recovered.
Print Assumptions C72_text_recovered.
