(* Text objects of a branch: the record of the state of an RGA object in the life
   of the branch. *)
From Coq Require Import Sorted Permutation.
From Verif Require Import Prelude UuidModel UuidProofs KeyModel KeyProofs CodecModel TextModel TextSpec BuilderSpec BuilderProofs MergeModel MergeSpec MergeProofs RgaProofs RgaTree MergeTextModel
  TextMergeSpec TextCursors MergeKeeps TextMerge SizeProofs TextMergeTheorems StoreModel StoreSpec StoreProofs StoreTheorems RocksModel RocksSpec RocksProofs MetaModel ClockModel
  ReplicaModel ReplicaSpec ReplicaProofs ReplicaTheorems BranchModel BranchSpec BranchProofs BranchTheorems DurableSpec DurableProofs DurableTheorems YarnSpec YarnProofs YarnJoin
  TextObjSpec TextObjProofs.

(* a chain as a tree without branches *)
Fixpoint lane (o : rop) (g : list rop) : tree := match g with [] => Node o [] | p :: q => Node o [lane p q] end.
Lemma lane_root o g : root (lane o g) = o. Proof. destruct g; reflexivity. Qed.
Lemma lane_listing g : forall o, listing (lane o g) = o :: g.
Proof. induction g as [|p g IH]; intro o; [reflexivity|]. cbn [lane listing flat_map]. rewrite IH, app_nil_r. reflexivity. Qed.
Lemma lane_causal cs : forall c d x, linked c cs -> bare x = opof c -> map bare d = as_ops cs -> causal (lane x d).
Proof.
  induction cs as [|e cs IH]; intros c d x L EX ED.
  - destruct d; [|discriminate]. cbn [lane]. constructor; constructor.
  - destruct d as [|y d]; [discriminate|]. unfold as_ops in ED. cbn [map] in ED. pose proof (f_equal (hd (bare y)) ED) as EY. apply (f_equal (@tl _)) in ED. cbn [hd tl] in EY, ED.
    destruct L as (_ & L2 & L3 & L4). cbn [lane]. pose proof EY as EY0. apply bare_parts in EX as (X1 & _). apply bare_parts in EY as (Z1 & Z2 & _).
    constructor; [|constructor; constructor]. constructor; [|constructor]. rewrite lane_root. split; [apply (IH e d y L4); [exact EY0|exact ED]|].
    rewrite X1, Z1, Z2. split; [exact L3|exact L2].
Qed.

Section Story.

Variable fbits : bytes -> N.
Variable fuel : nat.
Notation apt := (apt fuel).
Notation grows := (grows fbits fuel).
Notation story := (story fbits fuel).

Lemma opof_bare c : opof c = bare (rop_of c). Proof. reflexivity. Qed.
Lemma chain_tree U h : mergeable U -> proper h -> Forall canonical (ch_ops h) -> incl (says_ops [h]) U -> N.of_nat (length (says_ops [h])) < 2 ^ 32 -> N.of_nat (room (says_ops [h])) < 2 ^ 32 ->
  trees_in [ch_text h] (says_ops [h]).
Proof.
  intros MU (_ & LK & TX & _) CN IN LB RB. rewrite says_one in *.
  destruct (chain_text (ch_ops h) (ch_text h) U) as (d & FS & ED); try assumption.
  - unfold as_ops in LB. rewrite map_length in LB. exact LB.
  - destruct d as [|x d]; [discriminate ED|]. exists [lane x d]. split; [constructor; [rewrite lane_listing; exact FS|constructor]|]. split.
    + constructor; [|constructor]. change (ch_ops h) with (ch_head h :: ch_rest h) in ED. unfold as_ops in ED. cbn [map] in ED.
      apply (lane_causal (ch_rest h) (ch_head h) d x LK); [exact (f_equal (hd (bare x)) ED)|exact (f_equal (@tl _) ED)].
    + cbn [flat_map]. rewrite app_nil_r, lane_listing, ED. apply Permutation_refl.
Qed.
Lemma some_trees U hs : mergeable U -> Forall proper hs -> Forall canonical (flat_map ch_ops hs) -> incl (says_ops hs) U -> N.of_nat (length (says_ops hs)) < 2 ^ 32 -> N.of_nat (room (says_ops hs)) < 2 ^ 32 ->
  trees_in (map ch_text hs) (says_ops hs).
Proof.
  intros MU PR. induction PR as [|h hs PH PR IH]; intros CN IN LB RB.
  - exists []. split; [constructor|]. split; [constructor|apply Permutation_refl].
  - change (h :: hs) with ([h] ++ hs) in *. rewrite flat_map_app in CN. apply Forall_app in CN as [CN1 CN2]. cbn [flat_map] in CN1. rewrite app_nil_r in CN1. rewrite says_app in *. rewrite app_length in LB. rewrite room_app in RB. rewrite map_app.
    apply (trees_in_join _ _ (says_ops [h]) (says_ops hs)); [|apply IH; [exact CN2|intros x J; apply IN, in_or_app; right; exact J|lia|lia]|apply Permutation_refl].
    apply (chain_tree U); [exact MU|exact PH|exact CN1|intros x J; apply IN, in_or_app; left; exact J|lia|lia].
Qed.
(* the chains of frames that came are trees *)
Lemma story_texts k d es ss hss d' : story d es ss hss d' -> forall E W, received es ss E -> keep_bound fuel W E ->
  Forall (fun hs => trees_in (map ch_text (filed k hs)) (says_ops (filed k hs))) hss /\ keep_bound fuel (W ++ says_ops (filed k (concat hss))) [].
Proof.
  assert (LESS : forall W E1 E2 us, keep_bound fuel W (E1 ++ E2) -> incl us (map bare E1) -> (length us <= 4 * length E1)%nat -> (room us <= 4 * room (map bare E1))%nat -> keep_bound fuel (W ++ us) E2).
  { intros W E1 E2 us (M & L & NN & R) I LU RU. rewrite map_app, room_app in R. rewrite app_length in L, NN. split.
    - eapply mergeable_incl; [exact M|]. rewrite map_app. intros u J. rewrite !in_app_iff in *. destruct J as [[J|J]|J]; auto.
    - rewrite app_length, room_app. split; [lia|split; lia]. }
  induction 1 as [d|d e s hs d1 es ss hss d2 GR SO ST IH]; intros E W RV KB.
  - inversion RV; subst. split; [constructor|]. cbn [concat]. change (filed k []) with (@nil chain). change (says_ops []) with (@nil uop). rewrite app_nil_r. exact KB.
  - destruct SO as [->|(now & rs & f & -> & -> & EO & CO & PR)].
    + assert (K : exists E2, received es ss E2 /\ keep_bound fuel W E2).
      { inversion RV as [|? ? ? dd ? ? E2 FS RV2|? ? ? ? ? ? ? NE RV2|? ? ? ? ? RV2|? ? ? ? ? ? RV2]; subst; try (exists E; split; assumption).
        exists E2. split; [exact RV2|]. rewrite <- (app_nil_r W). apply (LESS W (filter event_op dd) E2 []); [exact KB|intros u []|cbn; lia|cbn; lia]. }
      destruct K as (E2 & RV2 & KB2). destruct (IH E2 W RV2 KB2) as [A B]. split; [|exact B]. constructor; [|exact A].
      exists []. split; [constructor|]. split; [constructor|apply Permutation_refl].
    + inversion RV as [|? ? ? dd ? ? E2 FS RV2|? ? ? ? ? ? ? NE RV2| |]; subst; [|contradiction].
      destruct (chain_events f dd hs FS EO CO PR) as [SL CA]. destruct (filed_measure k hs) as (M1 & M2 & M3).
      pose proof (subl_length _ _ SL) as SL1. pose proof (subl_room _ _ SL) as SL2. rewrite twice_length, map_length in SL1. rewrite twice_room in SL2.
      assert (INC : incl (says_ops (filed k hs)) (map bare (filter event_op dd))) by (intros u J; apply twice_in; eapply subl_in; [exact SL|]; apply M3; exact J).
      destruct (IH E2 (W ++ says_ops (filed k hs)) RV2) as [A B].
      { apply (LESS W (filter event_op dd) E2); [exact KB|exact INC|lia|lia]. }
      split; [|cbn [concat]; rewrite filed_app, says_app, app_assoc; exact B]. constructor; [|exact A].
      destruct KB as (MU & L & NN & R). rewrite map_app, room_app in R. rewrite app_length in L, NN.
      apply (some_trees (W ++ map bare (filter event_op dd ++ E2))); [exact MU| | | |lia|lia].
      * rewrite Forall_forall in *. intros h I. apply PR. eapply filed_in. exact I.
      * rewrite Forall_forall in *. intros c I. apply in_flat_map in I as (h & I & J). apply CA. apply in_flat_map. exists h. split; [eapply filed_in; exact I|exact J].
      * intros u J. rewrite map_app, !in_app_iff. right. left. apply INC. exact J.
Qed.

(* one step *)
Lemma grows_trees k d hs d1 us : key_form k = RGA_RDT_FORM -> in_order d -> cell_trees (ce_value (cell_at d k)) (ce_operands (cell_at d k)) us ->
  grows d hs d1 -> (length (filed k hs) <= 1)%nat -> trees_in (map ch_text (filed k hs)) (says_ops (filed k hs)) -> apt (us ++ says_ops (filed k hs)) ->
  in_order d1 /\ cell_trees (ce_value (cell_at d1 k)) (ce_operands (cell_at d1 k)) (us ++ says_ops (filed k hs)).
Proof.
  intros FK IO CT GR LE TI AP. assert (AU : apt us) by (apply apt_app in AP as [AP _]; exact AP).
  assert (NZ : k <> KEY_ZERO) by (apply form_key_neq; rewrite FK; vm_compute; discriminate).
  destruct GR as [(-> & HOW)|(ws & m & w & f & batch & OW & A & WR & BB)].
  - change (filed k []) with (@nil chain) in *. change (says_ops []) with (@nil uop) in *. rewrite app_nil_r. destruct HOW as [->|[(ws & w & OW & A)|(k1 & ce & CP)]].
    + auto.
    + destruct (acts_cell fbits fuel k _ _ _ OW A IO ltac:(constructor)) as (O1 & _ & C1). cbn [fst] in *. split; [exact O1|]. rewrite C1. exact CT.
    + destruct (key_eqb k1 k) eqn:EK.
      * apply key_eqb_eq in EK. subst k1.
        apply (compact_ok fbits fuel k (fun _ => apt us) (fun v ops _ => cell_trees v ops us)) with (d := d) (e := ce) (W := []); [| |exact IO|exact CT|exact AU|exact CP].
        -- intros v a b c W g. rewrite FK. intros. eapply cell_partial; eassumption.
        -- intros v b c W g. rewrite FK. intros. eapply cell_full; eassumption.
      * destruct (compact_other fbits fuel k d k1 ce d1 IO) as [O1 C1]; [intros ->; rewrite key_eqb_refl in EK; discriminate|exact CP|]. rewrite C1. auto.
  - pose proof (accepted_acts _ _ _ _ _ _ _ _ A) as AC. pose proof (accepted_writes _ _ _ _ _ _ _ _ A) as AW.
    assert (RF : contents (flat_map ch_records hs) k = map ch_text (filed k hs)) by (apply records_filed; rewrite FK; vm_compute; discriminate).
    destruct (acts_mem fbits fuel _ _ _ OW AC ltac:(constructor)) as (E & SW & _). cbn [fst snd] in *. subst m.
    assert (CW : contents w k = map ch_text (filed k hs)).
    { pose proof (acts_few fbits fuel k _ _ _ OW AC ltac:(constructor)) as Q. cbn [fst snd] in Q. rewrite AW, RF in Q. change (contents [] k) with (@nil bytes) in Q. cbn [app] in Q. apply Q. rewrite map_length. exact LE. }
    pose proof (write_ok w KEY_ZERO f SW) as K. rewrite WR in K. destruct K as (_ & K & _).
    unfold b_batch, rocks_batch in BB. injection BB as <-. destruct (adds_at batch d k IO) as [O2 E]. unfold adds in *. split; [exact O2|].
    rewrite E. cbn [ce_value ce_operands]. rewrite K. cbn [before_end]. change (key_eqb KEY_ZERO KEY_END) with false. cbn match.
    rewrite contents_one, key_eqb_neq by (intro Q; apply NZ; symmetry; exact Q). rewrite app_nil_r, CW. destruct CT as [CT1 CT2]. split; [|exact CT2].
    rewrite app_assoc. eapply trees_in_join; [exact CT1|exact TI|apply Permutation_refl].
Qed.
Lemma story_trees k d es ss hss d' : story d es ss hss d' -> key_form k = RGA_RDT_FORM -> in_order d -> forall us,
  cell_trees (ce_value (cell_at d k)) (ce_operands (cell_at d k)) us -> Forall (fun hs => (length (filed k hs) <= 1)%nat) hss ->
  Forall (fun hs => trees_in (map ch_text (filed k hs)) (says_ops (filed k hs))) hss -> apt (us ++ says_ops (filed k (concat hss))) ->
  in_order d' /\ cell_trees (ce_value (cell_at d' k)) (ce_operands (cell_at d' k)) (us ++ says_ops (filed k (concat hss))).
Proof.
  intros ST FK. induction ST as [d|d e s hs d1 es ss hss d2 GR SO ST IH]; intros IO us CT L1 T1 AP.
  - cbn [concat] in *. change (filed k []) with (@nil chain) in *. change (says_ops []) with (@nil uop) in *. rewrite app_nil_r. auto.
  - inversion L1 as [|? ? L2 L3]; subst. inversion T1 as [|? ? T2 T3]; subst. cbn [concat] in *. rewrite filed_app, says_app, app_assoc in *.
    destruct (grows_trees k d hs d1 us FK IO CT GR L2 T2) as [O1 C1]; [apply apt_app in AP as [AP _]; exact AP|]. apply IH; assumption.
Qed.

(* the chains of a text object *)
Lemma state_filed U H h : sound U -> good U H -> In h H -> forall hs, incl hs H -> filed (statekey h) hs = filed (logkey h) hs.
Proof.
  intros SU G IH. pose proof G as (_ & _ & _ & _ & TY & _). rewrite Forall_forall in TY. destruct (TY h IH) as [_ OW].
  induction hs as [|x hs IHs]; intro IN; [reflexivity|]. unfold filed in *. cbn [flat_map]. rewrite IHs by (intros y J; apply IN; right; exact J). f_equal.
  assert (IX : In x H) by (apply IN; left; reflexivity). destruct (TY x IX) as [_ OX]. destruct (obj_ids U H h SU G IH) as (K1 & _). destruct (obj_ids U H x SU G IX) as (K2 & _).
  change (key_of (ch_obj x) LOG_RAW_FORM) with (logkey x). change (key_as (ch_obj x) (ch_rdt x)) with (statekey x).
  assert (N1 : key_eqb (logkey x) (statekey h) = false).
  { apply key_eqb_neq. intro Q. apply (f_equal key_form) in Q. rewrite form_of_log, (form_of_state h OW) in Q. destruct OW as [_ OW]. rewrite <- Q in OW. unfold LOG_RAW_FORM, META_META_FORM in OW. lia. }
  assert (N2 : key_eqb (statekey x) (logkey h) = false).
  { apply key_eqb_neq. intro Q. apply (f_equal key_form) in Q. rewrite form_of_log, (form_of_state x OX) in Q. destruct OX as [_ OX]. rewrite Q in OX. unfold LOG_RAW_FORM, META_META_FORM in OX. lia. }
  rewrite N1, N2, app_nil_r. cbn [app]. assert (EQ : key_eqb (statekey x) (statekey h) = key_eqb (logkey x) (logkey h)); [|rewrite EQ; reflexivity].
  destruct (key_eqb (logkey x) (logkey h)) eqn:E.
  - apply key_eqb_eq in E. apply key_inj in E; [|exact K2|exact K1|reflexivity|reflexivity]. destruct E as [E _]. unfold statekey. rewrite E, (obj_type U H x h SU G IX IH E). apply key_eqb_refl.
  - apply key_eqb_neq. intro Q. unfold statekey, key_as in Q. apply key_inj in Q; [|exact K2|exact K1|apply OX|apply OW]. unfold logkey in E. rewrite (proj1 Q), key_eqb_refl in E. discriminate.
Qed.
(* all but the last chain of a step are of other objects *)
Lemma one_filed U hs k : apart U hs -> ~ plain_objects U -> key_form k = RGA_RDT_FORM -> (length (filed k hs) <= 1)%nat.
Proof.
  intros [_ [PL|PO]] NP FK; [|contradiction]. destruct hs as [|h hs] using rev_ind; [cbn; lia|]. clear IHhs. rewrite removelast_last in PL. rewrite filed_app.
  assert (N0 : filed k hs = []).
  { induction PL as [|x hs P PL IH]; [reflexivity|]. unfold filed in *. cbn [flat_map]. rewrite IH, app_nil_r.
    rewrite !key_eqb_neq; [reflexivity| |].
    - intros <-. unfold key_as in FK. rewrite key_form_of in FK by (destruct P as [<-|[<-|[<-|[]]]]; reflexivity). unfold plain_type in P. rewrite FK in P. destruct P as [P|[P|[P|[]]]]; vm_compute in P; discriminate.
    - intros <-. rewrite key_form_of in FK by reflexivity. vm_compute in FK. discriminate. }
  rewrite N0. cbn [app]. unfold filed. cbn [flat_map]. rewrite app_nil_r.
  destruct (key_eqb (key_of (ch_obj h) LOG_RAW_FORM) k) eqn:E.
  - apply key_eqb_eq in E. subst k. rewrite key_form_of in FK by reflexivity. vm_compute in FK. discriminate.
  - cbn [app]. destruct (key_eqb (key_as (ch_obj h) (ch_rdt h)) k); cbn [length]; lia.
Qed.
(* references go back *)
Lemma refs_back U H u v : sound U -> good U H -> In u (says_ops H) -> In v (says_ops H) -> u_ref u = u_id v -> uuid_ltb (u_id v) (u_id u) = true.
Proof.
  intros SU G IU IV E. apply says_in in IU as (h & c & I1 & J1 & ->). apply says_in in IV as (h2 & c2 & I2 & J2 & ->).
  destruct (op_ids U H h2 c2 SU G I2 J2) as (_ & _ & V2 & _). pose proof G as (PR & _). rewrite Forall_forall in PR. destruct (PR h I1) as (_ & LK & _ & BK).
  change (text_ref c = text_id c2) in E. change (uuid_ltb (text_id c2) (text_id c) = true). rewrite <- E in V2 |- *. destruct J1 as [<-|J1]; [apply BK; exact V2|].
  clear -LK J1. revert LK J1. generalize (ch_head h). induction (ch_rest h) as [|x r IH]; intros y LK J; [destruct J|]. destruct LK as (_ & L2 & L3 & L4).
  destruct J as [<-|J]; [rewrite L3; exact L2|exact (IH x L4 J)].
Qed.
Lemma nodup_sub l1 l2 : subl l1 l2 -> NoDup (map u_id l2) -> NoDup (map u_id l1).
Proof.
  intros S0. apply (subl_map u_id) in S0. induction S0 as [|x a b S0 IH|x a b S0 IH]; intro ND; [constructor|inversion ND; auto|]. inversion ND; subst. constructor; [|auto].
  intro Q. match goal with K : ~ In _ b |- _ => apply K end. eapply subl_in; eassumption.
Qed.
Lemma says_filter p H : subl (says_ops (filter p H)) (says_ops H).
Proof.
  induction H as [|h H IH]; [constructor|]. change (h :: H) with ([h] ++ H). rewrite filter_app, !says_app. apply subl_app; [|exact IH].
  cbn [filter]. destruct (p h); [apply subl_refl|apply subl_nil].
Qed.
Lemma state_apt U H h : sound U -> good U H -> fits fuel H -> In h H -> apt (says_ops (filed (statekey h) H)).
Proof.
  intros SU G FT IH. pose proof G as (_ & _ & IT & _ & _ & IN). rewrite (state_filed U H h SU G IH H (incl_refl _)). destruct (FT (logkey h) (form_of_log h)) as [(M & L & NN & R) _].
  cbn [map length] in *. change (room []) with 0%nat in R. rewrite app_nil_r in M.
  pose proof (filed_filter U H (logkey h) G (form_of_log h)) as FF.
  assert (SB : subl (says_ops (filed (logkey h) H)) (says_ops H)) by (rewrite FF; apply says_filter).
  split; [exact M|]. split; [eapply nodup_sub; [exact SB|apply in_turn_nodup; exact IT]|]. split; [|split; [lia|split; lia]].
  intros u v IU IV. apply (refs_back U H); [exact SU|exact G|eapply subl_in; eassumption|eapply subl_in; eassumption].
Qed.
End Story.
