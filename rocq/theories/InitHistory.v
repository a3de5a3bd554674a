(* C74: init again, over a replica made by init. *)
From Coq Require Import Sorted.
From Verif Require ClockTheorems.
From Verif Require Import Prelude UuidModel UuidProofs KeyModel KeyProofs CodecModel CodecTheorems TextModel TextSpec BuilderSpec MetaTheorems MergeModel MergeSpec MergeTextModel
  TextMergeSpec TextCursors MergeKeeps TextMerge SizeProofs TextMergeTheorems StoreModel StoreSpec StoreProofs StoreTheorems RocksModel RocksSpec RocksProofs MetaModel ClockModel
  ReplicaModel ReplicaSpec ReplicaProofs ReplicaTheorems BranchModel BranchSpec BranchProofs BranchTheorems DurableSpec DurableProofs DurableTheorems
  ForkModel HostModel HostSpec HostProofs HostTheorems NamesModel NamesSpec NamesTheorems YarnSpec YarnProofs YarnJoin CliModel CliSpec CliProofs CliTheorems CliHistory InitModel InitTheorems.

Section History.
Variable sha : bytes -> bytes.
Variable fbits : bytes -> N.
Variable fuel : nat.
Variable order : list (uuid * uuid) -> list (uuid * uuid).
Notation jread := (b_jread fbits fuel).
Notation jprev := (b_jprev fbits fuel).
Notation create_over := (create_over sha fbits fuel).
Notation init_over := (init_over sha fbits fuel).
Notation session := (session sha fbits fuel order).
Notation cli := (cli sha fbits fuel order).

(* ---- the metadata of a replica whose yarn 0 begins with ev ---- *)
Definition opener (ev : uuid) : uop := mkUop ev YARN_FORM_UUID [].
Definition meta_shape (ev : uuid) (d : family) : Prop :=
  in_order d /\ incl (map fst d) (KEY_ZERO :: ACTIVE_KEY :: NAMES_KEY :: first_keys ev) /\ In KEY_ZERO (map fst d) /\ In (meta_key ev) (map fst d) /\
  log_at d (key_as ev LOG_FORM_UUID) [opener ev] /\
  exists t, state_at d (meta_key ev) [rec_op ev ev YARN_FORM_UUID t] /\ uop_ok (rec_op ev ev YARN_FORM_UUID t) /\ (length t <= 44)%nat.
Definition first_ok (ev : uuid) : Prop := (exists r, r < NEVER_W /\ ev = uuid_time r 0) /\ ~ float_like (write_uuid ev).

Lemma log_as_eq u : key_as u LOG_FORM_UUID = key_of u LOG_RAW_FORM.
Proof. unfold key_as. assert (E : uuid2form LOG_FORM_UUID = LOG_RAW_FORM) by (vm_compute; reflexivity). rewrite E. reflexivity. Qed.
Lemma yarn_as_eq u : key_as u YARN_FORM_UUID = key_of u YARN_RAW_FORM.
Proof. unfold key_as. assert (E : uuid2form YARN_FORM_UUID = YARN_RAW_FORM) by (vm_compute; reflexivity). rewrite E. reflexivity. Qed.
Lemma log_as_form u : key_form (key_as u LOG_FORM_UUID) = LOG_RAW_FORM.
Proof. rewrite log_as_eq. apply key_form_of. reflexivity. Qed.
Lemma first_time ev : first_ok ev -> version ev = TIME /\ uvalue ev < NEVER_W /\ tip_ok ev /\ id_ok ev /\ key_id_ok ev.
Proof.
  intros [(r & L & ->) _]. pose proof (ClockTheorems.time_version r 0) as V. assert (T : tip_ok (uuid_time r 0)) by (apply uuid_time_ok; eapply N.lt_trans; [exact L|reflexivity]).
  split; [exact V|]. split; [exact L|]. split; [exact T|]. split; [exact (proj1 T)|]. apply time_key; [exact (proj1 T)|exact V|apply N.lt_le_incl; exact L].
Qed.
Lemma one_alone u : u_id u <> inc NIL -> uvalue (u_id u) < 2 ^ 64 - 1 -> forall a b : uop, In a [origin_op; u] -> In b [u] -> u_id b = inc (u_id a) -> False.
Proof.
  intros NI LV a b [<-|[<-|[]]] [<-|[]] E; [exact (NI E)|]. pose proof (inc_gt (u_id u) LV) as G. rewrite <- E in G. rewrite uuid_ltb_irrefl in G. discriminate.
Qed.
Lemma one_mergeable u : uop_ok u -> uvalue (u_id u) < 2 ^ 64 - 1 -> u_id u <> inc NIL -> mergeable [u] /\ spanless [u].
Proof.
  intros OK LV NI. pose proof (one_alone u NI LV) as N1.
  assert (N2 : forall a b : uop, In a [origin_op; u] -> In b [u] -> continues a b = false).
  { intros a b I J. destruct (continues a b) eqn:C; [|reflexivity]. exfalso. unfold continues in C. apply andb_prop in C as [C _]. apply andb_prop in C as [C _]. apply uuid_eqb_eq in C. exact (N1 a b I J C). }
  split.
  - split; [constructor; [exact OK|constructor]|]. split; [intros a b [<-|[]] [<-|[]] _; reflexivity|]. split; [intros a b I J E; exfalso; exact (N1 a b I J E)|].
    split; [intros a b I J C; rewrite (N2 a b (or_intror I) J) in C; discriminate|]. intros b J. apply N2; [left; reflexivity|exact J].
  - intros a b I J. apply N2; [right; exact I|exact J].
Qed.
Lemma never_small v : v < NEVER_W -> v < 2 ^ 64 - 1.
Proof. intro L. assert (N : NEVER_W < 2 ^ 64 - 1) by reflexivity. exact (N.lt_trans _ _ _ L N). Qed.
Lemma opener_fits ev : first_ok ev -> (2 <= fuel)%nat -> keep_bound fuel [opener ev] [] /\ spanless [opener ev].
Proof.
  intros FO F2. destruct (first_time _ FO) as (_ & NV & [ID NI] & _).
  destruct (one_mergeable (opener ev)) as [M S]; [split; [exact ID|split; [split; [split|]; reflexivity|constructor]]|exact (never_small _ NV)|exact NI|].
  split; [|exact S]. split; [exact M|]. split; [cbn; lia|]. split; [reflexivity|]. vm_compute. reflexivity.
Qed.

(* ---- what keeps the shape ---- *)
Lemma write_add d k f d' s : k <> KEY_END -> b_write d k f = Done (d', s) -> d' = add_operand d k f.
Proof. intros NE W. unfold b_write, rocks_write in W. rewrite (key_eqb_neq _ _ NE) in W. cbn [andb] in W. congruence. Qed.
Lemma other_keys ev k : In k [KEY_ZERO; ACTIVE_KEY; NAMES_KEY] -> k <> key_as ev LOG_FORM_UUID /\ k <> meta_key ev.
Proof.
  intro I. assert (F : key_form k = ZERO_RAW_FORM \/ key_form k = LWW_RDT_FORM) by (destruct I as [<-|[<-|[<-|[]]]]; [left|left|right]; vm_compute; reflexivity).
  split; apply form_key_neq; rewrite ?log_as_form, ?meta_key_form; destruct F as [-> | ->]; discriminate.
Qed.
Lemma shape_add ev d k f : meta_shape ev d -> In k [KEY_ZERO; ACTIVE_KEY; NAMES_KEY] -> meta_shape ev (add_operand d k f).
Proof.
  intros (IO & KS & KZ & KM & LA & t & SA & UO & LT) I. destruct (other_keys ev k I) as [N1 N2].
  assert (C : forall j, j <> k -> cell_at (add_operand d k f) j = cell_at d j) by (intros j NJ; rewrite add_at by exact IO; rewrite key_eqb_neq; [reflexivity|congruence]).
  split; [apply put_order; exact IO|]. split; [|split; [|split; [|split]]].
  - intros j J. unfold add_operand in J. apply put_keys in J as [->|J]; [|exact (KS _ J)]. destruct I as [<-|[<-|[<-|[]]]]; cbn [In]; auto.
  - unfold add_operand. apply put_keys. right. exact KZ.
  - unfold add_operand. apply put_keys. right. exact KM.
  - unfold log_at. rewrite C by congruence. exact LA.
  - exists t. split; [|auto]. unfold state_at. rewrite C by congruence. exact SA.
Qed.
Lemma shape_compact ev d k e d' : first_ok ev -> (2 <= fuel)%nat -> meta_shape ev d -> compact fbits fuel d k e = Done d' -> meta_shape ev d'.
Proof.
  intros FO F2 (IO & KS & KZ & KM & LA & t & SA & UO & LT) CP. destruct (first_time _ FO) as (_ & NV & TK & _). destruct (opener_fits _ FO F2) as [KB SP].
  assert (KS1 : forall j, In j (map fst d') <-> In j (map fst d)).
  { intro j. clear -CP. unfold compact in CP. destruct (existsb _ d) eqn:E; [|injection CP as <-; reflexivity]. apply rbind_done in CP as (c & _ & CP). injection CP as <-. rewrite put_keys.
    split; [|auto]. intros [->|I]; [|exact I]. apply existsb_exists in E as ([k2 c2] & I & E). cbn [fst] in E. apply key_eqb_eq in E. subst k2. apply (in_map fst) in I. exact I. }
  assert (IO1 : in_order d').
  { unfold compact in CP. destruct (existsb _ d); [|injection CP as <-; exact IO]. apply rbind_done in CP as (c & _ & CP). injection CP as <-. apply put_order. exact IO. }
  assert (OTH : forall j, j <> k -> cell_at d' j = cell_at d j) by (intros j NJ; apply (compact_other fbits fuel j d k e d' IO); [congruence|exact CP]).
  split; [exact IO1|]. split; [intros j J; apply KS; apply KS1; exact J|]. split; [apply KS1; exact KZ|]. split; [apply KS1; exact KM|]. split.
  - destruct (key_eqb k (key_as ev LOG_FORM_UUID)) eqn:EK; [|unfold log_at; rewrite OTH; [exact LA|intro Q; rewrite <- Q, key_eqb_refl in EK; discriminate EK]].
    apply key_eqb_eq in EK. subst k. apply log_inv_at in LA as (ds & LI & ED). apply log_inv_at. exists ds. split; [|exact ED].
    apply (compact_ok fbits fuel (key_as ev LOG_FORM_UUID) (log_bound fuel) log_inv (log_partial fbits fuel _ (log_as_form ev)) (log_full fbits fuel _ (log_as_form ev)) d e d' ds IO LI); [|exact CP].
    apply log_of_keep; rewrite ED; assumption.
  - exists t. split; [|auto]. destruct (key_eqb k (meta_key ev)) eqn:EK; [|unfold state_at; rewrite OTH; [exact SA|intro Q; rewrite <- Q, key_eqb_refl in EK; discriminate EK]].
    apply key_eqb_eq in EK. subst k. apply union_inv_at in SA as (ds & UI & ED). apply union_inv_at. exists ds. split; [|exact ED].
    apply (compact_ok fbits fuel (meta_key ev) (union_bound fuel) union_inv (union_partial fbits fuel _ (meta_forms _)) (union_full fbits fuel _ (meta_forms _)) d e d' ds IO UI); [|exact CP].
    eapply rec_bound; try eassumption. lia.
Qed.

(* ---- the first event of yarn 0 is found ---- *)
Lemma shape_record ev d : first_ok ev -> (2 <= fuel)%nat -> meta_shape ev d -> exists text c t,
  cell_get fbits fuel (meta_key ev) (cell_at d (meta_key ev)) = Done (GValue text) /\ next (cursor_of text) = NOk c /\ opof c = rec_op ev ev YARN_FORM_UUID t.
Proof.
  intros FO F2 (_ & _ & _ & _ & _ & t & SA & UO & LT). destruct (first_time _ FO) as (_ & NV & TK & _). set (u := rec_op ev ev YARN_FORM_UUID t) in *.
  apply union_inv_at in SA as (ds & UI & ED). assert (UB : union_bound fuel ds) by (eapply rec_bound; try eassumption; lia).
  assert (NDS : ds <> []) by (intros ->; discriminate ED).
  destruct (union_get_small fbits fuel (meta_key ev)) with (c := cell_at d (meta_key ev)) (W := ds) as (text & us & CG & FL & INC & IU & SM & LU & _); [apply meta_forms|exact UI|exact UB|exact NDS| |].
  { intro Q. destruct UI as (es & SY & _). unfold RocksProofs.says in SY. destruct SY as (F & SE & _). rewrite Q in F. inversion F; subst.
    specialize (SE u). rewrite ED in SE. destruct SE as [_ SE]. destruct (SE (or_introl eq_refl)). }
  rewrite ED in IU. assert (EU : us = [u]).
  { assert (LD : length (concat ds) = 1%nat) by (rewrite <- (map_length bare), ED; reflexivity). rewrite LD in LU. assert (J : In u us) by (apply IU; left; reflexivity).
    destruct us as [|x [|y l]]; [destruct J| |cbn in LU; lia]. destruct J as [->|[]]. reflexivity. }
  subst us. destruct (frame_ops text (chunk_of [u]) (conj FL SM)) as (L & OL & ML & _).
  destruct L as [|c L]; [discriminate ML|]. exists text, c, t. split; [exact CG|]. split; [exact (ops_first _ _ _ OL)|].
  cbn [map] in ML. assert (Q : rop_of c = hd (rop_of c) (chunk_of [u])) by (rewrite <- ML; reflexivity). unfold opof. rewrite Q. reflexivity.
Qed.
Lemma shape_keys ev d k : first_ok ev -> meta_shape ev d -> In k (map fst d) -> k = meta_key ev \/ key_lt k (meta_key ev) \/ k = NAMES_KEY.
Proof.
  intros FO (_ & KS & _) I. destruct (first_time _ FO) as (_ & _ & _ & _ & K). apply KS in I. unfold first_keys in I. cbn [In] in I.
  assert (Z : forall f, In (kfirst f) [0; kfirst ACTIVE_KEY] -> key_form f = ZERO_RAW_FORM -> f <> meta_key ev -> key_lt f (meta_key ev)).
  { intros f J FF NE. rewrite key_ltb_lt. left. rewrite meta_key_eq, key_of_eq by reflexivity. cbn [kfirst]. assert (A : kfirst ACTIVE_KEY < META_META_FORM * 2 ^ 56) by (vm_compute; reflexivity).
    assert (B : 0 < META_META_FORM * 2 ^ 56) by (vm_compute; reflexivity). destruct J as [<-|[<-|[]]]; lia. }
  destruct I as [<-|[<-|[<-|[<-|[<-|[<-|[]]]]]]].
  - right; left. apply Z; [left; vm_compute; reflexivity|vm_compute; reflexivity|]. intro Q. exact (meta_not_zero _ (eq_sym Q)).
  - right; left. apply Z; [right; left; reflexivity|vm_compute; reflexivity|]. apply (proj2 (other_keys ev ACTIVE_KEY ltac:(cbn; auto))).
  - auto.
  - left. reflexivity.
  - right; left. rewrite log_as_eq, meta_key_eq. apply form_key_lt; [exact K|exact K|reflexivity..].
  - right; left. rewrite yarn_as_eq, meta_key_eq. apply form_key_lt; [exact K|exact K|reflexivity..].
Qed.
Lemma shape_log ev d : first_ok ev -> (2 <= fuel)%nat -> meta_shape ev d -> exists text c, jread d [] (key_of ev LOG_RAW_FORM) = Done (d, [], text, ROk) /\ ops_of text [c] /\ text_id c = ev.
Proof.
  intros FO F2 (_ & _ & _ & _ & LA & _). destruct (opener_fits _ FO F2) as [KB SP].
  destruct (log_cell fbits fuel d (key_as ev LOG_FORM_UUID) [opener ev] (log_as_form ev) LA KB SP ltac:(discriminate)) as (text & L & CG & OL & AL).
  unfold as_ops in AL. destruct L as [|c [|c2 L]]; try discriminate AL. exists text, c. split; [|split; [exact OL|]].
  - rewrite <- log_as_eq. assert (RD : rocks_read fbits fuel d (key_as ev LOG_FORM_UUID) = Done (text, KOk)).
    { apply read_of; [|exact CG]. intro Q. pose proof (log_as_form ev) as F. rewrite Q in F. vm_compute in F. discriminate F. }
    unfold BranchModel.b_jread. rewrite RD. cbn [rbind]. assert (E : read bytes [] (merge_as fbits fuel) [] (key_as ev LOG_FORM_UUID) [] = Done ([], [], StOK)) by reflexivity. rewrite E. cbn [rbind blank].
    destruct text as [|x text]; cbn [blank]; reflexivity.
  - apply (f_equal (hd (opof c))) in AL. cbn [map hd] in AL. rewrite <- opof_id. change (u_id (opof c) = u_id (opener ev)). rewrite <- AL. reflexivity.
Qed.
Lemma shape_tip ev d : first_ok ev -> (2 <= fuel)%nat -> meta_shape ev d -> ~ no_tip family jread jprev d [] (uorigin ev).
Proof.
  intros FO F2 MS NT. destruct (first_time _ FO) as (VT & NV & TK & ID & K). pose proof MS as (IO & KS & KZ & KM & _).
  assert (KN : key_id_ok (mkUuid NEVER_W (uorigin ev))).
  { apply never_id; [exact (proj2 ID)|]. rewrite <- VT. apply version_origin. reflexivity. }
  assert (LAND : forall f c, jprev d [] (key_as (mkUuid NEVER_W (uorigin ev)) META_FORM_UUID) = Done (f, ROk) -> next (cursor_of f) = NOk c -> exists t, opof c = rec_op ev ev YARN_FORM_UUID t).
  { intros f c J N. destruct (jprev_bare fbits fuel d _ f ROk IO KZ (key_before_end _ KN) J eq_refl) as (k & g & IK & LE & MX & CG & EF). change (key_as (mkUuid NEVER_W (uorigin ev)) META_FORM_UUID) with (meta_key (mkUuid NEVER_W (uorigin ev))) in *.
    assert (LM : ~ key_lt (meta_key (mkUuid NEVER_W (uorigin ev))) (meta_key ev)) by (rewrite (meta_key_lt _ _ KN K); cbn [uorigin uvalue]; lia). specialize (MX _ KM LM).
    assert (EK : k = meta_key ev).
    { destruct (shape_keys _ _ _ FO MS IK) as [->|[Q|Q]]; [reflexivity|contradiction|]. exfalso. apply LE. rewrite Q, meta_key_eq, key_ltb_lt. left. rewrite key_of_eq by reflexivity. cbn [kfirst uorigin].
      assert (A : META_META_FORM * 2 ^ 56 + 2 ^ 56 <= kfirst NAMES_KEY) by (vm_compute; discriminate). change (2 ^ 60) with 1152921504606846976 in *. change (2 ^ 56) with 72057594037927936 in *. pose proof (N.mod_lt (uorigin ev) 1152921504606846976 ltac:(discriminate)).
      assert (uorigin ev mod 1152921504606846976 / 16 < 72057594037927936) by (apply N.div_lt_upper_bound; [discriminate|]; lia). lia. }
    subst k. destruct (shape_record _ _ FO F2 MS) as (text & c2 & t & CG2 & N2 & OP). rewrite CG in CG2. injection CG2 as ->. subst f. rewrite N in N2. injection N2 as <-. eauto. }
  destruct NT as [(f & J)|[(f & c & J & N & Q)|(head & obj & rdt & log & (f & c & J & N & T1 & T2 & T3 & T4 & T5) & Q)]].
  - exact (jprev_found _ _ _ _ _ _ _ J eq_refl).
  - destruct (LAND f c J N) as (t & E). apply record_uuids in E as (E1 & E2 & _). destruct Q as [Q|Q]; congruence.
  - destruct (LAND f c J N) as (t & E). apply record_uuids in E as (E1 & E2 & E3 & _). assert (head = ev) by congruence. assert (obj = ev) by congruence. subst head obj.
    destruct (shape_log _ _ FO F2 MS) as (text & x & RD & OL & TX).
    assert (LI : forall s, log_is family jread d [] ev log s -> log = text /\ s = ROk) by (intros s (m' & w' & Q2); rewrite RD in Q2; split; congruence).
    destruct Q as [Q|[(Q & Q2)|(Q & l & y & e & R & LD & OX & NX)]].
    + apply LI in Q as [_ Q]. discriminate Q.
    + apply LI in Q as [-> _]. destruct OL as (ce & de & R & _). pose proof (run_to_last _ [] x _ R) as RL. subst ce. apply (Q2 x); [|congruence]. exists []. exact R.
    + apply LI in Q as [-> _]. destruct (ops_prefix _ _ _ _ R OL) as (rest & EL). destruct LD as (a & z & b & E0 & _). rewrite E0 in EL. apply (f_equal (@length _)) in EL. rewrite !app_length in EL. cbn [length] in EL. lia.
Qed.

(* ---- the beginning ---- *)
Strategy expand [h_new InitModel.create_over].
Lemma init_over_nothing reading fs s : init sha fbits fuel reading = Done (fs, s) -> exists d, fs = [(NIL, d)] /\ create_over [] reading = Done (d, s).
Proof.
  intro H. apply init_inv in H as (h & H & ->). unfold InitModel.create_over. unfold h_new in H. unfold b_create in H. destruct (one_op NIL ZERO_FORM_UUID []) as [f0|]; [|discriminate].
  apply rbind_done in H as ([d s0] & W & H). rewrite W. cbn [rbind]. destruct (is_ok s0); cbn [negb] in *; [|injection H as <- <-; exists d; split; reflexivity].
  apply rbind_done in H as ([h1 s1] & RO & H). rewrite RO. cbn [rbind]. destruct (find_store (h_stores h1) NIL) as [b|]; [|discriminate]. destruct (one_op (uuid_time reading 0) YARN_FORM_UUID []) as [f|]; [|discriminate].
  apply rbind_done in H as (c & N & H). rewrite N. cbn [rbind]. apply rbind_done in H as ([[st cx] s2] & SC & H). rewrite SC. cbn [rbind]. apply rbind_done in H as ([st2 s3] & SV & H). rewrite SV. cbn [rbind].
  injection H as <- <-. exists (s_main family st2). split; reflexivity.
Qed.
Lemma start_shape r0 fs s : first_ok (uuid_time r0 0) -> r0 < NEVER_W -> init sha fbits fuel r0 = Done (fs, s) -> exists d, fs = [(NIL, d)] /\ meta_shape (uuid_time r0 0) d.
Proof.
  intros FO L H. pose proof (C56_new sha fbits fuel) as C56. destruct (init_inv _ _ _ _ _ _ H) as (h & HN & EF). specialize (C56 r0 h s L HN). destruct C56 as (_ & _ & _ & _ & b & IB & TB).
  destruct (init_over_nothing _ _ _ H) as (d & -> & C). exists d. split; [reflexivity|].
  assert (ED : br_main b = d).
  { assert (I : In (NIL, br_main b) (left_by h)) by (unfold left_by; apply in_map_iff; exists (NIL, b); split; [reflexivity|exact IB]). rewrite <- EF in I. destruct I as [I|[]]. congruence. }
  rewrite ED in TB. clear ED IB b EF HN h H. destruct (first_time _ FO) as (VT & NV & TK & ID & K).
  destruct (create_over_inv sha fbits fuel [] r0 d s ltac:(constructor) L C) as (f0 & d1 & F0 & E1 & T1 & _ & R). cbv zeta in R. remember (uuid_time r0 0) as ev eqn:EE.
  destruct R as [->|(mf & df & f & NT & RC & OD & OF & T2 & CA & KS)].
  { exfalso. assert (Q : ev = NIL). { eapply tipped_one; eassumption. } rewrite Q in VT. discriminate VT. }
  assert (CE : forall k, k <> KEY_ZERO -> cell_at d1 k = cell0).
  { intros k NK. rewrite E1, add_at by constructor. rewrite key_eqb_neq by congruence. reflexivity. }
  assert (KF1 : key_form (key_as ev META_FORM_UUID) = META_META_FORM) by exact (meta_key_form ev). pose proof (log_as_form ev) as KF2.
  assert (KF3 : key_form (key_as ev YARN_FORM_UUID) = YARN_RAW_FORM) by (rewrite yarn_as_eq; apply key_form_of; reflexivity).
  split; [exact (proj1 T2)|]. split; [|split; [|split; [|split]]].
  - intros k I. apply KS in I as [I|I].
    + rewrite E1 in I. unfold add_operand in I. apply put_keys in I as [->|[]]. left. reflexivity.
    + destruct I as [<-|I]; [left; reflexivity|]. right; right; right. exact I.
  - apply KS. right. left. reflexivity.
  - apply KS. right. right. left. reflexivity.
  - exists [[mkRop ev YARN_FORM_UUID [] RAW]]. split; [|reflexivity]. rewrite CA, CE by (apply form_key_neq; rewrite KF2; vm_compute; discriminate). cbn [cell0 ce_value ce_operands held app].
    change [?a; ?b; ?e; ?g] with ([a] ++ [b] ++ [e] ++ [g]). rewrite !contents_app, !contents_one. rewrite key_eqb_refl. rewrite !key_eqb_neq by (apply form_key_neq; rewrite ?KF1, ?KF2, ?KF3; vm_compute; discriminate). cbn [app].
    constructor; [|constructor]. apply one_says; [exact TK|split; [split|]; reflexivity|exact OD].
  - destruct (record_says _ _ _ _ RC TK) as (t & FS & UO & LT); [split; [exact ID|exact (proj2 FO)]|split; [split; [split|]; reflexivity|]|].
    { apply not_float. vm_compute. reflexivity. }
    exists t. split; [|auto]. exists [[mkRop ev META_FORM_UUID [VUuid ev; VUuid YARN_FORM_UUID; VStr (Some t)] RAW]]. rewrite CA. change (key_as ev META_FORM_UUID) with (meta_key ev) in *. rewrite CE by apply meta_not_zero. cbn [cell0 ce_value ce_operands held app].
    change [?a; ?b; ?e; ?g] with ([a] ++ [b] ++ [e] ++ [g]). rewrite !contents_app, !contents_one. rewrite key_eqb_refl. rewrite !key_eqb_neq by (apply form_key_neq; rewrite ?KF1, ?KF2, ?KF3; vm_compute; discriminate). cbn [app].
    split; [constructor; [split; [exact FS|]|constructor]|]. { repeat constructor. }
    split; [intro u; reflexivity|]. split; [apply le_n|]. split; [apply le_n|]. intro Q. exfalso. exact (Q eq_refl).
Qed.
Strategy transparent [h_new InitModel.create_over].

(* ---- the commands ---- *)
Hypothesis FB : 2 * N.of_nat fuel < ROOM.
Definition meta_of (P : family -> Prop) (fs : world) : Prop := exists d, In (NIL, d) fs /\ P d.
Lemma step_meta (P : family -> Prop) fs i p : (forall d k f, P d -> In k [ACTIVE_KEY; NAMES_KEY] -> P (add_operand d k f)) ->
  world_ok fs -> calm i p -> cli fs i = Done p -> meta_of P fs -> meta_of P (p_families p).
Proof.
  intros PA WO CM H (d & I & PD). destruct (cli_out _ _ _ order FB _ _ _ WO CM H) as (h & h' & [((S & O & AC & NZ) & LF & PF & PC & OUT & _)|(IA & PF & PS & _)]); [|exists d; rewrite PF; auto].
  rewrite <- LF in I. destruct (main_of _ _ _ S I) as (m & FM & <- & IO). rewrite PF. unfold left_by. fold (families (h_stores h')).
  assert (PB : forall a b now rs n v b' u, P (br_main b) -> b_name a b now rs n v = Done (b', u) -> P (br_main b')).
  { intros a b now rs n v b' u Q BN. unfold b_name in BN. destruct (one_op _ NIL _) as [f|]; [|discriminate]. apply rbind_done in BN as ([d2 s] & W & BN). injection BN as <- _. cbn [br_main].
    rewrite (write_add _ _ _ _ _ names_not_end W). apply PA; [exact Q|right; left; reflexivity]. }
  destruct OUT as [h' s ST Q|args h' m2 b f d2 IA FM2 F W0 C|w args id b h' IA M NI F ST|args m2 f d2 h' IA FM2 W0 ST|x n tail id b b' u h' IA TL VX F BN R1 R2 ST].
  - exists (br_main m). split; [rewrite ST; exact I|exact PD].
  - rewrite FM in FM2. injection FM2 as <-. pose proof (write_add _ _ _ _ _ active_not_end W0) as ED. assert (P2 : P d2) by (rewrite ED; apply PA; [exact PD|left; reflexivity]).
    assert (FN : find_store (h_stores h ++ [(branch_id (i_random i), b)]) NIL = Some m) by (rewrite (find_app _ _ _ _ F), (eqb_other _ _ (branch_nil _)); exact FM).
    destruct C as [(SN & ST)|(tag & now & rs & u & b2 & SN & BN & R1 & R2 & ST)].
    + destruct (put_split _ _ (mkBranch d2 (br_tip m)) _ FN) as (l1 & l2 & _ & E2). exists d2. rewrite ST, E2. split; [apply in_or_app; right; left; reflexivity|exact P2].
    + destruct (put_split _ _ b2 _ FN) as (l1 & l2 & _ & E2). exists (br_main b2). rewrite ST, E2. split; [apply in_or_app; right; left; reflexivity|]. exact (PB _ (mkBranch d2 (br_tip m)) _ _ _ _ _ _ P2 BN).
  - exists (br_main m). split; [|exact PD]. destruct (drop_split _ _ _ (proj1 (proj2 S)) F) as (l1 & l2 & E1 & E2). rewrite ST, E2. unfold left_by in I. fold (families (h_stores h)) in I. rewrite E1 in I.
    apply in_app_iff in I as [I|[I|I]]; [apply in_or_app; auto|injection I as K _; congruence|apply in_or_app; auto].
  - rewrite FM in FM2. injection FM2 as <-. pose proof (write_add _ _ _ _ _ active_not_end W0) as ED.
    destruct (put_split _ _ (mkBranch d2 (br_tip m)) _ FM) as (l1 & l2 & _ & E2). exists d2. rewrite ST, E2. split; [apply in_or_app; right; left; reflexivity|]. rewrite ED. apply PA; [exact PD|left; reflexivity].
  - destruct (put_split _ _ b' _ F) as (l1 & l2 & E1 & E2). destruct (uuid_eqb id NIL) eqn:EI.
    + apply uuid_eqb_eq in EI. subst id. rewrite FM in F. injection F as <-. exists (br_main b'). rewrite ST, E2. split; [apply in_or_app; right; left; reflexivity|]. exact (PB _ _ _ _ _ _ _ _ PD BN).
    + assert (NI : id <> NIL) by (intros ->; rewrite (proj2 (uuid_eqb_eq _ _) eq_refl) in EI; discriminate EI).
      exists (br_main m). split; [|exact PD]. rewrite ST, E2. unfold left_by in I. fold (families (h_stores h)) in I. rewrite E1 in I.
      apply in_app_iff in I as [I|[I|I]]; [apply in_or_app; auto|injection I as K _; congruence|apply in_or_app; right; right; exact I].
Qed.
Lemma compact_meta (P : family -> Prop) fs id k e h s : (forall d d', P d -> compact fbits fuel d k e = Done d' -> P d') ->
  world_ok fs -> h_compact fbits fuel (shut fs) id k e = Done (h, s) -> meta_of P fs -> meta_of P (left_by h).
Proof.
  clear FB. intros PC WO C (d & I & PD). destruct WO as [S0 _]. rewrite <- (left_shut fs) in I. destruct (main_of _ _ _ S0 I) as (m & FM & <- & IO).
  destruct (compact_inv _ _ _ _ _ _ _ _ C) as (_ & _ & _ & _ & [(_ & ST)|(b & d & F & CP & ST)]).
  { exists (br_main m). split; [unfold left_by; rewrite ST; exact I|exact PD]. }
  destruct (put_split _ _ (mkBranch d (br_tip b)) _ F) as (l1 & l2 & E1 & E2). cbn [br_main] in E2.
  assert (L : left_by h = l1 ++ (id, d) :: l2) by (unfold left_by; rewrite ST; exact E2). rewrite L. unfold left_by in I. fold (families (h_stores (shut fs))) in I. rewrite E1 in I.
  destruct (uuid_eqb id NIL) eqn:EI.
  - apply uuid_eqb_eq in EI. subst id. rewrite FM in F. injection F as <-. exists d. split; [apply in_or_app; right; left; reflexivity|]. exact (PC _ _ PD CP).
  - exists (br_main m). split; [|exact PD]. assert (NI : id <> NIL) by (intros ->; rewrite (proj2 (uuid_eqb_eq _ _) eq_refl) in EI; discriminate EI).
    apply in_app_iff in I as [I|[I|I]]; [apply in_or_app; auto|injection I as K _; congruence|apply in_or_app; right; right; exact I].
Qed.
Lemma session_meta ev fs l fs' : first_ok ev -> (2 <= fuel)%nat -> session fs l fs' -> Forall (fun x => calm (fst x) (snd x)) l -> world_ok fs -> meta_of (meta_shape ev) fs -> meta_of (meta_shape ev) fs'.
Proof.
  intros FO F2. induction 1 as [fs|fs i p r fs' C S IH|fs id k e h s r fs' C S IH]; intros F W M; [exact M| |].
  - inversion F as [|? ? F1 F3]; subst. apply IH; [exact F3|exact (proj2 (C64_effect _ _ _ order FB _ _ _ W F1 C))|]. apply (step_meta _ fs i p); try assumption. intros d k f MS I. apply shape_add; [exact MS|]. right. exact I.
  - assert (W1 : world_ok (left_by h)) by (apply (C64_session sha fbits fuel order FB fs [] (left_by h)); [eapply ses_compact; [exact C|constructor]|constructor|exact W]).
    apply IH; [exact F|exact W1|]. apply (compact_meta _ fs id k e h s); try assumption. intros d d' MS CP. exact (shape_compact _ _ _ _ _ FO F2 MS CP).
Qed.

(* ---- the life of a directory: init, then commands, compactions and inits again ---- *)
Inductive life (r0 : N) : world -> Prop :=
| life_first fs s : init sha fbits fuel r0 = Done (fs, s) -> life r0 fs
| life_session fs l fs' : life r0 fs -> session fs l fs' -> Forall (fun x => calm (fst x) (snd x)) l -> life r0 fs'
| life_init fs r fs' s : life r0 fs -> r < NEVER_W -> init_over fs r = Done (fs', s) -> life r0 fs'.

Theorem C74_life r0 fs : r0 < NEVER_W -> life r0 fs -> world_ok fs.
Proof.
  intros L0. induction 1 as [fs s I|fs l fs' LF IH S F|fs r fs' s LF IH L H].
  - exact (proj1 (proj2 (C64_init _ _ _ _ _ _ L0 I))).
  - exact (C64_session _ _ _ order FB _ _ _ S F IH).
  - exact (proj1 (C74_effect _ _ _ _ _ _ _ IH L H)).
Qed.
Lemma over_again ev fs r fs' s : first_ok ev -> (2 <= fuel)%nat -> world_ok fs -> meta_of (meta_shape ev) fs -> r < NEVER_W -> uorigin ev = uorigin (uuid_time r 0) -> init_over fs r = Done (fs', s) ->
  s = RDbFail /\ fs' = fs /\ map fst fs <> [NIL] \/
  s = ROk /\ exists d d', fs = [(NIL, d)] /\ fs' = [(NIL, d')] /\ meta_shape ev d' /\ same_but [KEY_ZERO] d d' /\ tipped d' NIL.
Proof.
  clear FB. intros FO F2 WO (d & I & MS) L EO H. unfold InitModel.init_over in H.
  destruct fs as [|[id x] [|q r1]]; [destruct I| |injection H as <- <-; left; split; [reflexivity|split; [reflexivity|discriminate]]].
  destruct I as [I|[]]. injection I as -> ->. rewrite (proj2 (uuid_eqb_eq NIL NIL) eq_refl) in H. apply rbind_done in H as ([d' s0] & C & H). injection H as <- <-. right.
  pose proof (proj1 MS) as IO. destruct (create_over_inv _ _ _ _ _ _ _ IO L C) as (f0 & d1 & F0 & E1 & T1 & -> & K). cbv zeta in K.
  assert (M1 : meta_shape ev d1) by (rewrite E1; apply shape_add; [exact MS|left; reflexivity]).
  destruct K as [->|(mf & df & f & NT & _)]; [|exfalso; rewrite <- EO in NT; exact (shape_tip _ _ FO F2 M1 NT)].
  split; [reflexivity|]. exists d, d1. split; [reflexivity|]. split; [reflexivity|]. split; [exact M1|]. split; [rewrite E1; apply zero_same; exact IO|exact T1].
Qed.
Lemma life_shape r0 fs : r0 < NEVER_W -> ~ float_like (write_uuid (uuid_time r0 0)) -> (2 <= fuel)%nat -> life r0 fs -> meta_of (meta_shape (uuid_time r0 0)) fs.
Proof.
  intros L0 NF F2 LF. assert (FO : first_ok (uuid_time r0 0)) by (split; eauto). induction LF as [fs s I|fs l fs' LF IH S F|fs r fs' s LF IH L H].
  - destruct (start_shape _ _ _ FO L0 I) as (d & -> & MS). exists d. split; [left; reflexivity|exact MS].
  - exact (session_meta _ _ _ _ FO F2 S F (C74_life _ _ L0 LF) IH).
  - destruct (over_again _ _ _ _ _ FO F2 (C74_life _ _ L0 LF) IH L eq_refl H) as [(_ & -> & _)|(_ & d & d' & _ & -> & MS & _)]; [exact IH|]. exists d'. split; [left; reflexivity|exact MS].
Qed.
(* init over a replica made by init is not refused, unless there are branches: it
   answers OK, and all it does is to forget the last event of the metadata *)
Theorem C74_again r0 fs reading fs' s : r0 < NEVER_W -> ~ float_like (write_uuid (uuid_time r0 0)) -> (2 <= fuel)%nat -> life r0 fs -> reading < NEVER_W -> init_over fs reading = Done (fs', s) ->
  s = RDbFail /\ fs' = fs /\ map fst fs <> [NIL] \/
  s = ROk /\ exists d d', fs = [(NIL, d)] /\ fs' = [(NIL, d')] /\ same_but [KEY_ZERO] d d' /\ tipped d' NIL.
Proof.
  intros L0 NF F2 LF L H. assert (FO : first_ok (uuid_time r0 0)) by (split; eauto).
  destruct (over_again _ _ _ _ _ FO F2 (C74_life _ _ L0 LF) (life_shape _ _ L0 NF F2 LF) L eq_refl H) as [Q|(-> & d & d' & E1 & E2 & _ & SB & T)]; [left; exact Q|right]. split; [reflexivity|]. exists d, d'. auto.
Qed.
(* the clock of the next process starts from 0 *)
Theorem C74_clock r0 fs reading fs' h s : r0 < NEVER_W -> ~ float_like (write_uuid (uuid_time r0 0)) -> (2 <= fuel)%nat -> life r0 fs -> reading < NEVER_W -> init_over fs reading = Done (fs', ROk) ->
  h_reopen fbits fuel (shut fs') = Done (h, s) -> h_now h = 0.
Proof.
  intros L0 NF F2 LF L H R. destruct (C74_again _ _ _ _ _ L0 NF F2 LF L H) as [(Q & _)|(_ & d & d' & -> & -> & _ & T)]; [discriminate Q|]. exact (proj2 (first_open _ _ _ _ _ T R)).
Qed.
Lemma jread_same d d' k a b f s : cell_at d' k = cell_at d k -> jread d [] k = Done (a, b, f, s) -> jread d' [] k = Done (d', b, f, s).
Proof.
  clear FB. intros C J. unfold b_jread, rocks_read in *. rewrite C. apply rbind_done in J as ([fa sa] & R & J). rewrite R. cbn [rbind]. destruct sa; try (injection J as _ <- <- <-; reflexivity).
  assert (E : read bytes [] (merge_as fbits fuel) [] k [] = Done ([], [], StOK)) by reflexivity. rewrite E in *. cbn [rbind blank] in *. destruct fa as [|x fa]; cbn [blank] in *; injection J as _ <- <- <-; reflexivity.
Qed.
(* names given before stay *)
Theorem C74_names fs reading fs' s l : world_ok fs -> reading < NEVER_W -> init_over fs reading = Done (fs', s) -> meta_names fbits fuel fs l -> meta_names fbits fuel fs' l.
Proof.
  clear FB. intros WO L H (d & I & B). destruct (C74_effect _ _ _ _ _ _ _ WO L H) as [_ [(_ & -> & _)|(_ & d0 & d' & -> & -> & E)]]; [exists d; auto|]. destruct I as [I|[]]. injection I as ->. exists d'. split; [left; reflexivity|].
  assert (C : cell_at d' NAMES_KEY = cell_at d NAMES_KEY).
  { destruct E as [SB _|SB _]; apply SB; intro Q; cbn [In] in Q.
    - destruct Q as [Q|[]]. vm_compute in Q. discriminate Q.
    - destruct Q as [Q|Q]; [vm_compute in Q; discriminate Q|]. unfold first_keys in Q. assert (NF : key_form NAMES_KEY = LWW_RDT_FORM) by reflexivity. destruct Q as [Q|[Q|[Q|[]]]]; rewrite <- Q in NF; unfold key_as in NF; rewrite key_form_of in NF by (vm_compute; reflexivity); vm_compute in NF; intuition discriminate. }
  unfold b_names in *. cbn [br_main] in *. apply rbind_done in B as ([[[a b] f] s1] & J & B). rewrite (jread_same _ _ _ _ _ _ _ C J). cbn [rbind]. exact B.
Qed.
End History.
Print Assumptions C74_life.
Print Assumptions C74_again.
Print Assumptions C74_clock.
Print Assumptions C74_names.
