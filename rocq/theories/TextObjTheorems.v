(* C72: the state of a text object, on one branch and on two. *)
From Coq Require Import Sorted Permutation.
From Verif Require TextAnswerSpec TextAnswerTheorems ScanSpec AnswerModel.
From Verif Require Import Prelude UuidModel UuidProofs KeyModel KeyProofs CodecModel TextModel TextSpec BuilderSpec BuilderProofs MergeModel MergeSpec MergeProofs RgaProofs RgaTree MergeTextModel
  TextMergeSpec TextCursors MergeKeeps TextMerge SizeProofs TextMergeTheorems StoreModel StoreSpec StoreProofs StoreTheorems RocksModel RocksSpec RocksProofs MetaModel ClockModel
  ReplicaModel ReplicaSpec ReplicaProofs ReplicaTheorems BranchModel BranchSpec BranchProofs BranchTheorems DurableSpec DurableProofs DurableTheorems YarnSpec YarnProofs YarnJoin YarnTheorems
  TextObjSpec TextObjProofs TextObjStory.

Section Texts.
Variable sha : bytes -> bytes.
Variable fbits : bytes -> N.
Variable active : N.
Variable fuel : nat.
Notation rread := (rocks_read fbits fuel).
Notation lives := (lives sha fbits active fuel).
Notation opener ev := (mkUop ev YARN_FORM_UUID []).
Notation state_cell b o t := (cell_at (br_main b) (key_as o t)).

Lemma belongs_root all u o t : belongs all u o t -> exists r, In r all /\ u_id r = o /\ u_ref r = t /\ version t = NAME.
Proof. induction 1 as [u I V|u v o t I V E B IH]; [exists u; auto|exact IH]. Qed.

(* the events of a text object, and what the branch reads of them *)
Lemma object_text now rs yarn tr es ss E b' : lives now rs yarn tr es ss E b' -> let ev := first_event active now rs yarn tr in
  exists hss, keeps ev ev es ss (concat hss) /\ stored_of es ss hss /\ (Forall (apart (opener ev :: map bare E)) hss -> let all := opener ev :: says_ops (concat hss) in
    forall u o t, belongs all u o t -> uuid2form t = RGA_RDT_FORM ->
    exists us T, apt fuel us /\ (forall v, In v us <-> belongs all v o t) /\ causal T /\ Permutation (map bare (listing T)) us /\
      Forall (fun v => version (u_id v) = TIME /\ uvalue (u_id v) < NEVER_W) us /\
      (in_three (state_cell b' o t) -> exists text, rread (br_main b') (key_as o t) = Done (text, KOk) /\ told text (map bare (listing T)) /\ N.of_nat (length text) < 2 ^ 32) /\
      (~ in_three (state_cell b' o t) -> rread (br_main b') (key_as o t) = Done ([], KDbFail))).
Proof.
  intros LV ev. destruct (life_start sha fbits active fuel _ _ _ _ _ _ _ _ LV) as (hss & h & b1 & B1 & KP & ST & IO & SO & OB & RD & SA & SU & G). fold ev in KP, SO, G, OB, SA, SU.
  exists hss. split; [exact KP|]. split; [eapply story_stored; exact ST|]. intros ONE all u o t BU FM. destruct (G ONE) as (GD & B & FT). clear G.
  set (U := opener ev :: map bare E) in *. set (H := [h] ++ concat hss) in *.
  assert (EA : says_ops H = all) by (unfold H; rewrite says_app, SO; reflexivity). rewrite <- EA in BU |- *. clear EA all.
  destruct (whose U H u o t SU GD BU) as (h1 & c1 & I1 & J1 & E1 & OB1 & RD1). set (k := key_as o t) in *.
  assert (SK : k = statekey h1) by (unfold k, statekey; rewrite OB1, RD1; reflexivity).
  assert (FK : key_form k = RGA_RDT_FORM) by (unfold k, key_as; rewrite key_form_of; [exact FM|rewrite FM; reflexivity]).
  pose proof (state_apt fuel U H h1 SU GD FT I1) as AP. rewrite <- SK in AP.
  assert (EF : filed k H = filed k (concat hss)).
  { unfold H. rewrite filed_app. unfold filed at 1. cbn [flat_map]. rewrite OB, RD, !key_eqb_neq; [reflexivity| |].
    - intro Q. apply (f_equal key_form) in Q. rewrite FK in Q. unfold key_as in Q. rewrite key_form_of in Q by reflexivity. discriminate.
    - intro Q. apply (f_equal key_form) in Q. rewrite FK, key_form_of in Q by reflexivity. discriminate. }
  assert (ABS : cell_at (br_main b1) k = cell0).
  { apply cell_at_absent. destruct B1 as (_ & KS & _). rewrite KS. intros [Q|(h' & [<-|[]] & [Q|[Q|[Q|[]]]])].
    - revert Q. apply form_key_neq. rewrite FK. vm_compute. discriminate.
    - apply (f_equal key_form) in Q. rewrite FK, meta_key_form in Q. discriminate.
    - apply (f_equal key_form) in Q. rewrite FK, form_of_log in Q. discriminate.
    - apply (f_equal key_form) in Q. rewrite FK in Q. unfold statekey in Q. rewrite RD in Q. unfold key_as in Q. rewrite key_form_of in Q by reflexivity. discriminate. }
  pose proof GD as (PR & CN & IT & BL & TY & INU). pose proof (in_turn_nodup _ IT) as ND.
  destruct (belongs_root _ _ _ _ BU) as (r & IR & RI & RR & RV).
  assert (NP : ~ plain_objects U).
  { intro PO. unfold plain_objects in PO. rewrite Forall_forall in PO. specialize (PO r (INU r IR)). rewrite RR in PO. specialize (PO RV). unfold plain_type in PO. rewrite FM in PO.
    destruct PO as [Q|[Q|[Q|[]]]]; discriminate. }
  pose proof AP as (_ & _ & _ & LF & L2 & RM).
  destruct (story_trees fbits fuel k (br_main b1) es ss hss (br_main b') ST FK IO []) as [O' CT].
  { rewrite ABS. split; [|discriminate]. exists []. split; [constructor|]. split; [constructor|apply Permutation_refl]. }
  { eapply Forall_impl; [|exact ONE]. intros hs A. cbn beta in A. apply (one_filed U); assumption. }
  { rewrite EF in L2, RM. apply Forall_forall. intros hs I. assert (K : exists a b, filed k (concat hss) = a ++ filed k hs ++ b).
    { apply in_split in I as (x & y & ->). rewrite concat_app. cbn [concat]. rewrite !filed_app. eauto. }
    destruct K as (x & y & K). rewrite K, !says_app, !app_length in L2. rewrite K, !says_app, !room_app in RM.
    assert (SUB : forall z, In z (filed k hs) -> In z H) by (intros z J; eapply filed_in; rewrite EF, K; apply in_or_app; right; apply in_or_app; left; exact J).
    apply (some_trees U); [apply SU| | | |lia|lia].
    - rewrite Forall_forall in *. auto.
    - rewrite Forall_forall in *. intros c J. apply in_flat_map in J as (z & Y1 & Y2). apply CN. apply in_flat_map. exists z. auto.
    - intros v J. apply INU. apply says_in in J as (z & c & Y1 & Y2 & ->). apply says_in. exists z, c. auto. }
  { cbn [app]. rewrite <- EF. exact AP. }
  cbn [app] in CT. rewrite <- EF in CT. set (us := says_ops (filed k H)) in *.
  assert (ME : forall v, In v us <-> belongs (says_ops H) v o t) by (intro v; apply (state_ops U); eauto).
  assert (CL : forall v, In v us -> v = r \/ uuid_ltb (u_id r) (u_id v) = true /\ exists w, In w us /\ u_id w = u_ref v).
  { intros v I. apply ME in I. assert (UP : forall v, belongs (says_ops H) v o t -> u_id v = u_id r \/ uuid_ltb (u_id r) (u_id v) = true).
    { clear v I. intros v BV. induction BV as [x Ix Vx|x y o t Ix Vx Ex By IH]; [left; symmetry; exact RI|].
      assert (LT : uuid_ltb (u_id y) (u_id x) = true) by (apply (refs_back U H); [exact SU|exact GD|exact Ix|exact (belongs_in _ _ _ _ By)|symmetry; exact Ex]).
      destruct IH as [<-|IH]; try assumption; [auto|]. right. eapply uuid_ltb_trans; eassumption. }
    assert (SAME : forall x y, In x (says_ops H) -> In y (says_ops H) -> u_id x = u_id y -> x = y) by (intros x y; apply (nodup_ids (says_ops H)); exact ND).
    pose proof (belongs_in _ _ _ _ I) as IV. inversion I as [x Ix Vx Q1 Q2|x y o' t' Ix Vx Ex By Q1 Q2 Q3]; subst.
    - left. apply SAME; [assumption|assumption|congruence].
    - destruct (UP v I) as [Q|Q]; [left; apply SAME; assumption|]. right. split; [exact Q|]. exists y. split; [apply ME; exact By|exact Ex]. }
  assert (NE : us <> []) by (apply ME in BU; intro Q; rewrite Q in BU; destruct BU).
  destruct (cell_at (br_main b') k) as [v ops] eqn:EC. cbn [ce_value ce_operands] in CT.
  assert (NK : k <> KEY_END) by (apply form_key_neq; rewrite FK; vm_compute; discriminate).
  destruct (cell_read fbits fuel v ops us r k FK CT AP NE CL) as ((T & CT1 & PT) & RD2 & FAIL). exists us, T. split; [exact AP|]. split; [exact ME|]. split; [exact CT1|]. split; [exact PT|]. split; [|split].
  - apply Forall_forall. intros x I. apply says_in in I as (h2 & c2 & I2 & J2 & ->). apply filed_in in I2. destruct (op_ids U H h2 c2 SU GD I2 J2) as (_ & _ & V & _ & NV & _). auto.
  - intro I3. destruct (RD2 I3) as (g & T2 & CG & C2 & P2 & TD & SM). exists g. split; [apply read_of; [exact NK|rewrite EC; exact CG]|]. split; [|exact SM].
    assert (EQ : map bare (listing T) = map bare (listing T2)); [|rewrite EQ; exact TD]. apply one_tree; [exact CT1|exact C2| |].
    + rewrite ids_bare. eapply Permutation_NoDup; [apply Permutation_map, Permutation_sym; exact PT|apply AP].
    + eapply Permutation_trans; [exact PT|apply Permutation_sym; exact P2].
  - intro N3. unfold rocks_read. rewrite (key_eqb_neq _ _ NK), EC, FAIL; [reflexivity| |].
    + intro Q. apply N3. left. exact Q.
    + destruct (Nat.le_gt_cases (length (held v ++ ops)) 3) as [Q|Q]; [|exact Q]. exfalso. apply N3. right. exact Q.
Qed.

(* The events of a text object form one tree. The branch reads the text of that
   tree, if the record of the object is merged from three frames at most; else
   the read fails. *)
Theorem C72_state now rs yarn tr es ss E b' : lives now rs yarn tr es ss E b' -> let ev := first_event active now rs yarn tr in
  exists hss, keeps ev ev es ss (concat hss) /\ stored_of es ss hss /\ (Forall (apart (opener ev :: map bare E)) hss -> let all := opener ev :: says_ops (concat hss) in
    forall u o t, belongs all u o t -> uuid2form t = RGA_RDT_FORM ->
    exists T, tree_of all o t T /\ (forall T', tree_of all o t T' -> map bare (listing T') = map bare (listing T)) /\
      (in_three (state_cell b' o t) -> exists text, rread (br_main b') (key_as o t) = Done (text, KOk) /\ told text (map bare (listing T)) /\ N.of_nat (length text) < 2 ^ 32) /\
      (~ in_three (state_cell b' o t) -> rread (br_main b') (key_as o t) = Done ([], KDbFail))).
Proof.
  intros LV ev. destruct (object_text _ _ _ _ _ _ _ _ LV) as (hss & KP & SO & R). exists hss. split; [exact KP|]. split; [exact SO|]. intros ONE all u o t BU FM.
  destruct (R ONE u o t BU FM) as (us & T & AP & ME & CT & PT & _ & RD & FL). change (forall v, In v us <-> belongs all v o t) in ME.
  assert (TT : tree_of all o t T).
  { split; [exact CT|]. split; [rewrite ids_bare; eapply Permutation_NoDup; [apply Permutation_map, Permutation_sym; exact PT|apply AP]|].
    intro v. rewrite <- ME. split; apply Permutation_in; [exact PT|apply Permutation_sym; exact PT]. }
  exists T. split; [exact TT|]. split; [|auto]. intros T' (C' & N' & M'). apply one_tree; [exact C'|exact CT|exact N'|].
  apply NoDup_Permutation.
  - rewrite ids_bare in N'. apply NoDup_map_inv in N'. exact N'.
  - destruct TT as (_ & N2 & _). rewrite ids_bare in N2. apply NoDup_map_inv in N2. exact N2.
  - intro v. rewrite M'. symmetry. apply TT.
Qed.

(* ---- what they answer to a query for the text ---- *)
Lemma causal_linked : forall t, causal t -> ScanSpec.linked t.
Proof.
  apply (tree_ind2 (fun t => causal t -> ScanSpec.linked t)). intros o cs IH C. inversion C as [? ? K _]; subst. constructor.
  clear C. induction IH as [|c cs H IH IHl]; [constructor|]. inversion K as [|? ? (K1 & K2 & K3) K4]; subst. constructor; auto.
Qed.
Lemma root_first T r : causal T -> In r (map bare (listing T)) -> (forall u, In u (map bare (listing T)) -> u = r \/ uuid_ltb (u_id r) (u_id u) = true) -> bare (root T) = r.
Proof.
  intros C I MIN. destruct (MIN (bare (root T)) ltac:(apply in_map, root_in)) as [E|LT]; [exact E|exfalso].
  assert (UP : forall t, causal t -> forall x, In x (listing t) -> x = root t \/ uuid_ltb (r_id (root t)) (r_id x) = true).
  { apply (tree_ind2 (fun t => causal t -> forall x, In x (listing t) -> x = root t \/ uuid_ltb (r_id (root t)) (r_id x) = true)).
    intros o cs IH CC x J. inversion CC as [? ? K _]; subst. cbn [listing root] in *. destruct J as [<-|J]; [auto|]. right. apply in_flat_map in J as (c & JC & J).
    rewrite Forall_forall in IH, K. destruct (K c JC) as (K1 & _ & K3). destruct (IH c JC K1 x J) as [->|Q]; [exact K3|]. eapply uuid_ltb_trans; eassumption. }
  apply in_map_iff in I as (x & <- & I). change (u_id (bare ?a)) with (r_id a) in LT. destruct (UP T C x I) as [->|Q]; [rewrite uuid_ltb_irrefl in LT; discriminate|].
  rewrite (uuid_ltb_asym _ _ Q) in LT. discriminate.
Qed.
Lemma flags_same (ps : list (list rop * tree)) : forall hs1 hs2, Forall2 (fun p (h : bool) => h = true <-> ScanSpec.hidden p) ps hs1 -> Forall2 (fun p (h : bool) => h = true <-> ScanSpec.hidden p) ps hs2 -> hs1 = hs2.
Proof.
  induction ps as [|p ps IH]; intros hs1 hs2 F1 F2; inversion F1 as [|? x ? r1 A1 G1]; inversion F2 as [|? y ? r2 A2 G2]; subst; [reflexivity|].
  rewrite (IH r1 r2 G1 G2). f_equal. destruct x, y; try reflexivity; exfalso; [assert (false = true) by (apply A2, A1; reflexivity)|assert (false = true) by (apply A1, A2; reflexivity)]; discriminate.
Qed.
Notation ask := (AnswerModel.b_ask sha fbits active fuel).
Notation answered T hs := (TextAnswerSpec.spelled (listing T) hs (in_runs origin_op (map UAppend (map bare (listing T)) ++ [UEnd RAW]))).

(* the branch as created has no text objects *)
Lemma start_trees now rs yarn tr b s k : uvalue (first_event active now rs yarn tr) < NEVER_W -> (1 <= fuel)%nat -> key_form k = RGA_RDT_FORM ->
  b_new sha fbits active fuel now rs yarn tr = Done (b, s) -> s = ROk -> cell_trees (ce_value (cell_at (br_main b) k)) (ce_operands (cell_at (br_main b) k)) [].
Proof.
  intros NV F1 FK H ->. destruct (new_inv sha fbits active fuel _ _ _ _ _ _ NV H) as (f0 & c & h & ws & m & w & f & batch & _ & T & OW & A1 & WO & _ & OB & RD & _ & _ & _ & WW & B & _ & AD & _).
  assert (NF : filed k [h] = []).
  { unfold filed. cbn [flat_map]. rewrite OB, RD, !key_eqb_neq; [reflexivity| |].
    - intro Q. apply (f_equal key_form) in Q. rewrite FK in Q. unfold key_as in Q. rewrite key_form_of in Q by reflexivity. discriminate.
    - intro Q. apply (f_equal key_form) in Q. rewrite FK, key_form_of in Q by reflexivity. discriminate. }
  assert (E0 : trees_in [] []) by (exists []; split; [constructor|]; split; [constructor|apply Permutation_refl]).
  destruct (grows_trees fbits fuel k [(KEY_ZERO, mkCell None [f0])] [h] (br_main b) [] FK) as [_ CT]; [| | | | | |rewrite NF in CT; exact CT].
  - apply T.
  - assert (NZ : k <> KEY_ZERO) by (apply form_key_neq; rewrite FK; vm_compute; discriminate).
    assert (C0 : cell_at [(KEY_ZERO, mkCell None [f0])] k = cell0).
    { cbn [cell_at]. rewrite key_eqb_neq by (intro Q; apply NZ; symmetry; exact Q). destruct (key_ltb k KEY_ZERO); reflexivity. }
    rewrite C0. split; [exact E0|discriminate].
  - right. exists ws, m, w, f, batch. split; [exact OW|]. split; [|split; [exact WW|exact B]].
    change [h] with ([] ++ [h]). change ws with ([] ++ ws). eapply acc_chain; [apply acc_none|exact AD|exact A1|exact WO].
  - rewrite NF. cbn. lia.
  - rewrite NF. exact E0.
  - rewrite NF. cbn [app]. change (says_ops []) with (@nil uop). split; [split; [constructor|]; split; [intros ? ? []|]; split; [intros ? ? ? []|]; split; [intros ? ? []|intros ? []]|].
    split; [constructor|]. split; [intros ? ? []|]. cbn [length]. split; [lia|]. split; reflexivity.
Qed.
(* the life of a branch; here the events may be written in spans *)
Definition lived now rs yarn tr (es : list bevent) (ss : list rstatus) (E : list rop) (b' : branch) : Prop :=
  let ev := first_event active now rs yarn tr in
  (tr = true \/ yarn <> 0) /\ uvalue ev < NEVER_W /\ Forall clocks es /\ (forall n r f, In (BReceive n r f) es -> events_only f) /\
  (exists b s now1 s1, b_new sha fbits active fuel now rs yarn tr = Done (b, s) /\ b_run sha fbits active fuel (branch_id yarn) b (BOpen now1 :: es) = Done (b', s1 :: ss)) /\
  received es ss E /\ keep_bound fuel [] E.
Notation text_cell b o := (cell_at (br_main b) (key_of o RGA_RDT_FORM)).

Lemma filed_text now rs yarn tr es ss E b' : lived now rs yarn tr es ss E b' -> let ev := first_event active now rs yarn tr in
  exists hss, keeps ev ev es ss (concat hss) /\ stored_of es ss hss /\
    forall o r, one_a_step hss o -> grown (stored_text hss o) r ->
    exists T, apt fuel (stored_text hss o) /\ causal T /\ listing T = chunk_of (map bare (listing T)) /\ Permutation (map bare (listing T)) (stored_text hss o) /\
      (in_three (text_cell b' o) -> exists text, rread (br_main b') (key_of o RGA_RDT_FORM) = Done (text, KOk) /\ told text (map bare (listing T)) /\ N.of_nat (length text) < 2 ^ 32) /\
      (~ in_three (text_cell b' o) -> rread (br_main b') (key_of o RGA_RDT_FORM) = Done ([], KDbFail)).
Proof.
  intros (Y & NV & C & EO & (b & s & now1 & s1 & H & R) & RV & KB) ev. fold ev in NV.
  cbn [BranchModel.b_run] in R. apply rbind_done in R as ([b1 s2] & R1 & R). apply rbind_done in R as ([b2 ss2] & R & Q). injection Q as -> -> ->.
  destruct (C47_created sha fbits active fuel _ _ _ _ _ _ Y NV H) as (-> & _ & _ & K). destruct (K _ _ _ R1) as (-> & BT & HT). clear K.
  assert (MB : br_main b1 = br_main b).
  { destruct (new_tip sha fbits active fuel _ _ _ _ _ _ NV H) as (_ & _ & T). cbn [BranchModel.b_step] in R1. apply rbind_done in R1 as ([[[d n'] t'] s1] & H1 & Q).
    destruct (first_time active now rs yarn tr) as [_ OR]. destruct (tipped_open fbits fuel _ _ _ _ _ _ _ _ T (or_introl (OR Y)) H1) as (-> & -> & ->). injection Q as <-. reflexivity. }
  assert (VT : version (branch_id yarn) = TIME) by apply ClockTheorems.time_version.
  destruct (run_keeps sha fbits active fuel _ VT es b1 b' ss _ HT C R EO) as (hss & KP & ST). rewrite BT in KP. fold ev in KP.
  exists hss. split; [exact KP|]. split; [eapply story_stored; exact ST|]. intros o r OS (ND & IR & BK & CL).
  unfold one_a_step in OS. unfold stored_text in *. set (k := key_of o RGA_RDT_FORM) in *. assert (FK : key_form k = RGA_RDT_FORM) by (apply key_form_of; reflexivity).
  destruct (story_texts fbits fuel k _ _ _ _ _ ST E [] RV KB) as [TI KF]. cbn [app] in KF. set (us := says_ops (filed k (concat hss))) in *.
  assert (AP : apt fuel us).
  { destruct KF as (M & L & NN & RM). cbn [map length] in *. change (room []) with 0%nat in RM. rewrite app_nil_r in M. split; [exact M|]. split; [exact ND|]. split; [exact BK|]. split; [lia|split; lia]. }
  assert (F1 : (1 <= fuel)%nat) by (destruct KB as (_ & L & _); lia).
  destruct (story_trees fbits fuel k (br_main b1) es ss hss (br_main b') ST FK ltac:(apply HT) []) as [_ CT]; [|exact OS|exact TI|exact AP|].
  { rewrite MB. eapply start_trees; [exact NV|exact F1|exact FK|exact H|reflexivity]. }
  cbn [app] in CT. fold us in CT. assert (NE : us <> []) by (intro Q; rewrite Q in IR; destruct IR).
  destruct (cell_at (br_main b') k) as [v ops] eqn:EC. cbn [ce_value ce_operands] in CT.
  assert (NK : k <> KEY_END) by (apply form_key_neq; rewrite FK; vm_compute; discriminate).
  destruct (cell_read fbits fuel v ops us r k FK CT AP NE CL) as ((T0 & CT0 & PT0) & RD2 & FAIL).
  destruct (relabel T0 (chunk_of (map bare (listing T0)))) as (T & LV & _ & CV); [apply chunk_bare|]. assert (EW : map bare (listing T) = map bare (listing T0)) by (rewrite LV; apply chunk_bare).
  assert (CT1 : causal T) by auto. assert (PT : Permutation (map bare (listing T)) us) by (rewrite EW; exact PT0). clear CV CT0 PT0.
  exists T. split; [exact AP|]. split; [exact CT1|]. split; [rewrite EW; exact LV|]. split; [exact PT|]. split.
  - intro I3. destruct (RD2 I3) as (g & T2 & CG & C2 & P2 & TD & SM). exists g. split; [apply read_of; [exact NK|rewrite EC; exact CG]|]. split; [|exact SM].
    assert (EQ : map bare (listing T) = map bare (listing T2)); [|rewrite EQ; exact TD]. apply one_tree; [exact CT1|exact C2| |].
    + rewrite ids_bare. eapply Permutation_NoDup; [apply Permutation_map, Permutation_sym; exact PT|apply AP].
    + eapply Permutation_trans; [exact PT|apply Permutation_sym; exact P2].
  - intro N3. unfold rocks_read. rewrite (key_eqb_neq _ _ NK), EC, FAIL; [reflexivity| |].
    + intro Q. apply N3. left. exact Q.
    + destruct (Nat.le_gt_cases (length (held v ++ ops)) 3) as [Q|Q]; [|exact Q]. exfalso. apply N3. right. exact Q.
Qed.

(* Also where events are written in spans: a branch that has stored the events of
   a text object can read the one tree of these events, while the unmerged pieces
   are few; while they are many the reads fail. *)
Theorem C72_filed now rs yarn tr es ss E b' : lived now rs yarn tr es ss E b' -> let ev := first_event active now rs yarn tr in
  exists hss, keeps ev ev es ss (concat hss) /\ stored_of es ss hss /\
    forall o r, one_a_step hss o -> grown (stored_text hss o) r ->
    exists T, causal T /\ listing T = chunk_of (map bare (listing T)) /\ Permutation (map bare (listing T)) (stored_text hss o) /\
      (in_three (text_cell b' o) -> exists text, rread (br_main b') (key_of o RGA_RDT_FORM) = Done (text, KOk) /\ told text (map bare (listing T)) /\ N.of_nat (length text) < 2 ^ 32) /\
      (~ in_three (text_cell b' o) -> rread (br_main b') (key_of o RGA_RDT_FORM) = Done ([], KDbFail)).
Proof.
  intros L ev. destruct (filed_text _ _ _ _ _ _ _ _ L) as (hss & K & ST & R). exists hss. split; [exact K|]. split; [exact ST|].
  intros o r OS GR. destruct (R o r OS GR) as (T & _ & T1 & T2 & T3 & T4). exists T. auto.
Qed.

Lemma grown_perm us vs r : Permutation us vs -> grown us r -> grown vs r.
Proof.
  intros PU (ND & IR & BK & CL). assert (BACK : forall u, In u vs -> In u us) by (intro u; apply Permutation_in, Permutation_sym; exact PU).
  split; [eapply Permutation_NoDup; [apply Permutation_map; exact PU|exact ND]|]. split; [eapply Permutation_in; eassumption|]. split; [intros u v IU IV; apply BK; auto|].
  intros u IU. destruct (CL u (BACK u IU)) as [Q|(LT & v & IV & Q)]; [auto|right]. split; [exact LT|]. exists v. split; [eapply Permutation_in; eassumption|exact Q].
Qed.
(* Two branches that have stored the same events under a text object, in whatever
   order, in whatever pieces and with whatever compactions, read the same tree, if
   both can read the object. *)
Theorem C72_agree now1 rs1 yarn1 tr1 es1 ss1 E1 b1 now2 rs2 yarn2 tr2 es2 ss2 E2 b2 :
  lived now1 rs1 yarn1 tr1 es1 ss1 E1 b1 -> lived now2 rs2 yarn2 tr2 es2 ss2 E2 b2 ->
  let ev1 := first_event active now1 rs1 yarn1 tr1 in let ev2 := first_event active now2 rs2 yarn2 tr2 in
  exists hss1 hss2, keeps ev1 ev1 es1 ss1 (concat hss1) /\ keeps ev2 ev2 es2 ss2 (concat hss2) /\ stored_of es1 ss1 hss1 /\ stored_of es2 ss2 hss2 /\
    forall o r, one_a_step hss1 o -> one_a_step hss2 o -> grown (stored_text hss1 o) r -> Permutation (stored_text hss1 o) (stored_text hss2 o) ->
     in_three (text_cell b1 o) -> in_three (text_cell b2 o) ->
     forall T, causal T -> Permutation (map bare (listing T)) (stored_text hss1 o) ->
     exists text1 text2, rread (br_main b1) (key_of o RGA_RDT_FORM) = Done (text1, KOk) /\ rread (br_main b2) (key_of o RGA_RDT_FORM) = Done (text2, KOk) /\
       told text1 (map bare (listing T)) /\ told text2 (map bare (listing T)).
Proof.
  intros L1 L2 ev1 ev2. destruct (C72_filed _ _ _ _ _ _ _ _ L1) as (hss1 & K1 & S1 & R1). destruct (C72_filed _ _ _ _ _ _ _ _ L2) as (hss2 & K2 & S2 & R2).
  exists hss1, hss2. split; [exact K1|]. split; [exact K2|]. split; [exact S1|]. split; [exact S2|]. intros o r OS1 OS2 GR PU I1 I2 T CT PT.
  destruct (R1 o r OS1 GR) as (T1 & CT1 & _ & PT1 & RD1 & _). destruct (R2 o r OS2 (grown_perm _ _ _ PU GR)) as (T2 & CT2 & _ & PT2 & RD2 & _).
  destruct (RD1 I1) as (text1 & A1 & A2 & _). destruct (RD2 I2) as (text2 & B1 & B2 & _). exists text1, text2. split; [exact A1|]. split; [exact B1|].
  assert (ND : NoDup (ids (listing T))) by (rewrite ids_bare; eapply Permutation_NoDup; [apply Permutation_map, Permutation_sym; exact PT|apply GR]).
  split.
  - rewrite (one_tree T T1 CT CT1 ND); [exact A2|]. eapply Permutation_trans; [exact PT|apply Permutation_sym; exact PT1].
  - rewrite (one_tree T T2 CT CT2 ND); [exact B2|]. eapply Permutation_trans; [exact PT|]. eapply Permutation_trans; [exact PU|apply Permutation_sym; exact PT2].
Qed.

(* Two branches that have stored the same events under a text object, in whatever
   order and with whatever compactions, answer a query for the text with the same
   characters, if both can read the object. *)
Theorem C72_text now1 rs1 yarn1 tr1 es1 ss1 E1 b1 now2 rs2 yarn2 tr2 es2 ss2 E2 b2 :
  lived now1 rs1 yarn1 tr1 es1 ss1 E1 b1 -> lived now2 rs2 yarn2 tr2 es2 ss2 E2 b2 ->
  let ev1 := first_event active now1 rs1 yarn1 tr1 in let ev2 := first_event active now2 rs2 yarn2 tr2 in
  exists hss1 hss2, keeps ev1 ev1 es1 ss1 (concat hss1) /\ keeps ev2 ev2 es2 ss2 (concat hss2) /\ stored_of es1 ss1 hss1 /\ stored_of es2 ss2 hss2 /\
    forall o r, one_a_step hss1 o -> one_a_step hss2 o -> grown (stored_text hss1 o) r -> Permutation (stored_text hss1 o) (stored_text hss2 o) ->
     u_ref r = RGA_FORM_UUID -> Forall (fun u => version (u_id u) = TIME /\ uvalue (u_id u) < NEVER_W) (stored_text hss1 o) ->
     in_three (text_cell b1 o) -> in_three (text_cell b2 o) ->
     forall T, causal T -> Permutation (map bare (listing T)) (stored_text hss1 o) -> listing T = chunk_of (map bare (listing T)) ->
     (forall p, In p (ScanSpec.places [] T) -> ~ ScanSpec.stray p /\ (ScanSpec.hidden p \/ TextAnswerSpec.piece (root (snd p)))) ->
     forall (P : bytes -> N -> Prop) f q n1 r1 n2 r2, frame_lit P f [q] -> N.of_nat (length f) < 2 ^ 32 -> TextAnswerSpec.text_query q -> id_ok (r_id q) -> TextAnswerSpec.object_of q = o ->
     exists hs text1 text2, Forall2 (fun p (h : bool) => h = true <-> ScanSpec.hidden p) (ScanSpec.places [] T) hs /\
       ask b1 n1 r1 f = Done (b1, ROk, Some text1) /\ ask b2 n2 r2 f = Done (b2, ROk, Some text2) /\
       frame_lit canon text1 (TextAnswerSpec.text_answer q AnswerModel.TXT_MAP_ID (answered T hs)) /\ frame_lit canon text2 (TextAnswerSpec.text_answer q AnswerModel.TXT_MAP_ID (answered T hs)).
Proof.
  intros L1 L2 ev1 ev2. destruct (filed_text _ _ _ _ _ _ _ _ L1) as (hss1 & K1 & S1 & R1). destruct (filed_text _ _ _ _ _ _ _ _ L2) as (hss2 & K2 & S2 & R2).
  exists hss1, hss2. split; [exact K1|]. split; [exact K2|]. split; [exact S1|]. split; [exact S2|]. intros o r OS1 OS2 GR PU RR VS I1 I2 V CV PV LV CALM P f q n1 r1 n2 r2 FQ SQ TQ IQ OQ.
  pose proof (grown_perm _ _ _ PU GR) as GR2.
  destruct (R1 o r OS1 GR) as (T1 & AP1 & CT1 & _ & PT1 & RD1 & _). destruct (R2 o r OS2 GR2) as (T2 & AP2 & CT2 & _ & PT2 & RD2 & _). set (us1 := stored_text hss1 o) in *. set (us2 := stored_text hss2 o) in *.
  destruct (RD1 I1) as (state1 & A1 & A2 & A3). destruct (RD2 I2) as (state2 & B1 & B2 & B3). clear RD1 RD2 R1 R2.
  assert (EQ : map bare (listing T1) = map bare (listing T2)).
  { apply one_tree; [exact CT1|exact CT2| |].
    - rewrite ids_bare. eapply Permutation_NoDup; [apply Permutation_map, Permutation_sym; exact PT1|apply AP1].
    - eapply Permutation_trans; [exact PT1|]. eapply Permutation_trans; [exact PU|apply Permutation_sym; exact PT2]. }
  rewrite <- EQ in B2. set (W := map bare (listing T1)) in *.
  assert (EW : map bare (listing V) = W).
  { apply one_tree; [exact CV|exact CT1| |].
    - rewrite ids_bare. eapply Permutation_NoDup; [apply Permutation_map, Permutation_sym; exact PV|apply AP1].
    - eapply Permutation_trans; [exact PV|apply Permutation_sym; exact PT1]. }
  rewrite EW in LV.
  assert (VW : Forall (fun v => version (u_id v) = TIME /\ uvalue (u_id v) < NEVER_W) W).
  { rewrite Forall_forall in VS |- *. intros v I. apply VS. eapply Permutation_in; [exact PT1|exact I]. }
  assert (RT : ScanSpec.rga_tree V).
  { split; [apply causal_linked; exact CV|]. split; [|split].
    - destruct GR as (_ & IR & _ & CL). assert (RF : bare (root V) = r); [|rewrite <- RF in RR; exact RR].
      apply root_first; [exact CV|eapply Permutation_in; [apply Permutation_sym; exact PV|exact IR]|]. intros x I. apply (Permutation_in _ PV) in I. destruct (CL x I) as [Q|[Q _]]; auto.
    - rewrite <- EW, Forall_map in VW. eapply Forall_impl; [|exact VW]. intros x [A _]. exact A.
    - rewrite <- EW, Forall_map, Forall_forall in VW. destruct (VW (root V) (root_in V)) as [_ LT]. cbn [bare u_id] in LT. unfold uuid_ltb.
      change (uvalue (Time WORD_NEVER 0)) with NEVER_W. replace (NEVER_W <? uvalue (r_id (root V))) with false by (symmetry; apply N.ltb_ge; lia).
      replace (NEVER_W =? uvalue (r_id (root V))) with false by (symmetry; apply N.eqb_neq; lia). reflexivity. }
  assert (LW : length (listing V) = length us1) by (rewrite <- (map_length bare); apply Permutation_length; exact PV).
  assert (SM : (length (listing V) < fuel)%nat /\ N.of_nat (length (listing V)) < 2 ^ 30).
  { rewrite LW. destruct AP1 as (_ & _ & _ & LF & _ & RM). split; [exact LF|]. assert (K : (length us1 * 4 <= room us1)%nat).
    { clear. induction us1 as [|x us1 IH]; [cbn; lia|]. change (x :: us1) with ([x] ++ us1). rewrite app_length, room_app. cbn [length]. assert (4 <= room [x])%nat by (unfold room; cbn [map list_sum fold_right]; unfold op_room; lia). lia. }
    change (2 ^ 32) with 4294967296 in RM. change (2 ^ 30) with 1073741824. lia. }
  destruct SM as [SM1 SM2].
  assert (KK : TextAnswerSpec.text_key q = key_of o RGA_RDT_FORM) by (unfold TextAnswerSpec.text_key; rewrite OQ; reflexivity).
  unfold told in A2, B2. rewrite <- LV in A2, B2.
  destruct (TextAnswerTheorems.C53_text sha fbits active fuel P b1 n1 r1 f q state1 V _ FQ SQ TQ IQ ltac:(rewrite KK; exact A1) A2 A3 RT SM1 SM2) as (hs1 & text1 & F1 & X1 & Y1);
    [intros p I; apply (CALM p I)|intros p I; apply (CALM p I)|].
  destruct (TextAnswerTheorems.C53_text sha fbits active fuel P b2 n2 r2 f q state2 V _ FQ SQ TQ IQ ltac:(rewrite KK; exact B1) B2 B3 RT SM1 SM2) as (hs2 & text2 & F2 & X2 & Y2);
    [intros p I; apply (CALM p I)|intros p I; apply (CALM p I)|].
  rewrite <- (flags_same _ _ _ F1 F2) in Y2. rewrite <- EW in Y1, Y2. exists hs1, text1, text2. auto 12.
Qed.
End Texts.
Print Assumptions C72_text.
Print Assumptions C72_filed.
Print Assumptions C72_state.
Print Assumptions C72_agree.
