(* Proofs about a branch over RocksDB: its tip record, what a commit does to it,
   its restarts and its creation. *)
From Coq Require Import Sorted.
From Verif Require Import Prelude UuidModel UuidProofs KeyModel KeyProofs CodecModel CodecProofs TextTable TextModel TextSpec TextSafety FrameProofs BuilderSpec BuilderProofs BuilderTheorems MergeModel MergeTextModel MergeKeeps
  StoreModel StoreSpec StoreProofs HashModel MetaModel MetaTheorems ClockModel ReplicaModel ReplicaSpec ReplicaProofs ReplicaTheorems RocksModel RocksSpec RocksProofs BranchModel BranchSpec.
From Verif Require ClockTheorems.

(* ---- the tip of a commit ---- *)
Definition stampedb (c : cursor) : bool :=
  (version (text_id c) =? TIME) && negb (payload (uorigin (text_id c)) =? 0) && negb (c_term c =? QUERY).
Lemma stampedb_iff c : stampedb c = true <-> stamped c.
Proof.
  unfold stampedb, stamped. rewrite !andb_true_iff, !negb_true_iff, N.eqb_eq, !N.eqb_neq. tauto.
Qed.
Definition lst (t : uuid) (l : list cursor) : uuid := fold_left (fun t d => if stampedb d then text_id d else t) l t.
Lemma lst_app t a b : lst t (a ++ b) = lst (lst t a) b.
Proof. apply fold_left_app. Qed.
Lemma lst_cases l : (forall t, lst t l = t) /\ Forall (fun d => ~ stamped d) l \/
  exists l1 c l2, l = l1 ++ c :: l2 /\ stamped c /\ Forall (fun d => ~ stamped d) l2 /\ forall t, lst t l = text_id c.
Proof.
  induction l as [|d l IH]; [left; split; [reflexivity|constructor]|]. unfold lst. cbn [fold_left]. fold (lst). destruct IH as [[E F]|(l1 & c & l2 & -> & St & F & E)].
  - destruct (stampedb d) eqn:Sd.
    + right. exists [], d, l. split; [reflexivity|]. split; [apply stampedb_iff; exact Sd|]. split; [exact F|]. intro t. apply E.
    + left. split; [intro t; apply E|]. constructor; [|exact F]. intro X. apply stampedb_iff in X. congruence.
  - right. exists (d :: l1), c, l2. split; [reflexivity|]. split; [exact St|]. split; [exact F|]. intro t. apply E.
Qed.

Section Replica.
Variable sha : bytes -> bytes.
Variable fbits : bytes -> N.
Variable S : Type.
Notation mem := (list (key * bytes)).
Variable jread : S -> mem -> key -> res (S * mem * bytes * rstatus).
Variable jprev : S -> mem -> key -> res (bytes * rstatus).
Variable mwrite : S -> key -> bytes -> res (S * rstatus).
Variable mbatch : S -> mem -> res (S * rstatus).
Variable active : N.
Variable fuel : nat.
Notation cst := (cst S).
Notation s_tip := (s_tip S).
Notation s_now := (s_now S).
Notation chainlet := (chainlet sha fbits).
Notation save_chain := (save_chain sha fbits S jread jprev fuel).
Notation receive_op := (receive_op sha fbits S jread jprev mwrite active fuel).
Notation receive_loop := (receive_loop sha fbits S jread jprev mwrite active fuel).
Notation receive_frame := (receive_frame sha fbits S jread jprev mwrite mbatch active fuel).
Notation acts := (acts S jread mwrite).

Section Events.
Variable frame : bytes.
Hypothesis EO : events_only frame.
Lemma delivered_next c d : delivered frame c -> next c = NOk d -> delivered frame d.
Proof. clear EO. intros (l & R) N. exists (l ++ [c]). econstructor; eassumption. Qed.
Lemma comment_not c : text_id c = COMMENT -> stampedb c = false.
Proof. intro E. unfold stampedb. rewrite E. reflexivity. Qed.
Lemma chainlet_tip n : forall base tip m acc c t m' acc' c', delivered frame c -> valid c = true ->
  chainlet n base tip m acc c = Done (t, m', acc', c', ROk) ->
  exists l, passes c (c :: l) c' /\
    (m_id m' = lst (m_id m) l \/ valid c' = true /\ stampedb c' = true /\ m_id m' = text_id c').
Proof.
  induction n as [|n IH]; intros base tip m acc c t m' acc' c' D V H; [discriminate|]. cbn [ReplicaModel.chainlet] in H.
  assert (ONE : forall d, next c = NOk d \/ next c = NEnd d -> passes c [c] d).
  { intros d Hd. apply (pass1 c [] c d); [constructor|exact V|tauto]. }
  destruct (next c) as [d|d|d|] eqn:N; try discriminate.
  2:{ injection H as <- <- <- <-. exists []. split; [apply ONE; auto|left; reflexivity]. }
  pose proof (next_valid _ _ N (or_intror V)) as Vd. pose proof (delivered_next _ _ D N) as Dd.
  assert (GO : forall l, passes d (d :: l) c' -> passes c (c :: d :: l) c').
  { intros l P. change (c :: d :: l) with ([c] ++ d :: l). eapply passes_app; [apply ONE; left; reflexivity|exact P]. }
  destruct (uuid_eqb (text_id d) COMMENT) eqn:EC.
  { apply uuid_eqb_eq in EC. destruct (IH _ _ _ _ _ _ _ _ _ Dd Vd H) as (l & K1 & K2). exists (d :: l). split; [apply GO; exact K1|].
    unfold lst. cbn [fold_left]. rewrite (comment_not _ EC). exact K2. }
  assert (SD : stampedb d = true).
  { apply stampedb_iff. destruct (EO d Dd) as [X|X]; [exact X|]. apply uuid_eqb_eq in X. congruence. }
  destruct (meta_is_next m d).
  2:{ destruct (meta_is_check m d) eqn:EK.
      - exfalso. unfold meta_is_check in EK. apply andb_true_iff in EK as [EK _]. unfold stampedb in SD.
        apply N.eqb_eq in EK. rewrite EK in SD. discriminate SD.
      - injection H as <- <- <- <-. exists []. split; [apply ONE; auto|left; reflexivity]. }
  destruct (check_sanity d); try discriminate.
  destruct (meta_next sha fbits m d m) as [m1| |] eqn:M; cbn [rbind] in H; try discriminate.
  destruct (meta_next_inv _ _ _ _ _ _ M) as (M1 & _).
  assert (REC : forall tip', chainlet n base tip' m1 (d :: acc) d = Done (t, m', acc', c', ROk) ->
    exists l, passes c (c :: l) c' /\ (m_id m' = lst (m_id m) l \/ valid c' = true /\ stampedb c' = true /\ m_id m' = text_id c')).
  { intros tip' K. destruct (IH _ _ _ _ _ _ _ _ _ Dd Vd K) as (l & K1 & K2). exists (d :: l). split; [apply GO; exact K1|].
    unfold lst. cbn [fold_left]. rewrite SD, <- M1. exact K2. }
  destruct (uorigin (text_id d) =? uorigin base); [|apply (REC tip); exact H].
  destruct (uuid_ltb tip (text_id d)); cbn [negb] in H; [apply (REC (text_id d)); exact H|].
  injection H as <- <- <- <-. exists []. split; [apply ONE; auto|]. right. auto.
Qed.
Lemma save_chain_tip st c st' c' : delivered frame c -> valid c = true -> save_chain st c = Done (st', c', ROk) ->
  exists l, passes c (c :: l) c' /\
    (s_tip st' = lst (text_id c) l \/ valid c' = true /\ stampedb c' = true /\ s_tip st' = text_id c').
Proof.
  intros D V. unfold ReplicaModel.save_chain. destruct (check_sanity c) eqn:SN; try discriminate.
  destruct (head_meta sha fbits S jread jprev fuel st c) as [[[st1 m] s1]| |] eqn:HM; cbn [rbind]; try discriminate.
  destruct (head_meta_inv _ _ _ _ _ mwrite _ _ _ _ _ _ SN HM) as (_ & _ & OK1).
  destruct (is_ok s1) eqn:E1; cbn [negb]; [|intro H; injection H as <- <- ->; discriminate].
  apply is_ok_iff in E1. subst s1. destruct (OK1 eq_refl) as [ID _]. rewrite ID, (sanity_ref c SN). cbn [negb].
  destruct (meta_save m) as [rec|] eqn:MS; cbn [rbind]; try discriminate.
  destruct (jwrite_step S st1 (key_as (text_id c) META_FORM_UUID) rec) as [st2 s2] eqn:W1.
  destruct (is_ok s2) eqn:E2; cbn [negb]; [|intro H; injection H as <- <- ->; discriminate].
  unfold ReplicaModel.save_chainlet.
  destruct (chainlet fuel (s_base S st2) (s_tip st2) m [c] c) as [[[[[t m'] acc] d] s3]| |] eqn:CL; cbn [rbind]; try discriminate.
  destruct (is_ok s3) eqn:E3; cbn [negb]; [|intro H; injection H as <- <- ->; discriminate].
  apply is_ok_iff in E3. subst s3.
  destruct (chainlet_tip _ _ _ _ _ _ _ _ _ _ D V CL) as (l & K1 & K2). rewrite ID in K2.
  destruct (see_step S (set_tip S st2 t) (m_id m')) as [st4 s4].
  destruct (is_ok s4) eqn:E4; cbn [negb]; [|intro H; injection H as <- <- ->; discriminate].
  destruct (build (map (fun x => BAppend (wop_of_cursor x)) (rev acc))) as [data|]; [|discriminate].
  destruct (jwrite_step S st4 (key_as (m_obj m') LOG_FORM_UUID) data) as [st5 s5].
  destruct (is_ok s5) eqn:E5; cbn [negb]; [|intro H; injection H as <- <- ->; discriminate].
  destruct (jwrite_step S st5 (key_as (m_obj m') (m_rdt m')) data) as [st6 s6].
  destruct (is_ok s6) eqn:E6; cbn [negb]; [|intro H; injection H as <- <- ->; discriminate].
  intro H. injection H as <- <-. exists l. auto.
Qed.
Lemma receive_loop_tip c0 n : forall base st l c st', next (cursor_of frame) = NOk c0 -> passes c0 l c ->
  s_tip st = lst base l \/ valid c = true /\ stampedb c = true /\ s_tip st = text_id c ->
  receive_loop n st c = Done (st', ROk) ->
  exists l', ops_of frame l' /\ s_tip st' = lst base l'.
Proof.
  induction n as [|n IH]; intros base st l c st' N0 P T H; [discriminate|]. cbn [ReplicaModel.receive_loop] in H.
  pose proof (passes_run _ _ _ _ N0 P) as R.
  destruct (valid c) eqn:V.
  2:{ injection H as <-. destruct R as (e & R1 & R2). exists l. split; [exists e, c; auto|]. destruct T as [T|(X & _)]; [exact T|discriminate]. }
  assert (D : delivered frame c) by (exists l; exact R).
  destruct (receive_op st c) as [[[st1 c1] s1]| |] eqn:RO; cbn [rbind] in H; try discriminate.
  destruct (is_ok s1) eqn:E1; [|injection H as <- ->; discriminate]. apply is_ok_iff in E1. subst s1.
  assert (K : exists l1, passes c (c :: l1) c1 /\ (s_tip st1 = lst base (l ++ c :: l1) \/ valid c1 = true /\ stampedb c1 = true /\ s_tip st1 = text_id c1)).
  { unfold ReplicaModel.receive_op in RO. destruct (EO c D) as [St|C].
    - pose proof (proj2 (stampedb_iff c) St) as SB. destruct St as (A1 & A2 & A3). rewrite A1 in RO. change (TIME =? TIME) with true in RO. cbn match in RO.
      apply N.eqb_neq in A3. rewrite A3 in RO. apply N.eqb_neq in A2. rewrite A2 in RO. cbn [negb] in RO.
      destruct (save_chain_tip _ _ _ _ D V RO) as (l1 & K1 & K2). exists l1. split; [exact K1|].
      rewrite lst_app. unfold lst at 1. cbn [fold_left]. rewrite SB. exact K2.
    - pose proof (comment_not c C) as SB. rewrite C in RO. change (version COMMENT =? TIME) with false in RO. change (version COMMENT =? DERIVED) with false in RO.
      change (version COMMENT =? NAME) with true in RO. change (uuid_eqb COMMENT COMMENT) with true in RO. cbn match in RO.
      destruct (next c) as [d|d|d|] eqn:N; try discriminate. injection RO as <- <-. exists []. split; [apply passes_ok; assumption|].
      left. rewrite lst_app. unfold lst at 1. cbn [fold_left]. rewrite SB.
      destruct T as [T|(_ & X & _)]; [exact T|congruence]. }
  destruct K as (l1 & K1 & K2).
  apply (IH base st1 (l ++ c :: l1) c1 st' N0); [eapply passes_app; eassumption|exact K2|exact H].
Qed.
End Events.
End Replica.

(* ---- the tip record ---- *)
Lemma one_reads t ref : tip_ok t -> id_ok ref -> exists f c c1, one_op t ref [] = Some f /\ next (cursor_of f) = NOk c /\
  wop_of_cursor c = mkWop t ref [] /\ c_term c = RAW /\ valid c = true /\ next c = NEnd c1 /\
  build [BAppend (wop_of_cursor c); BEnd RAW] = Some f.
Proof.
  intros [OK NI] RO. set (o := mkUop t ref []).
  assert (UO : uop_ok o) by (split; [exact OK|]; split; [exact RO|constructor]).
  destruct (C16_roundtrip [UAppend o]) as (text & BT & RT).
  { cbn [good_calls]. split; [exact UO|]. split; [intro Q; contradiction|]. split; [|exact Logic.I].
    unfold continues. intro Q. exfalso. apply andb_true_iff in Q as [Q _]. apply andb_true_iff in Q as [Q _]. apply uuid_eqb_eq in Q. contradiction. }
  { reflexivity. }
  assert (NS : is_same_span (mkWop t ref []) builder0 = false).
  { unfold is_same_span. cbn [w_ref w_id b_prev builder0]. destruct (uuid_eqb t (inc NIL)) eqn:Q; [apply uuid_eqb_eq in Q; contradiction|].
    rewrite andb_false_r. reflexivity. }
  assert (MS : one_op t ref [] = Some text) by exact BT.
  assert (LT : N.of_nat (length text) < 2 ^ 32).
  { unfold one_op, wop_of_op in MS. cbn [wvals_of option_map] in MS.
    unfold build, build_from in MS. cbn [fold_left bstep] in MS. unfold append_op in MS. cbn [w_ref w_id] in MS.
    rewrite NS in MS. cbn [option_map] in MS. injection MS as <-.
    unfold release, write_values, write_spec. cbn [write_term b_span builder0 N.eqb b_prev b_data b_prev2 fst].
    pose proof (write_uuid_len t). pose proof (write_uuid_len ref).
    change (2 ^ 32) with 4294967296. unfold write_term. cbn [b_span b_data b_prev b_prev2 N.eqb N.ltb N.compare Pos.compare Pos.compare_cont].
    cbn [flat_map w_vals value_text].
    destruct (uuid_eqb t (inc NIL)), (uuid_eqb ref NIL);
      repeat (rewrite app_length || cbn [length app]); lia. }
  specialize (RT LT 2%nat). cbn [denote term_after] in RT. specialize (RT ltac:(cbn; lia)).
  cbn [scan] in RT. destruct (next (cursor_of text)) as [c|c|c|] eqn:NX; try discriminate RT.
  assert (NC : exists c1, next c = NEnd c1 /\ rop_of c = mkRop t ref [] RAW).
  { destruct (next c) as [c'|c'|c'|]; try discriminate RT. exists c'. split; [reflexivity|]. cbn [o u_id u_ref u_vals] in RT. congruence. }
  destruct NC as (c1 & NC & RC). exists text, c, c1. split; [exact MS|]. split; [exact NX|].
  assert (W : wop_of_cursor c = mkWop t ref []).
  { unfold rop_of in RC. assert (R1 : op_id (c_op c) = t) by congruence. assert (R2 : op_ref (c_op c) = ref) by congruence.
    assert (R3 : map (value_of (c_buf c)) (skipn 2 (c_op c)) = []) by congruence. unfold wop_of_cursor. rewrite R1, R2.
    destruct (skipn 2 (c_op c)); [reflexivity|discriminate]. }
  split; [exact W|]. split; [unfold rop_of in RC; congruence|]. split; [eapply next_valid; [exact NX|left; reflexivity]|].
  split; [exact NC|]. rewrite W. rewrite <- MS. unfold one_op, wop_of_op. cbn [wvals_of option_map].
  unfold build, build_from. cbn [fold_left bstep]. unfold append_op. cbn [w_ref w_id]. rewrite NS. cbn [option_map].
  reflexivity.
Qed.
Lemma tip_reads t : tip_ok t -> exists f c c1, one_op t ZERO_FORM_UUID [] = Some f /\ next (cursor_of f) = NOk c /\
  wop_of_cursor c = mkWop t ZERO_FORM_UUID [] /\ c_term c = RAW /\ valid c = true /\ next c = NEnd c1 /\
  build [BAppend (wop_of_cursor c); BEnd RAW] = Some f.
Proof. intro H. apply one_reads; [exact H|]. split; [split|]; reflexivity. Qed.
Lemma open_app a b : open_cursors (a ++ b) = match open_cursors a, open_cursors b with Some x, Some y => Some (x ++ y) | _, _ => None end.
Proof.
  induction a as [|f a IH]; cbn [open_cursors app]; [destruct (open_cursors b); reflexivity|].
  rewrite IH. destruct (text_next (cursor_at f 0)) as [[[|] c]|]; destruct (open_cursors a); destruct (open_cursors b); reflexivity.
Qed.

Section Branch.
Variable sha : bytes -> bytes.
Variable fbits : bytes -> N.
Variable active : N.
Variable fuel : nat.

Lemma merge_tip t f pre r s : tip_ok t -> one_op t ZERO_FORM_UUID [] = Some f ->
  merge_as fbits fuel ZERO_RAW_FORM (pre ++ [f]) = Done (r, s) -> r = Some f /\ s = StOK.
Proof.
  intros OK F. destruct (tip_reads t OK) as (f' & c & c1 & F' & NX & W & TM & V & NE & B). assert (f' = f) by congruence. subst f'.
  unfold merge_as. rewrite open_app. destruct (open_cursors pre) as [cs|]; [|discriminate].
  cbn [open_cursors]. fold (cursor_of f). unfold text_next at 1. rewrite NX. unfold merge_opened, master_merge.
  change (ZERO_RAW_FORM =? LOG_RAW_FORM) with false. change (ZERO_RAW_FORM =? ZERO_RAW_FORM) with true. cbn match.
  unfold last_merge. rewrite rev_app_distr. cbn [rev app].
  destruct fuel as [|[|n]]; [discriminate| |].
  - cbn [append_all]. rewrite V. unfold text_next. rewrite NE. cbn [rbind]. discriminate.
  - cbn [append_all]. rewrite V. unfold text_next at 1. rewrite NE. rewrite (next_stop c c1 (or_introl NE)). cbn [rbind app].
    rewrite TM. change (RAW =? REDUCED) with false. cbn [app bcalls map]. rewrite B. intro H. injection H as <- <-. auto.
Qed.
Lemma operator_tip t f pre r : tip_ok t -> one_op t ZERO_FORM_UUID [] = Some f ->
  operator_merge fbits fuel ZERO_RAW_FORM (pre ++ [f]) = Done r -> r = Some f.
Proof.
  intros OK F H. unfold operator_merge in H. apply rbind_done in H as ([g s] & H & E).
  destruct (merge_tip _ _ _ _ _ OK F H) as [-> ->]. injection E as <-. reflexivity.
Qed.
Definition ends (v : option bytes) (ops : list bytes) (f : bytes) : Prop := exists pre, held v ++ ops = pre ++ [f].
Lemma get_tip t f c g : tip_ok t -> one_op t ZERO_FORM_UUID [] = Some f -> ends (ce_value c) (ce_operands c) f ->
  cell_get fbits fuel KEY_ZERO c = Done g -> g = GValue f.
Proof.
  intros OK F (pre & E). destruct c as [v ops]. cbn [ce_value ce_operands] in E. unfold cell_get. cbn [ce_value ce_operands].
  destruct ops as [|x ops].
  - destruct v as [y|]; cbn [held app] in E; [|destruct pre; discriminate]. intro H. injection H as <-.
    change [y] with ([] ++ [y]) in E. apply app_inj_tail in E as [_ ->]. reflexivity.
  - intro H. apply rbind_done in H as (r & H & Q). unfold full_merge in H. change (key_form KEY_ZERO) with ZERO_RAW_FORM in H. rewrite E in H.
    pose proof (operator_tip _ _ _ _ OK F H) as ->. injection Q as <-. reflexivity.
Qed.
Lemma tail_cases {X} (a b : list X) pre (f : X) : a ++ b = pre ++ [f] -> b <> [] -> exists pre', b = pre' ++ [f].
Proof.
  intros E NB. destruct (@exists_last _ b NB) as (b' & x & ->). exists b'. rewrite app_assoc in E. apply app_inj_tail in E as [_ ->]. reflexivity.
Qed.
Lemma compact_tip t f c e c' : tip_ok t -> one_op t ZERO_FORM_UUID [] = Some f -> ends (ce_value c) (ce_operands c) f ->
  cell_compact fbits fuel KEY_ZERO e c = Done c' -> ends (ce_value c') (ce_operands c') f.
Proof.
  intros OK F (pre & E). destruct c as [v ops]. cbn [ce_value ce_operands] in E. destruct e as [i n|n]; cbn [cell_compact ce_operands ce_value].
  - destruct (firstn n (skipn i ops)) as [|x some] eqn:FN; [intro H; injection H as <-; exists pre; exact E|].
    intro H. apply rbind_done in H as (r & H & Q). unfold partial_merge in H. change (key_form KEY_ZERO) with ZERO_RAW_FORM in H.
    destruct r as [g|]; injection Q as <-; [|exists pre; exact E]. cbn [ce_value ce_operands].
    rewrite <- (firstn_skipn i ops), <- (firstn_skipn n (skipn i ops)), FN in E.
    destruct (skipn n (skipn i ops)) as [|y rest].
    + rewrite app_nil_r in E. assert (E2 := E). rewrite app_assoc in E2. apply tail_cases in E2; [|discriminate]. destruct E2 as (p2 & E2). rewrite E2 in H.
      pose proof (operator_tip _ _ _ _ OK F H) as Q. injection Q as ->. exists (held v ++ firstn i ops). rewrite app_assoc. reflexivity.
    + assert (E2 := E). rewrite !app_assoc in E2. apply tail_cases in E2; [|discriminate]. destruct E2 as (p2 & E2). rewrite E2.
      exists ((held v ++ firstn i ops) ++ g :: p2). rewrite <- !app_assoc. reflexivity.
  - destruct (firstn n ops) as [|x some] eqn:FN; [intro H; injection H as <-; exists pre; exact E|].
    intro H. apply rbind_done in H as (r & H & Q). unfold full_merge in H. change (key_form KEY_ZERO) with ZERO_RAW_FORM in H.
    destruct r as [g|]; injection Q as <-; [|exists pre; exact E]. cbn [ce_value ce_operands].
    rewrite <- (firstn_skipn n ops), FN in E.
    destruct (skipn n ops) as [|y rest].
    + rewrite app_nil_r in E. rewrite E in H. pose proof (operator_tip _ _ _ _ OK F H) as Q. injection Q as ->. exists []. reflexivity.
    + assert (E2 := E). rewrite !app_assoc in E2. apply tail_cases in E2; [|discriminate]. destruct E2 as (p2 & E2). rewrite E2.
      exists (g :: p2). reflexivity.
Qed.

Lemma tipped_read d t m f s : tipped d t -> b_read fbits fuel d KEY_ZERO = Done (m, f, s) ->
  m = d /\ s = ROk /\ one_op t ZERO_FORM_UUID [] = Some f.
Proof.
  intros (O & OK & f0 & pre & F & E) H. unfold b_read, rocks_read in H. change (key_eqb KEY_ZERO KEY_END) with false in H. cbn match in H.
  apply rbind_done in H as ([g k] & H & Q). apply rbind_done in H as (x & H & Q2).
  assert (x = GValue f0) as -> by (eapply get_tip; [exact OK|exact F|exists pre; exact E|exact H]).
  injection Q2 as <- <-. injection Q as <- <- <-. auto.
Qed.
Lemma tipped_open id d t now d' now' t' s : tipped d t -> uorigin t = uorigin id \/ id = NIL ->
  b_open fbits fuel id d now = Done (d', now', t', s) -> d' = d /\ s = ROk /\ t' = t.
Proof.
  intros T Y H. unfold b_open, open_store_tip in H. apply rbind_done in H as ([[m f] s1] & H & Q).
  destruct (tipped_read _ _ _ _ _ T H) as (-> & -> & F). cbn [is_ok negb] in Q. destruct T as (_ & OK & _).
  destruct (tip_reads t OK) as (f' & c & c1 & F' & NX & W & _). assert (f' = f) by congruence. subst f'. rewrite NX in Q.
  assert (TI : text_id c = t) by (unfold wop_of_cursor in W; unfold text_id; congruence). rewrite TI in Q.
  assert (B : negb (uorigin t =? uorigin id) && negb (uuid_eqb id NIL) = false).
  { destruct Y as [Y|Y]; [rewrite Y, N.eqb_refl; reflexivity|rewrite Y; apply andb_false_r]. }
  rewrite B in Q. remember (fst (clock_see now t)) as z eqn:EZ in Q. clear EZ. injection Q as <- <- <- <-. auto.
Qed.
Lemma tipped_compact d t k e d' : tipped d t -> compact fbits fuel d k e = Done d' -> tipped d' t.
Proof.
  intros (O & OK & f0 & pre & F & E) H. destruct (key_eqb k KEY_ZERO) eqn:EK.
  - apply key_eqb_eq in EK. subst k. unfold compact in H. destruct (existsb _ d); [|injection H as <-; split; [exact O|]; split; [exact OK|]; exists f0, pre; auto].
    apply rbind_done in H as (c & EC & Q). injection Q as <-. split; [apply put_order; exact O|]. split; [exact OK|].
    pose proof (compact_tip _ _ _ _ _ OK F (ex_intro _ pre E) EC) as (p2 & E2). exists f0, p2. split; [exact F|].
    rewrite put_at by exact O. rewrite key_eqb_refl. exact E2.
  - destruct (compact_other fbits fuel KEY_ZERO d k e d' O) as [O1 C1]; [intros ->; rewrite key_eqb_refl in EK; discriminate|exact H|].
    split; [exact O1|]. split; [exact OK|]. exists f0, pre. rewrite C1. auto.
Qed.
Lemma tipped_write d t k f d' s : k <> KEY_ZERO -> tipped d t -> b_write d k f = Done (d', s) -> tipped d' t.
Proof.
  intros NK (O & OK & f0 & pre & F & E) H. unfold b_write, rocks_write in H. 
  destruct (key_eqb k KEY_END && negb (match f with [] => true | _ => false end)); injection H as <- <-.
  - split; [exact O|]. split; [exact OK|]. exists f0, pre. auto.
  - split; [apply add_order; exact O|]. split; [exact OK|]. exists f0, pre. split; [exact F|].
    rewrite add_at by exact O. rewrite key_eqb_neq by exact NK. exact E.
Qed.
End Branch.

(* ---- the tip of a commit, whatever the frame ---- *)
Lemma time_tip u : id_ok u -> version u = TIME -> tip_ok u.
Proof. intros H V. split; [exact H|]. intros ->. discriminate. Qed.
Lemma run_reachable buf l c : run_to (cursor_of buf) l c -> reachable buf c.
Proof. induction 1; [constructor|econstructor; eassumption]. Qed.
Lemma delivered_id frame c : delivered frame c -> id_ok (text_id c).
Proof.
  intros (l & R). inversion R as [E|l1 c1 c2 R1 N E]; [destruct l; discriminate|]. apply app_inj_tail in E as [-> _].
  destruct (reachable_ok _ _ (run_reachable _ _ _ R1)) as [A B]. pose proof (next_safe _ _ A B) as K. unfold next_ok in K. rewrite N in K.
  destruct K as (_ & K & _). apply op_ok_prev in K. exact K.
Qed.
Lemma uuid_time_ok v o : v < 2 ^ 64 -> tip_ok (uuid_time v o).
Proof.
  intro H. apply time_tip; [|apply ClockTheorems.time_version]. split; [split; [exact H|]|]; rewrite ClockTheorems.time_origin.
  - pose proof (N.mod_lt o (2 ^ 60) ltac:(discriminate)) as L. change TIME with 2. change (2 ^ 64) with 18446744073709551616. change (2 ^ 60) with 1152921504606846976 in *. lia.
  - pose proof (N.mod_lt o (2 ^ 60) ltac:(discriminate)) as L. change TIME with 2. change (2 ^ 62) with 4611686018427387904. change (2 ^ 60) with 1152921504606846976 in *. lia.
Qed.

Section Replica.
Variable sha : bytes -> bytes.
Variable fbits : bytes -> N.
Variable S : Type.
Notation mem := (list (key * bytes)).
Variable jread : S -> mem -> key -> res (S * mem * bytes * rstatus).
Variable jprev : S -> mem -> key -> res (bytes * rstatus).
Variable mwrite : S -> key -> bytes -> res (S * rstatus).
Variable mbatch : S -> mem -> res (S * rstatus).
Variable active : N.
Variable fuel : nat.
Notation cst := (cst S).
Notation s_tip := (s_tip S).
Notation s_now := (s_now S).
Notation s_readings := (s_readings S).
Notation save_chain := (save_chain sha fbits S jread jprev fuel).
Notation receive_op := (receive_op sha fbits S jread jprev mwrite active fuel).
Notation receive_loop := (receive_loop sha fbits S jread jprev mwrite active fuel).

Definition same (st st' : cst) : Prop := (s_tip st', s_now st', s_readings st') = (s_tip st, s_now st, s_readings st).
Definition fine (st : cst) : Prop := tip_ok (s_tip st) /\ s_now st < 2 ^ 64 /\ Forall (fun r => r < 2 ^ 64) (s_readings st).
Lemma same_fine st st' : same st st' -> fine st -> fine st'.
Proof. unfold same, fine. intro E. injection E as -> -> ->. auto. Qed.
Lemma same_refl st : same st st. Proof. reflexivity. Qed.
Lemma same_trans a b c : same a b -> same b c -> same a c. Proof. unfold same. congruence. Qed.
Lemma jread_same st k st' f s : jread_step S jread st k = Done (st', f, s) -> same st st'.
Proof. unfold jread_step. intro H. apply rbind_done in H as ([[[m w] g] s1] & _ & Q). injection Q as <- _ _. reflexivity. Qed.
Lemma jwrite_same st k f st' s : jwrite_step S st k f = (st', s) -> same st st'.
Proof. unfold jwrite_step. destruct (write bytes (s_mem S st) k f). intro H. injection H as <- _. reflexivity. Qed.
Lemma find_op_same st id st' m s : find_op sha fbits S jread jprev fuel st id = Done (st', m, s) -> same st st'.
Proof.
  unfold find_op. intro H. apply rbind_done in H as ([m0 s0] & _ & H). destruct (is_ok s0); cbn [negb] in H; [|injection H as <- _ _; reflexivity].
  destruct (uuid_eqb (m_id m0) id); [injection H as <- _ _; reflexivity|].
  apply rbind_done in H as ([[st1 log] s1] & J & H). apply jread_same in J.
  assert (K : st' = st1); [|subst; exact J].
  destruct (is_ok s1); cbn [negb] in H; [|congruence].
  apply rbind_done in H as (c0 & _ & H). apply rbind_done in H as (c & _ & H). destruct (valid c); cbn [negb] in H; [|congruence].
  apply rbind_done in H as ([[m' v] s'] & _ & H). destruct (is_ok s'); cbn [negb] in H; [|congruence]. destruct v; [congruence|]. destruct (uvalue id =? NEVER_W); congruence.
Qed.
Lemma head_meta_same st c st' m s : head_meta sha fbits S jread jprev fuel st c = Done (st', m, s) -> same st st'.
Proof.
  unfold head_meta. intro H. apply rbind_done in H as ([[st1 tip] s0] & F & H). unfold find_tip in F. apply find_op_same in F.
  assert (GO : forall tp, (if uuid_eqb (text_ref c) (m_id tp) then rbind (meta_next sha fbits tp c tp) (fun m => Done (st1, m, ROk))
    else if version (text_ref c) =? NAME then
      if uuid2form (text_ref c) =? ERROR_NO_FORM then Done (st1, tp, RNotImplemented)
      else rbind (meta_root sha fbits c tp) (fun m => Done (st1, m, ROk))
    else rbind (find_op sha fbits S jread jprev fuel st1 (text_ref c)) (fun '(st2, refd, s2) =>
         if negb (is_ok s2) then Done (st2, tp, s2)
         else rbind (meta_next sha fbits tp c refd) (fun m => Done (st2, m, ROk)))) = Done (st', m, s) -> same st st').
  { intros tp K. destruct (uuid_eqb (text_ref c) (m_id tp)); [apply rbind_done in K as (x & _ & K); injection K as <- _ _; exact F|].
    destruct (version (text_ref c) =? NAME).
    - destruct (uuid2form (text_ref c) =? ERROR_NO_FORM); [injection K as <- _ _; exact F|]. apply rbind_done in K as (x & _ & K). injection K as <- _ _. exact F.
    - apply rbind_done in K as ([[st2 refd] s2] & F2 & K). apply find_op_same in F2. apply (same_trans _ _ _ F).
      destruct (is_ok s2); cbn [negb] in K; [|injection K as <- _ _; exact F2]. apply rbind_done in K as (x & _ & K). injection K as <- _ _. exact F2. }
  destruct (uuid_eqb (text_ref c) YARN_FORM_UUID).
  - destruct s0; try (injection H as <- _ _; exact F).
    + destruct (uuid_eqb (text_id c) (m_id tip)); injection H as <- _ _; exact F.
    + apply rbind_done in H as (x & _ & H). apply (GO x). exact H.
  - destruct s0; try (injection H as <- _ _; exact F).
    destruct (negb (uuid_ltb (m_id tip) (text_id c))); [injection H as <- _ _; exact F|]. apply (GO tip). exact H.
Qed.
Lemma now_step_fine st st' u : fine st -> now_step S active st = (st', u) -> fine st' /\ tip_ok u.
Proof.
  intros (A & B & C). unfold now_step, clock_now. intro H.
  set (n := if s_now st <? hd 0 (s_readings st) then hd 0 (s_readings st) else (s_now st + 1) mod two64) in H.
  assert (L : n < 2 ^ 64).
  { unfold n. destruct (s_now st <? hd 0 (s_readings st)).
    - destruct (s_readings st) as [|r l]; [reflexivity|]. exact (Forall_inv C).
    - apply N.mod_lt. discriminate. }
  clearbody n. injection H as <- <-. split; [|apply uuid_time_ok; exact L]. split; [exact A|]. split; [exact L|]. cbn.
  destruct (s_readings st); [constructor|]. inversion C; assumption.
Qed.
Lemma write_new_fine st c st' c' s : fine st -> write_new S active fuel st c = Done (st', c', s) -> fine st'.
Proof.
  intro F. unfold write_new. destruct (now_step S active st) as [st1 u] eqn:N. destruct (now_step_fine _ _ _ F N) as [F1 _].
  intro H. apply rbind_done in H as (x & _ & H). injection H as <- _ _. exact F1.
Qed.
Lemma txt_write_fine st c st' c' s : fine st -> txt_write S jread active fuel st c = Done (st', c', s) -> fine st'.
Proof.
  intro F. unfold txt_write. destruct (nth_error (c_op c) 2) as [[u|b e|cp n b e|b e]|]; try (intro H; injection H as <- _ _; exact F).
  { destruct (uuid_eqb u SINCE_COMMAND || uuid_eqb u HILI_COMMAND); intro H; injection H as <- _ _; exact F. }
  unfold txt_write_state. intro H. apply rbind_done in H as ([[st1 f] s1] & J & H). apply jread_same in J. pose proof (same_fine _ _ J F) as F1.
  destruct (is_ok s1); cbn [negb] in H; [|injection H as <- _ _; exact F1].
  destruct (scan_text fuel f) as [ss tombs| | |]; try discriminate. destruct ss; try (injection H as <- _ _; exact F1).
  apply rbind_done in H as (x & _ & H). destruct (now_step S active st1) as [st2 now] eqn:N. destruct (now_step_fine _ _ _ F1 N) as [F2 TK].
  apply rbind_done in H as ([[st3 y] s3] & W & H). injection H as <- _ _. apply write_new_fine in W; [exact W|].
  destruct F2 as (_ & B & C). split; [exact TK|]. split; [exact B|exact C].
Qed.
Lemma txt_read_fine st c st' c' s : fine st -> txt_read S jread fuel st c = Done (st', c', s) -> fine st'.
Proof.
  intro F. unfold txt_read. intro H. apply rbind_done in H as ([[st1 f] s1] & J & H). apply jread_same in J. pose proof (same_fine _ _ J F) as F1.
  destruct (is_ok s1); cbn [negb] in H; [|injection H as <- _ _; exact F1].
  destruct (scan_text fuel f) as [ss tombs| | |]; try discriminate. apply rbind_done in H as (x & _ & H). apply rbind_done in H as (y & _ & H).
  injection H as <- _ _. exact F1.
Qed.
Lemma receive_query_fine st c st' c' s : fine st -> receive_query sha fbits S jread jprev fuel st c = Done (st', c', s) -> fine st'.
Proof.
  intro F. unfold receive_query.
  match goal with |- (if ?b then _ else _) = _ -> _ => destruct b end.
  { unfold query_object. intro H. apply rbind_done in H as ([[st1 f] s1] & J & H). apply jread_same in J. pose proof (same_fine _ _ J F) as F1.
    destruct (is_ok s1); cbn [negb] in H; [|injection H as <- _ _; exact F1]. apply rbind_done in H as (x & _ & H). injection H as <- _ _. exact F1. }
  destruct (uuid2form (text_ref c) =? LOG_RAW_FORM); [|intro H; injection H as <- _ _; exact F].
  unfold query_log. intro H. apply rbind_done in H as (d & _ & H). apply rbind_done in H as ([[st1 m] s1] & J & H). apply find_op_same in J. pose proof (same_fine _ _ J F) as F1.
  destruct (is_ok s1); cbn [negb] in H; [|injection H as <- _ _; exact F1].
  apply rbind_done in H as ([[st2 log] s2] & J2 & H). apply jread_same in J2. pose proof (same_fine _ _ J2 F1) as F2.
  destruct (is_ok s2); cbn [negb] in H; [|injection H as <- _ _; exact F2].
  destruct (uuid_eqb (text_id c) (m_obj m)); [injection H as <- _ _; exact F2|]. apply rbind_done in H as (x & _ & H).
  destruct (c_op x); [discriminate|]. injection H as <- _ _. exact F2.
Qed.
Lemma receive_writes_fine st c st' c' s : fine st -> receive_writes S jread active fuel st c = Done (st', c', s) -> fine st'.
Proof.
  intro F. unfold receive_writes. destruct (version (text_ref c) =? TIME); [apply write_new_fine; exact F|].
  destruct (negb (version (text_ref c) =? NAME)); [intro H; injection H as <- _ _; exact F|].
  intro H. apply rbind_done in H as (x & _ & H). revert H.
  match goal with |- (if ?b then _ else _) = _ -> _ => destruct b end; [apply write_new_fine; exact F|].
  destruct (uuid2form (text_ref c) =? TXT_MAP_FORM); [apply txt_write_fine; exact F|]. intro H; injection H as <- _ _; exact F.
Qed.
Lemma write_name_fine st c st' c' s : fine st -> write_name S mwrite active st c = Done (st', c', s) -> fine st'.
Proof.
  intro F. unfold write_name. destruct (nth_error (c_op c) 2) as [[tag|b e|cp n b e|b e]|]; try (intro H; injection H as <- _ _; exact F).
  destruct (negb (version tag =? NAME)); [intro H; injection H as <- _ _; exact F|].
  intro H. apply rbind_done in H as (x & _ & H). destruct (now_step S active st) as [st1 id] eqn:N. destruct (now_step_fine _ _ _ F N) as [F1 _].
  destruct (one_op id NIL [VUuid tag; VUuid (s_tip st1)]) as [f|]; [|discriminate]. apply rbind_done in H as ([m s1] & _ & H). injection H as <- _ _. exact F1.
Qed.
Lemma chainlet_tip_any n frame : forall base tip m acc c t m' acc' c' s, delivered frame c ->
  tip_ok tip -> tip_ok (m_id m) -> chainlet sha fbits n base tip m acc c = Done (t, m', acc', c', s) -> tip_ok t /\ tip_ok (m_id m').
Proof.
  induction n as [|n IH]; intros base tip m acc c t m' acc' c' s D T M H; [discriminate|]. cbn [chainlet] in H.
  destruct (next c) as [d|d|d|] eqn:N; try discriminate; try (injection H as <- <- <- <- <-; auto; fail).
  pose proof (delivered_next frame _ _ D N) as Dd.
  destruct (uuid_eqb (text_id d) COMMENT); [eapply IH; [exact Dd| | |exact H]; assumption|].
  destruct (meta_is_next m d).
  - destruct (check_sanity d) eqn:SN; try (injection H as <- <- <- <- <-; auto; fail).
    apply rbind_done in H as (m1 & MN & H). destruct (meta_next_inv _ _ _ _ _ _ MN) as (M1 & _).
    assert (TD : tip_ok (text_id d)) by (apply time_tip; [eapply delivered_id; exact Dd|apply (sanity_inv d SN)]).
    assert (TM : tip_ok (m_id m1)) by (rewrite M1; exact TD).
    destruct (uorigin (text_id d) =? uorigin base); [|eapply IH; [exact Dd| | |exact H]; assumption].
    destruct (negb (uuid_ltb tip (text_id d))); [injection H as <- <- <- <- <-; auto|eapply IH; [exact Dd| | |exact H]; assumption].
  - destruct (meta_is_check m d); [|injection H as <- <- <- <- <-; auto].
    destruct (meta_check d); try (injection H as <- <- <- <- <-; auto; fail). eapply IH; [exact Dd| | |exact H]; assumption.
Qed.
Lemma save_chain_fine frame st c st' c' s : delivered frame c -> fine st -> save_chain st c = Done (st', c', s) -> fine st'.
Proof.
  intros D F. unfold ReplicaModel.save_chain. destruct (check_sanity c) eqn:SN; try (intro H; injection H as <- _ _; exact F).
  intro H. apply rbind_done in H as ([[st1 m] s1] & HM & H). pose proof (head_meta_same _ _ _ _ _ HM) as S1. pose proof (same_fine _ _ S1 F) as F1.
  destruct (head_meta_inv _ _ _ _ _ mwrite _ _ _ _ _ _ SN HM) as (_ & _ & OK1).
  destruct (is_ok s1) eqn:E1; cbn [negb] in H; [|injection H as <- _ _; exact F1].
  apply is_ok_iff in E1. destruct (OK1 E1) as [ID _]. rewrite ID, (sanity_ref c SN) in H. cbn [negb] in H.
  apply rbind_done in H as ([st2 s2] & W1 & H).
  assert (F2 : fine st2).
  { destruct (meta_save m) as [rec|]; [|discriminate]. injection W1 as W1. apply jwrite_same in W1. exact (same_fine _ _ W1 F1). }
  clear W1. destruct (negb (is_ok s2)); [injection H as <- _ _; exact F2|].
  apply rbind_done in H as ([[[[st3 m'] data] d] s3] & CL & H). unfold save_chainlet in CL.
  apply rbind_done in CL as ([[[[t m1] acc] d1] s4] & CL & Q). injection Q as <- -> Qd <- ->.
  assert (TM : tip_ok (m_id m)) by (rewrite ID; apply time_tip; [eapply delivered_id; exact D|apply (sanity_inv c SN)]).
  destruct F2 as (A2 & B2 & C2).
  destruct (chainlet_tip_any _ _ _ _ _ _ _ _ _ _ _ _ D A2 TM CL) as [TT TM'].
  assert (F3 : fine (set_tip S st2 t)) by (split; [exact TT|]; split; [exact B2|exact C2]).
  destruct (negb (is_ok s3)); [injection H as <- _ _; exact F3|].
  destruct (see_step S (set_tip S st2 t) (m_id m')) as [st5 s5] eqn:SE.
  assert (F5 : fine st5).
  { unfold see_step in SE. destruct (clock_see (s_now (set_tip S st2 t)) (m_id m')) as [n5 x5] eqn:CS. injection SE as <- _.
    split; [exact TT|]. split; [|exact C2]. cbn. unfold clock_see in CS. destruct F3 as (_ & B3 & _).
    destruct (negb (version (m_id m') =? TIME)); [injection CS as <- _; exact B3|].
    destruct (uvalue (m_id m') <? s_now (set_tip S st2 t)); [injection CS as <- _; exact B3|].
    destruct (NEVER_W <=? uvalue (m_id m')); injection CS as <- _; [exact B3|]. apply TM'. }
  clear SE. destruct (negb (is_ok s5)); [injection H as <- _ _; exact F5|].
  destruct data as [f|]; [|discriminate].
  destruct (jwrite_step S st5 (key_as (m_obj m') LOG_FORM_UUID) f) as [st6 s6] eqn:W2. apply jwrite_same in W2. pose proof (same_fine _ _ W2 F5) as F6.
  destruct (negb (is_ok s6)); [injection H as <- _ _; exact F6|].
  destruct (jwrite_step S st6 (key_as (m_obj m') (m_rdt m')) f) as [st7 s7] eqn:W3. apply jwrite_same in W3. pose proof (same_fine _ _ W3 F6) as F7.
  destruct (negb (is_ok s7)); injection H as <- _ _; [exact F7|]. destruct F7 as (_ & B7 & C7). split; [exact TM'|]. split; [exact B7|exact C7].
Qed.
Lemma receive_op_fine frame st c st' c' s : delivered frame c -> fine st -> receive_op st c = Done (st', c', s) -> fine st'.
Proof.
  intros D F. unfold ReplicaModel.receive_op.
  destruct (version (text_id c) =? TIME).
  { destruct (c_term c =? QUERY); [apply receive_query_fine; exact F|].
    destruct (negb (payload (uorigin (text_id c)) =? 0)); [eapply save_chain_fine; eassumption|apply receive_writes_fine; exact F]. }
  destruct (version (text_id c) =? DERIVED).
  { intro H. apply rbind_done in H as (p & _ & H). revert H.
    destruct (p =? QUERY); destruct (uuid2form (text_ref c) =? TXT_MAP_FORM); try (intro H; injection H as <- _ _; exact F);
      [apply txt_read_fine; exact F|apply txt_write_fine; exact F]. }
  destruct (version (text_id c) =? NAME); [|intro H; injection H as <- _ _; exact F].
  destruct (uuid_eqb (text_id c) COMMENT).
  { destruct (next c); try discriminate; intro H; injection H as <- _ _; exact F. }
  destruct (uuid_eqb (text_id c) NAME_UUID); [apply write_name_fine; exact F|]. intro H; injection H as <- _ _; exact F.
Qed.
Lemma receive_loop_fine frame n c0 : next (cursor_of frame) = NOk c0 -> forall st l c st' s, passes c0 l c -> fine st ->
  receive_loop n st c = Done (st', s) -> fine st'.
Proof.
  intro N0. induction n as [|n IH]; intros st l c st' s P F H; [discriminate|]. cbn [ReplicaModel.receive_loop] in H.
  destruct (valid c) eqn:V; [|injection H as <- _; exact F].
  apply rbind_done in H as ([[st1 c1] s1] & RO & H).
  assert (D : delivered frame c) by (pose proof (passes_run _ _ _ _ N0 P) as R; rewrite V in R; exists l; exact R).
  pose proof (receive_op_fine frame _ _ _ _ _ D F RO) as F1.
  destruct (is_ok s1) eqn:E1; [|injection H as <- _; exact F1].
  apply is_ok_iff in E1. subst s1. destruct (receive_op_inv _ _ _ _ _ _ _ _ frame _ _ _ _ _ D V RO) as (ws & _ & _ & K).
  destruct (K eq_refl) as (l1 & P1 & _). apply (IH st1 (l ++ l1) c1 st' s); [eapply passes_app; eassumption|exact F1|exact H].
Qed.
End Replica.

Section Branch.
Variable sha : bytes -> bytes.
Variable fbits : bytes -> N.
Variable active : N.
Variable fuel : nat.
Notation b_jread := (b_jread fbits fuel).
Notation b_jprev := (b_jprev fbits fuel).
Notation receive_loop := (receive_loop sha fbits family b_jread b_jprev b_write active fuel).
Notation receive_frame := (receive_frame sha fbits family b_jread b_jprev b_write b_batch active fuel).
Notation acts := (acts family b_jread b_write).
Notation b_step := (b_step sha fbits active fuel).
Notation b_run := (b_run sha fbits active fuel).

Lemma read_sorted w k old w' f s : sorted_store w -> read bytes [] (merge_as fbits fuel) w k old = Done (w', f, s) -> sorted_store w'.
Proof.
  intros SS H. pose proof (read_ok (F := bytes) [] (merge_as fbits fuel) w k old SS) as R.
  destruct (contents w k) as [|x [|y l]]; [rewrite R in H; injection H as <- _ _; exact SS|rewrite R in H; injection H as <- _ _; exact SS|].
  destruct R as [R K]. rewrite R in H. apply rbind_done in H as ([r s1] & _ & H). injection H as <- _ _. apply K.
Qed.
Lemma jread_keeps d w k d' w' f s : sorted_store w -> b_jread d w k = Done (d', w', f, s) -> d' = d /\ sorted_store w'.
Proof.
  intros SS H. unfold BranchModel.b_jread in H. apply rbind_done in H as ([fa sa] & _ & H).
  destruct sa; try (injection H as <- <- _ _; auto; fail).
  apply rbind_done in H as ([[w1 fb] sb] & R & H). apply read_sorted in R; [|exact SS].
  destruct sb; try (injection H as <- <- _ _; auto; fail).
  destruct (blank fa); [injection H as <- <- _ _; auto|]. destruct (blank fb); [injection H as <- <- _ _; auto|].
  apply rbind_done in H as ([r s1] & _ & H). injection H as <- <- _ _. auto.
Qed.
Lemma acts_keep t x ws y : acts x ws y -> tipped (fst x) t -> sorted_store (snd x) -> tipped (fst y) t /\ sorted_store (snd y).
Proof.
  intro A. induction A as [|ws m w k m' w' f s A IH J|ws m w k f w' A IH W|ws m w f m' s A IH W]; intros T SS; [auto| | |];
    destruct (IH T SS) as [T1 S1]; cbn [fst snd] in *.
  - destruct (jread_keeps _ _ _ _ _ _ _ S1 J) as [-> S2]. auto.
  - split; [exact T1|]. pose proof (write_ok w k f S1) as K. rewrite W in K. apply K.
  - split; [|exact S1]. eapply tipped_write; [|exact T1|exact W]. discriminate.
Qed.
Lemma batch_tip d t w f w' t' d' s : tipped d t -> tip_ok t' -> sorted_store w -> one_op t' ZERO_FORM_UUID [] = Some f ->
  write bytes w KEY_ZERO f = (w', StOK) -> b_batch d w' = Done (d', s) -> tipped d' t' /\ s = ROk.
Proof.
  intros (O & _ & _) TK SS F W B. pose proof (write_ok w KEY_ZERO f SS) as K. rewrite W in K. destruct K as (_ & K & _).
  unfold b_batch, rocks_batch in B. injection B as <- <-. split; [|reflexivity].
  destruct (adds_at w' d KEY_ZERO O) as [O2 E]. unfold adds in *. split; [exact O2|]. split; [exact TK|].
  rewrite K in E. cbn [before_end] in E. change (key_eqb KEY_ZERO KEY_END) with false in E. cbn match in E.
  unfold contents at 2 in E. cbn [filter fst] in E. rewrite key_eqb_refl in E. cbn [map snd] in E.
  exists f. rewrite E. cbn [ce_value ce_operands]. exists (held (ce_value (cell_at d KEY_ZERO)) ++ ce_operands (cell_at d KEY_ZERO) ++ contents w KEY_ZERO).
  split; [exact F|]. rewrite <- !app_assoc. reflexivity.
Qed.

(* the end of a commit *)
Definition result (d : family) (now : N) (rs : list N) (base : uuid) (frame : bytes) (st : cst family) : Prop :=
  exists c, next (cursor_of frame) = NOk c /\ receive_loop fuel (commit_on family d now rs base) c = Done (st, ROk).
Lemma receive_tip d t now rs base frame d' now' s : tipped d t -> tip_ok base -> now < 2 ^ 64 -> Forall (fun r => r < 2 ^ 64) rs ->
  receive_frame d now rs base frame = Done (d', now', s) ->
  (tipped d' t /\ (s = ROk -> (forall c, ~ delivered frame c) \/ exists st, result d now rs base frame st /\ s_tip family st = base)) \/
  (s = ROk /\ exists st, result d now rs base frame st /\ tipped d' (s_tip family st) /\ s_tip family st <> base /\
     (base = NIL \/ uorigin (s_tip family st) = uorigin base)).
Proof.
  intros T TB NB RB H. unfold ReplicaModel.receive_frame in H.
  assert (NONE : (exists e, next (cursor_of frame) = NEnd e \/ next (cursor_of frame) = NBad e) -> forall c, ~ delivered frame c).
  { intros (e & E) c D. assert (O : ops_of frame []) by (exists (cursor_of frame), e; split; [constructor|exact E]). exact (ops_complete _ _ _ O D). }
  destruct (next (cursor_of frame)) as [c|c|c|] eqn:N; try discriminate.
  2,3: injection H as <- _ <-; left; split; [exact T|]; intros _; left; apply NONE; eauto.
  clear NONE. unfold receive in H. apply rbind_done in H as ([st2 s2] & H & Q). injection Q as <- _ <-.
  apply rbind_done in H as ([st1 s1] & RL & H).
  destruct (receive_loop_inv sha fbits family b_jread b_jprev b_write active fuel frame c fuel _ [] [] _ [] c st1 s1 N eq_refl
              (acc_none _ _ _ _ _) (pass0 c) (Forall_nil _) (Forall_nil _) (Forall_nil _) (subl_nil _) (subl_nil _) RL) as (hs & ws & A1 & A2 & _ & _).
  change (s_base family (commit_on family d now rs base)) with base in A2.
  destruct (acts_keep t _ _ _ A1 T ltac:(constructor)) as [T1 S1]. cbn [fst snd] in T1, S1.
  destruct (receive_loop_fine sha fbits family b_jread b_jprev b_write active fuel frame fuel c N (commit_on family d now rs base) [] c _ _ (pass0 c) (conj TB (conj NB RB)) RL) as (TK & _).
  destruct (is_ok s1) eqn:E1; [|injection H as <- <-; left; split; [exact T1|]; intros ->; discriminate].
  apply is_ok_iff in E1. subst s1.
  destruct (save_inv _ _ _ _ _ H) as [(Q1 & -> & ->)|[(Q1 & Q2)|(Q1 & Q2 & Q3 & f & w & F & W & B)]].
  - left. split; [exact T1|]. intros _. right. exists st1. split; [exists c; auto|congruence].
  - left. split; [rewrite Q2; exact T1|]. contradiction.
  - destruct (batch_tip _ _ _ _ _ _ _ _ T1 TK S1 F W B) as [TT ->]. right. split; [reflexivity|]. exists st1.
    split; [exists c; auto|]. split; [exact TT|]. rewrite A2 in *. auto.
Qed.
(* frames with nothing but events *)
Lemma events_tip d now rs base frame st : events_only frame -> result d now rs base frame st ->
  (no_event frame /\ s_tip family st = base) \/ (exists c, last_event frame c /\ s_tip family st = text_id c).
Proof.
  intros EO (c & N & RL).
  destruct (receive_loop_tip sha fbits family b_jread b_jprev b_write active fuel frame EO c fuel base (commit_on family d now rs base) [] c st N (pass0 c) (or_introl eq_refl) RL) as (l & O & E).
  rewrite E. destruct (lst_cases l) as [[K F]|(l1 & x & l2 & -> & St & F & K)].
  - left. rewrite K. split; [|reflexivity]. intros y D St. pose proof (ops_complete _ _ _ O D) as I. rewrite Forall_forall in F. exact (F y I St).
  - right. exists x. split; [|apply K]. exists l1, l2. auto.
Qed.
Lemma step_tip id b e b' s t : tipped (br_main b) t -> tip_ok (br_tip b) -> clocks e -> b_step id b e = Done (b', s) ->
  uorigin t = uorigin id \/ id = NIL ->
  exists t', tipped (br_main b') t' /\ tip_ok (br_tip b') /\
    (uorigin (br_tip b) = uorigin id -> br_tip b <> NIL -> uorigin t' = uorigin id \/ id = NIL) /\
    (forall n, e = BOpen n -> s = ROk /\ t' = t /\ br_tip b' = t) /\
    ((forall n, e <> BOpen n) -> br_tip b' = br_tip b) /\
    ((forall n rs f, e = BReceive n rs f -> events_only f) -> recalls (br_tip b) t e s (br_tip b') t').
Proof.
  intros T TB CK H Y. destruct e as [now rs frame|now|k e]; cbn [BranchModel.b_step] in H.
  - unfold b_receive in H. apply rbind_done in H as ([[d n'] s1] & H & Q). injection Q as <- <-. cbn [br_main br_tip]. destruct CK as [C1 C2].
    destruct (receive_tip _ _ _ _ _ _ _ _ _ T TB C1 C2 H) as [[TT K]|(-> & st & R & TT & NE & YB)].
    + exists t. split; [exact TT|]. split; [exact TB|]. split; [auto|]. split; [discriminate|]. split; [reflexivity|].
      intro EO. destruct s1; try (apply rec_refused; discriminate). destruct (K eq_refl) as [K2|(st & R & E)].
      * apply rec_quiet. intros c D. destruct (K2 c D).
      * destruct (events_tip _ _ _ _ _ _ (EO _ _ _ eq_refl) R) as [[NV _]|(c & L & E2)]; [apply rec_quiet; exact NV|].
        eapply rec_same; [exact L|congruence].
    + exists (s_tip family st). split; [exact TT|]. split; [exact TB|]. split; [intros; left; destruct YB as [YB|YB]; [contradiction|congruence]|].
      split; [discriminate|]. split; [reflexivity|]. intro EO. destruct (events_tip _ _ _ _ _ _ (EO _ _ _ eq_refl) R) as [[_ E]|(c & L & E)]; [contradiction|].
      rewrite E. apply rec_event; [exact L|congruence].
  - apply rbind_done in H as ([[[d n'] t'] s1] & H & Q). destruct (tipped_open fbits fuel _ _ _ _ _ _ _ _ T Y H) as (-> & -> & ->).
    injection Q as <- <-. cbn [br_main br_tip is_ok]. exists t. split; [exact T|]. split; [apply T|]. split; [auto|].
    split; [auto|]. split; [intro K; destruct (K now eq_refl)|]. intros _. apply rec_open.
  - apply rbind_done in H as (d & H & Q). injection Q as <- <-. cbn [br_main br_tip]. exists t. split; [eapply tipped_compact; eassumption|].
    split; [exact TB|]. split; [auto|]. split; [discriminate|]. split; [reflexivity|]. intros _. apply rec_compact.
Qed.
Lemma run_tip id : version id = TIME -> forall es b b' ss t, healthy id b t -> Forall clocks es -> b_run id b es = Done (b', ss) ->
  exists t', healthy id b' t' /\ Forall2 opened es ss /\
    ((forall n rs f, In (BReceive n rs f) es -> events_only f) -> remembers (br_tip b) t es ss (br_tip b') t').
Proof.
  intro VT. assert (NN : id <> NIL) by (intros ->; discriminate). assert (OR : forall u, uorigin u = uorigin id -> u <> NIL).
  { intros u E ->. unfold version in VT. rewrite <- E in VT. discriminate. }
  induction es as [|e es IH]; intros b b' ss t (T & TB & Y & YB) C H; cbn [BranchModel.b_run] in H.
  - injection H as <- <-. exists t. split; [split; [exact T|auto]|]. split; [constructor|]. intros _. constructor.
  - apply rbind_done in H as ([b1 s] & H1 & H). apply rbind_done in H as ([b2 s2] & H2 & H). injection H as <- <-.
    inversion C as [|? ? C1 C2]; subst.
    destruct (step_tip id b e b1 s t T TB C1 H1 (or_introl Y)) as (t1 & T1 & TB1 & K1 & K2 & K3 & K4).
    destruct (K1 YB (OR _ YB)) as [Y1|Y1]; [|contradiction].
    assert (YB1 : uorigin (br_tip b1) = uorigin id).
    { destruct e as [n rs f|n|k ce]; [rewrite K3 by discriminate; exact YB|destruct (K2 n eq_refl) as (_ & _ & ->); exact Y|rewrite K3 by discriminate; exact YB]. }
    destruct (IH b1 b2 s2 t1 (conj T1 (conj TB1 (conj Y1 YB1))) C2 H2) as (t2 & A1 & A2 & A3).
    exists t2. split; [exact A1|]. split.
    + constructor; [|exact A2]. destruct e as [n rs f|n|k ce]; cbn; auto. apply (K2 n eq_refl).
    + intro EO. eapply rem_more; [apply K4; intros n rs f ->; eapply EO; left; reflexivity|]. apply A3. intros n rs f I. eapply EO. right. exact I.
Qed.
End Branch.

Lemma key_not_end id form : form < 255 -> key_eqb (key_of id form) KEY_END = false.
Proof.
  intro H. apply key_eqb_neq. intro E. apply (f_equal kfirst) in E. rewrite key_of_eq in E by lia. cbn [kfirst] in E.
  assert (EE : kfirst KEY_END = 255 * 2 ^ 56 + (2 ^ 56 - 1)) by (vm_compute; reflexivity). rewrite EE in E. clear EE.
  pose proof (N.mod_lt (uorigin id) (2 ^ 60) ltac:(discriminate)) as L. remember (uorigin id mod 2 ^ 60) as x eqn:EX. clear EX.
  change (2 ^ 60) with 1152921504606846976 in *. change (2 ^ 56) with 72057594037927936 in *. dlia.
Qed.
Lemma key_from_zero k : key_ltb k KEY_ZERO = false.
Proof.
  assert (E : KEY_ZERO = mkKey 0 0) by (vm_compute; reflexivity). rewrite E. unfold key_ltb. cbn [kfirst ksecond].
  assert (Z : forall n, (n <? 0) = false) by (intro n; apply N.ltb_ge; lia). rewrite !Z. rewrite andb_false_r. reflexivity.
Qed.
Lemma origin_time u : version u = TIME -> uorigin u <> 0.
Proof. intros V E. unfold version in V. rewrite E in V. discriminate. Qed.

Section Branch.
Variable sha : bytes -> bytes.
Variable fbits : bytes -> N.
Variable active : N.
Variable fuel : nat.
Notation b_jread := (b_jread fbits fuel).
Notation b_jprev := (b_jprev fbits fuel).
Notation save_chain := (save_chain sha fbits family b_jread b_jprev fuel).
Notation head_meta := (head_meta sha fbits family b_jread b_jprev fuel).

(* a family with nothing but a tip record *)
Lemma only_prev d c0 f k r s : tipped d NIL -> d = [(KEY_ZERO, c0)] -> one_op NIL ZERO_FORM_UUID [] = Some f ->
  key_ltb k KEY_ZERO = false -> b_jprev d [] k = Done (r, s) -> r = f /\ s = ROk.
Proof.
  intros (O & OK & f0 & pre & F & E) D F0 KZ H. assert (f0 = f) by congruence. subst f0. rewrite D in E. cbn [cell_at] in E. rewrite key_eqb_refl in E.
  unfold BranchModel.b_jprev in H. apply rbind_done in H as ([ia sa] & SK & H). unfold ri_seek, ri_new in SK. cbn [ri_snap] in SK. rewrite D in SK.
  cbn [last_upto] in SK. rewrite KZ in SK. unfold settle in SK. apply rbind_done in SK as (g & GV & SK). assert (GV' := GV). unfold ri_value in GV. cbn [ri_at ri_snap nth_error] in GV.
  pose proof (get_tip fbits fuel NIL f c0 g OK F (ex_intro _ pre E) GV) as ->. injection SK as <- <-.
  cbn [it_seek StoreModel.lower_bound nth_error new_iter it_merged it_len length Nat.eqb negb andb] in H.
  unfold it_seek in H. cbn [StoreModel.lower_bound nth_error new_iter it_merged it_len length Nat.eqb negb andb] in H.
  cbn [it_key it_len rbind] in H. unfold ri_key in H. cbn [ri_at ri_snap nth_error] in H. change (key_eqb KEY_ZERO KEY_END) with false in H.
  change (key_eqb KEY_END KEY_END) with true in H. cbn match in H. rewrite key_eqb_refl in H. cbn [negb] in H.
  change (key_eqb KEY_END KEY_ZERO) with false in H. cbn [negb] in H. rewrite GV' in H. cbn [rbind] in H. injection H as <- <-. auto.
Qed.
Lemma zero_tip : tip_ok NIL. Proof. split; [split; [split|]; reflexivity|discriminate]. Qed.

Lemma first_chain d c0 ev c c1 now rs st s cx : tipped d NIL -> d = [(KEY_ZERO, c0)] -> version ev = TIME -> uvalue ev < NEVER_W ->
  text_id c = ev -> text_ref c = YARN_FORM_UUID -> next c = NEnd c1 -> valid c = true ->
  save_chain (commit_on family d now rs NIL) c = Done (st, cx, s) -> s = ROk /\ s_tip family st = ev.
Proof.
  intros T D VT NV TI TR NE V H.
  assert (SN : check_sanity c = ROk).
  { unfold check_sanity. rewrite TI, TR, VT. cbn [negb N.eqb Pos.eqb]. reflexivity. }
  unfold ReplicaModel.save_chain in H. rewrite SN in H. apply rbind_done in H as ([[st1 m] s1] & HM & H).
  assert (K : s1 = ROk /\ m_id m = ev /\ m_obj m = ev /\ m_rdt m = YARN_FORM_UUID).
  { unfold ReplicaModel.head_meta in HM. apply rbind_done in HM as ([[stt tip] s0] & FT & HM).
    assert (s0 = RNotFound).
    { unfold find_tip, find_op, find_head in FT. apply rbind_done in FT as ([m0 sm] & FH & FT). apply rbind_done in FH as ([f s2] & JP & FH).
      cbn [commit_on s_main s_mem] in JP. destruct (tip_reads NIL zero_tip) as (f0 & x & x1 & F0 & NX & W & _).
      destruct (only_prev _ _ _ _ _ _ T D F0 (key_from_zero _) JP) as [-> ->].
      cbn [is_ok negb] in FH. rewrite NX in FH. assert (TX : text_id x = NIL) by (unfold wop_of_cursor in W; unfold text_id; congruence).
      rewrite TX in FH. rewrite TI in FH. cbn [uorigin NIL] in FH. destruct (0 =? uorigin ev) eqn:Z; [apply N.eqb_eq in Z; symmetry in Z; destruct (origin_time _ VT Z)|].
      cbn [negb orb] in FH. injection FH as <- <-. cbn [is_ok negb] in FT. congruence. }
    subst s0. rewrite TR in HM. change (uuid_eqb YARN_FORM_UUID YARN_FORM_UUID) with true in HM. cbn match in HM.
    apply rbind_done in HM as (m0 & R0 & HM). destruct (meta_root_inv _ _ _ _ _ R0) as (I0 & _ & _). rewrite I0 in HM.
    assert (NQ : uuid_eqb YARN_FORM_UUID (text_id c) = false) by (rewrite <- TR; apply sanity_ref; exact SN). rewrite NQ in HM.
    change (version YARN_FORM_UUID =? NAME) with true in HM. cbn match in HM.
    assert (VF : uuid2form YARN_FORM_UUID =? ERROR_NO_FORM = false) by (vm_compute; reflexivity). rewrite VF in HM.
    apply rbind_done in HM as (m1 & R1 & HM). destruct (meta_root_inv _ _ _ _ _ R1) as (I1 & I2 & I3). injection HM as <- <- <-.
    rewrite I1, I2, I3. auto. }
  destruct K as (-> & MI & MO & MR). cbn [is_ok negb] in H.
  assert (NQ : uuid_eqb (text_ref c) (m_id m) = false) by (rewrite MI, <- TI; apply sanity_ref; exact SN). rewrite NQ in H. cbn [negb] in H.
  apply rbind_done in H as ([st2 s2] & W1 & H). destruct (meta_save m) as [mf|]; [|discriminate].
  assert (WR : forall st k f, key_eqb k KEY_END = false -> jwrite_step family st k f = (set_stores family st (s_main family st) (insert bytes (s_mem family st) (k, f)), ROk)).
  { intros x k f E. unfold jwrite_step, write. rewrite E. reflexivity. }
  rewrite WR in W1 by (apply key_not_end; vm_compute; reflexivity). injection W1 as <- <-. cbn [is_ok negb] in H.
  apply rbind_done in H as ([[[[st3 m'] data] c'] s3] & SC & H). unfold save_chainlet in SC. apply rbind_done in SC as ([[[[t2 m2] acc] c2] s4] & CH & SC).
  destruct fuel as [|n]; [discriminate|]. cbn [chainlet] in CH. rewrite NE in CH. injection CH as <- <- <- <- <-. injection SC as <- <- ED <- <-.
  cbn [is_ok negb] in H. destruct (see_step family _ (m_id m)) as [st4 s4] eqn:SE in H.
  assert (s4 = ROk).
  { unfold see_step in SE. destruct (clock_see _ (m_id m)) as [nz sz] eqn:CS in SE. injection SE as _ <-. unfold clock_see in CS. rewrite MI, VT in CS.
    change (negb (TIME =? TIME)) with false in CS. cbn match in CS. destruct (uvalue ev <? _) in CS; [injection CS as _ <-; reflexivity|].
    destruct (NEVER_W <=? uvalue ev) eqn:LE in CS; [apply N.leb_le in LE; lia|]. injection CS as _ <-. reflexivity. }
  subst s4. cbn [is_ok negb] in H. destruct data as [df|]; [|discriminate].
  rewrite WR in H by (apply key_not_end; vm_compute; reflexivity). cbn [is_ok negb] in H.
  rewrite MR in H. rewrite WR in H by (apply key_not_end; vm_compute; reflexivity). cbn [is_ok negb] in H.
  injection H as <- _ <-. split; [reflexivity|]. cbn [set_tip s_tip]. exact MI.
Qed.
Lemma first_time now rs yarn tr : version (first_event active now rs yarn tr) = TIME /\
  (tr = true \/ yarn <> 0 -> uorigin (first_event active now rs yarn tr) = uorigin (branch_id yarn)).
Proof.
  unfold first_event, branch_id. destruct tr.
  - split; [apply ClockTheorems.time_version|]. intros _. rewrite !ClockTheorems.time_origin. reflexivity.
  - unfold clock_now. cbn [snd]. split; [apply ClockTheorems.time_version|]. intros [K|K]; [discriminate|]. apply N.eqb_neq in K. rewrite K.
    rewrite !ClockTheorems.time_origin. reflexivity.
Qed.
(* what CreateBranch writes: the chain of the first event *)
Lemma new_inv now rs yarn tr b s : uvalue (first_event active now rs yarn tr) < NEVER_W ->
  b_new sha fbits active fuel now rs yarn tr = Done (b, s) ->
  exists f0 c h ws m w f batch, let d0 := [(KEY_ZERO, mkCell None [f0])] in
    tip_ok (first_event active now rs yarn tr) /\ tipped d0 NIL /\ only_writes ws /\ acts family b_jread b_write (d0, []) ws (m, w) /\ writes_of ws = ch_records h /\
    ch_ops h = [c] /\ ch_obj h = first_event active now rs yarn tr /\ ch_rdt h = YARN_FORM_UUID /\
    wop_of_cursor c = mkWop (first_event active now rs yarn tr) YARN_FORM_UUID [] /\ ops_text [c] = Some (ch_text h) /\
    one_op (first_event active now rs yarn tr) ZERO_FORM_UUID [] = Some f /\ write bytes w KEY_ZERO f = (batch, StOK) /\
    b_batch m batch = Done (br_main b, s) /\ br_tip b = NIL /\ ReplicaSpec.admitted family b_jread b_jprev b_write d0 [] h /\
    exists fy, one_op (first_event active now rs yarn tr) YARN_FORM_UUID [] = Some fy /\ ops_of fy [c].
Proof.
  intros NV H. unfold b_new in H. apply rbind_done in H as ([d s0] & BC & H). unfold b_create in BC.
  destruct (tip_reads NIL zero_tip) as (f0 & _ & _ & F0 & _). rewrite F0 in BC. unfold b_write, rocks_write in BC.
  change (key_eqb KEY_ZERO KEY_END) with false in BC. cbn [andb] in BC. unfold add_operand in BC. cbn [cell_at put cell0 ce_value ce_operands app] in BC.
  injection BC as <- <-. cbn [kst is_ok negb] in H.
  assert (T : tipped [(KEY_ZERO, mkCell None [f0])] NIL).
  { split; [repeat constructor|]. split; [exact zero_tip|]. exists f0, []. split; [exact F0|]. cbn [cell_at]. rewrite key_eqb_refl. reflexivity. }
  apply rbind_done in H as ([[d' n'] s'] & CB & Q). injection Q as <- <-. cbn [br_main br_tip]. unfold create_branch in CB.
  destruct (first_time now rs yarn tr) as [VT _].
  assert (EV : exists now1, (if tr then (now, uuid_time 0 yarn) else clock_now active now (hd 0 rs) yarn) = (now1, first_event active now rs yarn tr)).
  { unfold first_event. destruct tr; [eexists; reflexivity|]. destruct (clock_now active now (hd 0 rs) yarn) as [n1 e1]. exists n1. reflexivity. }
  destruct EV as (now1 & EV). rewrite EV in CB. clear EV. remember (first_event active now rs yarn tr) as ev eqn:EE. 
  assert (EO : id_ok ev).
  { assert (EK : tip_ok ev); [|apply EK]. subst ev. unfold first_event in *. destruct tr; [apply uuid_time_ok; reflexivity|]. unfold clock_now in *. cbn [snd] in *.
    apply uuid_time_ok. unfold uuid_time in NV. cbn [uvalue] in NV. eapply N.lt_trans; [exact NV|]. reflexivity. }
  assert (TK : tip_ok ev) by (apply time_tip; assumption).
  destruct (one_reads ev YARN_FORM_UUID TK) as (fy & c & c1 & FY & NX & W & TM & V & NE & _); [split; [split|]; reflexivity|].
  rewrite FY in CB. unfold next_any in CB. rewrite NX in CB. cbn [rbind] in CB.
  apply rbind_done in CB as ([[st cx] s1] & SC & CB). apply rbind_done in CB as ([st2 s2] & SV & Q). injection Q as <- _ <-.
  assert (TI : text_id c = ev) by (unfold wop_of_cursor in W; unfold text_id; congruence).
  assert (TR : text_ref c = YARN_FORM_UUID) by (unfold wop_of_cursor in W; unfold text_ref; congruence).
  destruct (first_chain _ _ ev c c1 _ _ _ _ _ T eq_refl VT NV TI TR NE V SC) as [-> TP].
  destruct (save_chain_inv sha fbits family b_jread b_jprev b_write fuel _ _ _ _ _ V SC) as (ws & MV & OW & SI).
  destruct (SI eq_refl) as (h & l & HD & AD & WO & PS & _ & _ & _ & _ & _ & IL & SL).
  assert (CH : ch_ops h = [c]).
  { assert (VC1 : valid c1 = false).
    { apply (next_stop c). left. exact NE. }
    assert (L1 : l = [c] /\ pend cx = []).
    { assert (G : forall d m, passes c m d -> m = [] /\ d = c \/ m = [c] /\ d = c1).
      { intros d m PM. induction PM as [|m x y PM IH VX NN]; [left; auto|]. destruct IH as [[-> ->]|[-> ->]]; [|congruence].
        right. split; [reflexivity|]. rewrite NE in NN. destruct NN as [NN|[NN|NN]]; congruence. }
      destruct (G _ _ PS) as [[-> _]|[-> ->]]; [destruct IL|]. split; [reflexivity|]. unfold pend. rewrite VC1. reflexivity. }
    destruct L1 as [-> PD]. rewrite PD in SL. cbn [app] in SL. apply subl_length in SL. unfold ch_ops in *. rewrite HD in *. destruct (ch_rest h); [reflexivity|cbn in SL; lia]. }
  assert (OB : ch_obj h = ev /\ ch_rdt h = YARN_FORM_UUID).
  { destruct AD as (_ & _ & _ & _ & _ & AD). rewrite HD, TR in AD. destruct AD as [(_ & _ & O1 & O2)|(K & _)]; [|contradiction].
    unfold ch_id in O1. rewrite HD, TI in O1. rewrite HD, TR in O2. auto. }
  destruct OB as [OB1 OB2].
  destruct MV as [A1 A2]. pose proof AD as (_ & _ & _ & _ & OT & _). rewrite CH in OT.
  destruct (save_inv _ _ _ _ _ SV) as [(Q1 & _)|[(Q1 & Q2)|(Q1 & Q2 & Q3 & f & w & F & WW & B)]].
  - exfalso. rewrite TP in Q1. rewrite A2 in Q1. cbn [commit_on s_base] in Q1. subst ev. rewrite Q1 in VT. discriminate.
  - exfalso. apply Q1. unfold save in SV. destruct (uuid_eqb (s_tip family st) (s_base family st)); [injection SV as _ <-; reflexivity|].
    rewrite A2 in SV. cbn [commit_on s_base] in SV. change (uuid_eqb NIL NIL) with true in SV. cbn [negb andb] in SV.
    assert (LN : uuid_ltb (s_tip family st) NIL = false).
    { unfold uuid_ltb. cbn [uvalue uorigin NIL]. assert (Z : forall n, (n <? 0) = false) by (intro n; apply N.ltb_ge; lia). rewrite !Z, !andb_false_r. reflexivity. }
    rewrite LN in SV. destruct (one_op (s_tip family st) ZERO_FORM_UUID []); [|discriminate]. unfold write in SV. change (key_eqb KEY_ZERO KEY_END) with false in SV.
    cbn [rstatus_of is_ok negb] in SV. apply rbind_done in SV as ([m2 s3] & B & SV). unfold b_batch, rocks_batch in B. injection B as _ <-. injection SV as _ <-. reflexivity.
  - rewrite TP in F. exists f0, c, h, ws, (s_main family st), (s_mem family st), f, w. cbv zeta.
    split; [exact TK|]. split; [exact T|]. split; [exact OW|]. split; [exact A1|]. split; [exact WO|]. split; [exact CH|]. split; [exact OB1|]. split; [exact OB2|]. split; [exact W|].
    split; [exact OT|]. split; [exact F|]. split; [exact WW|]. split; [exact B|]. split; [reflexivity|]. split; [exact AD|].
    exists fy. split; [exact FY|]. exists c, c1. split; [|left; exact NE]. apply (run_to_one _ _ NX).
Qed.
Lemma new_tip now rs yarn tr b s : uvalue (first_event active now rs yarn tr) < NEVER_W ->
  b_new sha fbits active fuel now rs yarn tr = Done (b, s) ->
  s = ROk /\ br_tip b = NIL /\ tipped (br_main b) (first_event active now rs yarn tr).
Proof.
  intros NV H. destruct (new_inv _ _ _ _ _ _ NV H) as (f0 & c & h & ws & m & w & f & batch & TK & T & _ & A1 & _ & _ & _ & _ & _ & _ & F & WW & B & BT & _).
  destruct (acts_keep fbits fuel NIL _ _ _ A1 T ltac:(constructor)) as [T1 S1]. cbn [fst snd] in T1, S1.
  destruct (batch_tip _ _ _ _ _ _ _ _ T1 TK S1 F WW B) as [TT ->]. auto.
Qed.
End Branch.
