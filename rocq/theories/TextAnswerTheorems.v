(* C53: what a query for a text is answered with. *)
From Verif Require StoreProofs.
From Verif Require Import Prelude UuidModel UuidSpec UuidProofs KeyModel KeyProofs CodecModel CodecProofs TextTable TextModel TextSpec FrameProofs BuilderSpec BuilderProofs MergeModel MergeSpec MergeTextModel
  MergeTheorems TextMergeSpec TextCursors MergeKeeps TextMerge TextMergeTheorems RgaTree StoreModel RocksModel MetaModel ClockModel ScanModel ScanSpec ScanTheorems
  ReplicaModel BranchModel DurableSpec DurableProofs DurableTheorems AnswerModel AnswerSpec AnswerTheorems TextAnswerSpec.

Lemma says_frame_ops (P : bytes -> N -> Prop) f l : frame_lit P f l -> N.of_nat (length f) < 2 ^ 32 -> frame_ops f l.
Proof. intros F S. exists (Datatypes.S (length l + 0)), SEnd. split; [apply (FrameProofs.scan_frame f l 0 F S)|auto]. Qed.

(* ---- the answer's id ---- *)
Lemma derived_query q : id_ok (r_id q) -> version (r_id q) = DERIVED -> derived (object_of q) = r_id q.
Proof.
  destruct (r_id q) as [v o] eqn:E. intros [_ B] V. unfold object_of. rewrite E. unfold derived, Derived, uuid_time. cbn [uvalue uorigin] in *. f_equal.
  unfold version, word_flags in V. cbn [uorigin] in V. rewrite shiftr_div in V. change 3 with (2 ^ 2 - 1) in V. rewrite land_ones_mod in V.
  change MAX_VALUE with (2 ^ 60 - 1). change (N.shiftl TIME 60) with (TIME * 2 ^ 60). change (N.shiftl DERIVED 60) with (3 * 2 ^ 60).
  assert (D : o / 2 ^ 60 = 3).
  { rewrite N.mod_small in V; [exact V|]. change (2 ^ 2) with 4. apply N.div_lt_upper_bound; [vm_compute; discriminate|]. exact B. }
  rewrite !land_ones_mod. rewrite (N.div_mod o (2 ^ 60)) at 2 by (vm_compute; discriminate). rewrite D.
  rewrite (N.lor_comm (o mod 2 ^ 60)), (lor_shl_add TIME (o mod 2 ^ 60) 60) by (apply N.mod_lt; vm_compute; discriminate).
  rewrite (N.add_comm (TIME * 2 ^ 60)), N.mod_add, N.mod_mod by (vm_compute; discriminate).
  rewrite (N.lor_comm (o mod 2 ^ 60)), (lor_shl_add 3 (o mod 2 ^ 60) 60) by (apply N.mod_lt; vm_compute; discriminate). lia.
Qed.

(* ---- reading the text ---- *)
Lemma until_zero_app a b : ~ In 0 a -> until_zero (a ++ b) = a ++ until_zero b.
Proof.
  induction a as [|c a IH]; intro Z; [reflexivity|]. cbn [app until_zero]. cbn [In] in Z. replace (c =? 0) with false by (symmetry; apply N.eqb_neq; tauto).
  rewrite IH by tauto. reflexivity.
Qed.

Section Weave.
Variable fbits : bytes -> N.
Lemma piece_atom (P : bytes -> N -> Prop) c o m : lit_cursor P c o -> marked_cursor c m -> piece o ->
  exists a, nth_error (c_op c) 2 = Some a /\ atom_cp fbits (c_buf c) a = (if m then hd 0 (chars o) else 0) /\
    (m = true -> chars o = [hd 0 (chars o)] /\ hd 0 (chars o) <> 0 /\ hd 0 (chars o) < 2 ^ 21).
Proof.
  intros [E L] M (cps & V & OK). unfold marked_cursor in M. rewrite V in L. destruct (skipn 2 (c_op c)) as [|a l] eqn:EA; inversion L as [|a' v l' vs H F]; subst. inversion F; subst.
  assert (NE : nth_error (c_op c) 2 = Some a).
  { destruct (c_op c) as [|x0 [|x1 [|x2 l]]]; cbn [skipn] in EA; try discriminate. injection EA as -> _. reflexivity. }
  exists a. split; [exact NE|].
  destruct a as [u|b e|cp n b e|b e]; cbn [lit_atom] in H; try contradiction. cbn [atom_cp]. unfold marked in M. destruct m.
  - destruct M as (r & cp' & n' & b' & e' & Q & NZ). destruct r as [|x r]; [|destruct r; discriminate]. cbn [app] in Q. injection Q as -> _ _ _.
    replace (cp' =? 0) with false in H by lia. subst cps. unfold chars. rewrite V. cbn [hd]. split; [reflexivity|]. intros _. split; [reflexivity|]. split; [exact NZ|].
    cbn [value_ok] in OK. inversion OK as [|x y (A & B & D) _]; subst. exact A.
  - inversion M as [|x y A _]; subst. cbn [at_start] in A. split; [exact A|discriminate].
Qed.

Lemma weave_ok (P : bytes -> N -> Prop) cs ops : Forall2 (lit_cursor P) cs ops -> forall ms hs c n, Forall2 marked_cursor cs ms ->
  Forall2 (fun o (h : bool) => h = false -> piece o) ops hs -> then_visits c cs -> (length ops < n)%nat ->
  exists raw, weave_text fbits n hs c = Done (flat_map utf8append raw) /\ until_zero raw = spelled ops hs ms /\ Forall (fun cp => cp < 2 ^ 21) raw.
Proof.
  intro F. induction F as [|c0 o cs ops L F IH]; intros ms hs c [|n] FM FH (c' & NX & VI) LN; cbn [length] in LN; try lia; cbn [weave_text].
  - inversion VI as [? V|]; subst. exists []. cbn [flat_map until_zero spelled]. split; [|split; [reflexivity|constructor]].
    unfold text_next in NX. destruct (next c) as [c1|c1|c1|] eqn:EN; try discriminate; [|reflexivity|reflexivity].
    injection NX as NX ->. congruence.
  - inversion VI as [|? c1 l V NX2 VI2]; subst. unfold text_next in NX. rewrite V in NX. destruct (next c) as [c2|c2|c2|]; try discriminate. injection NX as ->.
    inversion FM as [|x m y ms' M FM2]; subst. inversion FH as [|x h y hs' H FH2]; subst.
    destruct (IH ms' hs' c0 n FM2 FH2 ltac:(exists c1; auto) ltac:(lia)) as (raw & W & U & B). cbn [spelled]. destruct h.
    + exists raw. auto.
    + destruct (piece_atom P c0 o m L M (H eq_refl)) as (a & -> & CP & K). rewrite W, CP. cbn [rbind]. destruct m.
      * destruct (K eq_refl) as (Q & NZ & LT). exists (hd 0 (chars o) :: raw). split; [reflexivity|]. split; [|constructor; assumption].
        cbn [until_zero]. replace (hd 0 (chars o) =? 0) with false by (symmetry; apply N.eqb_neq; exact NZ). rewrite Q, U. reflexivity.
      * exists (0 :: raw). split; [reflexivity|]. split; [reflexivity|]. constructor; [reflexivity|exact B].
Qed.

Lemma weave_bare (P : bytes -> N -> Prop) cs ops : Forall2 (lit_cursor P) cs ops -> forall hs c n, Forall2 (fun _ _ => True) ops hs -> then_visits c cs -> (length ops < n)%nat ->
  (exists i o, nth_error ops i = Some o /\ nth_error hs i = Some false /\ r_vals o = []) -> weave_text fbits n hs c = Aborted.
Proof.
  intro F. induction F as [|c0 o cs ops L F IH]; intros hs c [|n] FH (c' & NX & VI) LN (i & o' & I1 & I2 & I3); cbn [length] in LN; try lia; cbn [weave_text].
  - destruct i; discriminate.
  - inversion VI as [|? c1 l V NX2 VI2]; subst. unfold text_next in NX. rewrite V in NX. destruct (next c) as [c2|c2|c2|]; try discriminate. injection NX as ->.
    inversion FH as [|x h y hs' _ FH2]; subst. destruct i as [|i]; cbn [nth_error] in I1, I2.
    + injection I1 as ->. injection I2 as ->. destruct L as [_ L]. rewrite I3 in L.
      destruct (c_op c0) as [|x0 [|x1 [|x2 l0]]]; cbn [skipn] in L; [reflexivity|reflexivity|reflexivity|inversion L].
    + rewrite (IH hs' c0 n FH2 ltac:(exists c1; auto) ltac:(lia)) by eauto. destruct h; [reflexivity|]. destruct (nth_error (c_op c0) 2); reflexivity.
Qed.
End Weave.

(* one op with a text: what is written does not depend on what the builder would
   need to go on with a span *)
Lemma build_string id ref inner n n' x x' : id <> inc NIL -> build [BAppend (mkWop id ref [WStr inner n x])] = build [BAppend (mkWop id ref [WStr inner n' x'])].
Proof.
  intro NI. unfold build, build_from. cbn [fold_left bstep].
  assert (E : forall vs, append_op (mkWop id ref vs) builder0 = Some (write_values (mkWop id ref vs) (write_spec id ref (write_term REDUCED builder0)))).
  { intro vs. unfold append_op, is_same_span. cbn [w_id w_ref]. change (b_prev builder0) with NIL.
    replace (uuid_eqb id (inc NIL)) with false by (symmetry; destruct (uuid_eqb id (inc NIL)) eqn:E; [apply uuid_eqb_eq in E; contradiction|reflexivity]).
    rewrite andb_false_r. reflexivity. }
  rewrite !E. assert (B : b_span (write_spec id ref (write_term REDUCED builder0)) = 1) by reflexivity. revert B.
  generalize (write_spec id ref (write_term REDUCED builder0)). intros b B. cbn [option_map]. f_equal.
  unfold write_values, release. cbn [b_span fst]. rewrite B. change (1 =? 0) with false. cbn iota. unfold write_term. cbn [b_span]. rewrite ?B. change (1 =? 0) with false. change (1 <? 1) with false. cbn iota. cbn [b_data]. reflexivity.
Qed.

Section TextAsk.
Variable sha : bytes -> bytes.
Variable fbits : bytes -> N.
Variable active : N.
Variable fuel : nat.
Notation rread := (rocks_read fbits fuel).
Notation jread := (b_jread fbits fuel).
Notation answer_op := (answer_op sha fbits family jread (b_jprev fbits fuel) b_write active fuel).
Notation answer_loop := (answer_loop sha fbits family jread (b_jprev fbits fuel) b_write active fuel).
Notation ask := (b_ask sha fbits active fuel).

Lemma query_is_text st c o : rop_of c = o -> text_query o -> answer_op st c = answer_txt fbits family jread fuel st c.
Proof.
  intros <- (V & T & F). cbn [rop_of r_id r_ref r_term] in V, T, F. unfold AnswerModel.answer_op. cbv zeta.
  change (op_id (c_op c)) with (text_id c) in V. rewrite V, T. change ((DERIVED =? TIME) && (QUERY =? QUERY)) with false. change (DERIVED =? DERIVED) with true. cbn iota.
  unfold peek_term. rewrite T. change (negb (QUERY =? REDUCED)) with true. cbn [rbind]. change (QUERY =? QUERY) with true. cbn iota.
  unfold answer_map. change (text_ref c) with (op_ref (c_op c)). rewrite F. reflexivity.
Qed.

(* a frame with one query: the text read, or the end *)
Lemma ask_text (P : bytes -> N -> Prop) b now rs f q state : frame_lit P f [q] -> N.of_nat (length f) < 2 ^ 32 -> text_query q -> (1 < fuel)%nat ->
  rread (br_main b) (text_key q) = Done (state, KOk) ->
  (forall s hs raw a, ScanModel.scan_rga cursor valid text_next rop_of fuel (cursor_of state) = ScanRet s hs -> weave_text fbits fuel hs (cursor_of state) = Done raw ->
    text_op (object_of q) raw = Some a -> ask b now rs f = Done (b, ROk, build [a])) /\
  (ScanModel.scan_rga cursor valid text_next rop_of fuel (cursor_of state) = ScanUB -> ask b now rs f = Aborted) /\
  (forall s hs, ScanModel.scan_rga cursor valid text_next rop_of fuel (cursor_of state) = ScanRet s hs -> weave_text fbits fuel hs (cursor_of state) = Aborted -> ask b now rs f = Aborted).
Proof.
  intros FL SM Q LF R. destruct (frame_visits f _ FL SM) as (cs & (c' & NX & VI) & F). inversion F as [|c q' cs' qs' [E _] F2]; subst. inversion F2; subst.
  inversion VI as [|c0 c1 l V NX2 VI2]; subst. inversion VI2 as [? V1|]; subst. unfold text_next in NX. rewrite V in NX.
  destruct (next (cursor_of f)) as [c2|c2|c2|] eqn:EN; try discriminate. injection NX as ->. destruct b as [d t]. cbn [br_main] in R.
  set (st := commit_on family d now rs t). assert (M : s_mem family st = []) by reflexivity.
  assert (AO : answer_op st c = answer_txt fbits family jread fuel st c) by exact (query_is_text st c _ eq_refl Q).
  assert (J : jread_step family jread st (text_key (rop_of c)) = Done (st, state, ROk)).
  { unfold jread_step. rewrite M. change (s_main family st) with d. rewrite (jread_empty fbits fuel _ _ _ _ R). cbn [rbind]. rewrite set_same by exact M. reflexivity. }
  unfold b_ask, answer_frame. cbn [br_main br_tip]. rewrite EN. fold st. unfold answer.
  assert (L1 : forall n, AnswerModel.answer_loop sha fbits family jread (b_jprev fbits fuel) b_write active fuel (Datatypes.S (Datatypes.S n)) st c =
    rbind (answer_txt fbits family jread fuel st c) (fun '(st1, c2, s, a) =>
        if is_ok s then rbind (answer_loop (Datatypes.S n) st1 c2) (fun '(st2, s2, r) => Done (st2, s2, a ++ r)) else Done (st1, s, a))).
  { intro n. rewrite <- AO. cbn [AnswerModel.answer_loop]. rewrite V. reflexivity. }
  destruct fuel as [|[|n]] eqn:EF; [lia|lia|]. rewrite <- EF in *.
  replace (answer_loop fuel st c) with (answer_loop (Datatypes.S (Datatypes.S n)) st c) by (rewrite EF; reflexivity). rewrite L1.
  unfold answer_txt. cbv zeta. change (uuid_time (uvalue (text_id c)) (uorigin (text_id c))) with (object_of (rop_of c)).
  change (key_of (object_of (rop_of c)) RGA_RDT_FORM) with (text_key (rop_of c)). rewrite J. cbn [rbind is_ok negb]. unfold scan_text. split; [|split].
  - intros s hs raw a -> -> TO. cbn [rbind]. rewrite TO. cbn [rbind]. rewrite (next_any_of _ _ _ NX2). cbn [rbind is_ok AnswerModel.answer_loop]. rewrite V1. cbn [rbind is_ok app].
    unfold save. change (s_tip family st) with t. change (s_base family st) with t. rewrite (proj2 (uuid_eqb_eq t t) eq_refl). cbn [rbind]. reflexivity.
  - intros ->. reflexivity.
  - intros s hs -> ->. reflexivity.
Qed.

Lemma pieces_of T hs : Forall2 (fun p (h : bool) => h = true <-> hidden p) (places [] T) hs ->
  (forall p, In p (places [] T) -> hidden p \/ piece (root (snd p))) -> Forall2 (fun o (h : bool) => h = false -> piece o) (map (fun p => root (snd p)) (places [] T)) hs.
Proof.
  intros F K. revert K. generalize (places [] T) F. clear. intros l F. induction F as [|p h l hs H F IH]; intro K; cbn [map]; constructor.
  - intros ->. destruct (K p (or_introl eq_refl)) as [X|X]; [|exact X]. apply H in X. discriminate.
  - apply IH. intros q I. apply K. right. exact I.
Qed.
Lemma spelled_ok ops hs : Forall2 (fun o (h : bool) => h = false -> piece o) ops hs -> forall ms, value_ok (VStr (Some (spelled ops hs ms))).
Proof.
  induction 1 as [|o h ops hs H F IH]; intros [|m ms]; cbn [spelled value_ok] in *; try constructor. destruct h; [apply IH|]. destruct m; [|constructor].
  destruct (H eq_refl) as (cps & V & OK). unfold chars. rewrite V. apply Forall_app. split; [exact OK|apply IH].
Qed.
Lemma text_op_builds q raw : id_ok (r_id q) -> version (r_id q) = DERIVED -> Forall (fun cp => cp < 2 ^ 21) raw -> value_ok (VStr (Some (until_zero raw))) ->
  exists a text, text_op (object_of q) (flat_map utf8append raw) = Some a /\ build [a] = Some text /\ frame_lit canon text (text_answer q TXT_MAP_ID (until_zero raw)).
Proof.
  intros I V B OK. unfold text_op. rewrite utf8_roundtrip by exact B. rewrite derived_query by assumption.
  assert (NI : r_id q <> inc NIL) by (intro E; rewrite E in V; discriminate).
  destruct (build_calls_frame [UAppend (mkUop (r_id q) TXT_MAP_ID [VStr (Some (until_zero raw))])] canon_writes) as (text & E & F).
  - cbn [good_calls]. split; [|split; [|split; [|exact Logic.I]]].
    + split; [exact I|]. split; [split; [vm_compute; repeat split|vm_compute; reflexivity]|]. constructor; [exact OK|constructor].
    + intro Q. contradiction.
    + unfold continues. cbn [u_vals origin_op same_kind]. rewrite andb_false_r. discriminate.
  - reflexivity.
  - unfold build_calls in E. cbn [calls_of u_id u_ref u_vals] in E. unfold wop_of_op in E |- *. cbn [wvals_of wval_of_value option_map] in E |- *.
    assert (UZ : forall l, until_zero (until_zero l) = until_zero l).
    { clear. induction l as [|c l IH]; [reflexivity|]. cbn [until_zero]. destruct (c =? 0) eqn:Z; [reflexivity|]. cbn [until_zero]. rewrite Z, IH. reflexivity. }
    rewrite UZ in E. eexists _, text. split; [reflexivity|]. split; [|exact F]. rewrite <- E. apply build_string. exact NI.
Qed.

(* C53: a query for the text of an object is answered with one op, which has the
   characters that are not hidden up to the first element that is not hidden
   and was not written in a span of characters. *)
Theorem C53_text : forall (P : bytes -> N -> Prop) b now rs f q state T ms, frame_lit P f [q] -> N.of_nat (length f) < 2 ^ 32 -> text_query q -> id_ok (r_id q) ->
  rread (br_main b) (text_key q) = Done (state, KOk) -> frame_marked canon state (listing T) ms -> N.of_nat (length state) < 2 ^ 32 ->
  rga_tree T -> (length (listing T) < fuel)%nat -> N.of_nat (length (listing T)) < 2 ^ 30 ->
  (forall p, In p (places [] T) -> ~ stray p) -> (forall p, In p (places [] T) -> hidden p \/ piece (root (snd p))) ->
  exists hs text, Forall2 (fun p (h : bool) => h = true <-> hidden p) (places [] T) hs /\
    ask b now rs f = Done (b, ROk, Some text) /\ frame_lit canon text (text_answer q TXT_MAP_ID (spelled (listing T) hs ms)).
Proof.
  intros P b now rs f q state T ms FL SM Q IO R FM SS RT LF LB NS VP.
  assert (LN : (1 < fuel)%nat) by (destruct T as [o l]; cbn [listing length] in LF; lia).
  destruct (ask_text P b now rs f q state FL SM Q LN R) as (OK & _ & _).
  pose proof (frame_erase _ _ _ FM) as FE.
  destruct (C26_flags state T fuel (says_frame_ops canon state _ FE SS) RT ltac:(lia) LB NS) as (PO & hs & SC & FH).
  pose proof (pieces_of T hs FH VP) as FP. rewrite PO in FP.
  destruct (marked_visits state _ ms FM SS) as (cs & TV & FC & FMC).
  destruct (weave_ok fbits canon cs _ FC ms hs (cursor_of state) fuel FMC FP TV LF) as (raw & W & U & B).
  destruct (text_op_builds q raw IO (proj1 Q) B) as (a & text & TO & BD & FT); [rewrite U; apply spelled_ok; exact FP|].
  exists hs, text. split; [exact FH|]. rewrite U in FT. split; [|exact FT]. rewrite (OK StOK hs _ a SC W TO), BD. reflexivity.
Qed.

Lemma spelled_all ops : forall hs ms, length ms = length ops -> (forall i o, nth_error ops i = Some o -> nth_error hs i = Some false -> nth_error ms i = Some true) ->
  spelled ops hs ms = visible_text ops hs.
Proof.
  clear. induction ops as [|o ops IH]; intros [|h hs] [|m ms] L K; try reflexivity; try discriminate. cbn [spelled visible_text].
  assert (E : spelled ops hs ms = visible_text ops hs).
  { apply IH; [cbn [length] in L; lia|]. intros i x A B. apply (K (Datatypes.S i) x); assumption. }
  destruct h; [exact E|]. specialize (K 0%nat o eq_refl eq_refl). cbn [nth_error] in K. injection K as ->. rewrite E. reflexivity.
Qed.
Lemma marked_length (P : bytes -> N -> Prop) f ops ms : frame_marked P f ops ms -> length ms = length ops.
Proof.
  destruct 1 as [s ops ms w e H _ _]. induction H as [|prev s ops m r ops' ms H1 H2 IH]; [reflexivity|]. rewrite !app_length, repeat_length, IH. reflexivity.
Qed.

(* C53: if all that is not hidden was written in spans, the answer has all of it *)
Theorem C53_runs : forall (P : bytes -> N -> Prop) b now rs f q state T ms, frame_lit P f [q] -> N.of_nat (length f) < 2 ^ 32 -> text_query q -> id_ok (r_id q) ->
  rread (br_main b) (text_key q) = Done (state, KOk) -> frame_marked canon state (listing T) ms -> N.of_nat (length state) < 2 ^ 32 ->
  rga_tree T -> (length (listing T) < fuel)%nat -> N.of_nat (length (listing T)) < 2 ^ 30 ->
  (forall p, In p (places [] T) -> ~ stray p) -> (forall p, In p (places [] T) -> hidden p \/ piece (root (snd p))) ->
  Forall2 (fun p (m : bool) => hidden p \/ m = true) (places [] T) ms ->
  exists hs text, Forall2 (fun p (h : bool) => h = true <-> hidden p) (places [] T) hs /\
    ask b now rs f = Done (b, ROk, Some text) /\ frame_lit canon text (text_answer q TXT_MAP_ID (visible_text (listing T) hs)).
Proof.
  intros P b now rs f q state T ms FL SM Q IO R FM SS RT LF LB NS VP AM.
  destruct (C53_text P b now rs f q state T ms FL SM Q IO R FM SS RT LF LB NS VP) as (hs & text & FH & A & FT).
  exists hs, text. split; [exact FH|]. split; [exact A|]. rewrite <- (spelled_all _ hs ms); [exact FT|exact (marked_length _ _ _ _ FM)|].
  intros i o I1 I2. clear -FH AM I2. revert i I2 AM. revert ms. induction FH as [|p h ps hs H F IH]; intros ms i I2 AM; [destruct i; discriminate|].
  inversion AM as [|x m y ms' A1 A2]; subst. destruct i as [|i]; cbn [nth_error] in *; [|apply (IH ms' i I2 A2)].
  injection I2 as ->. destruct A1 as [A1 | ->]; [apply H in A1; discriminate|reflexivity].
Qed.

(* C53: the query is undefined if a removal or an undo has nothing to work on, or
   if an element that is not hidden has no value *)
Theorem C53_undefined : forall (P : bytes -> N -> Prop) b now rs f q state T, frame_lit P f [q] -> N.of_nat (length f) < 2 ^ 32 -> text_query q ->
  rread (br_main b) (text_key q) = Done (state, KOk) -> frame_lit canon state (listing T) -> N.of_nat (length state) < 2 ^ 32 ->
  rga_tree T -> (length (listing T) < fuel)%nat -> N.of_nat (length (listing T)) < 2 ^ 30 ->
  (exists p, In p (places [] T) /\ stray p) \/ (exists p, In p (places [] T) /\ ~ hidden p /\ r_vals (root (snd p)) = []) ->
  ask b now rs f = Aborted.
Proof.
  intros P b now rs f q state T FL SM Q R FM SS RT LF LB H.
  assert (LN : (1 < fuel)%nat) by (destruct T as [o l]; cbn [listing length] in LF; lia).
  destruct (ask_text P b now rs f q state FL SM Q LN R) as (_ & UB & AB).
  pose proof (says_frame_ops canon state _ FM SS) as FO.
  destruct (C27_bounds state T fuel FO RT ltac:(lia) LB) as [_ C27].
  destruct (scan_frame fuel state) as [s hs| | |] eqn:SC.
  - assert (NS : ~ exists p, In p (places [] T) /\ stray p) by (intro X; specialize (C27 X); discriminate).
    destruct H as [H|(p & IP & NH & NV)]; [contradiction|].
    destruct (C26_flags state T fuel FO RT ltac:(lia) LB) as (PO & hs' & SC' & FH); [intros x I X; apply NS; eauto|].
    rewrite SC in SC'. injection SC' as -> <-. apply (AB StOK hs SC).
    destruct (frame_visits state _ FM SS) as (cs & TV & FC).
    apply (weave_bare fbits canon cs _ FC hs (cursor_of state) fuel); [|exact TV|exact LF|].
    + rewrite <- PO. clear -FH. induction FH; cbn [map]; constructor; auto.
    + rewrite <- PO. clear -FH IP NH NV. induction FH as [|x h ps hs H F IH]; [destruct IP|]. destruct IP as [->|IP].
      * exists 0%nat, (root (snd p)). split; [reflexivity|]. split; [|exact NV]. cbn [nth_error]. destruct h; [exfalso; apply NH, H; reflexivity|reflexivity].
      * destruct (IH IP) as (i & o & A). exists (Datatypes.S i), o. exact A.
  - apply UB. exact SC.
  - exfalso. destruct (C27_any_frame state _ fuel FO ltac:(lia) LB) as (X & _). apply X. exact SC.
  - exfalso. destruct (C27_any_frame state _ fuel FO ltac:(lia) LB) as (_ & X & _). apply X. exact SC.
Qed.

(* C53: the state is the merge of what was written: the text is that of the
   merged tree, up to the first element that is not hidden and neither
   continues the element listed before it nor is continued by the next one *)
Theorem C53_merged : forall (P : bytes -> N -> Prop) b now rs f q ts T V,
  let fs := held (ce_value (cell_at (br_main b) (text_key q))) ++ ce_operands (cell_at (br_main b) (text_key q)) in
  let U := flat_map listing ts in
  frame_lit P f [q] -> N.of_nat (length f) < 2 ^ 32 -> text_query q -> id_ok (r_id q) ->
  ce_operands (cell_at (br_main b) (text_key q)) <> [] ->
  Forall2 (fun f t => frame_lit canon f (listing t)) fs ts -> Forall small fs ->
  (length fs <= 3)%nat -> Forall causal ts -> NoDup (ids U) ->
  (forall o o', In o U -> In o' U -> r_ref o = r_id o' -> uuid_ltb (r_id o') (r_id o) = true) ->
  mergeable (map bare U) -> (length U < fuel)%nat -> N.of_nat (length U) < 2 ^ 30 -> N.of_nat (room (map bare (listing T))) < 2 ^ 32 ->
  (forall t, In t ts -> (forall t', In t' ts -> uuid_ltb (r_id (root t')) (r_id (root t)) = false) \/ In (r_ref (root t)) (ids U)) ->
  causal T -> Permutation.Permutation (listing T) U ->
  listing V = chunk_of (map bare (listing T)) -> rga_tree V ->
  (forall p, In p (places [] V) -> ~ stray p) -> (forall p, In p (places [] V) -> hidden p \/ piece (root (snd p))) ->
  exists hs text, Forall2 (fun p (h : bool) => h = true <-> hidden p) (places [] V) hs /\
    ask b now rs f = Done (b, ROk, Some text) /\
    frame_lit canon text (text_answer q TXT_MAP_ID (spelled (listing V) hs (in_runs origin_op (map UAppend (map bare (listing T)) ++ [UEnd RAW])))).
Proof.
  intros P b now rs f q ts T V fs U FL SM Q IO NO F B N3 CS ND BK M LF LB RM HANG CT PT EV RT NS VP.
  assert (NE : fs <> []) by (intro E; apply app_eq_nil in E as [_ E]; contradiction).
  destruct (causal_marked fbits fuel fs ts T F B NE N3 CS ND BK M) as (state & E & FM & LT); try assumption; [fold U; lia|fold U; lia|].
  assert (LL : length (listing V) = length U).
  { rewrite EV. unfold chunk_of. rewrite <- (map_length bare), bare_denote, map_length. apply Permutation.Permutation_length. exact PT. }
  assert (FK : key_form (text_key q) = RGA_RDT_FORM) by (apply key_form_of; reflexivity).
  assert (R : rread (br_main b) (text_key q) = Done (state, KOk)).
  { unfold rocks_read. replace (key_eqb (text_key q) KEY_END) with false.
    - unfold cell_get. destruct (ce_operands (cell_at (br_main b) (text_key q))) as [|op ops] eqn:EO; [contradiction|].
      unfold full_merge, operator_merge. rewrite FK. unfold fs in E. rewrite E. reflexivity.
    - symmetry. destruct (key_eqb (text_key q) KEY_END) eqn:K; [|reflexivity]. apply StoreProofs.key_eqb_eq in K.
      exfalso. revert K. apply form_key_neq. rewrite FK. vm_compute. discriminate. }
  rewrite <- EV in FM.
  destruct (C53_text P b now rs f q state V _ FL SM Q IO R FM ltac:(lia) RT ltac:(lia) ltac:(lia) NS VP) as (hs & text & FH & A & FT).
  exists hs, text. auto.
Qed.
End TextAsk.
Print Assumptions C53_text.
Print Assumptions C53_runs.
Print Assumptions C53_undefined.
Print Assumptions C53_merged.
