(* C82: what CommandHashFrame reports. *)
From Verif Require Import Prelude UuidModel UuidSpec UuidProofs CodecModel CodecSpec CodecTheorems TextModel TextSpec TextSafety BuilderSpec BuilderProofs
  MergeModel MergeTextModel HashModel CompareModel MetaModel TextMergeSpec TextCursors MergeKeeps TextMerge ReplicaModel ReplicaSpec BranchModel BranchProofs GcTheorems HashFrameModel.

(* the events among the ops, and their ids *)
Definition is_event (c : cursor) : bool := version (text_id c) =? TIME.
Definition event_ids (l : list cursor) : list uuid := map text_id (filter is_event l).
(* an event c after the ops a: it creates an object, or references one of the
   events before *)
Definition based (a : list cursor) (c : cursor) : Prop :=
  version (text_ref c) = NAME \/ version (text_ref c) = TIME /\ In (text_ref c) (event_ids a).
Definition all_based (l : list cursor) : Prop := forall a c b, l = a ++ c :: b -> is_event c = true -> based a c.
(* the hashes that are given as records are not longer than hashes are *)
Definition short_records (l : list cursor) : Prop :=
  forall c cp n b e, In c l -> text_id c = SHA2_FORM_ID -> nth_error (c_op c) 2 = Some (AStr cp n b e) -> (length (read_string (c_buf c) cp n b e) <= 43)%nat.
(* the report: for each event a record with an empty string *)
Definition report (ids : list uuid) : list uop := map (fun id => mkUop SHA2_FORM_ID id [VStr (Some [])]) ids.

Lemma run_cons c0 x l c : run_to c0 (x :: l) c -> next c0 = NOk x /\ run_to x l c.
Proof.
  intro R. remember (x :: l) as xl eqn:Q. revert l Q. induction R as [|l1 c1 c2 R IH N]; intros l Q; [discriminate|]. destruct l1 as [|y l1].
  - cbn [app] in Q. injection Q as <- <-. assert (c1 = c0) by (inversion R as [|l0 ? ? ? ? Q]; [reflexivity|destruct l0; discriminate Q]). subst c1. split; [exact N|constructor].
  - cbn [app] in Q. injection Q as <- <-. destruct (IH _ eq_refl) as [A B]. split; [exact A|]. econstructor; eassumption.
Qed.

Section Frame.
Variable sha : bytes -> bytes.
Variable fbits : bytes -> N.
Hypothesis sha32 : forall x, length (sha x) = 32%nat.
Notation hf_loop := (hf_loop sha fbits).
Notation hf_op := (hf_op sha fbits).
Notation hash_frame := (hash_frame sha fbits).

Lemma ver_origin v w o : version (mkUuid v o) = version (mkUuid w o).
Proof. reflexivity. Qed.
Lemma hget_cons u h m v : hget ((u, h) :: m) v = if uuid_eqb u v then Some h else hget m v.
Proof. unfold hget. cbn [find fst]. destruct (uuid_eqb u v); reflexivity. Qed.
Lemma tget_cons o w m p : tget ((o, w) :: m) p = if o =? p then Some w else tget m p.
Proof. unfold tget. cbn [find fst]. destruct (o =? p); reflexivity. Qed.
Lemma form_name : version SHA2_FORM_ID = NAME. Proof. vm_compute. reflexivity. Qed.

(* the call that is made for an event *)
Definition call (id : uuid) : bcmd := BAppend (mkWop SHA2_FORM_ID id [WStr [] (str_size []) (str_first [])]).
Record inv (seen : list uuid) (s : hf) : Prop := {
  i_seen : forall u, version u = TIME -> (In u seen <-> hget (hf_hashes s) u <> None);
  i_size : forall u h, hget (hf_hashes s) u = Some h -> length (hbits h) = 32%nat;
  i_form : forall h, hget (hf_hashes s) SHA2_FORM_ID = Some h -> hbits h = repeat 0 32;
  i_tips : forall o v, version (mkUuid v o) = TIME -> tget (hf_tips s) o = Some v -> In (mkUuid v o) seen;
  i_rep : hf_report s = map call seen }.
Lemma inv0 : inv [] hf0.
Proof. split; [intros u _; split; [intros []|intro H; exfalso; apply H; reflexivity]|discriminate|discriminate|discriminate|reflexivity]. Qed.

Lemma prev_size seen s id : inv seen s -> version id = TIME -> length (hbits (hf_prev sha s id)) = 32%nat.
Proof.
  intros I V. unfold hf_prev. destruct (tget (hf_tips s) (uorigin id)) as [v|] eqn:T; [|apply sha32].
  destruct (hget (hf_hashes s) (mkUuid v (uorigin id))) as [h|] eqn:H; [exact (i_size _ _ I _ _ H)|reflexivity].
Qed.
(* an event that is based on what came before *)
Lemma event_ok seen s c : inv seen s -> is_event c = true -> version (text_ref c) = NAME \/ version (text_ref c) = TIME /\ In (text_ref c) seen ->
  exists s', hf_op s c = Done (inl s') /\ inv (seen ++ [text_id c]) s'.
Proof.
  intros I EV B. unfold is_event in EV. unfold HashFrameModel.hf_op, hf_event. rewrite EV. apply N.eqb_eq in EV.
  assert (R : exists r, hf_ref sha s (text_ref c) = inl r /\ length (hbits r) = 32%nat).
  { unfold hf_ref. destruct B as [B|[B J]].
    - rewrite B. exists (sha_uuid sha (text_ref c)). split; [reflexivity|apply sha32].
    - rewrite B. cbn [N.eqb]. change (TIME =? TIME) with true. cbv iota. apply (i_seen _ _ I _ B) in J.
      destruct (hget (hf_hashes s) (text_ref c)) as [h|] eqn:H; [|contradiction]. exists h. split; [reflexivity|exact (i_size _ _ I _ _ H)]. }
  destruct R as (r & -> & LR). unfold hash_image, write_hash. rewrite (prev_size _ _ _ I EV), LR. cbn [Nat.eqb rbind].
  change (32 =? 32)%nat with true. cbv iota. cbn [rbind].
  set (img := write_id _ ++ _). clearbody img.
  assert (B64 : sha2_base64 (mkSha2 (known_bits SHA2_EMPTY) (sha img)) = Some []) by (unfold sha2_base64, encode; cbn [hbits known_bits SHA2_EMPTY]; destruct (sha img); reflexivity).
  rewrite B64. cbn [wop_of_op option_map wvals_of wval_of_value until_zero flat_map]. eexists. split; [reflexivity|].
  split; cbn [hf_hashes hf_tips hf_report].
  - intros u V. rewrite hget_cons, in_app_iff. cbn [In]. destruct (uuid_eqb (text_id c) u) eqn:Q.
    + apply uuid_eqb_eq in Q. split; [discriminate|]. auto.
    + rewrite (i_seen _ _ I u V). split; [intros [H|[H|[]]]; [exact H|]|auto]. rewrite H, (proj2 (uuid_eqb_eq _ _) eq_refl) in Q. discriminate.
  - intros u h. rewrite hget_cons. destruct (uuid_eqb (text_id c) u); [intro Q; injection Q as <-; apply sha32|apply (i_size _ _ I)].
  - intro h. rewrite hget_cons. destruct (uuid_eqb (text_id c) SHA2_FORM_ID) eqn:Q; [|apply (i_form _ _ I)].
    apply uuid_eqb_eq in Q. rewrite Q, form_name in EV. discriminate.
  - intros o v V. rewrite tget_cons. destruct (uorigin (text_id c) =? o) eqn:Q.
    + apply N.eqb_eq in Q. intro T. injection T as <-. rewrite <- Q. apply in_or_app. right. left. destruct (text_id c); reflexivity.
    + intro T. apply in_or_app. left. apply (i_tips _ _ I); assumption.
  - rewrite (i_rep _ _ I), map_app. reflexivity.
Qed.
(* any other op *)
Lemma other_ok seen s c : inv seen s -> is_event c = false ->
  (forall cp n b e, text_id c = SHA2_FORM_ID -> nth_error (c_op c) 2 = Some (AStr cp n b e) -> (length (read_string (c_buf c) cp n b e) <= 43)%nat) ->
  exists s', hf_op s c = Done (inl s') /\ inv seen s'.
Proof.
  intros I EV SH. unfold is_event in EV. unfold HashFrameModel.hf_op. rewrite EV.
  destruct (uuid_eqb (text_id c) SHA2_FORM_ID) eqn:Q; [|exists s; auto]. apply uuid_eqb_eq in Q. unfold hf_record. rewrite Q in *.
  destruct (c_op c) as [|a0 [|a1 [|[u|b e|cp n b e|b e] r]]] eqn:OP; try (exists s; split; [reflexivity|exact I]). specialize (SH cp n b e eq_refl eq_refl).
  destruct C41_hash_text as (_ & P & _). rewrite (P _ SH). destruct (hget (hf_hashes s) SHA2_FORM_ID) as [h|] eqn:H.
  - pose proof (i_form _ _ I h H) as Z. assert (M : sha2_matches (mkSha2 (N.min (N.of_nat (length (read_string (c_buf c) cp n b e)) * 6) 256) (repeat 0 32)) h = true).
    { unfold sha2_matches. cbn [hbits known_bits]. rewrite Z. apply andb_true_iff. split; [apply bytes_eqb_eq; reflexivity|]. destruct (0 <? _); [apply N.eqb_refl|reflexivity]. }
    rewrite M. exists s. auto.
  - eexists. split; [reflexivity|]. split; cbn [hf_hashes hf_tips hf_report].
    + intros u V. rewrite hget_cons. destruct (uuid_eqb SHA2_FORM_ID u) eqn:Q2; [apply uuid_eqb_eq in Q2; rewrite <- Q2, form_name in V; discriminate|apply (i_seen _ _ I); exact V].
    + intros u h. rewrite hget_cons. destruct (uuid_eqb SHA2_FORM_ID u); [intro T; injection T as <-; reflexivity|apply (i_size _ _ I)].
    + intro h. rewrite hget_cons. rewrite (proj2 (uuid_eqb_eq _ _) eq_refl). intro T. injection T as <-. reflexivity.
    + intros o v V. rewrite tget_cons. destruct (uorigin SHA2_FORM_ID =? o) eqn:Q2; [|apply (i_tips _ _ I); exact V].
      apply N.eqb_eq in Q2. rewrite <- Q2 in V. vm_compute in V. discriminate.
    + apply (i_rep _ _ I).
Qed.
Lemma steps_ok l1 : forall before seen s c0 c l2 fuel, inv seen s -> seen = event_ids before -> run_to c0 (l1 ++ l2) c -> 
  (forall a x b, l1 = a ++ x :: b -> is_event x = true -> based (before ++ a) x) ->
  (forall x cp n b e, In x l1 -> text_id x = SHA2_FORM_ID -> nth_error (c_op x) 2 = Some (AStr cp n b e) -> (length (read_string (c_buf x) cp n b e) <= 43)%nat) -> (length (l1 ++ l2) < fuel)%nat ->
  exists s' c1 fuel', hf_loop fuel s c0 = hf_loop fuel' s' c1 /\ inv (event_ids (before ++ l1)) s' /\ run_to c1 l2 c /\ (length l2 < fuel')%nat.
Proof.
  induction l1 as [|x l1 IH]; intros before seen s c0 c l2 fuel I -> R BS SH L.
  - exists s, c0, fuel. rewrite app_nil_r. cbn [app] in *. auto.
  - cbn [app] in R. apply run_cons in R as [NX R]. destruct fuel as [|fuel]; [cbn [length] in L; lia|].
    assert (ST : exists s', hf_op s x = Done (inl s') /\ inv (event_ids (before ++ [x])) s').
    { assert (EI : event_ids (before ++ [x]) = event_ids before ++ (if is_event x then [text_id x] else [])) by (unfold event_ids; rewrite filter_app, map_app; cbn [filter]; destruct (is_event x); reflexivity).
      rewrite EI. destruct (is_event x) eqn:E.
      - apply event_ok; [exact I|exact E|]. specialize (BS [] x l1 eq_refl E). rewrite app_nil_r in BS. exact BS.
      - rewrite app_nil_r. apply other_ok; [exact I|exact E|]. intros cp n b e. apply SH. left. reflexivity. }
    destruct ST as (s' & E & I'). destruct (IH (before ++ [x]) _ s' x c l2 fuel I' eq_refl R) as (s2 & c1 & f2 & E2 & I2 & R2 & L2).
    + intros a y b EQ EV. rewrite <- app_assoc. cbn [app]. apply (BS (x :: a) y b); [rewrite EQ; reflexivity|exact EV].
    + intros y cp n b e J. apply SH. right. exact J.
    + cbn [app length] in L. lia.
    + exists s2, c1, f2. cbn [HashFrameModel.hf_loop]. rewrite NX, E. cbn [rbind]. rewrite <- app_assoc in I2. cbn [app] in I2. auto.
Qed.

(* ---- what is printed ---- *)
Lemma report_calls ids : calls_of (map UAppend (report ids)) = Some (map call ids).
Proof. induction ids as [|id ids IH]; [reflexivity|]. cbn [report map calls_of] in *. cbn [u_id u_ref u_vals]. unfold report in IH. rewrite IH. reflexivity. Qed.
Lemma good_report ids last opn ext : Forall id_ok ids -> u_id last = SHA2_FORM_ID \/ last = origin_op -> good_calls last opn ext (map UAppend (report ids)).
Proof.
  intros F. revert last opn ext. induction F as [|id ids OK F IH]; intros last opn ext U; [exact Logic.I|].
  assert (NE : SHA2_FORM_ID <> inc (u_id last)) by (destruct U as [-> | ->]; intro Q; vm_compute in Q; discriminate Q).
  cbn [report map good_calls u_id u_ref]. split; [|split; [|split]].
  - split; [split; [split; vm_compute; reflexivity|vm_compute; reflexivity]|]. split; [exact OK|]. repeat constructor.
  - intro Q. exfalso. exact (NE Q).
  - unfold continues. cbn [u_id]. intro Q. exfalso. apply andb_true_iff in Q as [Q _]. apply andb_true_iff in Q as [Q _]. apply uuid_eqb_eq in Q. exact (NE Q).
  - apply IH. left. reflexivity.
Qed.
Lemma one_call id b : uuid_eqb SHA2_FORM_ID (inc (b_prev b)) = false -> exists b', bstep (Some b) (call id) = Some b' /\ b_prev b' = SHA2_FORM_ID /\ b_span b' = 1.
Proof.
  intro Q. cbn [bstep call]. unfold append_op, is_same_span. cbn [w_id w_ref]. rewrite Q, andb_false_r. cbn [andb]. eexists. split; [reflexivity|]. split; reflexivity.
Qed.
Lemma built ids : ids <> [] -> exists b, build_from builder0 (map call ids) = Some b /\ b_span b = 1.
Proof.
  intro NE. destruct ids as [|id ids]; [contradiction|]. clear NE. unfold build_from. cbn [map fold_left].
  destruct (one_call id builder0) as (b & -> & P & S1); [vm_compute; reflexivity|].
  revert b P S1. induction ids as [|i ids IH]; intros b P S1; [exists b; auto|]. cbn [map fold_left].
  destruct (one_call i b) as (b' & -> & P' & S1'); [rewrite P; vm_compute; reflexivity|]. apply IH; assumption.
Qed.
Definition printed (ids : list uuid) (t : bytes) : Prop :=
  match ids with [] => t = [10] | _ => exists u, t = u ++ [10] /\ frame_lit canon (u ++ [59; 10]) (chunk_of (report ids)) end.
Lemma print_ok ids : Forall id_ok ids -> N.of_nat (length ids) < 2 ^ 32 -> exists b, build_from builder0 (map call ids) = Some b /\ printed ids (b_data b ++ [10]).
Proof.
  intros OK L. destruct ids as [|id ids]; [exists builder0; split; reflexivity|]. destruct (built (id :: ids) ltac:(discriminate)) as (b & B & S1). exists b. split; [exact B|].
  exists (b_data b). split; [reflexivity|].
  destruct (build_calls_frame (map UAppend (report (id :: ids))) canon_writes) as (t & E & F).
  - apply good_report; [exact OK|right; reflexivity].
  - unfold report. rewrite !map_length. exact L.
  - unfold build_calls in E. rewrite report_calls in E. unfold build in E. rewrite B in E. cbn [option_map] in E. unfold release in E. rewrite S1 in E. cbn [N.eqb Pos.eqb fst] in E.
    unfold write_term in E. rewrite S1 in E. cbn [N.eqb N.ltb N.compare Pos.compare Pos.compare_cont b_data app] in E. injection E as <-.
    rewrite chunk_open in F. exact F.
Qed.

Lemma report_is f l fuel : ops_of f l -> (length l < fuel)%nat -> all_based l -> short_records l ->
  hash_frame fuel f = match build_from builder0 (map call (event_ids l)) with Some b => Done (HfOk, Some (b_data b ++ [10])) | None => Aborted end.
Proof.
  intros (c & d & R & E) L AB SH.
  destruct (steps_ok l [] [] hf0 (cursor_of f) c [] fuel inv0 eq_refl) as (s & c1 & f1 & E1 & I & R1 & L1); try assumption; try (rewrite app_nil_r; assumption).
  cbn [app] in I. assert (c1 = c) by (inversion R1 as [|l0 ? ? ? ? Q]; [reflexivity|destruct l0; discriminate Q]). subst c1.
  assert (E2 : hf_loop f1 s c = Done (inl s)) by (destruct f1; [lia|]; cbn [HashFrameModel.hf_loop]; destruct E as [-> | ->]; reflexivity).
  unfold HashFrameModel.hash_frame. rewrite E1, E2. cbn [rbind]. rewrite (i_rep _ _ I). reflexivity.
Qed.
(* Every event references one before it or creates an object: the report has one
   record for each event, in order, and each record has an empty string. *)
Theorem C82_report f l fuel : ops_of f l -> (length l < fuel)%nat -> N.of_nat (length l) < 2 ^ 32 -> all_based l -> short_records l ->
  exists t, hash_frame fuel f = Done (HfOk, Some t) /\ printed (event_ids l) t.
Proof.
  intros O L LN AB SH. rewrite (report_is f l fuel O L AB SH). destruct O as (c & d & R & E).
  assert (OK : Forall id_ok (event_ids l)).
  { apply Forall_forall. intros id J. unfold event_ids in J. apply in_map_iff in J as (x & <- & J). apply filter_In in J as [J _]. apply (delivered_id f).
    clear -R J. induction R as [|l c c' R IH N]; [destruct J|]. apply in_app_iff in J as [J|[<-|[]]]; [exact (IH J)|]. exists l. econstructor; eassumption. }
  assert (LE : N.of_nat (length (event_ids l)) < 2 ^ 32).
  { unfold event_ids. rewrite map_length. assert ((length (filter is_event l) <= length l)%nat) by (clear; induction l as [|x l IH]; [auto|]; cbn [filter]; destruct (is_event x); cbn [length]; lia). lia. }
  destruct (print_ok _ OK LE) as (b & B & P). exists (b_data b ++ [10]). split; [|exact P]. rewrite B. reflexivity.
Qed.
(* So two frames with the same ids of events have the same report, whatever the
   events say and whatever hashes are given. *)
Theorem C82_blind f1 l1 f2 l2 fuel : ops_of f1 l1 -> ops_of f2 l2 -> (length l1 < fuel)%nat -> (length l2 < fuel)%nat ->
  all_based l1 -> all_based l2 -> short_records l1 -> short_records l2 -> event_ids l1 = event_ids l2 -> hash_frame fuel f1 = hash_frame fuel f2.
Proof. intros O1 O2 L1 L2 A1 A2 S1 S2 E. rewrite (report_is f1 l1), (report_is f2 l2), E by assumption. reflexivity. Qed.

(* The first event that is not based on what came before: nothing is printed. *)
Theorem C82_gap f a c b fuel : ops_of f (a ++ c :: b) -> (length (a ++ c :: b) < fuel)%nat -> all_based a -> short_records a -> is_event c = true -> ~ based a c ->
  hash_frame fuel f = Done (if version (text_ref c) =? TIME then HfTreeGap else HfBadState, None).
Proof.
  intros (e & d & R & E) L AB SH EV NB.
  destruct (steps_ok a [] [] hf0 (cursor_of f) e (c :: b) fuel inv0 eq_refl) as (s & c1 & f1 & E1 & I & R1 & L1); try assumption.
  cbn [app] in I. apply run_cons in R1 as [NX _]. destruct f1 as [|f1]; [cbn [length] in L1; lia|].
  unfold HashFrameModel.hash_frame. rewrite E1. cbn [HashFrameModel.hf_loop]. rewrite NX. unfold HashFrameModel.hf_op, hf_event. unfold is_event in EV. rewrite EV.
  unfold hf_ref. destruct (version (text_ref c) =? TIME) eqn:V.
  - apply N.eqb_eq in V. destruct (hget (hf_hashes s) (text_ref c)) as [h|] eqn:H; [|reflexivity].
    exfalso. apply NB. right. split; [exact V|]. apply (i_seen _ _ I _ V). rewrite H. discriminate.
  - destruct (version (text_ref c) =? NAME) eqn:V2; [|reflexivity]. exfalso. apply NB. left. apply N.eqb_eq. exact V2.
Qed.

(* No record of a hash is ever found wrong. *)
Lemma op_no_break seen s c : inv seen s -> match hf_op s c with Done (inl s') => exists seen', inv seen' s' | Done (inr e) => e <> HfHashBreak | _ => True end.
Proof.
  intro I. destruct (is_event c) eqn:E.
  - destruct (N.eq_dec (version (text_ref c)) NAME) as [V|V]; [destruct (event_ok seen s c I E (or_introl V)) as (s' & -> & I'); eauto|].
    destruct (N.eq_dec (version (text_ref c)) TIME) as [V2|V2].
    + destruct (hget (hf_hashes s) (text_ref c)) as [h|] eqn:H.
      * destruct (event_ok seen s c I E) as (s' & -> & I'); [|eauto]. right. split; [exact V2|]. apply (i_seen _ _ I _ V2). rewrite H. discriminate.
      * unfold HashFrameModel.hf_op, hf_event, hf_ref. unfold is_event in E. rewrite E, V2, H. discriminate.
    + unfold HashFrameModel.hf_op, hf_event, hf_ref. unfold is_event in E. rewrite E. apply N.eqb_neq in V, V2. rewrite V, V2. discriminate.
  - destruct (uuid_eqb (text_id c) SHA2_FORM_ID && match nth_error (c_op c) 2 with Some (AStr cp n b e) => Nat.ltb 43 (length (read_string (c_buf c) cp n b e)) | _ => false end) eqn:Q.
    + apply andb_true_iff in Q as [Q1 Q2]. unfold HashFrameModel.hf_op. unfold is_event in E. rewrite E, Q1. unfold hf_record.
      destruct (c_op c) as [|a0 [|a1 [|[u|b e|cp n b e|b e] r]]]; try discriminate. cbn [nth_error] in Q2. apply Nat.ltb_lt in Q2.
      unfold sha2_parse_base64, sha2_parse. assert (LT : (43 <? N.of_nat (length (read_string (c_buf c) cp n b e))) = true) by (apply N.ltb_lt; lia). rewrite LT. exact Logic.I.
    + destruct (other_ok seen s c I E) as (s' & -> & I'); [|eauto]. intros cp n b e Q1 Q2. rewrite Q1, Q2, (proj2 (uuid_eqb_eq _ _) eq_refl) in Q. cbn [andb] in Q. apply Nat.ltb_ge in Q. exact Q.
Qed.
Theorem C82_no_break : forall f fuel t, hash_frame fuel f <> Done (HfHashBreak, t).
Proof.
  intros f fuel t. assert (K : forall fuel seen s c, inv seen s -> hf_loop fuel s c <> Done (inr HfHashBreak)).
  { clear f fuel t. induction fuel as [|fuel IH]; intros seen s c I; [discriminate|]. cbn [HashFrameModel.hf_loop]. destruct (next c) as [c'|c'|c'|]; try discriminate.
    pose proof (op_no_break seen s c' I) as N. destruct (hf_op s c') as [[s'|e]| |]; cbn [rbind]; try discriminate; [destruct N as (seen' & I'); eapply IH; exact I'|congruence]. }
  specialize (K fuel [] hf0 (cursor_of f) inv0). unfold HashFrameModel.hash_frame. destruct (hf_loop fuel hf0 (cursor_of f)) as [[s|e]| |]; cbn [rbind]; try discriminate.
  - destruct (build_from builder0 (hf_report s)); discriminate.
  - intro Q. apply K. injection Q as -> _. reflexivity.
Qed.
End Frame.
Print Assumptions C82_report.
Print Assumptions C82_blind.
Print Assumptions C82_gap.
Print Assumptions C82_no_break.
