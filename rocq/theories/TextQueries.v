(* C53: several queries in one frame, for states and texts. *)
From Verif Require StoreProofs.
From Verif Require Import Prelude UuidModel UuidSpec UuidProofs KeyModel KeyProofs CodecModel CodecProofs TextTable TextModel TextSpec FrameProofs BuilderSpec BuilderProofs MergeModel MergeSpec MergeTextModel
  MergeTheorems TextMergeSpec TextCursors MergeKeeps TextMerge TextMergeTheorems RgaTree StoreModel RocksModel MetaModel ClockModel ScanModel ScanSpec ScanTheorems
  ReplicaModel BranchModel DurableSpec DurableProofs DurableTheorems AnswerModel AnswerSpec AnswerTheorems TextAnswerSpec TextAnswerTheorems TextQueriesSpec.

(* ---- texts whose sizes the builder is told wrong ---- *)
Definition sim (a a' : bcmd) : Prop := a = a' \/
  exists id ref inner n n' x x', version id = DERIVED /\ a = BAppend (mkWop id ref [WStr inner n x]) /\ a' = BAppend (mkWop id ref [WStr inner n' x']).
Definition refs_ok (a : bcmd) : Prop := match a with BAppend o => version (w_ref o) <> DERIVED | BEnd _ => True end.
Definition alike (b b' : builder) : Prop :=
  b_prev b = b_prev b' /\ b_span b = b_span b' /\ b_data b = b_data b' /\ (b_prev2 b = b_prev2 b' \/ version (b_prev b) = DERIVED /\ b_span b <= 1).

Lemma alike_term t b b' : alike b b' -> alike (write_term t b) (write_term t b').
Proof.
  destruct b as [p s n d], b' as [p' s' n' d']. unfold alike. cbn [b_prev b_prev2 b_span b_data]. intros (<- & <- & <- & K). unfold write_term. cbn [b_prev b_prev2 b_span b_data].
  destruct (N.eqb_spec n 0) as [->|Z]; cbn [b_prev b_prev2 b_span b_data]; [auto|]. split; [reflexivity|]. split; [reflexivity|].
  destruct K as [->|[V L]]; [auto|]. replace (1 <? n) with false by lia. split; [reflexivity|]. right. split; [exact V|lia].
Qed.
Lemma alike_spec id ref b b' : alike b b' -> b_prev (write_spec id ref b) = id /\ b_span (write_spec id ref b) = 1 /\
  b_prev (write_spec id ref b') = id /\ b_span (write_spec id ref b') = 1 /\ b_data (write_spec id ref b) = b_data (write_spec id ref b').
Proof.
  intro A. pose proof (alike_term REDUCED _ _ A) as (E1 & E2 & E3 & _). unfold write_spec. cbv zeta. cbn [b_prev b_span b_data]. rewrite E1, E3. auto.
Qed.
Lemma alike_step a a' b b' : sim a a' -> refs_ok a -> alike b b' ->
  match bstep (Some b) a, bstep (Some b') a' with Some c, Some c' => alike c c' | None, None => True | _, _ => False end.
Proof.
  intros SM RF A. pose proof A as (E1 & E2 & E3 & K).
  assert (NS : forall o, version (w_ref o) <> DERIVED -> version (b_prev b) = DERIVED -> is_same_span o b = false /\ is_same_span o b' = false).
  { intros o V D. unfold is_same_span. rewrite <- E1. replace (uuid_eqb (w_ref o) (b_prev b)) with false; [auto|].
    symmetry. destruct (uuid_eqb (w_ref o) (b_prev b)) eqn:E; [|reflexivity]. apply uuid_eqb_eq in E. rewrite E in V. contradiction. }
  assert (WV : forall o o', w_id o = w_id o' -> w_ref o = w_ref o' -> flat_map (fun v => 32 :: value_text v) (w_vals o) = flat_map (fun v => 32 :: value_text v) (w_vals o') ->
    span_signature o = span_signature o' \/ version (w_id o) = DERIVED ->
    alike (write_values o (write_spec (w_id o) (w_ref o) (write_term REDUCED b))) (write_values o' (write_spec (w_id o') (w_ref o') (write_term REDUCED b')))).
  { intros o o' I R V S. rewrite <- I, <- R. destruct (alike_spec (w_id o) (w_ref o) _ _ (alike_term REDUCED _ _ A)) as (P1 & S1 & P2 & S2 & D).
    unfold write_values, alike. cbn [b_prev b_prev2 b_span b_data]. rewrite P1, S1, P2, S2, D, V. split; [reflexivity|]. split; [reflexivity|]. split; [reflexivity|].
    destruct S as [S|S]; [left; exact S|right; split; [exact S|lia]]. }
  destruct SM as [<-|(id & ref & inner & n & n' & x & x' & V & -> & ->)]; cbn [bstep].
  - destruct a as [o|t]; cbn [bstep refs_ok] in *.
    + unfold append_op. destruct K as [K|[K L]].
      * assert (EB : b = b') by (destruct b as [p1 p2 p3 p4], b' as [q1 q2 q3 q4]; cbn [b_prev b_prev2 b_span b_data] in *; subst; reflexivity). rewrite EB.
        destruct (is_same_span o b'); [destruct (extend_span o b'); [|exact I]|]; repeat split; auto.
      * destruct (NS o RF K) as [-> ->]. apply WV; auto.
    + unfold end_chunk. destruct (t =? REDUCED); [exact I|]. apply alike_term. exact A.
  - cbn [refs_ok w_ref] in RF. unfold append_op.
    destruct (is_same_span (mkWop id ref [WStr inner n x]) b) eqn:S1.
    + exfalso. unfold is_same_span in S1. rewrite !andb_true_iff in S1. destruct S1 as (((R1 & I1) & _) & _). cbn [w_ref w_id] in *. apply uuid_eqb_eq in R1, I1.
      assert (X : version ref = version id) by (rewrite R1, I1; unfold version; destruct (b_prev b); reflexivity). congruence.
    + destruct (is_same_span (mkWop id ref [WStr inner n' x']) b') eqn:S2.
      * exfalso. unfold is_same_span in S2. rewrite !andb_true_iff in S2. destruct S2 as (((R1 & I1) & _) & _). cbn [w_ref w_id] in *. apply uuid_eqb_eq in R1, I1.
        assert (X : version ref = version id) by (rewrite R1, I1; unfold version; destruct (b_prev b'); reflexivity). congruence.
      * apply (WV (mkWop id ref [WStr inner n x]) (mkWop id ref [WStr inner n' x'])); auto.
Qed.

Lemma alike_fold a a' : Forall2 sim a a' -> Forall refs_ok a -> forall b b', alike b b' ->
  match fold_left bstep a (Some b), fold_left bstep a' (Some b') with Some c, Some c' => alike c c' | None, None => True | _, _ => False end.
Proof.
  assert (NN : forall l, fold_left bstep l None = None) by (induction l as [|x l IH]; [reflexivity|exact IH]).
  induction 1 as [|x x' a a' S F IH]; intros R b b' A; [exact A|]. inversion R as [|? ? R1 R2]; subst. cbn [fold_left].
  pose proof (alike_step _ _ _ _ S R1 A) as K. destruct (bstep (Some b) x) as [c|], (bstep (Some b') x') as [c'|]; try contradiction; [apply IH; assumption|].
  rewrite !NN. exact I.
Qed.
Lemma sim_build a a' : Forall2 sim a a' -> Forall refs_ok a -> build a = build a'.
Proof.
  intros F R. unfold build, build_from. pose proof (alike_fold _ _ F R builder0 builder0) as K. specialize (K ltac:(repeat split; auto)).
  destruct (fold_left bstep a (Some builder0)) as [c|], (fold_left bstep a' (Some builder0)) as [c'|]; try contradiction; [|reflexivity].
  cbn [option_map]. f_equal. unfold release. pose proof (alike_term RAW _ _ K) as (_ & _ & D & _). destruct K as (_ & E2 & E3 & _).
  rewrite <- E2. destruct (b_span c =? 0); cbn [fst]; assumption.
Qed.

(* ---- calls with known ops, of either kind ---- *)
Definition fair (x : acmd) : Prop :=
  match x with AApp o u => (uop_ok u -> rep canon o u) /\ (plain_string u -> uop_ok u -> wplain o) | AEnd _ => True end.
Lemma fair_good acs : Forall fair acs -> forall lo last opn ext, good_calls last opn ext (map to_u acs) -> (opn = true -> plain_string last -> wplain lo) -> good_a canon lo last opn ext acs.
Proof.
  induction 1 as [|x acs X F IH]; intros lo last opn ext G HL; [exact I|]. destruct x as [o u|t]; cbn [map to_u good_calls] in G; cbn [good_a].
  - destruct G as (U & Q & C & G). destruct X as [X1 X2]. split; [exact (X1 U)|]. split; [exact Q|]. split.
    + intro K. destruct (C K) as [-> [->|P]]; auto.
    + apply IH; [exact G|]. intros _ P. exact (X2 P U).
  - destruct G as (T & G). split; [exact T|]. apply IH; [exact G|discriminate].
Qed.
Definition tells (a : list bcmd) (us : list ucmd) : Prop :=
  exists acs, Forall2 sim a (map to_b acs) /\ Forall fair acs /\ map to_u acs = us /\ Forall refs_ok a.
Lemma tells_nil : tells [] [].
Proof. exists []. repeat split; constructor. Qed.
Lemma tells_app a us b vs : tells a us -> tells b vs -> tells (a ++ b) (us ++ vs).
Proof.
  intros (x & X1 & X2 & <- & X3) (y & Y1 & Y2 & <- & Y3). exists (x ++ y). rewrite !map_app. split; [apply Forall2_app; assumption|].
  split; [apply Forall_app; auto|]. split; [reflexivity|]. apply Forall_app. auto.
Qed.
Lemma tells_build a us : tells a us -> good_calls origin_op false false us -> N.of_nat (length us) < 2 ^ 32 ->
  exists text, build a = Some text /\ frame_lit canon text (denote us).
Proof.
  intros (acs & S & F & <- & R) G L. rewrite (sim_build _ _ S R). rewrite map_length in L. apply (build_frame lo0 acs canon_writes); [|exact L].
  apply fair_good; [exact F|exact G|discriminate].
Qed.
Lemma speaks_tells a us : speaks a us -> Forall (fun c => match c with UAppend u => version (u_ref u) <> DERIVED | UEnd _ => True end) us -> tells a us.
Proof.
  intros (calls & -> & -> & K). induction calls as [|k calls IH]; intro R; [exact tells_nil|]. unfold ucalls in R. cbn [map] in R. inversion R as [|? ? R1 R2]; subst.
  assert (T : tells (bcalls calls) (ucalls calls)) by (apply IH; [intros c J; apply K; right; exact J|exact R2]).
  change (bcalls (k :: calls)) with (bcalls [k] ++ bcalls calls). change (ucalls (k :: calls)) with (ucalls [k] ++ ucalls calls). apply tells_app; [|exact T].
  destruct k as [c|t].
  - destruct (K c (or_introl eq_refl)) as (o & LC). assert (EO : rop_of c = o) by apply LC.
    exists [AApp (wop_of_cursor c) (bare (rop_of c))]. split; [constructor; [left; reflexivity|constructor]|]. split.
    + constructor; [|constructor]. rewrite EO. split; [intro U; apply lit_rep; [apply canon_writes|exact LC|exact U]|]. intros P _. exact (lit_plain c o LC P).
    + split; [reflexivity|]. constructor; [|constructor]. exact R1.
  - exists [AEnd t]. split; [constructor; [left; reflexivity|constructor]|]. split; [repeat constructor|]. split; [reflexivity|]. repeat constructor.
Qed.
Lemma until_twice l : until_zero (until_zero l) = until_zero l.
Proof. induction l as [|c l IH]; [reflexivity|]. cbn [until_zero]. destruct (c =? 0) eqn:Z; [reflexivity|]. cbn [until_zero]. rewrite Z, IH. reflexivity. Qed.
Lemma text_op_tells q raw : id_ok (r_id q) -> version (r_id q) = DERIVED -> Forall (fun cp => cp < 2 ^ 21) raw -> value_ok (VStr (Some (until_zero raw))) ->
  exists a, text_op (object_of q) (flat_map utf8append raw) = Some a /\ tells [a] [UAppend (mkUop (r_id q) TXT_MAP_ID [VStr (Some (until_zero raw))])].
Proof.
  intros I V B OK. unfold text_op. rewrite utf8_roundtrip by exact B. rewrite derived_query by assumption.
  set (u := mkUop (r_id q) TXT_MAP_ID [VStr (Some (until_zero raw))]).
  assert (U : uop_ok u) by (split; [exact I|]; split; [split; [vm_compute; repeat split|vm_compute; reflexivity]|]; constructor; [exact OK|constructor]).
  destruct (wop_of_ok u canon_writes U) as (o & E & R). unfold wop_of_op in E |- *. unfold u in E. cbn [u_id u_ref u_vals wvals_of wval_of_value option_map] in E |- *. rewrite until_twice in E. injection E as E.
  eexists. split; [reflexivity|]. exists [AApp o u]. split; [|split; [|split; [reflexivity|]]].
  - constructor; [|constructor]. cbn [to_b]. rewrite <- E. right. eexists _, _, _, _, _, _, _. split; [exact V|]. split; reflexivity.
  - constructor; [|constructor]. split; [intros _; exact R|]. intros P _. apply (plain_wop (CW := canon) u); [|exact R|exact P].
    unfold wop_of_op, u. cbn [u_id u_ref u_vals wvals_of wval_of_value option_map]. rewrite until_twice, E. reflexivity.
  - constructor; [|constructor]. cbn [refs_ok w_ref]. vm_compute. discriminate.
Qed.

Section Queries.
Variable sha : bytes -> bytes.
Variable fbits : bytes -> N.
Variable active : N.
Variable fuel : nat.
Notation rread := (rocks_read fbits fuel).
Notation jread := (b_jread fbits fuel).
Notation cst := (cst family).
Notation answer_loop := (answer_loop sha fbits family jread (b_jprev fbits fuel) b_write active fuel).
Notation ask := (b_ask sha fbits active fuel).

Lemma loop_replies (P : bytes -> N -> Prop) st c cs qs us : s_mem family st = [] -> visits valid text_next c cs -> Forall2 (lit_cursor P) cs qs ->
  replied (rread (s_main family st)) fuel TXT_MAP_ID qs us -> forall n, (length cs < n)%nat ->
  exists a, answer_loop n st c = Done (st, ROk, a) /\ tells a us.
Proof.
  intros M VI. revert qs us. induction VI as [c V|c c' l V NX VI IH]; intros qs us F A [|n] L; cbn [length] in L; try lia; cbn [AnswerModel.answer_loop]; rewrite V.
  - inversion F; subst. inversion A; subst. exists []. split; [reflexivity|]. exact tells_nil.
  - inversion F as [|x q y qs' [E _] F2]; subst. inversion A as [|q text ops qs2 us2 Q R FS LO RF A2|q cps qs2 us2 Q IO TK A2]; subst.
    + rewrite (query_is_object sha fbits active fuel st c _ eq_refl Q). unfold answer_object. unfold state_key in R. cbn [rop_of r_id r_ref] in R.
      rewrite (object_query fbits fuel st c text KOk M R). cbn [rbind kst is_ok negb].
      destruct (speaks_frame fuel text ops FS LO) as (a & AP & SP). rewrite AP. cbn [rbind]. rewrite (next_any_of _ _ _ NX). cbn [rbind is_ok].
      destruct (IH _ _ F2 A2 n ltac:(lia)) as (a2 & -> & SP2). cbn [rbind]. exists (a ++ a2). split; [reflexivity|]. apply tells_app; [|assumption].
      apply (speaks_tells _ _ SP). clear -RF. induction RF as [|o ops H F IH]; [constructor|]. unfold replay. cbn [flat_map app]. constructor; [exact H|].
      apply Forall_app. split; [|exact IH]. destruct (r_term o =? REDUCED); repeat constructor.
    + destruct TK as (state & T & ms & hs & R & FM & SS & RT & LF & LB & NS & VP & FH & ->).
      pose proof (frame_erase _ _ _ FM) as FE.
      destruct (C26_flags state T fuel (says_frame_ops canon state _ FE SS) RT ltac:(lia) LB NS) as (PO & hs' & SC & FH').
      assert (EH : hs' = hs).
      { clear -FH FH'. revert hs FH. induction FH' as [|p h ps hs' H F IH]; intros hs FH; inversion FH as [|? h2 ? hs2 H2 F2]; subst; [reflexivity|]. f_equal; [|apply IH; exact F2].
        destruct h, h2; try reflexivity; [symmetry; apply H2; apply H; reflexivity|apply H; apply H2; reflexivity]. }
      subst hs'. pose proof (pieces_of T hs FH VP) as FP. rewrite PO in FP.
      destruct (marked_visits state _ ms FM SS) as (ws & TV & FC & FMC).
      destruct (weave_ok fbits canon ws _ FC ms hs (cursor_of state) fuel FMC FP TV LF) as (raw & W & U & B).
      destruct (text_op_tells (rop_of c) raw IO (proj1 Q) B) as (a & TO & TT); [rewrite U; apply spelled_ok; exact FP|].
      rewrite (query_is_text sha fbits active fuel st c _ eq_refl Q).
      assert (J : jread_step family jread st (text_key (rop_of c)) = Done (st, state, ROk)).
      { unfold jread_step. rewrite M. rewrite (jread_empty fbits fuel _ _ _ _ R). cbn [rbind]. rewrite set_same by exact M. reflexivity. }
      unfold answer_txt. cbv zeta. change (uuid_time (uvalue (text_id c)) (uorigin (text_id c))) with (object_of (rop_of c)).
      change (key_of (object_of (rop_of c)) RGA_RDT_FORM) with (text_key (rop_of c)). rewrite J. cbn [rbind is_ok negb]. unfold scan_text.
      change (ScanModel.scan_rga cursor valid text_next rop_of fuel (cursor_of state) = ScanRet StOK hs) in SC. rewrite SC, W. cbn [rbind]. rewrite TO. cbn [rbind]. rewrite (next_any_of _ _ _ NX). cbn [rbind is_ok].
      destruct (IH _ _ F2 A2 n ltac:(lia)) as (a2 & -> & SP2). cbn [rbind]. exists ([a] ++ a2). split; [reflexivity|]. rewrite U in TT. exact (tells_app _ _ _ _ TT SP2).
Qed.

(* C53: a frame of queries for states and texts is answered with the states and
   the texts, in the order of the queries; the branch is as it was. *)
Theorem C53_queries : forall (P : bytes -> N -> Prop) b now rs f qs us, frame_lit P f qs -> N.of_nat (length f) < 2 ^ 32 -> (length qs < fuel)%nat ->
  replied (rread (br_main b)) fuel TXT_MAP_ID qs us -> good_calls origin_op false false us -> N.of_nat (length us) < 2 ^ 32 ->
  exists text, ask b now rs f = Done (b, ROk, Some text) /\ frame_lit canon text (denote us).
Proof.
  intros P [d t] now rs f qs us FL SM LQ A G B. destruct (frame_visits f qs FL SM) as (cs & (c' & NX & VI) & F).
  assert (LC : length cs = length qs) by (clear -F; induction F; cbn [length]; congruence).
  destruct (loop_replies P (commit_on family d now rs t) c' cs qs us eq_refl VI F A fuel ltac:(lia)) as (a & LA & SP).
  destruct (tells_build _ _ SP G B) as (text & T & FT). exists text. split; [|exact FT].
  unfold b_ask, answer_frame. cbn [br_main br_tip]. unfold text_next in NX.
  assert (E : (exists c1, next (cursor_of f) = NOk c1 /\ c1 = c') \/ ((exists c1, next (cursor_of f) = NEnd c1 \/ next (cursor_of f) = NBad c1) /\ valid c' = false)).
  { destruct (next (cursor_of f)) as [c1|c1|c1|]; try discriminate.
    - left. exists c1. injection NX as _ ->. auto.
    - right. injection NX as V ->. eauto.
    - right. injection NX as V ->. eauto. }
  destruct E as [(c1 & -> & ->)|((c1 & E) & V)].
  - unfold answer. rewrite LA. cbn [rbind is_ok]. unfold save. cbn [commit_on s_tip s_base].
    replace (uuid_eqb t t) with true by (symmetry; apply uuid_eqb_eq; reflexivity). cbn [rbind s_main s_now]. rewrite T. reflexivity.
  - inversion VI; subst; [|congruence]. inversion F; subst. inversion A; subst. destruct SP as (acs & SM' & _ & X & _).
    destruct acs as [|? ?]; [|discriminate]. inversion SM'; subst. destruct E as [-> | ->]; cbn [rbind]; rewrite <- T; reflexivity.
Qed.

(* calls for texts alone can be written *)
Definition text_calls (qs : list rop) (texts : list (list N)) : list ucmd :=
  map (fun p => UAppend (mkUop (r_id (fst p)) TXT_MAP_ID [VStr (Some (snd p))])) (combine qs texts).
Lemma text_calls_good qs : forall texts, Forall (fun q => version (r_id q) = DERIVED /\ id_ok (r_id q)) qs -> Forall (fun t => value_ok (VStr (Some t))) texts ->
  forall last opn ext, u_id last <> TXT_MAP_ID -> (forall q r, qs = q :: r -> r_id q <> inc (u_id last)) -> spread qs -> good_calls last opn ext (text_calls qs texts).
Proof.
  induction qs as [|q qs IH]; intros texts Q T last opn ext NL NI SP; [exact I|]. destruct texts as [|t texts]; [exact I|].
  inversion Q as [|? ? [Q1 Q2] Q3]; subst. inversion T as [|? ? T1 T2]; subst. unfold text_calls. cbn [combine map good_calls fst snd u_id u_ref].
  split; [|split; [|split]].
  - split; [exact Q2|]. split; [split; [vm_compute; repeat split|vm_compute; reflexivity]|]. constructor; [exact T1|constructor].
  - intro E. exfalso. exact (NI q qs eq_refl E).
  - unfold continues. cbn [u_id u_ref]. destruct (uuid_eqb TXT_MAP_ID (u_id last)) eqn:E; [apply uuid_eqb_eq in E; congruence|]. rewrite andb_false_r. discriminate.
  - apply IH; [exact Q3|exact T2| | |].
    + cbn [u_id]. intro E. rewrite E in Q1. vm_compute in Q1. discriminate.
    + intros q' r ->. cbn [u_id]. destruct SP as [SP _]. exact SP.
    + destruct qs; [exact I|]. apply SP.
Qed.
Lemma text_calls_say qs : forall texts, Forall (fun q => version (r_id q) = DERIVED) qs -> length texts = length qs -> denote (text_calls qs texts) = text_answers TXT_MAP_ID qs texts.
Proof.
  induction qs as [|q qs IH]; intros [|t texts] Q L; try discriminate; [reflexivity|]. inversion Q as [|? ? Q1 Q2]; subst. unfold text_calls. cbn [combine map denote fst snd u_id u_ref u_vals].
  fold (text_calls qs texts). rewrite (IH texts Q2 ltac:(cbn [length] in L; lia)). destruct qs as [|q' qs], texts as [|t' texts]; try discriminate; [reflexivity|].
  cbn [text_calls combine map term_after fst snd text_answers]. unfold continues at 1. cbn [u_id u_ref].
  destruct (uuid_eqb TXT_MAP_ID (r_id q)) eqn:E; [apply uuid_eqb_eq in E; rewrite <- E in Q1; vm_compute in Q1; discriminate|]. rewrite andb_false_r. reflexivity.
Qed.
(* C53: a frame of queries for texts is answered with one op for each, which has
   the text, in the order of the queries. *)
Theorem C53_texts : forall (P : bytes -> N -> Prop) b now rs f qs texts, frame_lit P f qs -> N.of_nat (length f) < 2 ^ 32 -> (length qs < fuel)%nat -> N.of_nat (length qs) < 2 ^ 32 ->
  Forall text_query qs -> Forall (fun q => id_ok (r_id q)) qs -> spread qs -> Forall2 (text_kept (rread (br_main b)) fuel) qs texts ->
  exists text, ask b now rs f = Done (b, ROk, Some text) /\ frame_lit canon text (text_answers TXT_MAP_ID qs texts).
Proof.
  intros P b now rs f qs texts FL SM LQ LB Q IO SP TK. assert (LT : length qs = length texts) by (clear -TK; induction TK; cbn [length]; congruence).
  assert (QD : Forall (fun q => version (r_id q) = DERIVED) qs) by (revert Q; apply Forall_impl; intros q H; apply H).
  rewrite <- (text_calls_say qs texts QD (eq_sym LT)). apply (C53_queries P b now rs f qs); try assumption.
  - clear -TK Q IO. induction TK as [|q t qs texts H F IH]; [constructor|]. inversion Q; subst. inversion IO; subst. unfold text_calls. cbn [combine map fst snd]. constructor; auto.
  - apply text_calls_good; [|..|exact SP].
    + clear -QD IO. induction QD; inversion IO; subst; constructor; auto.
    + clear -TK. induction TK as [|q t qs texts (state & T & ms & hs & _ & FM & SS & RT & LF & LB & NS & VP & FH & ->) F IH]; constructor; [|exact IH].
      apply spelled_ok. pose proof (pieces_of T hs FH VP) as FP.
      destruct (C26_flags state T fuel (says_frame_ops canon state _ (frame_erase _ _ _ FM) SS) RT ltac:(lia) LB NS) as (PO & _). rewrite PO in FP. exact FP.
    + vm_compute. discriminate.
    + intros q r -> E. inversion QD as [|? ? D _]; subst. rewrite E in D. vm_compute in D. discriminate.
  - unfold text_calls. rewrite map_length, combine_length. lia.
Qed.
End Queries.
Print Assumptions C53_queries.
Print Assumptions C53_texts.
