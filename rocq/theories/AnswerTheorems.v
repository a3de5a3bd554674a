(* C52: what a query is answered with. *)
From Verif Require Import Prelude UuidModel UuidSpec UuidProofs KeyModel KeyProofs CodecModel TextTable TextModel TextSpec FrameProofs BuilderSpec BuilderProofs MergeModel MergeSpec MergeTextModel
  TextMergeSpec TextCursors MergeKeeps TextMerge StoreModel RocksModel MetaModel ClockModel ScanModel
  ReplicaModel ReplicaSpec ReplicaProofs BranchModel BranchSpec RocksSpec RocksProofs DurableSpec DurableProofs DurableTheorems NamesTheorems AnswerModel AnswerSpec.

(* ---- a stored frame appended to the response ---- *)
Definition replay_cs (cs : list cursor) : list (mcall cursor) :=
  flat_map (fun c => MAppend c :: if c_term c =? REDUCED then [] else [MEnd (c_term c)]) cs.

Lemma next_any_of c b c' : text_next c = Some (b, c') -> next_any c = Done c'.
Proof. unfold text_next, next_any. destruct (next c); intro H; try discriminate; injection H as _ <-; reflexivity. Qed.

Lemma append_all_ok c cs : visits valid text_next c cs -> forall n, (length cs < n)%nat -> append_all n c = Done (bcalls (replay_cs cs)).
Proof.
  induction 1 as [c V|c c' l V NX VI IH]; intros [|n] L; cbn [length] in L; try lia; cbn [append_all]; rewrite V; [reflexivity|].
  rewrite (next_any_of _ _ _ NX). cbn [rbind]. rewrite IH by lia. cbn [rbind replay_cs flat_map app]. unfold bcalls.
  cbn [map]. rewrite map_app. destruct (c_term c =? REDUCED); reflexivity.
Qed.
Lemma append_frame_ok f cs n : then_visits (cursor_of f) cs -> (length cs < n)%nat -> append_frame n f = Done (bcalls (replay_cs cs)).
Proof.
  intros (c' & NX & VI) L. unfold append_frame. unfold text_next in NX. destruct (next (cursor_of f)) as [c1|c1|c1|] eqn:E; try discriminate.
  - injection NX as _ ->. apply append_all_ok; assumption.
  - injection NX as V ->. inversion VI; subst; [reflexivity|congruence].
  - injection NX as V ->. inversion VI; subst; [reflexivity|congruence].
Qed.
Lemma replay_ops cs ops : Forall2 (lit_cursor canon) cs ops -> ucalls (replay_cs cs) = replay ops.
Proof.
  induction 1 as [|c o cs ops [E _] F IH]; [reflexivity|]. unfold replay_cs, replay, ucalls. cbn [flat_map app map]. rewrite E. f_equal.
  rewrite map_app. f_equal; [|exact IH]. rewrite <- E. cbn [rop_of r_term]. destruct (c_term c =? REDUCED); reflexivity.
Qed.
Lemma replay_canonical cs ops : Forall2 (lit_cursor canon) cs ops -> forall c, In (MAppend c) (replay_cs cs) -> canonical c.
Proof.
  induction 1 as [|c o cs ops L F IH]; intros x I; [destruct I|]. cbn [replay_cs flat_map app] in I. destruct I as [I|I].
  - injection I as <-. exists o. exact L.
  - apply in_app_or in I as [I|I]; [|exact (IH x I)]. destruct (c_term c =? REDUCED); [destruct I|]. destruct I as [I|[]]. discriminate.
Qed.

(* calls with known ops *)
Definition speaks (a : list bcmd) (us : list ucmd) : Prop :=
  exists calls, a = bcalls calls /\ us = ucalls calls /\ forall c, In (MAppend c) calls -> canonical c.
Lemma speaks_nil : speaks [] [].
Proof. exists []. split; [reflexivity|]. split; [reflexivity|]. intros c []. Qed.
Lemma speaks_app a us b vs : speaks a us -> speaks b vs -> speaks (a ++ b) (us ++ vs).
Proof.
  intros (x & -> & -> & X) (y & -> & -> & Y). exists (x ++ y). unfold bcalls, ucalls. rewrite !map_app. split; [reflexivity|]. split; [reflexivity|].
  intros c I. apply in_app_or in I as [I|I]; auto.
Qed.
Lemma speaks_frame n f ops : frame_says f ops -> (length ops < n)%nat -> exists a, append_frame n f = Done a /\ speaks a (replay ops).
Proof.
  intros [FL SM] L. destruct (frame_visits f ops FL SM) as (cs & TV & F).
  assert (LC : length cs = length ops) by (clear -F; induction F; cbn [length]; congruence).
  exists (bcalls (replay_cs cs)). split; [apply append_frame_ok; [exact TV|lia]|].
  exists (replay_cs cs). split; [reflexivity|]. split; [symmetry; apply replay_ops; exact F|]. exact (replay_canonical cs ops F).
Qed.
Lemma speaks_build a us : speaks a us -> good_calls origin_op false false us -> N.of_nat (length us) < 2 ^ 32 ->
  exists text, build a = Some text /\ frame_lit canon text (denote us).
Proof.
  intros (calls & -> & -> & K) G L. apply build_merged; [exact K|exact G|]. unfold ucalls in L. rewrite map_length in L. exact L.
Qed.

(* C52: the ops a frame says come back when the frame is appended op by op to a
   response, if what is appended is writable at all. *)
Theorem C52_append : forall n f ops, frame_says f ops -> (length ops < n)%nat -> N.of_nat (length (replay ops)) < 2 ^ 32 ->
  good_calls origin_op false false (replay ops) ->
  exists a text, append_frame n f = Done a /\ build a = Some text /\ frame_lit canon text (denote (replay ops)) /\
    map bare (denote (replay ops)) = map bare ops.
Proof.
  intros n f ops FS L B G. destruct (speaks_frame n f ops FS L) as (a & A & SP). destruct (speaks_build _ _ SP G B) as (text & T & FT).
  exists a, text. split; [exact A|]. split; [exact T|]. split; [exact FT|]. clear.
  induction ops as [|o ops IH]; [reflexivity|]. cbn [replay flat_map app]. change (flat_map _ ops) with (replay ops).
  destruct (r_term o =? REDUCED); cbn [app denote map bare r_id r_ref r_vals u_id u_ref u_vals]; rewrite IH; reflexivity.
Qed.

(* ---- a state that is one chunk ---- *)
Lemma chunk_term us : forall u, term_after u (map UAppend us ++ [UEnd RAW]) = REDUCED \/
  (term_after u (map UAppend us ++ [UEnd RAW]) = RAW /\ (us = [] \/ ends_in_span (u :: us))).
Proof.
  induction us as [|v us IH]; intro u; cbn [map app term_after]; [right; auto|].
  destruct (continues u v) eqn:C; [|left; reflexivity]. destruct (IH v) as [E|[E [->|(l & a & b & Q & K)]]]; [left; exact E|right|right].
  - split; [exact E|]. right. exists [], u, v. auto.
  - split; [exact E|]. right. exists (u :: l), a, b. rewrite Q. auto.
Qed.
Lemma replay_chunk us : us <> [] -> ~ ends_in_span us -> replay (chunk_of us) = map UAppend us ++ [UEnd RAW].
Proof.
  induction us as [|u us IH]; intros NE NS; [congruence|]. unfold chunk_of. cbn [map app denote]. change (denote (map UAppend us ++ [UEnd RAW])) with (chunk_of us).
  unfold replay. cbn [flat_map]. fold (replay (chunk_of us)). cbn [bare r_id r_ref r_vals r_term]. destruct u as [i r v]. cbn [u_id u_ref u_vals]. destruct us as [|w us].
  - cbn [map app term_after]. change (RAW =? REDUCED) with false. reflexivity.
  - rewrite IH; [|discriminate|].
    + destruct (chunk_term (w :: us) (mkUop i r v)) as [E|[_ [E|E]]]; [|discriminate|contradiction]. rewrite E. change (REDUCED =? REDUCED) with true. reflexivity.
    + intros (l & a & b & Q & K). apply NS. exists (mkUop i r v :: l), a, b. rewrite Q. auto.
Qed.

(* ---- frames of queries ---- *)
Section Ask.
Variable sha : bytes -> bytes.
Variable fbits : bytes -> N.
Variable active : N.
Variable fuel : nat.
Notation rread := (rocks_read fbits fuel).
Notation jread := (b_jread fbits fuel).
Notation cst := (cst family).
Notation answer_op := (answer_op sha fbits family jread (b_jprev fbits fuel) b_write active fuel).
Notation answer_loop := (answer_loop sha fbits family jread (b_jprev fbits fuel) b_write active fuel).
Notation ask := (b_ask sha fbits active fuel).

Lemma jread_empty d k f s : rread d k = Done (f, s) -> jread d [] k = Done (d, [], match s with KOk => f | _ => [] end, kst s).
Proof.
  intro R. unfold b_jread. rewrite R. cbn [rbind]. destruct s; try reflexivity. cbn. destruct f; reflexivity.
Qed.
Lemma set_same (st : cst) : s_mem family st = [] -> set_stores family st (s_main family st) [] = st.
Proof. destruct st as [m w n r b t]. cbn. intros ->. reflexivity. Qed.

Lemma object_query st c f s : s_mem family st = [] -> rread (s_main family st) (key_as (text_id c) (text_ref c)) = Done (f, s) ->
  jread_step family jread st (key_as (text_id c) (text_ref c)) = Done (st, match s with KOk => f | _ => [] end, kst s).
Proof. intros M R. unfold jread_step. rewrite M, (jread_empty _ _ _ _ R). cbn [rbind]. rewrite set_same by exact M. reflexivity. Qed.

Lemma query_is_object st c o : rop_of c = o -> state_query o -> answer_op st c = answer_object family jread fuel st c.
Proof.
  intros <- (V & T & F). cbn [rop_of r_id r_ref r_term] in V, T, F. unfold AnswerModel.answer_op. cbv zeta.
  change (op_id (c_op c)) with (text_id c) in V. rewrite V, T. change ((TIME =? TIME) && (QUERY =? QUERY)) with true. cbn iota.
  unfold answer_query. cbv zeta. unfold text_ref.
  destruct F as [<-|[<-|[<-|[<-|[]]]]]; rewrite N.eqb_refl, ?orb_true_r; reflexivity.
Qed.

Lemma loop_answers (P : bytes -> N -> Prop) st c cs qs us : s_mem family st = [] -> visits valid text_next c cs -> Forall2 (lit_cursor P) cs qs -> Forall state_query qs ->
  answered (rread (s_main family st)) fuel qs us -> forall n, (length cs < n)%nat ->
  exists a, answer_loop n st c = Done (st, ROk, a) /\ speaks a us.
Proof.
  intros M VI. revert qs us. induction VI as [c V|c c' l V NX VI IH]; intros qs us F Q A [|n] L; cbn [length] in L; try lia; cbn [AnswerModel.answer_loop]; rewrite V.
  - inversion F; subst. inversion A; subst. exists []. split; [reflexivity|]. exact speaks_nil.
  - inversion F as [|x q y qs' [E _] F2]; subst. inversion Q as [|? ? Q1 Q2]; subst. inversion A as [|q text ops qs2 us2 R FS LO A2]; subst.
    rewrite (query_is_object st c _ eq_refl Q1). unfold answer_object. unfold state_key in R. cbn [rop_of r_id r_ref] in R.
    rewrite (object_query st c text KOk M R). cbn [rbind kst is_ok negb].
    destruct (speaks_frame fuel text ops FS LO) as (a & AP & SP). rewrite AP. cbn [rbind]. rewrite (next_any_of _ _ _ NX). cbn [rbind is_ok].
    destruct (IH _ _ F2 Q2 A2 n ltac:(lia)) as (a2 & -> & SP2). cbn [rbind]. exists (a ++ a2). split; [reflexivity|]. apply speaks_app; assumption.
Qed.

(* C52: a frame of queries for the states of objects is answered with the ops of
   these states, one after another, if they are writable that way; the branch
   is as it was. *)
Theorem C52_queries : forall (P : bytes -> N -> Prop) b now rs f qs us, frame_lit P f qs -> N.of_nat (length f) < 2 ^ 32 -> Forall state_query qs -> (length qs < fuel)%nat ->
  answered (rread (br_main b)) fuel qs us -> good_calls origin_op false false us -> N.of_nat (length us) < 2 ^ 32 ->
  exists text, ask b now rs f = Done (b, ROk, Some text) /\ frame_lit canon text (denote us).
Proof.
  intros P [d t] now rs f qs us FL SM Q LQ A G B. destruct (frame_visits f qs FL SM) as (cs & (c' & NX & VI) & F).
  assert (LC : length cs = length qs) by (clear -F; induction F; cbn [length]; congruence).
  destruct (loop_answers P (commit_on family d now rs t) c' cs qs us eq_refl VI F Q A fuel ltac:(lia)) as (a & LA & SP).
  destruct (speaks_build _ _ SP G B) as (text & T & FT). exists text. split; [|exact FT].
  unfold b_ask, answer_frame. cbn [br_main br_tip]. unfold text_next in NX.
  assert (E : (exists c1, next (cursor_of f) = NOk c1 /\ c1 = c') \/ ((exists c1, next (cursor_of f) = NEnd c1 \/ next (cursor_of f) = NBad c1) /\ valid c' = false)).
  { destruct (next (cursor_of f)) as [c1|c1|c1|]; try discriminate.
    - left. exists c1. injection NX as _ ->. auto.
    - right. injection NX as V ->. eauto.
    - right. injection NX as V ->. eauto. }
  destruct E as [(c1 & -> & ->)|((c1 & E) & V)].
  - unfold answer. rewrite LA. cbn [rbind is_ok]. unfold save. cbn [commit_on s_tip s_base].
    replace (uuid_eqb t t) with true by (symmetry; apply uuid_eqb_eq; reflexivity). cbn [rbind s_main s_now]. rewrite T. reflexivity.
  - inversion VI; subst; [|congruence]. inversion F; subst. inversion A; subst. destruct SP as (calls & -> & X & _).
    destruct calls as [|? ?]; [|discriminate]. destruct E as [-> | ->]; cbn [rbind]; rewrite <- T; reflexivity.
Qed.

(* an object whose state cannot be read: the status is the read's *)
Theorem C52_failed : forall (P : bytes -> N -> Prop) b now rs f q qs s, frame_lit P f (q :: qs) -> N.of_nat (length f) < 2 ^ 32 -> state_query q -> (1 < fuel)%nat ->
  rread (br_main b) (state_key q) = Done ([], s) -> s <> KOk -> ask b now rs f = Done (b, kst s, Some []).
Proof.
  intros P [d t] now rs f q qs s FL SM Q LQ R NK. destruct (frame_visits f _ FL SM) as (cs & (c' & NX & VI) & F). inversion F as [|c q' cs' qs' [E _] F2]; subst.
  inversion VI as [|c0 c1 l V NX2 VI2]; subst. unfold text_next in NX. rewrite V in NX.
  destruct (next (cursor_of f)) as [c2|c2|c2|] eqn:EN; try discriminate. injection NX as ->. unfold b_ask, answer_frame. cbn [br_main br_tip]. rewrite EN.
  unfold answer. destruct fuel as [|n] eqn:EF; [lia|]. rewrite <- EF in *. cbn [AnswerModel.answer_loop]. unfold AnswerModel.answer_loop at 1. rewrite EF at 1. cbn iota. rewrite V. rewrite (query_is_object _ c _ eq_refl Q).
  unfold answer_object. unfold state_key in R. cbn [rop_of r_id r_ref] in R. cbn [br_main] in R.
  rewrite (object_query (commit_on family d now rs t) c [] s eq_refl R). cbn [rbind]. destruct s; [contradiction| | |]; reflexivity.
Qed.

(* C52: an object nothing is known of is answered with an empty frame and OK *)
Theorem C52_absent : forall (P : bytes -> N -> Prop) b now rs f q, frame_lit P f [q] -> N.of_nat (length f) < 2 ^ 32 -> state_query q -> (1 < fuel)%nat ->
  rread (br_main b) (state_key q) = Done ([], KOk) -> ask b now rs f = Done (b, ROk, Some []).
Proof.
  intros P b now rs f q FL SM Q LF R. destruct (frame_visits f _ FL SM) as (cs & (c' & NX & VI) & F). inversion F as [|c q' cs' qs' [E _] F2]; subst. inversion F2; subst.
  assert (A : answered (rread (br_main b)) fuel [rop_of c] (replay [] ++ [])).
  { econstructor; [exact R| |cbn [length]; lia|constructor]. split; [|reflexivity]. apply (fl [] [] [] []); [constructor|constructor|auto]. }
  destruct b as [d t]. destruct (loop_answers P (commit_on family d now rs t) c' [c] [rop_of c] _ eq_refl VI F (Forall_cons _ Q (Forall_nil _)) A fuel LF) as (a & LA & SP).
  inversion VI as [|c0 c1 l V NX2 VI2]; subst. unfold text_next in NX. rewrite V in NX.
  destruct (next (cursor_of f)) as [c2|c2|c2|] eqn:EN; try discriminate. injection NX as ->. unfold b_ask, answer_frame. cbn [br_main br_tip]. rewrite EN.
  unfold answer. rewrite LA. cbn [rbind is_ok]. unfold save. cbn [commit_on s_tip s_base].
  replace (uuid_eqb t t) with true by (symmetry; apply uuid_eqb_eq; reflexivity). cbn [rbind s_main s_now].
  destruct SP as (calls & -> & X & _). destruct calls as [|? ?]; [|discriminate]. reflexivity.
Qed.

(* C52: the state of an object kept in id order is answered as it is: each of
   its ops once, in the order of ids, as one chunk. Not so if its last two ops
   are in one span. *)
Theorem C52_kept : forall b W q, state_query q -> uuid2form (r_ref q) <> RGA_RDT_FORM -> state_at (br_main b) (state_key q) W -> keep_bound fuel W [] -> W <> [] ->
  exists us, increasing_ids (chunk_of us) /\ (forall u, In u us <-> In u W) /\
    (~ ends_in_span us -> forall (P : bytes -> N -> Prop) now rs f, frame_lit P f [q] -> N.of_nat (length f) < 2 ^ 32 ->
     exists text, ask b now rs f = Done (b, ROk, Some text) /\ frame_lit canon text (chunk_of us)).
Proof.
  intros b W q Q NR SA KB NW. pose proof Q as (VQ & TQ & FQ).
  assert (EF : key_form (state_key q) = uuid2form (r_ref q)).
  { unfold state_key, key_as. apply key_form_of. destruct FQ as [<-|[<-|[<-|[<-|[]]]]]; reflexivity. }
  assert (FM : In (key_form (state_key q)) [LWW_RDT_FORM; MX_RDT_FORM; YARN_RAW_FORM; META_META_FORM]).
  { rewrite EF. cbn [In] in *. destruct FQ as [F|[F|[F|[F|[]]]]]; auto. exfalso. apply NR. auto. }
  assert (NE : state_key q <> KEY_END).
  { apply form_key_neq. rewrite EF. destruct FQ as [<-|[<-|[<-|[<-|[]]]]]; vm_compute; discriminate. }
  apply union_inv_at in SA as (W0 & LI & EW). subst W. assert (UB : union_bound fuel W0) by (apply union_of_keep; auto).
  destruct (union_get_small fbits fuel (state_key q) FM (cell_at (br_main b) (state_key q)) W0 LI UB) as (text & us & G & FL & I & U & SM & LU & RU).
  { intros ->. apply NW. reflexivity. }
  { intro Z. destruct LI as (ds & (F & UU & _) & _). rewrite Z in F. inversion F; subst. destruct (map bare (concat W0)) as [|u us0]; [apply NW; reflexivity|].
    destruct (proj2 (UU u) (or_introl eq_refl)). }
  exists us. split; [exact I|]. split; [exact U|]. intros NS P now rs f FF SF.
  assert (NU : us <> []).
  { intros ->. destruct (map bare (concat W0)) as [|u l]; [apply NW; reflexivity|]. destruct (proj2 (U u) (or_introl eq_refl)). }
  destruct KB as (M & L & NB & RB). cbn [map length] in L, NB. rewrite app_nil_r in M. rewrite map_length in L, NB.
  assert (G2 : good_calls origin_op false false (replay (chunk_of us) ++ [])).
  { rewrite app_nil_r, replay_chunk by assumption. apply (mergeable_good (map bare (concat W0))); [exact M|]. intros u J. apply U. exact J. }
  destruct (C52_queries P b now rs f [q] (replay (chunk_of us) ++ []) FF SF) as (a & A & FA).
  - constructor; [exact Q|constructor].
  - cbn [length]. destruct (concat W0); [exfalso; apply NW; reflexivity|cbn [length] in L; lia].
  - apply (answered_more _ _ q text (chunk_of us)); [apply read_of; assumption|split; assumption|unfold chunk_of; rewrite <- (map_length bare), bare_denote; lia|constructor].
  - exact G2.
  - rewrite app_nil_r, replay_chunk by assumption. rewrite app_length, map_length. cbn [length]. lia.
  - exists a. split; [exact A|]. rewrite app_nil_r, replay_chunk in FA by assumption. exact FA.
Qed.

(* C52: whatever has happened to a branch, a query is answered with what was
   there and the events accepted since *)
Theorem C52_history : forall id b t es b' ss E, version id = TIME -> healthy id b t -> Forall clocks es ->
  (forall now rs f, In (BReceive now rs f) es -> events_only f) ->
  b_run sha fbits active fuel id b es = Done (b', ss) -> received es ss E ->
  exists hs, keeps (br_tip b) t es ss hs /\
    forall q W, state_query q -> uuid2form (r_ref q) <> RGA_RDT_FORM -> state_at (br_main b) (state_key q) W -> keep_bound fuel W E ->
      W ++ says_ops (filed (state_key q) hs) <> [] ->
      exists us, increasing_ids (chunk_of us) /\ (forall u, In u us <-> In u (W ++ says_ops (filed (state_key q) hs))) /\
        (~ ends_in_span us -> forall (P : bytes -> N -> Prop) now rs f, frame_lit P f [q] -> N.of_nat (length f) < 2 ^ 32 ->
         exists text, ask b' now rs f = Done (b', ROk, Some text) /\ frame_lit canon text (chunk_of us)).
Proof.
  intros id b t es b' ss E VT HT C EO R RV. destruct (run_keeps sha fbits active fuel id VT es b b' ss t HT C R EO) as (hss & KP & ST).
  exists (concat hss). split; [exact KP|]. intros q W Q NR SA KB NW. pose proof Q as (VQ & TQ & FQ).
  assert (EF : key_form (state_key q) = uuid2form (r_ref q)).
  { unfold state_key, key_as. apply key_form_of. destruct FQ as [<-|[<-|[<-|[<-|[]]]]]; reflexivity. }
  destruct (state_story sha fbits fuel (br_main b) es ss hss (br_main b') E (state_key q) W) as [SA2 _]; try assumption; [apply HT| |].
  { rewrite EF. cbn [In] in *. destruct FQ as [F|[F|[F|[F|[]]]]]; try tauto. exfalso. apply NR. symmetry. exact F. }
  destruct (story_measure sha fbits fuel _ _ _ _ _ (state_key q) ST E RV) as (I1 & I2 & I3).
  apply C52_kept; try assumption. rewrite <- (app_nil_r (W ++ _)). apply (bound_moves fuel W [] E [] (says_ops (filed (state_key q) (concat hss)))); try assumption.
  rewrite !app_nil_r. exact KB.
Qed.

(* ---- queries for the log ---- *)
Lemma before_ok id c cs ops n : then_visits c cs -> Forall2 (lit_cursor canon) cs ops -> (length ops < n)%nat ->
  exists a c1, append_before n id c = Done (a, c1) /\ speaks a (map UAppend (map bare (before id ops))).
Proof.
  intros TV F. revert c n TV. induction F as [|c0 o cs ops [E LA] F IH]; intros c [|n] (c' & NX & VI) L; cbn [length] in L; try lia; cbn [append_before].
  - inversion VI as [? V|]; subst. unfold text_next in NX. exists [], c'.
    assert (Q : next c = NEnd c' \/ next c = NBad c' \/ (next c = NOk c' /\ valid c' = true)).
    { destruct (next c); try discriminate; injection NX as NX ->; auto. }
    destruct Q as [-> |[-> |[_ Q]]]; [| |congruence]; (split; [reflexivity|exact speaks_nil]).
  - inversion VI as [|? c1 l V NX2 VI2]; subst. unfold text_next in NX. rewrite V in NX.
    destruct (next c) as [c2|c2|c2|]; try discriminate. injection NX as ->. cbn [before rop_of r_id map]. change (op_id (c_op c0)) with (text_id c0).
    destruct (uuid_eqb (text_id c0) id) eqn:EI; [exists [], c0; split; [reflexivity|exact speaks_nil]|].
    destruct (IH c0 n ltac:(exists c1; auto) ltac:(lia)) as (a & c3 & -> & SP). cbn [rbind]. exists (BAppend (wop_of_cursor c0) :: a), c3.
    split; [reflexivity|]. cbn [map]. change (BAppend (wop_of_cursor c0) :: a) with ([BAppend (wop_of_cursor c0)] ++ a).
    apply (speaks_app _ [UAppend (bare (rop_of c0))]); [|exact SP]. exists [MAppend c0]. split; [reflexivity|]. split; [reflexivity|].
    intros x [Q|[]]. injection Q as <-. exists (rop_of c0). split; [reflexivity|exact LA].
Qed.

Lemma jread_same st k st' f s : s_mem family st = [] -> jread_step family jread st k = Done (st', f, s) ->
  st' = st /\ exists g ks, rread (s_main family st) k = Done (g, ks) /\ f = match ks with KOk => g | _ => [] end /\ s = kst ks.
Proof.
  intros M H. unfold jread_step in H. rewrite M in H. destruct (rread (s_main family st) k) as [[g ks]| |] eqn:R.
  - rewrite (jread_empty _ _ _ _ R) in H. cbn [rbind] in H. rewrite set_same in H by exact M. injection H as <- <- <-. eauto 6.
  - unfold b_jread in H. rewrite R in H. discriminate.
  - unfold b_jread in H. rewrite R in H. discriminate.
Qed.
Lemma find_same st id st' m s : s_mem family st = [] -> find_op sha fbits family jread (b_jprev fbits fuel) fuel st id = Done (st', m, s) -> st' = st.
Proof.
  intros M. unfold find_op. intro H. apply rbind_done in H as ([m0 s0] & _ & H). destruct (is_ok s0); cbn [negb] in H; [|injection H as <- _ _; reflexivity].
  destruct (uuid_eqb (m_id m0) id); [injection H as <- _ _; reflexivity|].
  apply rbind_done in H as ([[st1 log] s1] & J & H). apply jread_same in J as [-> _]; [|exact M].
  destruct (is_ok s1); cbn [negb] in H; [|congruence].
  apply rbind_done in H as (c0 & _ & H). apply rbind_done in H as (c & _ & H). destruct (valid c); cbn [negb] in H; [|congruence].
  apply rbind_done in H as ([[m' v] s'] & _ & H). destruct (is_ok s'); cbn [negb] in H; [|congruence]. destruct v; [congruence|]. destruct (uvalue id =? NEVER_W); congruence.
Qed.

(* C52: a query for the log of an event is answered from the state of its object:
   the whole state if the event is the object's first, else the ops listed
   before the event *)
Theorem C52_log : forall (P : bytes -> N -> Prop) b now rs f q b' text, frame_lit P f [q] -> N.of_nat (length f) < 2 ^ 32 -> log_query q -> uvalue (r_id q) <> NEVER_W ->
  ask b now rs f = Done (b', ROk, Some text) ->
  b' = b /\ exists obj rdt state, known family jread (b_jprev fbits fuel) (br_main b) [] (r_id q) obj rdt /\
    rread (br_main b) (key_as obj rdt) = Done (state, KOk) /\
    forall ops us, us = (if uuid_eqb (r_id q) obj then replay ops else map UAppend (map bare (before (r_id q) ops))) ->
      frame_says state ops -> (length ops < fuel)%nat -> good_calls origin_op false false us -> N.of_nat (length us) < 2 ^ 32 ->
      frame_lit canon text (denote us).
Proof.
  intros P [d t] now rs f q b' text FL SM (VQ & TQ & FQ) NV H. destruct (frame_visits f _ FL SM) as (cs & (c' & NX & VI) & F).
  inversion F as [|c q' cs' qs' [E _] F2]; subst. inversion F2; subst. inversion VI as [|c0 c1 l V NX2 VI2]; subst. inversion VI2 as [? V1|]; subst.
  cbn [rop_of r_id r_ref r_term] in *. change (op_id (c_op c)) with (text_id c) in *. change (op_ref (c_op c)) with (text_ref c) in *.
  unfold text_next in NX. rewrite V in NX. destruct (next (cursor_of f)) as [c2|c2|c2|] eqn:EN; try discriminate. injection NX as ->.
  unfold b_ask, answer_frame in H. cbn [br_main br_tip] in H. rewrite EN in H.
  apply rbind_done in H as ([[[d1 n1] s1] a1] & H & Q1). injection Q1 as <- -> T.
  apply rbind_done in H as ([[st1 s2] a2] & H & Q2). injection Q2 as <- _ -> ->.
  set (st := commit_on family d now rs t) in *. assert (M : s_mem family st = []) by reflexivity.
  unfold answer in H. apply rbind_done in H as ([[st2 s3] a3] & LP & H).
  assert (AO : exists s3', answer_log sha fbits family jread (b_jprev fbits fuel) fuel st c = Done (st, c1, s3', a3) /\ (s3' = ROk -> s3 = ROk /\ st2 = st) /\ (s3' <> ROk -> s3 = s3' )).
  { destruct fuel as [|n] eqn:EF; [discriminate|]. rewrite <- EF in *. unfold AnswerModel.answer_loop in LP. rewrite EF in LP at 1. rewrite V in LP.
    apply rbind_done in LP as ([[[st3 c3] s4] a4] & OP & LP).
    unfold AnswerModel.answer_op in OP. rewrite VQ, TQ in OP. change ((TIME =? TIME) && (QUERY =? QUERY)) with true in OP. cbn iota in OP.
    unfold answer_query in OP. rewrite FQ in OP.
    change ((LOG_RAW_FORM =? LWW_RDT_FORM) || (LOG_RAW_FORM =? RGA_RDT_FORM) || (LOG_RAW_FORM =? MX_RDT_FORM) || (LOG_RAW_FORM =? YARN_RAW_FORM)) with false in OP.
    change (LOG_RAW_FORM =? LOG_RAW_FORM) with true in OP. cbn iota in OP.
    assert (QS : st3 = st /\ c3 = c1).
    { unfold answer_log in OP. rewrite (next_any_of _ _ _ NX2) in OP. cbn [rbind] in OP. apply rbind_done in OP as ([[st4 m] s5] & FO & OP).
      apply find_same in FO; [|exact M]. subst st4. destruct (is_ok s5); cbn [negb] in OP; [|injection OP as <- <- _ _; auto].
      apply rbind_done in OP as ([[st5 g] s6] & J & OP). apply jread_same in J as [-> _]; [|exact M]. destruct (is_ok s6); cbn [negb] in OP; [|injection OP as <- <- _ _; auto].
      destruct (uuid_eqb (text_id c) (m_obj m)).
      - apply rbind_done in OP as (a5 & _ & OP). injection OP as <- <- _ _. auto.
      - apply rbind_done in OP as ([a5 c5] & _ & OP). destruct (c_op c5); [discriminate|]. injection OP as <- <- _ _. auto. }
    destruct QS as [-> ->]. destruct (is_ok s4) eqn:OK.
    - apply rbind_done in LP as ([[st5 s5] a5] & LP2 & LP). destruct n as [|n]; [discriminate|]. cbn iota in LP2. rewrite V1 in LP2. injection LP2 as <- <- <-.
      rewrite app_nil_r in LP. injection LP as <- <- <-. exists s4. split; [exact OP|]. split; [auto|]. intro N4. destruct s4; try discriminate; contradiction.
    - injection LP as <- <- <-. exists s4. split; [exact OP|]. split; [|auto]. intros ->. discriminate. }
  destruct AO as (s3' & AL & A1 & A2).
  assert (S3 : s3' = ROk).
  { destruct (is_ok s3) eqn:O3.
    - destruct s3; try discriminate. destruct s3'; try reflexivity; specialize (A2 ltac:(discriminate)); discriminate.
    - injection H as _ -> _. discriminate. }
  destruct (A1 S3) as [-> ->]. clear A1 A2. subst s3'. cbn [is_ok] in H.
  unfold save in H. change (s_tip family st) with t in H. change (s_base family st) with t in H.
  replace (uuid_eqb t t) with true in H by (symmetry; apply uuid_eqb_eq; reflexivity). cbn [rbind] in H. injection H as <- <-.
  split; [reflexivity|]. unfold answer_log in AL. rewrite (next_any_of _ _ _ NX2) in AL. cbn [rbind] in AL.
  apply rbind_done in AL as ([[st4 m] s5] & FO & AL). pose proof (find_same _ _ _ _ _ M FO) as Z. subst st4.
  destruct s5; cbn [is_ok negb] in AL; try discriminate. apply rbind_done in AL as ([[st5 g] s6] & J & AL). apply jread_same in J as (-> & g0 & ks & RD & EG & ES); [|exact M].
  destruct s6; cbn [is_ok negb] in AL; try discriminate. destruct ks; try discriminate. subst g.
  exists (m_obj m), (m_rdt m), g0. split.
  { destruct (find_op_known sha fbits family jread (b_jprev fbits fuel) b_write fuel _ _ _ _ FO) as [K|[K _]]; [exact K|contradiction]. }
  split; [exact RD|]. intros ops us -> FS LO G B. destruct (uuid_eqb (text_id c) (m_obj m)).
  - apply rbind_done in AL as (a5 & AP & AL). injection AL as ->. destruct (speaks_frame fuel g0 ops FS LO) as (a6 & AP2 & SP). rewrite AP in AP2. injection AP2 as <-.
    destruct (speaks_build _ _ SP G B) as (tx & T2 & FT). congruence.
  - apply rbind_done in AL as ([a5 c5] & AP & AL). destruct FS as [FS1 FS2]. destruct (frame_visits g0 ops FS1 FS2) as (cs & TV & F3).
    destruct (before_ok (text_id c) _ cs ops fuel TV F3 LO) as (a6 & c6 & AP2 & SP). rewrite AP in AP2. injection AP2 as <- <-.
    destruct (c_op c5); [discriminate|]. injection AL as _ ->. destruct (speaks_build _ _ SP G B) as (tx & T2 & FT). congruence.
Qed.

(* on a state in id order, the ops listed before an event are the older ones *)
Lemma before_older id ops : increasing_ids ops -> In id (map r_id ops) -> forall u, In u (map bare (before id ops)) <-> In u (map bare ops) /\ uuid_ltb (u_id u) id = true.
Proof.
  induction ops as [|o ops IH]; intros I J u; [destruct J|]. inversion I as [|? ? I1 I2]; subst. cbn [before]. rewrite Forall_forall in I2. destruct (uuid_eqb (r_id o) id) eqn:E.
  - apply uuid_eqb_eq in E. subst id. cbn [map In]. split; [tauto|]. intros [[<-|K] L].
    + cbn [bare u_id] in L. rewrite uuid_ltb_irrefl in L. discriminate.
    + apply in_map_iff in K as (p & <- & K). apply I2 in K. unfold id_lt in K. cbn [bare u_id] in L. pose proof (uuid_ltb_trans _ _ _ K L) as Z. rewrite uuid_ltb_irrefl in Z. discriminate.
  - assert (J2 : In id (map r_id ops)).
    { destruct J as [J|J]; [rewrite J in E; rewrite (proj2 (uuid_eqb_eq _ _) eq_refl) in E; discriminate|exact J]. }
    cbn [map In]. rewrite (IH I1 J2). assert (L : uuid_ltb (r_id o) id = true).
    { apply in_map_iff in J2 as (p & <- & J2). exact (I2 _ J2). }
    split; [intros [<-|[K M]]; auto|]. intros [[K|K] M]; auto.
Qed.
Lemma before_prefix id ops : exists r, map bare ops = map bare (before id ops) ++ r.
Proof. induction ops as [|o ops [r IH]]; [exists []; reflexivity|]. cbn [before]. destruct (uuid_eqb (r_id o) id); [eexists; reflexivity|]. exists r. cbn [map app]. rewrite IH. reflexivity. Qed.
Lemma before_sorted id ops : increasing_ids ops -> increasing_ids (before id ops).
Proof.
  induction ops as [|o ops IH]; intro I; [constructor|]. inversion I as [|? ? I1 I2]; subst. cbn [before]. destruct (uuid_eqb (r_id o) id); [constructor|].
  apply Sorting.Sorted.SSorted_cons; [apply IH; exact I1|]. rewrite Forall_forall in *. intros x J. apply I2. revert J. clear. induction ops as [|p ops IH]; [auto|].
  cbn [before]. destruct (uuid_eqb (r_id p) id); [intros []|]. intros [<-|J]; [left; reflexivity|right; auto].
Qed.
Lemma denote_open us : denote (map UAppend us) = chunk_of us.
Proof.
  assert (T : forall us u, term_after u (map UAppend us) = term_after u (map UAppend us ++ [UEnd RAW])).
  { clear. induction us as [|w us IH]; intro u; [reflexivity|]. cbn [map app term_after]. rewrite IH. reflexivity. }
  induction us as [|u us IH]; [reflexivity|]. unfold chunk_of. cbn [map app denote]. rewrite IH, T. reflexivity.
Qed.
Lemma good_open us : forall last opn ext, good_calls last opn ext (map UAppend us ++ [UEnd RAW]) -> good_calls last opn ext (map UAppend us).
Proof. induction us as [|u us IH]; intros last opn ext; cbn [map app good_calls]; [auto|]. intros (A & B & D & G). auto. Qed.

(* C52: the log of an object kept in id order, up to one of its events: exactly
   the ops older than the event, in id order, as one chunk *)
Theorem C52_older : forall (P : bytes -> N -> Prop) b now rs f q b' text, frame_lit P f [q] -> N.of_nat (length f) < 2 ^ 32 -> log_query q -> uvalue (r_id q) <> NEVER_W ->
  ask b now rs f = Done (b', ROk, Some text) ->
  b' = b /\ exists obj rdt, known family jread (b_jprev fbits fuel) (br_main b) [] (r_id q) obj rdt /\
    forall W, In (key_form (key_as obj rdt)) [LWW_RDT_FORM; MX_RDT_FORM; YARN_RAW_FORM] -> state_at (br_main b) (key_as obj rdt) W -> keep_bound fuel W [] ->
      In (r_id q) (map u_id W) -> r_id q <> obj ->
      exists us, increasing_ids (chunk_of us) /\ (forall u, In u us <-> In u W /\ uuid_ltb (u_id u) (r_id q) = true) /\ frame_lit canon text (chunk_of us).
Proof.
  intros P b now rs f q b' text FL SM LQ NV H. destruct (C52_log P b now rs f q b' text FL SM LQ NV H) as (-> & obj & rdt & state & K & RD & A).
  split; [reflexivity|]. exists obj, rdt. split; [exact K|]. intros W FM SA KB IQ NO. set (k := key_as obj rdt) in *. clearbody k.
  assert (FM2 : In (key_form k) [LWW_RDT_FORM; MX_RDT_FORM; YARN_RAW_FORM; META_META_FORM]) by (cbn [In] in *; tauto).
  assert (NE : k <> KEY_END).
  { apply form_key_neq. destruct FM as [<-|[<-|[<-|[]]]]; vm_compute; discriminate. }
  assert (NW : W <> []) by (intros ->; destruct IQ).
  apply union_inv_at in SA as (W0 & LI & EW). subst W. assert (UB : union_bound fuel W0) by (apply union_of_keep; auto).
  destruct (union_get_small fbits fuel k FM2 (cell_at (br_main b) k) W0 LI UB) as (text1 & us & G & FL1 & I & U & SM1 & LU & RU).
  { intros ->. apply NW. reflexivity. }
  { intro Z. destruct LI as (ds & (F & UU & _) & _). rewrite Z in F. inversion F; subst. destruct (map bare (concat W0)) as [|u us0]; [apply NW; reflexivity|].
    destruct (proj2 (UU u) (or_introl eq_refl)). }
  assert (R1 : rread (br_main b) k = Done (text1, KOk)) by (apply read_of; assumption). rewrite R1 in RD. injection RD as <-.
  destruct KB as (M & L & NB & RB). cbn [map length] in L, NB. rewrite app_nil_r in M. rewrite map_length in L, NB.
  assert (IQ2 : In (r_id q) (map r_id (chunk_of us))).
  { apply in_map_iff in IQ as (u & EU & IU). apply U in IU. rewrite <- (bare_denote us RAW) in IU. apply in_map_iff in IU as (o & EO & IO).
    apply in_map_iff. exists o. split; [|exact IO]. rewrite <- EU, <- EO. reflexivity. }
  destruct (before_prefix (r_id q) (chunk_of us)) as (r & PR). unfold chunk_of in PR at 1. rewrite bare_denote in PR.
  set (vs := map bare (before (r_id q) (chunk_of us))) in *.
  assert (OL : forall u, In u vs <-> In u us /\ uuid_ltb (u_id u) (r_id q) = true).
  { intro u. unfold vs. rewrite (before_older (r_id q) (chunk_of us) I IQ2 u). unfold chunk_of. rewrite bare_denote. tauto. }
  exists vs. split; [|split].
  - apply (increasing_of_bare (before (r_id q) (chunk_of us))); [unfold chunk_of at 2; rewrite bare_denote; reflexivity|]. apply before_sorted. exact I.
  - intro u. rewrite OL, U. tauto.
  - rewrite <- denote_open. apply (A (chunk_of us)).
    + destruct (uuid_eqb (r_id q) obj) eqn:E; [apply uuid_eqb_eq in E; contradiction|]. reflexivity.
    + split; assumption.
    + unfold chunk_of. rewrite <- (map_length bare), bare_denote. lia.
    + apply good_open. apply (mergeable_good (map bare (concat W0))); [exact M|]. intros u J. apply U. apply OL. exact J.
    + rewrite map_length. pose proof (f_equal (@length _) PR) as X. rewrite app_length in X. lia.
Qed.

(* ---- the answer does not change what is done ---- *)
Lemma erase_txt st c st1 c1 s a : answer_txt fbits family jread fuel st c = Done (st1, c1, s, a) -> txt_read family jread fuel st c = Done (st1, c1, s).
Proof.
  unfold answer_txt, txt_read. intro H. apply rbind_done in H as ([[st2 f] s2] & J & H). rewrite J. cbn [rbind].
  destruct (negb (is_ok s2)); [congruence|]. destruct (scan_text fuel f) as [s3 tombs| | |]; try discriminate.
  apply rbind_done in H as (t & W & H). destruct (text_op _ t); [|discriminate]. apply rbind_done in H as (c2 & N & H).
  assert (E : forall n tombs k t, weave_text fbits n tombs k = Done t -> weave n tombs k = Done tt).
  { clear. induction n as [|n IH]; intros tombs k t; cbn [weave_text weave]; [discriminate|]. destruct (next k); try discriminate; try reflexivity.
    destruct tombs as [|[] r]; [discriminate|apply IH|]. destruct (nth_error (c_op c) 2); [|discriminate]. intro H. apply rbind_done in H as (u & H & _). eapply IH. exact H. }
  rewrite (E _ _ _ _ W). cbn [rbind]. rewrite N. cbn [rbind]. congruence.
Qed.
Lemma erase_log st c st1 c1 s a : answer_log sha fbits family jread (b_jprev fbits fuel) fuel st c = Done (st1, c1, s, a) ->
  query_log sha fbits family jread (b_jprev fbits fuel) fuel st c = Done (st1, c1, s).
Proof.
  unfold answer_log, query_log. cbv zeta. intro H. apply rbind_done in H as (c2 & N & H). rewrite N. cbn [rbind].
  apply rbind_done in H as ([[st2 m] s2] & J & H). rewrite J. cbn [rbind]. destruct (negb (is_ok s2)); [congruence|].
  apply rbind_done in H as ([[st3 g] s3] & J2 & H). rewrite J2. cbn [rbind]. destruct (negb (is_ok s3)); [congruence|].
  destruct (uuid_eqb (text_id c) (m_obj m)); [apply rbind_done in H as (x & _ & H); congruence|]. apply rbind_done in H as ([x c3] & L & H).
  assert (E : forall n id k r k1, append_before n id k = Done (r, k1) -> log_upto n id k = Done k1).
  { clear. induction n as [|n IH]; intros id k r k1; cbn [append_before log_upto]; [discriminate|]. destruct (next k) as [c|c|c|]; try discriminate; try congruence.
    destruct (uuid_eqb (text_id c) id); [congruence|]. intro H. apply rbind_done in H as ([r2 k2] & H & Q). injection Q as _ <-. eapply IH. exact H. }
  rewrite (E _ _ _ _ _ L). cbn [rbind]. destruct (c_op c3); [discriminate|]. congruence.
Qed.
Lemma erase_object st c st1 c1 s a : answer_object family jread fuel st c = Done (st1, c1, s, a) -> query_object family jread st c = Done (st1, c1, s).
Proof.
  unfold answer_object, query_object. intro H. apply rbind_done in H as ([[st2 f] s2] & J & H). rewrite J. cbn [rbind]. destruct (negb (is_ok s2)); [congruence|].
  apply rbind_done in H as (x & _ & H). apply rbind_done in H as (c2 & N & H). rewrite N. cbn [rbind]. congruence.
Qed.
Notation receive_op := (receive_op sha fbits family jread (b_jprev fbits fuel) b_write active fuel).
Lemma erase_op st c st1 c1 s a : answer_op st c = Done (st1, c1, s, a) -> receive_op st c = Done (st1, c1, s).
Proof.
  unfold AnswerModel.answer_op. cbv zeta. intro H.
  assert (OT : rbind (receive_op st c) (fun '(st1, c1, s) => Done (st1, c1, s, [])) = Done (st1, c1, s, a) -> receive_op st c = Done (st1, c1, s)).
  { intro K. apply rbind_done in K as ([[x y] z] & K & Q). rewrite K. congruence. }
  destruct ((version (text_id c) =? TIME) && (c_term c =? QUERY)) eqn:B.
  - apply andb_prop in B as [B1 B2]. unfold ReplicaModel.receive_op. rewrite B1, B2. unfold answer_query in H. unfold receive_query.
    destruct (_ || _ || _ || _); [eapply erase_object; exact H|]. destruct (_ =? LOG_RAW_FORM); [eapply erase_log; exact H|congruence].
  - destruct (version (text_id c) =? DERIVED) eqn:D; [|exact (OT H)]. apply rbind_done in H as (p & PK & H). destruct (p =? QUERY) eqn:PQ; [|exact (OT H)].
    assert (NT : version (text_id c) =? TIME = false) by (apply N.eqb_eq in D; rewrite D; reflexivity).
    unfold ReplicaModel.receive_op. rewrite NT, D, PK. cbn [rbind]. rewrite PQ. unfold answer_map in H.
    destruct (_ =? TXT_MAP_FORM); [eapply erase_txt; exact H|congruence].
Qed.
(* C52: asking is receiving: the branch and the status are what they are when
   the answer is thrown away *)
Theorem C52_received : forall b now rs f b' s t, ask b now rs f = Done (b', s, t) -> b_receive sha fbits active fuel b now rs f = Done (b', s).
Proof.
  intros b now rs f b' s t H. unfold b_ask, answer_frame in H. unfold b_receive, receive_frame. destruct (next (cursor_of f)) as [c|c|c|]; try discriminate; cbn [rbind] in *; try congruence.
  apply rbind_done in H as ([[[d n] s1] a] & H & Q). apply rbind_done in H as ([[st s2] a2] & H & Q2). injection Q2 as <- <- <- <-.
  unfold answer in H. apply rbind_done in H as ([[st3 s3] a3] & L & H). unfold receive.
  assert (E : forall n st c st1 s a, answer_loop n st c = Done (st1, s, a) -> ReplicaModel.receive_loop sha fbits family jread (b_jprev fbits fuel) b_write active fuel n st c = Done (st1, s)).
  { clear. induction n as [|n IH]; intros st c st1 s a; cbn [AnswerModel.answer_loop ReplicaModel.receive_loop]; [discriminate|]. destruct (valid c); [|congruence].
    intro H. apply rbind_done in H as ([[[st2 c2] s2] a2] & O & H). rewrite (erase_op _ _ _ _ _ _ O). cbn [rbind]. destruct (is_ok s2); [|congruence].
    apply rbind_done in H as ([[st4 s4] a4] & H & Q). injection Q as <- <- _. eapply IH. exact H. }
  rewrite (E _ _ _ _ _ _ L). cbn [rbind]. destruct (is_ok s3); cbn [rbind].
  - apply rbind_done in H as ([st4 s4] & H & Q3). rewrite H. cbn [rbind]. congruence.
  - congruence.
Qed.

(* C52: the get command prints nothing, whatever is stored *)
Theorem C52_get : forall b now rs id form s t, b_get sha fbits active fuel b now rs id form = Done (s, t) -> s = ROk /\ t = Some [].
Proof.
  intros b now rs id form s t H. unfold b_get, get_frame in H. apply rbind_done in H as ([s1 a1] & H & Q). injection Q as <- <-.
  destruct (wop_of_op id form []); [|discriminate]. destruct (build _) as [q|]; [|discriminate]. apply rbind_done in H as ([[st s2] a2] & H & Q). injection Q as <- <-.
  unfold answer in H. apply rbind_done in H as ([[st3 s3] a3] & L & H). destruct fuel as [|n]; [discriminate|]. cbn in L. injection L as <- <- <-. cbn [is_ok] in H.
  unfold save in H. cbn [commit_on s_tip s_base] in H. replace (uuid_eqb (br_tip b) (br_tip b)) with true in H by (symmetry; apply uuid_eqb_eq; reflexivity).
  cbn [rbind] in H. injection H as _ <- <-. auto.
Qed.
End Ask.
Print Assumptions C52_append.
Print Assumptions C52_queries.
Print Assumptions C52_failed.
Print Assumptions C52_absent.
Print Assumptions C52_kept.
Print Assumptions C52_history.
Print Assumptions C52_log.
Print Assumptions C52_older.
Print Assumptions C52_received.
Print Assumptions C52_get.
