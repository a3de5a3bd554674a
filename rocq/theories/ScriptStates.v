(* C69: a script that writes events, asks for the state of an object and says
   what it expects. *)
From Verif Require Import Prelude UuidModel UuidSpec UuidProofs KeyModel KeyProofs CodecModel CodecSpec TextTable TextModel TextSpec TextSafety FrameProofs
  BuilderSpec BuilderProofs MergeModel MergeSpec MergeTextModel TextMergeSpec TextCursors MergeKeeps TextMerge StoreModel RocksModel RocksSpec RocksProofs MetaModel ClockModel ScanModel
  ReplicaModel ReplicaSpec ReplicaProofs BranchModel BranchSpec BranchProofs DurableSpec DurableProofs DurableTheorems NamesTheorems AnswerModel AnswerSpec AnswerTheorems ForkModel HostModel HostSpec HostProofs
  CompareModel CompareSpec CompareTheorems SizeProofs ScriptModel ScriptSpec ScriptProofs ScriptTheorems.

(* ---- frames of events are not answered ---- *)
Section Silent.
Variable sha : bytes -> bytes.
Variable fbits : bytes -> N.
Variable active : N.
Variable fuel : nat.
Notation jread := (b_jread fbits fuel).
Notation jprev := (b_jprev fbits fuel).
Notation receive_op := (receive_op sha fbits family jread jprev b_write active fuel).
Notation receive_loop := (receive_loop sha fbits family jread jprev b_write active fuel).
Notation receive_frame := (receive_frame sha fbits family jread jprev b_write b_batch active fuel).
Notation answer_op := (answer_op sha fbits family jread jprev b_write active fuel).
Notation answer_loop := (answer_loop sha fbits family jread jprev b_write active fuel).
Notation answer_frame := (answer_frame sha fbits family jread jprev b_write b_batch active fuel).

Lemma silent_op st c : stamped c \/ text_id c = COMMENT -> answer_op st c = rbind (receive_op st c) (fun '(st1, c1, s) => Done (st1, c1, s, [])).
Proof.
  intros K. unfold AnswerModel.answer_op. cbv zeta. destruct K as [(V & _ & Q)|E].
  - apply N.eqb_neq in Q. rewrite Q, andb_false_r. rewrite V. change (TIME =? DERIVED) with false. reflexivity.
  - rewrite E. change (version COMMENT =? TIME) with false. change (version COMMENT =? DERIVED) with false. reflexivity.
Qed.
Lemma silent_loop frame c0 : events_only frame -> next (cursor_of frame) = NOk c0 -> forall n st l c st' s, passes c0 l c ->
  receive_loop n st c = Done (st', s) -> answer_loop n st c = Done (st', s, []).
Proof.
  intros EO N0. induction n as [|n IH]; intros st l c st' s P H; [discriminate|]. cbn [ReplicaModel.receive_loop AnswerModel.answer_loop] in *.
  destruct (valid c) eqn:V; [|congruence]. apply rbind_done in H as ([[st1 c1] s1] & RO & H).
  assert (D : delivered frame c) by (pose proof (passes_run _ _ _ _ N0 P) as R; rewrite V in R; exists l; exact R).
  rewrite (silent_op st c (EO c D)), RO. cbn [rbind]. destruct (is_ok s1) eqn:E1; [|congruence].
  apply is_ok_iff in E1. subst s1. destruct (receive_op_inv _ _ _ _ _ _ _ _ frame _ _ _ _ _ D V RO) as (ws & _ & _ & K).
  destruct (K eq_refl) as (l1 & P1 & _). rewrite (IH st1 (l ++ l1) c1 st' s ltac:(eapply passes_app; eassumption) H). reflexivity.
Qed.
Lemma silent_frame d now rs tip f d' now' s : events_only f -> receive_frame d now rs tip f = Done (d', now', s) -> answer_frame d now rs tip f = Done (d', now', s, []).
Proof.
  intros EO H. unfold ReplicaModel.receive_frame in H. unfold AnswerModel.answer_frame. destruct (next (cursor_of f)) as [c|c|c|] eqn:N; try congruence.
  apply rbind_done in H as ([st1 s1] & H & Q). unfold receive in H. apply rbind_done in H as ([st2 s2] & L & H). unfold answer.
  rewrite (silent_loop f c EO N fuel _ [] c st2 s2 (pass0 c) L). cbn [rbind]. destruct (is_ok s2).
  - rewrite H. cbn [rbind]. congruence.
  - cbn [rbind]. congruence.
Qed.

(* ---- events on a branch that was not opened since it was made ---- *)
Notation b_run := (b_run sha fbits active fuel).
Lemma new_step id b now rs f b' : br_tip b = NIL -> b_step sha fbits active fuel id b (BReceive now rs f) = Done (b', ROk) -> events_only f ->
  br_tip b' = NIL /\ exists hs, chained f hs /\ grows fbits fuel (br_main b) hs (br_main b') /\ sourced (BReceive now rs f) ROk hs.
Proof.
  intros T H EO. cbn [BranchModel.b_step] in H. unfold b_receive in H. apply rbind_done in H as ([[d n'] s1] & H & Q). injection Q as <- ->. cbn [br_main br_tip]. split; [exact T|].
  rewrite T in H.
  assert (NN : forall c, stamped c -> text_id c <> NIL) by (intros c (_ & P & _) E; rewrite E in P; apply P; reflexivity).
  destruct (receive_keeps sha fbits active fuel _ _ _ _ _ _ _ _ H) as [(ws & w & QW & A & K)|(_ & st & hs & ws & m & w & g & batch & R & NT & QW & A & C & W & B)].
  - exists []. split; [|split; [left; split; [reflexivity|]; right; left; exists ws, w; split; [apply QW; exact EO|exact A]|left; reflexivity]].
    right. split; [|reflexivity]. destruct (K eq_refl) as [K1|(st & R & E)]; [intros c D; destruct (K1 c D)|].
    destruct (events_tip sha fbits active fuel _ _ _ _ _ _ EO R) as [[NV _]|(c' & (l1 & l2 & _ & St & _) & E2)]; [exact NV|]. exfalso. apply (NN c' St). congruence.
  - exists hs. split; [|split; [right; exists ws, m, w, g, batch; auto 6|]].
    + left. destruct (events_tip sha fbits active fuel _ _ _ _ _ _ EO R) as [[_ E]|(c & L & E)]; [contradiction|]. split; [exists c; exact L|exact C].
    + right. exists now, rs, f. split; [reflexivity|]. split; [reflexivity|]. split; [exact EO|]. split; [exact C|]. eapply accepted_chains. exact A.
Qed.
End Silent.

Lemma put_same l id b : find_store l id = Some b -> put_store l id b = l.
Proof.
  induction l as [|[i x] l IH]; cbn [find_store put_store]; [discriminate|]. destruct (uuid_eqb i id); intro H; [congruence|]. rewrite (IH H). reflexivity.
Qed.

Section States.
Variable sha : bytes -> bytes.
Variable fbits : bytes -> N.
Variable fuel : nat.
Notation rread := (rocks_read fbits fuel).
Notation plays := (plays sha fbits fuel).
Notation accepts := (accepts sha fbits fuel).
Notation h_ask := (h_ask sha fbits fuel).
Notation h_receive := (h_receive sha fbits fuel).

Lemma silent_ask h rs y f h1 s : events_only f -> h_receive h rs y f = Done (h1, s) -> h_ask h rs y f = Done (h1, s, []).
Proof.
  intros EO H. unfold HostModel.h_receive in H. unfold ScriptModel.h_ask. destruct (next (cursor_of f)) as [c|c|c|]; try congruence.
  destruct (negb (h_open h)); [congruence|]. destruct (find_store (h_stores h) (branch_id y)) as [b|]; [|congruence].
  apply rbind_done in H as ([[d n] s1] & H & Q). rewrite (silent_frame _ _ _ _ _ _ _ _ _ _ _ _ EO H). cbn [rbind]. congruence.
Qed.
Lemma accepts_plays h rs fs h1 : accepts h rs fs h1 -> forall ds rest v, length ds = length fs -> Forall events_only fs -> Forall (fun l => ends_with l [HEADER; RAW]) ds ->
  plays h1 (skipn (length fs) rs) [] rest v -> plays h rs [] (combine fs ds ++ rest) v.
Proof.
  induction 1 as [h rs|h rs f fs h1 h2 R A IH]; intros [|d ds] rest v L EO W P; cbn [length] in L; try discriminate; [exact P|].
  inversion EO; subst. inversion W; subst. cbn [combine app]. apply (plays_write _ _ _ h rs [] f d _ h1 [] []); [assumption|apply silent_ask; assumption|reflexivity|].
  cbn [app]. apply IH; try assumption; [congruence|]. destruct rs; [rewrite skipn_nil in *|]; exact P.
Qed.
Lemma accepts_story h rs fs h1 : accepts h rs fs h1 -> forall b, unopened h b -> Forall events_only fs ->
  exists b1 es ss hss, unopened h1 b1 /\ Forall2 chained fs hss /\ story fbits fuel (br_main b) es ss hss (br_main b1) /\
    forall ds, Forall2 frame_says fs ds -> received es ss (filter event_op (concat ds)).
Proof.
  induction 1 as [h rs|h rs f fs h1 h2 R A IH]; intros b FR EO.
  - exists b, [], [], []. split; [exact FR|]. split; [constructor|]. split; [constructor|]. intros ds F. inversion F; subst. constructor.
  - inversion EO as [|? ? E1 E2]; subst. destruct FR as (O & F & T).
    assert (K : exists b1 now hs, unopened h1 b1 /\ chained f hs /\ grows fbits fuel (br_main b) hs (br_main b1) /\ sourced (BReceive now (hd [] rs) f) ROk hs).
    { destruct (receive_inv _ _ _ _ _ _ _ _ _ R) as [(NO & -> & _)|(_ & [(O' & _)|[(_ & F' & _)|(b0 & d & O' & F' & RF & AC & O1 & ST)]])]; try congruence.
      - exists b, 0, []. split; [repeat split; assumption|]. split; [right; split; [intros c D _; exact (NO c D)|reflexivity]|]. split; [left; split; [reflexivity|left; reflexivity]|left; reflexivity].
      - rewrite F in F'. injection F' as <-. destruct (new_step sha fbits (uorigin (h_active h)) fuel NIL b (h_now h) (hd [] rs) f (mkBranch d (br_tip b)) T) as (T1 & hs & K1 & K2 & K3).
        + cbn [BranchModel.b_step]. unfold b_receive. rewrite RF. reflexivity.
        + exact E1.
        + exists (mkBranch d (br_tip b)), (h_now h), hs. split; [|auto]. split; [exact O1|]. split; [|exact T1]. rewrite ST, find_put, (proj2 (uuid_eqb_eq _ _) eq_refl). reflexivity. }
    destruct K as (b1 & now & hs & FR1 & C & G & SO). destruct (IH b1 FR1 E2) as (b2 & es & ss & hss & FR2 & CC & ST & RV).
    exists b2, (BReceive now (hd [] rs) f :: es), (ROk :: ss), (hs :: hss). split; [exact FR2|]. split; [constructor; assumption|]. split; [eapply story_more; eassumption|].
    intros ds FS. inversion FS; subst. cbn [concat]. rewrite filter_app. constructor; [assumption|]. apply RV. assumption.
Qed.

(* the state of an object that the query q is answered with *)
Lemma kept_read d W q : state_query q -> uuid2form (r_ref q) <> RGA_RDT_FORM -> state_at d (state_key q) W -> keep_bound fuel W [] -> W <> [] ->
  exists us text, increasing_ids (chunk_of us) /\ (forall u, In u us <-> In u W) /\ rread d (state_key q) = Done (text, KOk) /\ frame_says text (chunk_of us) /\ (length us < fuel)%nat /\ N.of_nat (length us) + 1 < 2 ^ 32 /\
    N.of_nat (room us) < 2 ^ 32 /\ (~ ends_in_span us -> replay (chunk_of us) = map UAppend us ++ [UEnd RAW]) /\ good_calls origin_op false false (map UAppend us ++ [UEnd RAW]).
Proof.
  intros Q NR SA KB NW. pose proof Q as (VQ & TQ & FQ).
  assert (EF : key_form (state_key q) = uuid2form (r_ref q)).
  { unfold state_key, key_as. apply key_form_of. destruct FQ as [<-|[<-|[<-|[<-|[]]]]]; reflexivity. }
  assert (FM : In (key_form (state_key q)) [LWW_RDT_FORM; MX_RDT_FORM; YARN_RAW_FORM; META_META_FORM]).
  { rewrite EF. cbn [In] in *. destruct FQ as [F|[F|[F|[F|[]]]]]; auto. exfalso. apply NR. auto. }
  assert (NE : state_key q <> KEY_END).
  { apply form_key_neq. rewrite EF. destruct FQ as [<-|[<-|[<-|[<-|[]]]]]; vm_compute; discriminate. }
  apply union_inv_at in SA as (W0 & LI & EW). subst W. assert (UB : union_bound fuel W0) by (apply union_of_keep; auto).
  destruct (union_get_small fbits fuel (state_key q) FM (cell_at d (state_key q)) W0 LI UB) as (text & us & G & FL & I & U & SM & LU & RU).
  { intros ->. apply NW. reflexivity. }
  { intro Z. destruct LI as (ds & (F & UU & _) & _). rewrite Z in F. inversion F; subst. destruct (map bare (concat W0)) as [|u us0]; [apply NW; reflexivity|].
    destruct (proj2 (UU u) (or_introl eq_refl)). }
  assert (NU : us <> []).
  { intros ->. destruct (map bare (concat W0)) as [|u l]; [apply NW; reflexivity|]. destruct (proj2 (U u) (or_introl eq_refl)). }
  destruct KB as (M & L & NB & RB). cbn [map length] in L, NB. rewrite app_nil_r in M. rewrite map_length in L, NB.
  exists us, text. split; [exact I|]. split; [exact U|]. split; [apply read_of; assumption|]. split; [split; assumption|]. split; [lia|]. split; [lia|]. split; [lia|].
  split; [intro NS; apply replay_chunk; assumption|]. apply (mergeable_good (map bare (concat W0))); [exact M|]. intros u J. apply U. exact J.
Qed.
Lemma speaks_says a us : speaks a us -> good_calls origin_op false false us -> N.of_nat (length us) < 2 ^ 32 -> N.of_nat (room (map bare (denote us))) < 2 ^ 32 ->
  exists text, build a = Some text /\ frame_says text (denote us).
Proof.
  intros SP G L R. destruct (speaks_build a us SP G L) as (text & B & FL). exists text. split; [exact B|]. split; [exact FL|].
  destruct SP as (calls & -> & -> & K). pose proof (build_len _ _ B). pose proof (calls_room calls K). lia.
Qed.
(* a comment and a query *)
Lemma ask_state h b rs f o q text ops : unopened h b -> frame_says f [o; q] -> r_id o = COMMENT -> state_query q -> (2 < fuel)%nat ->
  rread (br_main b) (state_key q) = Done (text, KOk) -> frame_says text ops -> (length ops < fuel)%nat ->
  exists a, h_ask h rs TEST_YARN f = Done (h, ROk, a) /\ speaks a (replay ops).
Proof.
  intros (O & F & T) [FL SM] OI Q LF RD FS LO. destruct (frame_visits f _ FL SM) as (cs & (c' & NX & VI) & FF).
  inversion FF as [|c o' cs' l' [EO _] F2]; subst. inversion VI as [|? c1 ? V NX2 VI2]; subst.
  unfold text_next in NX. rewrite V in NX. destruct (next (cursor_of f)) as [c2|c2|c2|] eqn:EN; try discriminate. injection NX as ->.
  inversion F2 as [|cq q' cs2 l2 LQ F3]; subst. inversion F3; subst. inversion VI2 as [|? c3 ? V2 NX3 VI3]; subst.
  unfold text_next in NX2. rewrite V2 in NX2. destruct (next c) as [c4|c4|c4|] eqn:EC; try discriminate. injection NX2 as ->.
  unfold ScriptModel.h_ask. rewrite EN, O. cbn [negb]. rewrite F.
  assert (A : answered (rread (br_main b)) fuel [q] (replay ops ++ [])) by (apply (answered_more _ _ q text ops); [exact RD|exact FS|exact LO|constructor]).
  assert (LL : forall m st, s_main family st = br_main b -> s_mem family st = [] -> (1 < m)%nat -> exists a, answer_loop sha fbits family (b_jread fbits fuel) (b_jprev fbits fuel) b_write (uorigin (h_active h)) fuel m st cq = Done (st, ROk, a) /\ speaks a (replay ops)).
  { intros m st SM1 SM2 LM. rewrite <- SM1 in A. destruct (loop_answers sha fbits (uorigin (h_active h)) fuel canon st cq [cq] [q] (replay ops ++ []) SM2 VI2 F2) with (n := m) as (a & LA & SP).
    - constructor; [exact Q|constructor].
    - exact A.
    - cbn [length]. exact LM.
    - rewrite app_nil_r in SP. exists a. auto. }
  assert (STEP : forall m st, s_main family st = br_main b -> s_mem family st = [] -> (2 < m)%nat -> exists a, answer_loop sha fbits family (b_jread fbits fuel) (b_jprev fbits fuel) b_write (uorigin (h_active h)) fuel m st c = Done (st, ROk, a) /\ speaks a (replay ops)).
  { intros [|m] st SM1 SM2 LM; [lia|]. destruct (LL m st SM1 SM2 ltac:(lia)) as (a & LA & SP). exists a. split; [|exact SP]. cbn [AnswerModel.answer_loop]. rewrite V.
    assert (EI : text_id c = COMMENT) by (rewrite <- OI; reflexivity).
    rewrite (silent_op sha fbits (uorigin (h_active h)) fuel st c (or_intror EI)). unfold receive_op. rewrite EI.
    change (version COMMENT =? TIME) with false. change (version COMMENT =? DERIVED) with false. change (version COMMENT =? NAME) with true. change (uuid_eqb COMMENT COMMENT) with true. cbn iota.
    rewrite EC. cbn [rbind is_ok]. rewrite LA. reflexivity. }
  destruct (STEP fuel (commit_on family (br_main b) (h_now h) rs (br_tip b)) eq_refl eq_refl LF) as (a & LA & SP). exists a. split; [|exact SP].
  unfold answer_frame. rewrite EN. unfold answer. rewrite LA. cbn [rbind is_ok]. unfold save. cbn [commit_on s_tip s_base]. rewrite (proj2 (uuid_eqb_eq _ _) eq_refl). cbn [rbind commit_on s_main s_now].
  replace (mkBranch (br_main b) (br_tip b)) with b by (destruct b; reflexivity). rewrite (put_same _ _ _ F). destruct h as [n ac op st]. cbn [h_open] in O. rewrite O. reflexivity.
Qed.

(* C69: events are received by the new test branch, then the state of an object
   is asked for, and what comes next is compared with it: the script goes on if
   and only if what is expected is the events of the object, each once, in the
   order of their ids. Not for RGA objects. *)
Theorem C69_state : forall h b rs fs ds h1, (forall s, fbits s < 2 ^ 64) -> (2 < fuel)%nat -> unopened h b -> in_order (br_main b) ->
  Forall events_only fs -> Forall2 frame_says fs ds -> Forall (fun l => ends_with l [HEADER; RAW]) ds -> accepts h rs fs h1 ->
  exists hss, Forall2 chained fs hss /\ forall q W, state_query q -> uuid2form (r_ref q) <> RGA_RDT_FORM ->
    state_at (br_main b) (state_key q) W -> keep_bound fuel W (filter event_op (concat ds)) -> W ++ says_ops (filed (state_key q) (concat hss)) <> [] ->
    exists us, increasing_ids (chunk_of us) /\ (forall u, In u us <-> In u (W ++ says_ops (filed (state_key q) (concat hss)))) /\
      (~ ends_in_span us -> forall fq o fe le rest, frame_says fq [o; q] -> r_id o = COMMENT -> In (r_term o) [HEADER; RAW] -> ends_with le [QUERY] ->
       (Forall2 (same_op fbits) (content (chunk_of us)) (content le) -> forall v, plays h1 (tl (skipn (length fs) rs)) [] rest v -> plays h rs [] (combine fs ds ++ (fq, [o; q]) :: (fe, le) :: rest) v) /\
       (~ Forall2 (same_op fbits) (content (chunk_of us)) (content le) -> plays h rs [] (combine fs ds ++ (fq, [o; q]) :: (fe, le) :: rest) false)).
Proof.
  intros h b rs fs ds h1 FB LF FR IO EO FS EW AC. destruct (accepts_story h rs fs h1 AC b FR EO) as (b1 & es & ss & hss & FR1 & CH & ST & RV). exists hss. split; [exact CH|].
  specialize (RV ds FS). intros q W Q NR SA KB NW. pose proof Q as (VQ & TQ & FQ).
  assert (EF : key_form (state_key q) = uuid2form (r_ref q)).
  { unfold state_key, key_as. apply key_form_of. destruct FQ as [<-|[<-|[<-|[<-|[]]]]]; reflexivity. }
  destruct (state_story sha fbits fuel (br_main b) es ss hss (br_main b1) (filter event_op (concat ds)) (state_key q) W) as [SA2 _]; try assumption.
  { rewrite EF. cbn [In] in *. destruct FQ as [F|[F|[F|[F|[]]]]]; try tauto. exfalso. apply NR. symmetry. exact F. }
  destruct (story_measure sha fbits fuel _ _ _ _ _ (state_key q) ST _ RV) as (I1 & I2 & I3).
  assert (KB2 : keep_bound fuel (W ++ says_ops (filed (state_key q) (concat hss))) []).
  { rewrite <- (app_nil_r (W ++ _)). apply (bound_moves fuel W [] (filter event_op (concat ds)) [] (says_ops (filed (state_key q) (concat hss)))); try assumption. rewrite !app_nil_r. exact KB. }
  destruct (kept_read (br_main b1) _ q Q NR SA2 KB2 NW) as (us & text & I & U & RD & TS & LU & NU & RU & RP & G). exists us. split; [exact I|]. split; [exact U|].
  intros NS fq o fe le rest FQS OI OT LE. specialize (RP NS).
  assert (LC : length (chunk_of us) = length us) by (unfold chunk_of; rewrite <- (map_length bare), bare_denote; reflexivity).
  destruct (ask_state h1 b1 (hd [] (skipn (length fs) rs)) fq o q text (chunk_of us) FR1 FQS OI Q LF RD TS ltac:(lia)) as (a & HA & SP).
  rewrite RP in SP.
  destruct (speaks_says a _ SP G) as (re & B & RS).
  { rewrite app_length, map_length. cbn [length]. lia. }
  { rewrite bare_denote. exact RU. }
  assert (LDS : length ds = length fs) by (clear -FS; induction FS; cbn [length]; congruence).
  assert (RDB : readable_ops fbits (chunk_of us)) by (eapply (ok_readable sha fbits _ origin_op false false FB); rewrite RP; exact G).
  assert (NE : chunk_of us <> []).
  { intro Z. apply (f_equal (@length rop)) in Z. rewrite LC in Z. cbn [length] in Z. destruct us as [|u us]; [|discriminate].
    destruct (W ++ says_ops (filed (state_key q) (concat hss))) as [|u l]; [apply NW; reflexivity|]. destruct (proj2 (U u) (or_introl eq_refl)). }
  assert (LE2 : (length (chunk_of us) < fuel)%nat) by lia.
  split.
  - intros FF v P. apply (accepts_plays h rs fs h1 AC); try assumption.
    apply (plays_write _ _ _ h1 (skipn (length fs) rs) [] fq [o; q] _ h1 a re); [exact OT|exact HA|exact B|]. cbn [app].
    apply (plays_same _ _ _ h1 _ a fe le rest re (chunk_of us) false v); [exact LE|exact B|apply says_reads; exact RS|exact RDB|exact LE2|split; [exact NE|exact FF]|exact P].
  - intro NF. apply (accepts_plays h rs fs h1 AC); try assumption.
    apply (plays_write _ _ _ h1 (skipn (length fs) rs) [] fq [o; q] _ h1 a re); [exact OT|exact HA|exact B|]. cbn [app].
    apply (plays_differs _ _ _ h1 _ a fe le rest re (chunk_of us) false); [exact LE|exact B|apply says_reads; exact RS|exact RDB|exact LE2|]. intros [_ X]. exact (NF X).
Qed.
End States.
Print Assumptions C69_state.
