(* C68, C69: test scripts. *)
From Verif Require Import Prelude UuidModel UuidSpec UuidProofs CodecModel CodecSpec TextTable TextModel TextSpec TextSafety FrameProofs
  BuilderSpec BuilderProofs MergeModel MergeSpec MergeTextModel TextMergeSpec TextCursors MergeKeeps TextMerge RocksModel ReplicaModel BranchModel
  DurableSpec AnswerModel AnswerSpec AnswerTheorems HostModel CompareModel CompareSpec CompareTheorems SizeProofs ScriptModel ScriptSpec ScriptProofs.

(* every list of ops that begins with a comment has its parts, and only one way *)
Theorem C68_parts : forall h t, exists ps, parted (h :: t) ps /\ forall ps', parted (h :: t) ps' -> ps' = ps.
Proof.
  assert (EX : forall t h, exists ps, parted (h :: t) ps /\ ps <> []).
  { induction t as [|o t IH]; intro h.
    - exists [(h, [])]. split; [|discriminate]. split; [reflexivity|]. split; [|constructor]. constructor; [constructor|constructor].
    - destruct (IH o) as (ps & (E & N & H) & NE). destruct ps as [|[g u] ps]; [contradiction|]. cbn [map concat fst snd app] in E. injection E as -> E.
      assert (D : header g \/ ~ header g).
      { unfold header. destruct (uuid_eqb (r_id g) COMMENT) eqn:A.
        - apply uuid_eqb_eq in A. destruct (in_dec N.eq_dec (r_term g) [HEADER; QUERY]); [left; auto|right; tauto].
        - right. intros [B _]. apply uuid_eqb_eq in B. congruence. }
      inversion N as [|? ? N1 N2]; subst. cbn [tl] in H. destruct D as [D|D].
      + exists ((h, []) :: (g, u) :: ps). split; [|discriminate]. split; [reflexivity|]. split; [constructor; [constructor|exact N]|]. cbn [tl]. constructor; assumption.
      + exists ((h, g :: u) :: ps). split; [|discriminate]. split; [reflexivity|]. split; [|exact H]. constructor; [|exact N2]. cbn [snd]. constructor; assumption. }
  assert (SAME : forall u v (ps qs : list (rop * list rop)), Forall (fun o => ~ header o) u -> Forall (fun o => ~ header o) v ->
    Forall (fun p => header (fst p)) ps -> Forall (fun p => header (fst p)) qs ->
    u ++ concat (map (fun p => fst p :: snd p) ps) = v ++ concat (map (fun p => fst p :: snd p) qs) ->
    u = v /\ concat (map (fun p => fst p :: snd p) ps) = concat (map (fun p => fst p :: snd p) qs)).
  { induction u as [|x u IH]; intros [|y v] ps qs U V P Q E; cbn [app] in E.
    - auto.
    - exfalso. destruct ps as [|[g w] ps]; [discriminate|]. cbn [map concat fst snd app] in E. injection E as -> _. inversion P; inversion V; subst. contradiction.
    - exfalso. destruct qs as [|[g w] qs]; [discriminate|]. cbn [map concat fst snd app] in E. injection E as <- _. inversion Q; inversion U; subst. contradiction.
    - injection E as -> E. inversion U; inversion V; subst. destruct (IH v ps qs) as [-> E2]; auto. }
  assert (ALL : forall ps qs : list (rop * list rop), Forall (fun p => Forall (fun o => ~ header o) (snd p)) ps -> Forall (fun p => Forall (fun o => ~ header o) (snd p)) qs ->
    Forall (fun p => header (fst p)) (tl ps) -> Forall (fun p => header (fst p)) (tl qs) ->
    concat (map (fun p => fst p :: snd p) ps) = concat (map (fun p => fst p :: snd p) qs) -> ps = qs).
  { induction ps as [|[g u] ps IH]; intros [|[g' u'] qs] A B P Q E; cbn [map concat fst snd app] in E; try discriminate; [reflexivity|].
    injection E as -> E. inversion A; inversion B; subst. cbn [tl snd] in *. destruct (SAME u u' ps qs) as [-> E2]; auto. f_equal. apply IH; auto.
    - destruct ps; [constructor|]. inversion P; assumption.
    - destruct qs; [constructor|]. inversion Q; assumption. }
  intros h t. destruct (EX t h) as (ps & K & _). exists ps. split; [exact K|]. intros ps' K'. destruct K as (E & N & H). destruct K' as (E' & N' & H').
  apply ALL; try assumption. congruence.
Qed.

(* C68: a script is cut into its parts: each is a frame of its own and says what
   the part says in the script, except that the comment it begins with may lose
   its reference. Not so if a span is closed inside, if an id of the script is
   the one before the id of comments. *)
Theorem C68_split : forall fuel script h t parts, frame_says script (ops_in ((h, t) :: parts)) -> parted (ops_in ((h, t) :: parts)) ((h, t) :: parts) ->
  r_id h = COMMENT -> r_term h <> REDUCED ->
  good_calls origin_op false false (replay (ops_in ((h, t) :: parts))) -> Forall (fun o => inc (r_id o) <> COMMENT) (ops_in ((h, t) :: parts)) ->
  (length (ops_in ((h, t) :: parts)) < fuel)%nat -> N.of_nat (room (map bare (ops_in ((h, t) :: parts)))) < 2 ^ 32 ->
  exists fs ls, split_tests fuel script = Done fs /\ Forall2 frame_says fs ls /\ Forall2 retold ((h, t) :: parts) ls.
Proof.
  intros fuel script h t parts [FL SM] (_ & NH & HD) HI HT G NC L RM. destruct (frame_visits script _ FL SM) as (cs & TV & F).
  assert (LC : length cs = length (ops_in ((h, t) :: parts))) by (clear -F; induction F; cbn [length]; congruence).
  assert (RR : (2 * length (replay (ops_in ((h, t) :: parts))) <= room (map bare (ops_in ((h, t) :: parts))) * 2)%nat).
  { generalize (ops_in ((h, t) :: parts)). clear. induction l as [|o l IH]; [cbn; lia|]. unfold replay. cbn [flat_map app]. fold (replay l). cbn [length]. rewrite app_length.
    unfold room. cbn [map list_sum fold_right]. fold (list_sum (map op_room (map bare l))). fold (room (map bare l)). unfold op_room at 1. destruct (r_term o =? REDUCED); cbn [length]; lia. }
  destruct (first_parts h t parts cs F NH HD HI HT NC G ltac:(lia)) as (f & fs & E & FF & LN & K).
  assert (TOT : forall p, In p ((h, t) :: parts) -> (room (map bare (fst p :: snd p)) <= room (map bare (ops_in ((h, t) :: parts))))%nat).
  { generalize ((h, t) :: parts). clear. induction l as [|q l IH]; intros p I; [destruct I|]. change (ops_in (q :: l)) with ((fst q :: snd q) ++ ops_in l). rewrite map_app, room_app.
    destruct I as [<-|I]; [lia|]. specialize (IH p I). lia. }
  assert (KK : exists ls, Forall2 frame_says fs ls /\ Forall2 retold parts ls).
  { clear E F. assert (T2 : forall p, In p parts -> (room (map bare (fst p :: snd p)) <= room (map bare (ops_in ((h, t) :: parts))))%nat) by (intros p I; apply TOT; right; exact I).
    revert T2 RM. generalize (room (map bare (ops_in ((h, t) :: parts)))). clear -K. induction K as [|f p fs parts T K IH]; intros n T2 RM; [exists []; split; constructor|].
    destruct (IH n (fun q I => T2 q (or_intror I)) RM) as (ls & A & B). destruct (told_retold f p T) as (l & FL & R). exists (l :: ls). split; [|constructor; assumption]. constructor; [|exact A].
    split; [exact FL|]. destruct T as [_ LN]. specialize (T2 p (or_introl eq_refl)). lia. }
  destruct KK as (ls & A & B). exists (f :: fs), ((h :: denote (replay t)) :: ls). split; [|split].
  - unfold split_tests. apply (loop_list cs); [exact TV|lia|exact E].
  - constructor; [|exact A]. split; [exact FF|]. specialize (TOT (h, t) (or_introl eq_refl)). cbn [fst snd] in TOT. lia.
  - constructor; [|exact B]. exists h, (denote (replay t)). split; [reflexivity|]. split; [repeat split; auto|apply denote_retold].
Qed.

Lemma says_reads f l : frame_says f l -> reads_as f l false.
Proof. intros [FL SM]. exists (Datatypes.S (length l + 0)). apply (scan_frame (CW := canon)); assumption. Qed.
Lemma says_first f o l : frame_says f (o :: l) -> exists c, next (cursor_of f) = NOk c /\ rop_of c = o /\ next c <> NAbort.
Proof.
  intros [FL SM]. destruct (frame_visits f _ FL SM) as (cs & (c' & NX & VI) & F). inversion F as [|c o' cs' l' [E _] F2]; subst.
  inversion VI as [|? c1 ? V NX2 VI2]; subst. exists c. unfold text_next in NX. rewrite V in NX. destruct (next (cursor_of f)); try discriminate. injection NX as ->.
  split; [reflexivity|]. split; [reflexivity|]. unfold text_next in NX2. destruct (next c); discriminate.
Qed.

Section Verdict.
Variable sha : bytes -> bytes.
Variable fbits : bytes -> N.
Variable fuel : nat.
Notation plays := (plays sha fbits fuel).
Notation test_loop := (test_loop sha fbits fuel).

(* C69: a run of the parts of a script passes if every part to be received is
   accepted and every part to be compared has the ops of the response gathered
   since the last comparison; otherwise it stops at the first part that is not
   so and reports it. *)
Theorem C69_verdict : forall fs ls, Forall2 frame_says fs ls -> Forall (fun l => exists o t, l = o :: t /\ r_id o = COMMENT) ls ->
  Forall (readable_ops fbits) ls -> Forall (fun l => length l < fuel)%nat ls ->
  forall h rs a b v, build_from builder0 a = Some b -> plays h rs a (combine fs ls) v ->
  exists h' s, test_loop h b rs fs = Done (h', s) /\ (s = TOk <-> v = true).
Proof.
  intros fs ls F. induction F as [|f l fs ls FS F IH]; intros HC RD LN h rs a b v B P.
  - inversion P; subst. exists h, TOk. split; [reflexivity|tauto].
  - inversion HC as [|? ? (o & t & -> & OI) HC2]; subst. inversion RD as [|? ? RD1 RD2]; subst. inversion LN as [|? ? LN1 LN2]; subst.
    specialize (IH HC2 RD2 LN2). destruct (says_first f o t FS) as (c & NX & EO & NA).
    assert (ET : c_term c = r_term o) by (rewrite <- EO; reflexivity). assert (EI : text_id c = COMMENT) by (rewrite <- OI, <- EO; reflexivity).
    cbn [ScriptModel.test_loop combine] in *. rewrite NX, EI, (proj2 (uuid_eqb_eq _ _) eq_refl). cbn [negb].
    assert (SK : forall X (x y : res X), match next c with NAbort => x | _ => y end = y) by (intros X x y; destruct (next c); try reflexivity; congruence).
    rewrite SK. clear SK.
    assert (RE : forall re, build a = Some re -> fst (release b) = re) by (unfold build; rewrite B; cbn [option_map]; intros re Q; injection Q; auto).
    assert (AP : forall a' re, build (a ++ a') = Some re -> exists b1, build_from b a' = Some b1 /\ build_from builder0 (a ++ a') = Some b1).
    { intros a' re Q. unfold build in Q. rewrite build_app, B in Q. destruct (build_from b a') as [b1|] eqn:E; [|discriminate]. exists b1. split; [reflexivity|]. rewrite build_app, B. exact E. }
    assert (WR : ends_with (o :: t) [HEADER; RAW] -> (c_term c =? QUERY) = false /\ ((c_term c =? HEADER) || (c_term c =? RAW)) = true).
    { cbn [ends_with In]. rewrite ET. intros [<-|[<-|[]]]; split; reflexivity. }
    assert (QR : ends_with (o :: t) [QUERY] -> (c_term c =? QUERY) = true) by (cbn [ends_with In]; rewrite ET; intros [<-|[]]; reflexivity).
    assert (CMP : forall lr bad re, reads_as re lr bad -> readable_ops fbits lr -> (length lr < fuel)%nat -> exists s, compare_frames fbits fuel re f = Done s /\ (s = COk <-> as_asked fbits lr (o :: t))).
    { intros lr bad re R1 R2 R3. destruct (C39_compare fbits re f lr (o :: t) bad false R1 (says_reads f _ FS) R2 RD1 fuel R3 LN1) as (s & Q & K). exists s. split; [exact Q|].
      rewrite K. unfold as_asked. split.
      - intros (X & Y & _). split; [|exact X]. intro Z. apply Y in Z. discriminate.
      - intros (X & Y). split; [exact Y|]. split; [split; intro Z; [contradiction|discriminate]|]. intro Z. contradiction. }
    inversion P as [|? ? ? ? ? ? h' a' re ? WW AS BB PP|? ? ? ? ? ? h' s a' re WW AS NS BB|? ? ? ? ? ? re lr bad ? QQ BB RA RO LR AA PP|? ? ? ? ? ? re lr bad QQ BB RA RO LR AA]; subst.
    + destruct (WR WW) as [-> ->]. rewrite AS. cbn [rbind]. destruct (AP a' re BB) as (b1 & -> & B1). cbn [is_ok]. exact (IH h' (tl rs) (a ++ a') b1 v B1 PP).
    + destruct (WR WW) as [-> ->]. rewrite AS. cbn [rbind]. destruct (AP a' re BB) as (b1 & -> & B1). replace (is_ok s) with false by (destruct s; try reflexivity; contradiction).
      exists h', (TRefused s). split; [reflexivity|]. split; discriminate.
    + rewrite (QR QQ), (RE re BB). destruct (CMP lr bad re RA RO LR) as (s & -> & K). cbn [rbind]. apply K in AA. subst s. exact (IH h rs [] builder0 v eq_refl PP).
    + rewrite (QR QQ), (RE re BB). destruct (CMP lr bad re RA RO LR) as (s & -> & K). cbn [rbind]. exists h, (TDiffers s).
      assert (NS : s <> COk) by (intro Z; apply AA; apply K; exact Z). destruct s; try contradiction; (split; [reflexivity|]; split; discriminate).
Qed.

Lemma ok_readable ops last opn ext : (forall s, fbits s < 2 ^ 64) -> good_calls last opn ext (replay ops) -> readable_ops fbits ops.
Proof.
  intros FB. revert last opn ext. induction ops as [|o ops IH]; intros last opn ext G; [constructor|]. change (o :: ops) with ([o] ++ ops) in G. rewrite replay_app in G.
  destruct (good_suffix _ _ _ _ _ G) as (o2 & e2 & G2). constructor; [|exact (IH _ _ _ G2)]. unfold replay in G. cbn [flat_map app good_calls] in G. destruct G as ((_ & _ & V) & _).
  cbn [bare u_vals] in V. eapply Forall_impl; [|exact V]. intros [u|z|[cps|]|w]; cbn [value_ok readable_value]; try tauto; [|intros _; apply FB].
  intro H. eapply Forall_impl; [|exact H]. cbn beta. tauto.
Qed.
Lemma retold_readable p l : retold p l -> readable_ops fbits (fst p :: snd p) -> readable_ops fbits l.
Proof.
  intros (h & t & -> & (_ & V & _) & F) R. inversion R as [|? ? R1 R2]; subst. constructor; [rewrite V; exact R1|]. clear -F R2.
  induction F as [|o x os xs [E _] F IH]; [constructor|]. inversion R2; subst. constructor; [|apply IH; assumption].
  assert (EV : r_vals x = r_vals o) by (apply (f_equal u_vals) in E; exact E). rewrite EV. assumption.
Qed.

(* C69: the same for a script as it is given: it is cut into its parts, and the
   verdict is that of the parts *)
Theorem C69_script : forall h rc ra rs script o t parts h1 h2, (forall s, fbits s < 2 ^ 64) ->
  frame_says script (ops_in ((o, t) :: parts)) -> parted (ops_in ((o, t) :: parts)) ((o, t) :: parts) ->
  r_id o = COMMENT -> r_term o <> REDUCED ->
  good_calls origin_op false false (replay (ops_in ((o, t) :: parts))) -> Forall (fun o => inc (r_id o) <> COMMENT) (ops_in ((o, t) :: parts)) ->
  (length (ops_in ((o, t) :: parts)) < fuel)%nat -> N.of_nat (room (map bare (ops_in ((o, t) :: parts)))) < 2 ^ 32 ->
  h_create sha fbits fuel h rc TEST_YARN true = Done (h1, ROk) -> h_activate h1 ra (branch_id TEST_YARN) = Done (h2, ROk) ->
  exists fs ls, Forall2 frame_says fs ls /\ Forall2 retold ((o, t) :: parts) ls /\
    forall v, plays h2 rs [] (combine fs ls) v ->
    exists h' s, command_test sha fbits fuel h rc ra rs script = Done (h', s) /\ (s = TOk <-> v = true).
Proof.
  intros h rc ra rs script o t parts h1 h2 FB FS PT OI OT G NC L RM HC HA.
  destruct (C68_split fuel script o t parts FS PT OI OT G NC L RM) as (fs & ls & SP & FF & RT). exists fs, ls. split; [exact FF|]. split; [exact RT|].
  intros v P. unfold command_test. rewrite HC. cbn [rbind is_ok negb]. rewrite HA. cbn [rbind is_ok negb]. rewrite SP. cbn [rbind].
  apply (C69_verdict fs ls FF) with (a := []); [| | |reflexivity|exact P].
  - destruct PT as (_ & _ & HD). cbn [tl] in HD. assert (CM : Forall (fun p => r_id (fst p) = COMMENT) ((o, t) :: parts)).
    { constructor; [exact OI|]. eapply Forall_impl; [|exact HD]. intros p [X _]. exact X. }
    clear -RT CM. induction RT as [|p l ps ls R RT IH]; [constructor|]. inversion CM; subst. constructor; [|apply IH; assumption].
    destruct R as (x & y & -> & (E & _) & _). exists x, y. split; [reflexivity|]. congruence.
  - assert (RO : Forall (fun p => readable_ops fbits (fst p :: snd p)) ((o, t) :: parts)).
    { pose proof (ok_readable _ _ _ _ FB G) as R. clear -R. revert R. generalize ((o, t) :: parts). induction l as [|p l IH]; intro R; [constructor|].
      change (ops_in (p :: l)) with ((fst p :: snd p) ++ ops_in l) in R. apply Forall_app in R as [R1 R2]. constructor; [exact R1|apply IH; exact R2]. }
    clear -RT RO. induction RT as [|p l ps ls R RT IH]; [constructor|]. inversion RO; subst. constructor; [|apply IH; assumption]. eapply retold_readable; eassumption.
  - clear -RT L. revert RT L. generalize ((o, t) :: parts). intros ps RT. induction RT as [|p l ps ls R RT IH]; intro L; [constructor|].
    change (ops_in (p :: ps)) with ((fst p :: snd p) ++ ops_in ps) in L. rewrite app_length in L. cbn [length] in L. constructor; [|apply IH; lia].
    destruct R as (x & y & -> & _ & F). cbn [length]. assert (E : length (snd p) = length y) by (clear -F; induction F; cbn [length]; congruence). lia.
Qed.

(* C69: a script whose first part does not begin with a comment, or begins with
   one that has no terminator, does not pass. *)
Theorem C69_header : forall h rc ra rs script f fs o t h1 h2,
  h_create sha fbits fuel h rc TEST_YARN true = Done (h1, ROk) -> h_activate h1 ra (branch_id TEST_YARN) = Done (h2, ROk) ->
  split_tests fuel script = Done (f :: fs) -> frame_says f (o :: t) -> r_id o <> COMMENT \/ ~ In (r_term o) [HEADER; RAW; QUERY] ->
  command_test sha fbits fuel h rc ra rs script = Done (h2, TBadHeader).
Proof.
  intros h rc ra rs script f fs o t h1 h2 HC HA SP FS BAD. unfold command_test. rewrite HC. cbn [rbind is_ok negb]. rewrite HA. cbn [rbind is_ok negb]. rewrite SP. cbn [rbind].
  destruct (says_first f o t FS) as (c & NX & EO & NA). assert (ET : c_term c = r_term o) by (rewrite <- EO; reflexivity). assert (EI : text_id c = r_id o) by (rewrite <- EO; reflexivity).
  cbn [ScriptModel.test_loop]. rewrite NX, EI. destruct (uuid_eqb (r_id o) COMMENT) eqn:Q; cbn [negb]; [|reflexivity].
  apply uuid_eqb_eq in Q. destruct BAD as [B|B]; [contradiction|]. rewrite ET. cbn [In] in B.
  replace (r_term o =? QUERY) with false by (symmetry; apply N.eqb_neq; intro X; apply B; auto).
  replace (r_term o =? HEADER) with false by (symmetry; apply N.eqb_neq; intro X; apply B; auto).
  replace (r_term o =? RAW) with false by (symmetry; apply N.eqb_neq; intro X; apply B; auto).
  cbn [orb]. destruct (next c); try reflexivity. congruence.
Qed.
End Verdict.
Print Assumptions C69_header.
Print Assumptions C68_parts.
Print Assumptions C68_split.
Print Assumptions C69_verdict.
Print Assumptions C69_script.
