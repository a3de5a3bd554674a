(* C37: a received frame is applied as a whole or not at all. C38: events are
   accepted only on top of what they depend on. *)
From Verif Require Import Prelude UuidModel UuidProofs KeyModel CodecModel TextTable TextModel MergeModel MergeTextModel
  StoreModel HashModel MetaModel ClockModel ReplicaModel ReplicaSpec ReplicaProofs.

Section Replica.
Variable sha : bytes -> bytes.
Variable fbits : bytes -> N.
Variable S : Type.
Notation mem := (list (key * bytes)).
Variable jread : S -> mem -> key -> res (S * mem * bytes * rstatus).
Variable jprev : S -> mem -> key -> res (bytes * rstatus).
Variable mwrite : S -> key -> bytes -> res (S * rstatus).
Variable mbatch : S -> mem -> res (S * rstatus).
Variable active : N.
Variable fuel : nat.
Notation acts := (acts S jread mwrite).
Notation accepted := (accepted S jread jprev mwrite).
Notation admitted := (admitted S jread jprev mwrite).
Notation receive_frame := (receive_frame sha fbits S jread jprev mwrite mbatch active fuel).
Notation save_chain := (save_chain sha fbits S jread jprev fuel).

(* Save: the branch's store changes by one batch, which is the commit's records
   and the new tip, or not at all *)
Lemma save_inv st st' s : save S mbatch st = Done (st', s) ->
  (s_tip S st = s_base S st /\ s = ROk /\ st' = st) \/
  (s <> ROk /\ s_main S st' = s_main S st) \/
  (s_tip S st <> s_base S st /\ (s_base S st = NIL \/ uorigin (s_tip S st) = uorigin (s_base S st)) /\
   uuid_ltb (s_base S st) (s_tip S st) = true /\
   exists f w, one_op (s_tip S st) ZERO_FORM_UUID [] = Some f /\ write bytes (s_mem S st) KEY_ZERO f = (w, StOK) /\
     mbatch (s_main S st) w = Done (s_main S st', s)).
Proof.
  unfold save. destruct (uuid_eqb (s_tip S st) (s_base S st)) eqn:E1.
  { intro H. injection H as <- <-. left. apply uuid_eqb_eq in E1. auto. }
  assert (NE : s_tip S st <> s_base S st) by (intro K; apply uuid_eqb_eq in K; congruence).
  destruct (uuid_eqb (s_base S st) NIL) eqn:E2; cbn [negb andb].
  - apply uuid_eqb_eq in E2. destruct (uuid_ltb (s_tip S st) (s_base S st)) eqn:E3.
    { intro H. injection H as <- <-. right. left. split; [discriminate|reflexivity]. }
    destruct (one_op (s_tip S st) ZERO_FORM_UUID []) as [f|] eqn:OO; [|discriminate].
    destruct (write bytes (s_mem S st) KEY_ZERO f) as [w s1] eqn:W.
    destruct s1; cbn [rstatus_of is_ok negb]; try (intro H; injection H as <- <-; right; left; split; [discriminate|reflexivity]).
    destruct (mbatch (s_main S st) w) as [[m s2]| |] eqn:MB; cbn [rbind]; try discriminate.
    intro H. injection H as <- <-. right. right. split; [exact NE|]. split; [left; exact E2|]. split.
    { destruct (uuid_total (s_base S st) (s_tip S st)) as [K|[K|K]]; congruence. }
    exists f, w. auto.
  - destruct (uorigin (s_tip S st) =? uorigin (s_base S st)) eqn:E4; cbn [negb].
    2:{ intro H. injection H as <- <-. right. left. split; [discriminate|reflexivity]. }
    apply N.eqb_eq in E4. destruct (uuid_ltb (s_tip S st) (s_base S st)) eqn:E3.
    { intro H. injection H as <- <-. right. left. split; [discriminate|reflexivity]. }
    destruct (one_op (s_tip S st) ZERO_FORM_UUID []) as [f|] eqn:OO; [|discriminate].
    destruct (write bytes (s_mem S st) KEY_ZERO f) as [w s1] eqn:W.
    destruct s1; cbn [rstatus_of is_ok negb]; try (intro H; injection H as <- <-; right; left; split; [discriminate|reflexivity]).
    destruct (mbatch (s_main S st) w) as [[m s2]| |] eqn:MB; cbn [rbind]; try discriminate.
    intro H. injection H as <- <-. right. right. split; [exact NE|]. split; [right; exact E4|]. split.
    { destruct (uuid_total (s_base S st) (s_tip S st)) as [K|[K|K]]; congruence. }
    exists f, w. auto.
Qed.

(* C37: an accepted frame. Each of its events, except unstamped ones and queries,
   is in one of the chains hs, which have no other ops and have them in the
   order of the frame, each at most twice; the records of the
   chains are written to the in-memory store in order; they reach the branch's
   store in one batch with the tip record, or, if the tip has not moved, not at
   all. *)
Theorem C37_accepted : forall main now rs tip frame main' now',
  receive_frame main now rs tip frame = Done (main', now', ROk) ->
  exists hs ws m w tip',
    accepted (main, []) hs ws (m, w) /\ writes_of ws = flat_map ch_records hs /\ Forall (name_from frame) ws /\
    (forall c, delivered frame c -> stamped c -> exists h, In h hs /\ In c (ch_ops h)) /\
    (forall h c, In h hs -> In c (ch_ops h) -> delivered frame c) /\
    (exists l, ops_of frame l /\ subl (flat_map ch_ops hs) (twice l)) /\
    ((tip' = tip /\ main' = m) \/
     (uuid_ltb tip tip' = true /\ (tip = NIL \/ uorigin tip' = uorigin tip) /\
      exists f batch, one_op tip' ZERO_FORM_UUID [] = Some f /\ write bytes w KEY_ZERO f = (batch, StOK) /\
        mbatch m batch = Done (main', ROk))).
Proof.
  intros main now rs tip frame main' now'. unfold ReplicaModel.receive_frame.
  assert (NONE : (forall c, next (cursor_of frame) <> NOk c) -> next (cursor_of frame) <> NAbort -> ops_of frame []).
  { intros H1 H2.
    destruct (next (cursor_of frame)) as [d|d|d|] eqn:N; [exfalso; apply (H1 d); reflexivity| | |contradiction];
        exists (cursor_of frame), d; (split; [constructor|auto]). }
  assert (EMPTY : ops_of frame [] -> main' = main ->
    exists hs ws m w tip', accepted (main, []) hs ws (m, w) /\ writes_of ws = flat_map ch_records hs /\ Forall (name_from frame) ws /\
    (forall c, delivered frame c -> stamped c -> exists h, In h hs /\ In c (ch_ops h)) /\
    (forall h c, In h hs -> In c (ch_ops h) -> delivered frame c) /\
    (exists l, ops_of frame l /\ subl (flat_map ch_ops hs) (twice l)) /\
    ((tip' = tip /\ main' = m) \/
     (uuid_ltb tip tip' = true /\ (tip = NIL \/ uorigin tip' = uorigin tip) /\
      exists f batch, one_op tip' ZERO_FORM_UUID [] = Some f /\ write bytes w KEY_ZERO f = (batch, StOK) /\
        mbatch m batch = Done (main', ROk)))).
  { intros D ->. exists [], [], main, [], tip. split; [constructor|]. split; [reflexivity|]. split; [constructor|].
    split; [intros c K; destruct (ops_complete _ _ _ D K)|]. split; [intros h c []|].
    split; [exists []; split; [exact D|constructor]|]. left. auto. }
  destruct (next (cursor_of frame)) as [c|c|c|] eqn:N; try discriminate.
  2,3: intro H; injection H as <- <-; apply EMPTY; [apply NONE; intros; discriminate|reflexivity].
  unfold receive. set (st0 := commit_on S main now rs tip).
  match goal with |- context [receive_loop ?a ?b ?d ?e ?f ?g ?h ?i ?j ?k ?l] => destruct (receive_loop a b d e f g h i j k l) as [[st1 s1]| |] eqn:RL end;
    cbn [rbind]; try discriminate.
  destruct (receive_loop_inv sha fbits S jread jprev mwrite active fuel frame c fuel st0 [] [] st0 [] c st1 s1 N eq_refl
              (acc_none _ _ _ _ _) (pass0 c) (Forall_nil _) (Forall_nil _) (Forall_nil _) (subl_nil _) (subl_nil _) RL) as (hs & ws & A1 & A2 & A3 & A4).
  destruct (is_ok s1) eqn:E1.
  2:{ cbn [rbind]. intro H. injection H as _ _ ->. discriminate. }
  apply is_ok_iff in E1. subst s1. destruct (A4 eq_refl) as (A5 & l & A6 & A7 & A8 & A9 & _).
  destruct (save S mbatch st1) as [[st2 s2]| |] eqn:SV; cbn [rbind]; try discriminate.
  intro H. injection H as <- <- ->.
  exists hs, ws, (s_main S st1), (s_mem S st1), (s_tip S st1). split; [exact A5|]. split; [eapply accepted_writes; exact A5|].
  split; [exact A3|]. split.
  { intros d D St. pose proof (ops_complete _ _ _ A6 D) as I. rewrite Forall_forall in A7. destruct (A7 d I) as [K|K]; [contradiction|exact K]. }
  split.
  { intros h d I J. rewrite Forall_forall in A8. specialize (A8 h I). rewrite Forall_forall in A8. eapply ops_delivered; [exact A6|apply A8; exact J]. }
  split; [exists l; auto|].
  change (s_base S st0) with tip in A2.
  destruct (save_inv _ _ _ SV) as [(Q1 & _ & ->)|[(Q1 & _)|(Q1 & Q2 & Q3 & Q4)]].
  - left. split; [congruence|reflexivity].
  - contradiction.
  - right. rewrite <- A2. auto.
Qed.

(* C37: a rejected frame. The stores were only read, the names of the branch
   were written for naming ops of the frame, and a batch may have been refused. *)
Theorem C37_rejected : forall main now rs tip frame main' now' s,
  receive_frame main now rs tip frame = Done (main', now', s) -> s <> ROk ->
  exists ws m w, acts (main, []) ws (m, w) /\ Forall (name_from frame) ws /\
    (main' = m \/ exists batch, mbatch m batch = Done (main', s)).
Proof.
  intros main now rs tip frame main' now' s. unfold ReplicaModel.receive_frame.
  destruct (next (cursor_of frame)) as [c|c|c|] eqn:N; try discriminate.
  2,3: intro H; injection H as <- <- <-; contradiction.
  unfold receive. set (st0 := commit_on S main now rs tip).
  match goal with |- context [receive_loop ?a ?b ?d ?e ?f ?g ?h ?i ?j ?k ?l] => destruct (receive_loop a b d e f g h i j k l) as [[st1 s1]| |] eqn:RL end;
    cbn [rbind]; try discriminate.
  destruct (receive_loop_inv sha fbits S jread jprev mwrite active fuel frame c fuel st0 [] [] st0 [] c st1 s1 N eq_refl
              (acc_none _ _ _ _ _) (pass0 c) (Forall_nil _) (Forall_nil _) (Forall_nil _) (subl_nil _) (subl_nil _) RL) as (hs & ws & A1 & A2 & A3 & A4).
  destruct (is_ok s1) eqn:E1.
  2:{ cbn [rbind]. intro H. injection H as <- <- <-. intros _. exists ws, (s_main S st1), (s_mem S st1).
      split; [exact A1|]. split; [exact A3|]. left. reflexivity. }
  destruct (save S mbatch st1) as [[st2 s2]| |] eqn:SV; cbn [rbind]; try discriminate.
  intro H. injection H as <- <- <-. intro NE. exists ws, (s_main S st1), (s_mem S st1). split; [exact A1|]. split; [exact A3|].
  destruct (save_inv _ _ _ SV) as [(_ & Q1 & _)|[(_ & Q1)|(_ & _ & _ & f & w & _ & _ & Q1)]].
  - contradiction.
  - left. exact Q1.
  - right. exists w. exact Q1.
Qed.

(* C37 for a store that reads do not change and that applies a batch whole or
   not at all, as RocksDB does: a rejected frame that gives no names changes
   nothing *)
Theorem C37_atomic : (forall m w k m' w' f s, jread m w k = Done (m', w', f, s) -> m' = m) ->
  (forall m w m' s, mbatch m w = Done (m', s) -> s <> ROk -> m' = m) ->
  forall main now rs tip frame main' now' s,
  receive_frame main now rs tip frame = Done (main', now', s) -> s <> ROk ->
  (forall c, delivered frame c -> ~ naming c) -> main' = main.
Proof.
  intros RD BT main now rs tip frame main' now' s H NE NN.
  destruct (C37_rejected _ _ _ _ _ _ _ _ H NE) as (ws & m & w & A & F & K).
  assert (E : forall ws y, acts (main, []) ws y -> Forall (name_from frame) ws -> fst y = main).
  { clear -RD NN. induction 1 as [|ws m w k m' w' f s A IH R|ws m w k f w' A IH W|ws m w f m' s A IH W]; intro F.
    - reflexivity.
    - cbn. rewrite (RD _ _ _ _ _ _ _ R). apply (IH F).
    - apply Forall_app in F as [F _]. apply (IH F).
    - apply Forall_app in F as [_ F]. pose proof (Forall_inv F) as K. destruct K as (c & _ & _ & _ & D & NM & _). destruct (NN c D NM). }
  pose proof (E _ _ A F) as E'. cbn in E'. subst m. destruct K as [->|(b & K)]; [reflexivity|]. exact (BT _ _ _ _ K NE).
Qed.

(* no accepted frame has a syntax error, or a check, right after one of its events:
   such a frame is rejected as a whole *)
Theorem C37_clean : forall main now rs tip frame main' now',
  receive_frame main now rs tip frame = Done (main', now', ROk) ->
  forall c, delivered frame c -> stamped c -> clean c.
Proof.
  intros main now rs tip frame main' now'. unfold ReplicaModel.receive_frame. intros H c D St.
  destruct (next (cursor_of frame)) as [c0|d|d|] eqn:N; try discriminate.
  2,3: exfalso; assert (O : ops_of frame []) by (exists (cursor_of frame), d; split; [constructor|auto]); exact (ops_complete _ _ _ O D).
  unfold receive in H. set (st0 := commit_on S main now rs tip) in *.
  match type of H with context [receive_loop ?a ?b ?d ?e ?f ?g ?h ?i ?j ?k ?l] => destruct (receive_loop a b d e f g h i j k l) as [[st1 s1]| |] eqn:RL end;
    cbn [rbind] in H; try discriminate.
  destruct (is_ok s1) eqn:E1; [|cbn [rbind] in H; injection H as _ _ ->; discriminate]. apply is_ok_iff in E1. subst s1.
  destruct (receive_loop_clean sha fbits S jread jprev mwrite active fuel frame c0 fuel st0 [] c0 st1 N (pass0 c0) (Forall_nil _) RL) as (l & O & F).
  rewrite Forall_forall in F. apply F; [|exact St]. eapply ops_complete; eassumption.
Qed.

(* C38: a chain is accepted only if it is linked and has grounds: it is the first
   of a yarn, or it is later than the last event of its yarn and references that
   event, or another known event, or creates an object of a known type. Its
   records, and only they, are written; the clock is not behind its last event *)
Theorem C38_chain : forall st c st' c' s, valid c = true -> save_chain st c = Done (st', c', s) ->
  exists ws, acts (s_main S st, s_mem S st) ws (s_main S st', s_mem S st') /\
  (s = ROk -> exists h, ch_head h = c /\ admitted (s_main S st) (s_mem S st) h /\ writes_of ws = ch_records h /\
     s_tip S st' = ch_tip h /\ s_now S st' = N.max (s_now S st) (uvalue (ch_tip h)) /\
     (uvalue (ch_tip h) < NEVER_W \/ uvalue (ch_tip h) < s_now S st)).
Proof.
  intros st c st' c' s V H. destruct (save_chain_inv _ _ _ _ _ mwrite _ _ _ _ _ _ V H) as (ws & [M _] & _ & K).
  exists ws. split; [exact M|]. intro E. destruct (K E) as (h & l & A1 & A2 & A3 & A4 & A5 & A6 & A7 & _).
  exists h. auto 10.
Qed.

Lemma accepted_admitted x hs ws y h : accepted x hs ws y -> In h hs ->
  exists m w hs' ws', accepted x hs' ws' (m, w) /\ admitted m w h.
Proof.
  induction 1 as [|hs ws m w ws' y H IH A E|hs ws m w h' ws' y H IH AD A E]; intro I; [destruct I|auto|].
  apply in_app_iff in I as [I|[<-|[]]]; [auto|]. exists m, w, hs, ws. auto.
Qed.
Lemma linked_pred c rest d : linked c rest -> In d rest -> exists p, In p (c :: rest) /\
  text_ref d = text_id p /\ uorigin (text_id d) = uorigin (text_id c) /\ uuid_ltb (text_id p) (text_id d) = true.
Proof.
  revert c. induction rest as [|x rest IH]; intros c L I; [destruct I|]. destruct L as (L1 & L2 & L3 & L4).
  destruct I as [<-|I]; [exists c; cbn; auto|]. destruct (IH x L4 I) as (p & P1 & P2 & P3 & P4).
  exists p. split; [right; exact P1|]. split; [exact P2|]. split; [congruence|exact P4].
Qed.
(* C38: each event of an accepted frame directly follows another event of the
   frame in its yarn, or heads a chain that is admitted with what precedes it *)
Theorem C38_frame : forall main now rs tip frame main' now',
  receive_frame main now rs tip frame = Done (main', now', ROk) ->
  forall c, delivered frame c -> stamped c ->
  (version (text_ref c) = TIME -> uuid_ltb (text_ref c) (text_id c) = true) /\
  ((exists p, delivered frame p /\ text_ref c = text_id p /\ uorigin (text_id c) = uorigin (text_id p) /\
      uuid_ltb (text_id p) (text_id c) = true) \/
   (exists hs ws m w h, accepted (main, []) hs ws (m, w) /\ admitted m w h /\ ch_head h = c)).
Proof.
  intros main now rs tip frame main' now' H c D St.
  destruct (C37_accepted _ _ _ _ _ _ _ H) as (hs & ws & m & w & tip' & A1 & _ & _ & A4 & A5 & _).
  destruct (A4 c D St) as (h & I & J). destruct (accepted_admitted _ _ _ _ _ A1 I) as (m0 & w0 & hs0 & ws0 & B1 & B2).
  pose proof B2 as B3. destruct B2 as (B4 & B5 & B6 & _). destruct J as [J|J].
  - subst c. split; [exact B6|]. right. exists hs0, ws0, m0, w0, h. auto.
  - destruct (linked_pred _ _ _ B5 J) as (p & P1 & P2 & P3 & P4). split; [rewrite P2; auto|].
    left. exists p. split; [eapply A5; [exact I|exact P1]|]. split; [exact P2|]. split; [|exact P4].
    destruct P1 as [<-|P1]; [exact P3|]. destruct (linked_pred _ _ _ B5 P1) as (q & _ & _ & Q & _). unfold ch_id in *. congruence.
Qed.
End Replica.
Print Assumptions C37_accepted.
Print Assumptions C37_clean.
Print Assumptions C37_rejected.
Print Assumptions C37_atomic.
Print Assumptions C38_chain.
Print Assumptions C38_frame.
