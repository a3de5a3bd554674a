(* Proofs about replicas with several branches. *)
From Verif Require Import Prelude UuidModel UuidProofs KeyModel CodecModel TextModel BuilderSpec MergeModel MergeTextModel MergeKeeps
  StoreModel StoreSpec MetaModel ClockModel ScanModel ReplicaModel ReplicaSpec ReplicaProofs RocksModel RocksSpec BranchModel BranchSpec BranchProofs
  ForkModel HostModel HostSpec.
From Verif Require ClockTheorems.

(* ---- commits: the clock of the replica, and the store that is active ---- *)
Section Replica.
Variable sha : bytes -> bytes.
Variable fbits : bytes -> N.
Variable S : Type.
Notation mem := (list (key * bytes)).
Variable jread : S -> mem -> key -> res (S * mem * bytes * rstatus).
Variable jprev : S -> mem -> key -> res (bytes * rstatus).
Variable mwrite : S -> key -> bytes -> res (S * rstatus).
Variable mbatch : S -> mem -> res (S * rstatus).
Variable fuel : nat.
Notation cst := (cst S).
Notation s_tip := (s_tip S).
Notation s_now := (s_now S).
Notation s_base := (s_base S).
Notation s_readings := (s_readings S).

(* Which store is active does not matter to a commit on an opened branch. *)
Section Any.
Variables a a' : N.
Lemma now_step_any st : uorigin (s_base st) <> 0 -> now_step S a st = now_step S a' st.
Proof. clear. intro B. unfold now_step, clock_now. apply N.eqb_neq in B. rewrite B. reflexivity. Qed.
Lemma write_new_any st c : uorigin (s_base st) <> 0 -> write_new S a fuel st c = write_new S a' fuel st c.
Proof. clear. intro B. unfold write_new. rewrite (now_step_any st B). reflexivity. Qed.
Lemma txt_write_any st c : uorigin (s_base st) <> 0 -> txt_write S jread a fuel st c = txt_write S jread a' fuel st c.
Proof.
  clear. intro B. unfold txt_write. destruct (nth_error (c_op c) 2) as [[u|b e|cp n b e|b e]|]; try reflexivity.
  unfold txt_write_state, jread_step. destruct (jread (s_main S st) (s_mem S st) (key_as (text_id c) RGA_FORM_UUID)) as [[[[m w] f] s]| |]; cbn [rbind]; [|reflexivity|reflexivity].
  cbn [rbind]. destruct (is_ok s); cbn [negb]; [|reflexivity]. destruct (scan_text fuel f) as [ss tombs| | |]; try reflexivity. destruct ss; try reflexivity.
  destruct (next_any c) as [c'| |]; cbn [rbind]; [|reflexivity|reflexivity].
  rewrite (now_step_any (set_stores S st m w) B). destruct (now_step S a' (set_stores S st m w)) as [st2 now] eqn:N.
  assert (B2 : uorigin (s_base (set_tip S st2 now)) <> 0).
  { unfold now_step in N. destruct (clock_now a' _ _ _) as [n0 u0] in N. injection N as <- _. exact B. }
  rewrite (write_new_any _ _ B2). reflexivity.
Qed.
Lemma receive_writes_any st c : uorigin (s_base st) <> 0 -> receive_writes S jread a fuel st c = receive_writes S jread a' fuel st c.
Proof.
  clear. intro B. unfold receive_writes. rewrite !(write_new_any st c B), !(txt_write_any st c B). reflexivity.
Qed.
Lemma write_name_any st c : uorigin (s_base st) <> 0 -> write_name S mwrite a st c = write_name S mwrite a' st c.
Proof. clear. intro B. unfold write_name. rewrite !(now_step_any st B). reflexivity. Qed.
Lemma receive_op_any st c : uorigin (s_base st) <> 0 ->
  receive_op sha fbits S jread jprev mwrite a fuel st c = receive_op sha fbits S jread jprev mwrite a' fuel st c.
Proof.
  clear. intro B. unfold receive_op. rewrite !(receive_writes_any st c B), !(write_name_any st c B), !(txt_write_any st c B). reflexivity.
Qed.
Lemma receive_loop_any frame c0 n : next (cursor_of frame) = NOk c0 -> forall st l c, passes c0 l c -> uorigin (s_base st) <> 0 ->
  receive_loop sha fbits S jread jprev mwrite a fuel n st c = receive_loop sha fbits S jread jprev mwrite a' fuel n st c.
Proof.
  intro N0. induction n as [|n IH]; intros st l c P B; [reflexivity|]. cbn [receive_loop]. destruct (valid c) eqn:V; [|reflexivity].
  rewrite (receive_op_any st c B).
  assert (RO : exists r, receive_op sha fbits S jread jprev mwrite a' fuel st c = r) by (eexists; reflexivity). destruct RO as (r & RO). rewrite RO.
  destruct r as [[[st1 c1] s]| |]; cbn [rbind]; [|reflexivity|reflexivity].
  assert (D : delivered frame c) by (pose proof (passes_run _ _ _ _ N0 P) as R; rewrite V in R; exists l; exact R).
  destruct (receive_op_inv sha fbits S jread jprev mwrite a' fuel frame _ _ _ _ _ D V RO) as (ws & (_ & E) & _ & K).
  destruct (is_ok s) eqn:OK; [|reflexivity]. apply is_ok_iff in OK. destruct (K OK) as (l1 & P1 & _).
  apply (IH st1 (l ++ l1) c1); [eapply passes_app; eassumption|congruence].
Qed.
Lemma receive_frame_any main now rs tip frame : uorigin tip <> 0 ->
  receive_frame sha fbits S jread jprev mwrite mbatch a fuel main now rs tip frame = receive_frame sha fbits S jread jprev mwrite mbatch a' fuel main now rs tip frame.
Proof.
  intro B. unfold receive_frame. destruct (next (cursor_of frame)) as [c|c|c|] eqn:N; [|reflexivity..]. unfold receive.
  rewrite (receive_loop_any frame c fuel N (commit_on S main now rs tip) [] c (pass0 c) B). reflexivity.
Qed.
End Any.

(* The clock does not go back, and a tip that a commit sets is not after it.
   k: how often the clock may have been asked past NEVER. *)
Variable active : N.
Definition within (k : N) (st : cst) : Prop := s_now st <= NEVER_W + k /\ early (s_readings st).
Definition onward (k : N) (st st' : cst) : Prop := s_now st <= s_now st' /\ within k st'.
Definition ROOM : N := 2 ^ 62.
Lemma onward_same k st st' : same S st st' -> within k st -> onward k st st'.
Proof. clear. unfold same, onward, within. intros E [A B]. injection E as E1 E2 E3. rewrite E2, E3. split; [lia|auto]. Qed.
Lemma onward_refl k st : within k st -> onward k st st.
Proof. clear. apply onward_same. reflexivity. Qed.
Lemma onward_trans k k' a b c : onward k a b -> onward k' b c -> onward k' a c.
Proof. clear. intros [A _] [B W]. split; [lia|exact W]. Qed.
Lemma within_le k k' st : k <= k' -> within k st -> within k' st.
Proof. clear. intros L [A B]. split; [lia|exact B]. Qed.
Lemma onward_le k k' a b : k <= k' -> onward k a b -> onward k' a b.
Proof. clear. intros L [A B]. split; [exact A|]. eapply within_le; eassumption. Qed.
Lemma now_up k st st' u : within k st -> k < ROOM -> now_step S active st = (st', u) -> onward (k + 1) st st' /\ uvalue u = s_now st' /\ s_now st < s_now st' /\ s_tip st' = s_tip st /\ s_main S st' = s_main S st.
Proof.
  clear. intros [A B] K. unfold now_step, clock_now. intro H.
  set (n := if s_now st <? hd 0 (s_readings st) then hd 0 (s_readings st) else (s_now st + 1) mod two64) in H.
  assert (HB : hd 0 (s_readings st) < NEVER_W) by (destruct (s_readings st); [reflexivity|exact (Forall_inv B)]).
  assert (L : s_now st < n /\ n <= NEVER_W + (k + 1)).
  { unfold n. destruct (N.ltb_spec (s_now st) (hd 0 (s_readings st))); [split; lia|].
    assert (E : (s_now st + 1) mod two64 = s_now st + 1).
    { apply N.mod_small. unfold ROOM in K. assert (NW : NEVER_W = 1134907106097364992) by reflexivity. rewrite NW in *.
      change two64 with 18446744073709551616. change (2 ^ 62) with 4611686018427387904 in K. lia. }
    rewrite E. lia. }
  clearbody n. injection H as <- <-. cbn [ReplicaModel.s_now ReplicaModel.s_tip ReplicaModel.s_main uuid_time uvalue]. split; [|auto].
  2:{ split; [reflexivity|]. split; [apply L|]. auto. }
  split; [cbn [ReplicaModel.s_now]; lia|]. split; [cbn [ReplicaModel.s_now]; lia|]. cbn [ReplicaModel.s_readings].
  destruct (s_readings st) as [|r l]; [constructor|]. inversion B; assumption.
Qed.
Lemma write_new_up k st c st' c' s : within k st -> k < ROOM -> write_new S active fuel st c = Done (st', c', s) -> onward (k + 1) st st' /\ s_tip st' = s_tip st.
Proof.
  clear. intros W K. unfold write_new. destruct (now_step S active st) as [st1 u] eqn:N. destruct (now_up _ _ _ _ W K N) as (O & _ & _ & T & _).
  intro H. apply rbind_done in H as (x & _ & H). injection H as <- _ _. auto.
Qed.
Definition tip_ahead (st st' : cst) : Prop := s_tip st' = s_tip st \/ uvalue (s_tip st') <= s_now st'.
Lemma tip_same st st' : same S st st' -> tip_ahead st st'.
Proof. clear. unfold same, tip_ahead. intro E. injection E as E1 _ _. left. exact E1. Qed.
Lemma txt_write_up k st c st' c' s : within k st -> k + 1 < ROOM -> txt_write S jread active fuel st c = Done (st', c', s) -> onward (k + 2) st st' /\ tip_ahead st st'.
Proof.
  intros W K. assert (W2 : onward (k + 2) st st) by (apply (onward_le k); [lia|apply onward_refl; exact W]).
  unfold txt_write. destruct (nth_error (c_op c) 2) as [[u|b e|cp n b e|b e]|]; try (intro H; injection H as <- _ _; split; [exact W2|left; reflexivity]).
  { destruct (uuid_eqb u SINCE_COMMAND || uuid_eqb u HILI_COMMAND); intro H; injection H as <- _ _; split; solve [exact W2|left; reflexivity]. }
  unfold txt_write_state. intro H. apply rbind_done in H as ([[st1 f] s1] & J & H). apply jread_same in J.
  pose proof (onward_same k _ _ J W) as O1. pose proof (tip_same _ _ J) as T1. assert (TE : s_tip st1 = s_tip st) by (unfold same in J; congruence). clear J.
  assert (O12 : onward (k + 2) st st1) by (apply (onward_le k); [lia|exact O1]).
  destruct (is_ok s1); cbn [negb] in H; [|injection H as <- _ _; auto].
  destruct (scan_text fuel f) as [ss tombs| | |]; try discriminate. destruct ss; try (injection H as <- _ _; auto).
  apply rbind_done in H as (x & _ & H). destruct (now_step S active st1) as [st2 now] eqn:N.
  destruct (now_up k _ _ _ (proj2 O1) ltac:(lia) N) as (O2 & UV & _).
  apply rbind_done in H as ([[st3 y] s3] & WN & H). injection H as <- _ _.
  assert (W3 : within (k + 1) (set_tip S st2 now)) by (exact (proj2 O2)).
  destruct (write_new_up (k + 1) _ _ _ _ _ W3 ltac:(lia) WN) as ([O3 O4] & T3). cbn [set_tip ReplicaModel.s_tip ReplicaModel.s_now] in T3, O3.
  split.
  - split; [destruct O1 as [O1 _], O2 as [O2 _]; lia|]. replace (k + 2) with (k + 1 + 1) by lia. exact O4.
  - right. rewrite T3, UV. exact O3.
Qed.
Lemma write_name_up k st c st' c' s : within k st -> k < ROOM -> write_name S mwrite active st c = Done (st', c', s) -> onward (k + 1) st st' /\ s_tip st' = s_tip st.
Proof.
  intros W K. assert (W2 : onward (k + 1) st st) by (apply (onward_le k); [lia|apply onward_refl; exact W]).
  unfold write_name. destruct (nth_error (c_op c) 2) as [[tag|b e|cp n b e|b e]|]; try (intro H; injection H as <- _ _; auto).
  destruct (negb (version tag =? NAME)); [intro H; injection H as <- _ _; auto|].
  intro H. apply rbind_done in H as (x & _ & H). destruct (now_step S active st) as [st1 id] eqn:N. destruct (now_up _ _ _ _ W K N) as (O & _ & _ & T & _).
  destruct (one_op id NIL [VUuid tag; VUuid (s_tip st1)]) as [f|]; [|discriminate]. apply rbind_done in H as ([m s1] & _ & H). injection H as <- _ _. auto.
Qed.
Lemma see_up now u n s : clock_see now u = (n, s) -> now <= n /\ (n <= now \/ n < NEVER_W) /\ (s = StOK -> uvalue u <= n).
Proof.
  clear. unfold clock_see. destruct (negb (version u =? TIME)); [intro H; injection H as <- <-; split; [lia|]; split; [lia|discriminate]|].
  destruct (N.ltb_spec (uvalue u) now); [intro H'; injection H' as <- <-; lia|].
  destruct (N.leb_spec NEVER_W (uvalue u)); intro H'; injection H' as <- <-; [split; [lia|]; split; [lia|discriminate]|lia].
Qed.
Lemma save_chain_up k st c st' c' s : within k st -> save_chain sha fbits S jread jprev fuel st c = Done (st', c', s) ->
  onward k st st' /\ (s = ROk -> uvalue (s_tip st') <= s_now st').
Proof.
  intro W. unfold save_chain. destruct (check_sanity c) eqn:SN; try (intro H; injection H as <- _ <-; split; [apply onward_refl; exact W|discriminate]).
  intro H. apply rbind_done in H as ([[st1 m] s1] & HM & H). pose proof (head_meta_same _ _ _ _ _ _ _ _ _ _ _ HM) as S1. pose proof (onward_same k _ _ S1 W) as O1. clear S1 HM.
  destruct (is_ok s1) eqn:E1; cbn [negb] in H; [|injection H as <- _ <-; split; [exact O1|intros ->; discriminate]].
  apply rbind_done in H as ([st2 s2] & W1 & H).
  assert (O2 : onward k st st2).
  { destruct (negb (uuid_eqb (text_ref c) (m_id m))); [|injection W1 as <- _; exact O1]. destruct (meta_save m) as [rec|]; [|discriminate]. injection W1 as W1.
    apply jwrite_same in W1. apply (onward_trans _ _ _ _ _ O1). apply onward_same; [exact W1|apply O1]. }
  clear W1. destruct (is_ok s2) eqn:E2; cbn [negb] in H; [|injection H as <- _ <-; split; [exact O2|intros ->; discriminate]].
  apply rbind_done in H as ([[[[st3 m'] data] d] s3] & CL & H). unfold save_chainlet in CL.
  apply rbind_done in CL as ([[[[t m1] acc] d1] s4] & _ & Q). injection Q as <- -> _ <- ->.
  assert (O3 : onward k st (set_tip S st2 t)) by exact O2.
  destruct (is_ok s3) eqn:E3; cbn [negb] in H; [|injection H as <- _ <-; split; [exact O3|intros ->; discriminate]].
  destruct (see_step S (set_tip S st2 t) (m_id m')) as [st5 s5] eqn:SE.
  assert (O5 : onward k st st5 /\ (s5 = ROk -> uvalue (m_id m') <= s_now st5)).
  { unfold see_step in SE. destruct (clock_see (s_now (set_tip S st2 t)) (m_id m')) as [n5 x5] eqn:CS. apply see_up in CS as (A & B & C). injection SE as <- <-.
    cbn [set_tip ReplicaModel.s_now] in A, B. unfold onward, within in O2 |- *. cbn [ReplicaModel.s_now ReplicaModel.s_readings set_tip]. split; [split; [lia|split; [lia|apply O2]]|].
    intro E. apply C. destruct x5; cbn in E; congruence. }
  clear SE. destruct O5 as [O5 U5].
  destruct (is_ok s5) eqn:E5; cbn [negb] in H; [|injection H as <- _ <-; split; [exact O5|intros ->; discriminate]]. apply is_ok_iff in E5. specialize (U5 E5).
  destruct data as [f|]; [|discriminate].
  destruct (jwrite_step S st5 (key_as (m_obj m') LOG_FORM_UUID) f) as [st6 s6] eqn:W2. apply jwrite_same in W2.
  pose proof (onward_trans _ _ _ _ _ O5 (onward_same k _ _ W2 (proj2 O5))) as O6.
  destruct (is_ok s6) eqn:E6; cbn [negb] in H; [|injection H as <- _ <-; split; [exact O6|intros ->; discriminate]].
  destruct (jwrite_step S st6 (key_as (m_obj m') (m_rdt m')) f) as [st7 s7] eqn:W3. apply jwrite_same in W3.
  pose proof (onward_trans _ _ _ _ _ O6 (onward_same k _ _ W3 (proj2 O6))) as O7.
  destruct (is_ok s7) eqn:E7; cbn [negb] in H; injection H as <- _ <-; [|split; [exact O7|intros ->; discriminate]].
  split; [exact O7|]. intros _. cbn [set_tip ReplicaModel.s_tip ReplicaModel.s_now]. unfold same in W2, W3. injection W3 as _ -> _. injection W2 as _ -> _. exact U5.
Qed.
Lemma txt_read_same st c st' c' s : txt_read S jread fuel st c = Done (st', c', s) -> same S st st'.
Proof.
  unfold txt_read. intro H. apply rbind_done in H as ([[st1 f] s1] & J & H). apply jread_same in J.
  destruct (is_ok s1); cbn [negb] in H; [|injection H as <- _ _; exact J].
  destruct (scan_text fuel f) as [ss tombs| | |]; try discriminate. apply rbind_done in H as (x & _ & H). apply rbind_done in H as (y & _ & H). injection H as <- _ _. exact J.
Qed.
Lemma receive_query_same st c st' c' s : receive_query sha fbits S jread jprev fuel st c = Done (st', c', s) -> same S st st'.
Proof.
  unfold receive_query.
  match goal with |- (if ?b then _ else _) = _ -> _ => destruct b end.
  { unfold query_object. intro H. apply rbind_done in H as ([[st1 f] s1] & J & H). apply jread_same in J.
    destruct (is_ok s1); cbn [negb] in H; [|injection H as <- _ _; exact J]. apply rbind_done in H as (x & _ & H). injection H as <- _ _. exact J. }
  destruct (uuid2form (text_ref c) =? LOG_RAW_FORM); [|intro H; injection H as <- _ _; reflexivity].
  unfold query_log. intro H. apply rbind_done in H as (d & _ & H). apply rbind_done in H as ([[st1 m] s1] & J & H). apply find_op_same in J.
  destruct (is_ok s1); cbn [negb] in H; [|injection H as <- _ _; exact J].
  apply rbind_done in H as ([[st2 log] s2] & J2 & H). apply jread_same in J2. pose proof (same_trans _ _ _ _ J J2) as J3.
  destruct (is_ok s2); cbn [negb] in H; [|injection H as <- _ _; exact J3].
  destruct (uuid_eqb (text_id c) (m_obj m)); [injection H as <- _ _; exact J3|]. apply rbind_done in H as (x & _ & H).
  destruct (c_op x); [discriminate|]. injection H as <- _ _. exact J3.
Qed.
Lemma receive_writes_up k st c st' c' s : within k st -> k + 1 < ROOM -> receive_writes S jread active fuel st c = Done (st', c', s) -> onward (k + 2) st st' /\ tip_ahead st st'.
Proof.
  intros W K. assert (W2 : onward (k + 2) st st) by (apply (onward_le k); [lia|apply onward_refl; exact W]).
  assert (NW : forall st' c' s, write_new S active fuel st c = Done (st', c', s) -> onward (k + 2) st st' /\ tip_ahead st st').
  { intros x y z H. destruct (write_new_up k _ _ _ _ _ W ltac:(lia) H) as [O T]. split; [apply (onward_le (k + 1)); [lia|exact O]|left; exact T]. }
  unfold receive_writes. destruct (version (text_ref c) =? TIME); [apply NW|].
  destruct (negb (version (text_ref c) =? NAME)); [intro H; injection H as <- _ _; split; [exact W2|left; reflexivity]|].
  intro H. apply rbind_done in H as (x & _ & H). revert H.
  match goal with |- (if ?b then _ else _) = _ -> _ => destruct b end; [apply NW|].
  destruct (uuid2form (text_ref c) =? TXT_MAP_FORM); [apply txt_write_up; assumption|]. intro H; injection H as <- _ _; split; [exact W2|left; reflexivity].
Qed.
Lemma receive_op_up k st c st' c' s : within k st -> k + 1 < ROOM -> receive_op sha fbits S jread jprev mwrite active fuel st c = Done (st', c', s) ->
  onward (k + 2) st st' /\ (s = ROk -> tip_ahead st st').
Proof.
  intros W K. assert (W2 : onward (k + 2) st st) by (apply (onward_le k); [lia|apply onward_refl; exact W]).
  assert (SM : forall st', same S st st' -> onward (k + 2) st st' /\ (s = ROk -> tip_ahead st st')).
  { intros x J. split; [apply (onward_le k); [lia|apply onward_same; assumption]|intros _; apply tip_same; exact J]. }
  unfold receive_op. destruct (version (text_id c) =? TIME).
  { destruct (c_term c =? QUERY); [intro H; apply SM; eapply receive_query_same; exact H|].
    destruct (negb (payload (uorigin (text_id c)) =? 0)).
    - intro H. destruct (save_chain_up k _ _ _ _ _ W H) as [O T]. split; [apply (onward_le k); [lia|exact O]|]. intro E. right. apply T. exact E.
    - intro H. destruct (receive_writes_up k _ _ _ _ _ W K H) as [O T]. auto. }
  destruct (version (text_id c) =? DERIVED).
  { intro H. apply rbind_done in H as (p & _ & H). revert H.
    destruct (p =? QUERY); destruct (uuid2form (text_ref c) =? TXT_MAP_FORM); try (intro H; injection H as <- _ _; apply SM; reflexivity).
    - intro H. apply SM. eapply txt_read_same. exact H.
    - intro H. destruct (txt_write_up k _ _ _ _ _ W K H) as [O T]. auto. }
  destruct (version (text_id c) =? NAME); [|intro H; injection H as <- _ _; apply SM; reflexivity].
  destruct (uuid_eqb (text_id c) COMMENT).
  { destruct (next c); try discriminate; intro H; injection H as <- _ _; apply SM; reflexivity. }
  destruct (uuid_eqb (text_id c) NAME_UUID); [|intro H; injection H as <- _ _; apply SM; reflexivity].
  intro H. destruct (write_name_up k _ _ _ _ _ W ltac:(lia) H) as [O T]. split; [apply (onward_le (k + 1)); [lia|exact O]|]. intros _. left. exact T.
Qed.
Lemma receive_loop_up n : forall k st c st' s, within k st -> k + 2 * N.of_nat n < ROOM ->
  receive_loop sha fbits S jread jprev mwrite active fuel n st c = Done (st', s) -> s_now st <= s_now st' /\ (s = ROk -> tip_ahead st st').
Proof.
  induction n as [|n IH]; intros k st c st' s W K H; [discriminate|]. cbn [receive_loop] in H.
  destruct (valid c); [|injection H as <- _; split; [lia|intros _; left; reflexivity]].
  apply rbind_done in H as ([[st1 c1] s1] & RO & H). destruct (receive_op_up k _ _ _ _ _ W ltac:(lia) RO) as [[O1 O2] T].
  destruct (is_ok s1) eqn:E1; [|injection H as <- <-; split; [exact O1|intros ->; discriminate]].
  apply is_ok_iff in E1. specialize (T E1). destruct (IH (k + 2) _ _ _ _ O2 ltac:(lia) H) as [M T2]. split; [lia|]. intro E. specialize (T2 E).
  unfold tip_ahead in *. destruct T2 as [T2|T2]; [|right; exact T2]. rewrite T2. destruct T as [T|T]; [left; exact T|right; lia].
Qed.
Lemma save_now st st' s : save S mbatch st = Done (st', s) -> s_now st' = s_now st.
Proof.
  clear. unfold save. destruct (uuid_eqb (s_tip st) (s_base st)); [intro H; injection H as <- _; reflexivity|].
  match goal with |- (if ?b then _ else _) = _ -> _ => destruct b end; [intro H; injection H as <- _; reflexivity|].
  destruct (uuid_ltb (s_tip st) (s_base st)); [intro H; injection H as <- _; reflexivity|].
  destruct (one_op (s_tip st) ZERO_FORM_UUID []) as [f|]; [|discriminate]. destruct (write bytes (s_mem S st) KEY_ZERO f) as [w s0].
  destruct (negb (is_ok (rstatus_of s0))); [intro H; injection H as <- _; reflexivity|]. intro H. apply rbind_done in H as ([m s2] & _ & H). injection H as <- _. reflexivity.
Qed.
Lemma receive_frame_up main now rs tip frame main' now' s : now <= NEVER_W -> early rs -> 2 * N.of_nat fuel < ROOM ->
  receive_frame sha fbits S jread jprev mwrite mbatch active fuel main now rs tip frame = Done (main', now', s) ->
  now <= now' /\ forall c st, next (cursor_of frame) = NOk c ->
    receive_loop sha fbits S jread jprev mwrite active fuel fuel (commit_on S main now rs tip) c = Done (st, ROk) -> now' = s_now st /\ (s_tip st = tip \/ uvalue (s_tip st) <= now').
Proof.
  intros NW RS RM H. unfold receive_frame in H. destruct (next (cursor_of frame)) as [c|c|c|] eqn:N; try discriminate.
  2,3: injection H as _ <- _; split; [lia|discriminate].
  apply rbind_done in H as ([st2 s2] & R & Q). injection Q as _ <- _. unfold receive in R. apply rbind_done in R as ([st1 s1] & RL & R).
  assert (W : within 0 (commit_on S main now rs tip)) by (split; [cbn; lia|exact RS]).
  destruct (receive_loop_up fuel 0 _ _ _ _ W ltac:(lia) RL) as [M T]. cbn [commit_on ReplicaModel.s_now] in M.
  assert (E : s_now st2 = s_now st1) by (destruct (is_ok s1); [exact (save_now _ _ _ R)|injection R as <- _; reflexivity]).
  split; [lia|]. intros c' st EC RL'. injection EC as <-. rewrite RL in RL'. injection RL' as <- ->. split; [exact E|]. rewrite E. apply T. reflexivity.
Qed.

(* what every use of the clock keeps *)
Variable P : N -> list N -> Prop.
Hypothesis P_now : forall o now rs, P now rs -> P (fst (clock_now active now (hd 0 rs) o)) (tl rs).
Hypothesis P_see : forall u now rs, P now rs -> P (fst (clock_see now u)) rs.
Notation good st := (P (s_now st) (s_readings st)).
Lemma same_good st st' : same S st st' -> good st -> good st'.
Proof. clear. unfold same. intro E. injection E as _ -> ->. auto. Qed.
Lemma now_good st st' u : good st -> now_step S active st = (st', u) -> good st'.
Proof.
  clear -P_now. unfold now_step. intro G. specialize (P_now (uorigin (s_base st)) _ _ G). destruct (clock_now active (s_now st) (hd 0 (s_readings st)) (uorigin (s_base st))) as [n v].
  intro H. injection H as <- _. exact P_now.
Qed.
Lemma write_new_good st c st' c' s : good st -> write_new S active fuel st c = Done (st', c', s) -> good st'.
Proof.
  clear -P_now. intros G. unfold write_new. destruct (now_step S active st) as [st1 u] eqn:N. pose proof (now_good _ _ _ G N) as G1.
  intro H. apply rbind_done in H as (x & _ & H). injection H as <- _ _. exact G1.
Qed.
Lemma txt_write_good st c st' c' s : good st -> txt_write S jread active fuel st c = Done (st', c', s) -> good st'.
Proof.
  clear -P_now. intros G. unfold txt_write. destruct (nth_error (c_op c) 2) as [[u|b e|cp n b e|b e]|]; try (intro H; injection H as <- _ _; exact G).
  { destruct (uuid_eqb u SINCE_COMMAND || uuid_eqb u HILI_COMMAND); intro H; injection H as <- _ _; exact G. }
  unfold txt_write_state. intro H. apply rbind_done in H as ([[st1 f] s1] & J & H). apply jread_same in J. pose proof (same_good _ _ J G) as G1.
  destruct (is_ok s1); cbn [negb] in H; [|injection H as <- _ _; exact G1].
  destruct (scan_text fuel f) as [ss tombs| | |]; try discriminate. destruct ss; try (injection H as <- _ _; exact G1).
  apply rbind_done in H as (x & _ & H). destruct (now_step S active st1) as [st2 now] eqn:N. pose proof (now_good _ _ _ G1 N) as G2.
  apply rbind_done in H as ([[st3 y] s3] & WN & H). injection H as <- _ _. apply write_new_good in WN; [exact WN|exact G2].
Qed.
Lemma write_name_good st c st' c' s : good st -> write_name S mwrite active st c = Done (st', c', s) -> good st'.
Proof.
  clear -P_now. intro G. unfold write_name. destruct (nth_error (c_op c) 2) as [[tag|b e|cp n b e|b e]|]; try (intro H; injection H as <- _ _; exact G).
  destruct (negb (version tag =? NAME)); [intro H; injection H as <- _ _; exact G|].
  intro H. apply rbind_done in H as (x & _ & H). destruct (now_step S active st) as [st1 id] eqn:N. pose proof (now_good _ _ _ G N) as G1.
  destruct (one_op id NIL [VUuid tag; VUuid (s_tip st1)]) as [f|]; [|discriminate]. apply rbind_done in H as ([m s1] & _ & H). injection H as <- _ _. exact G1.
Qed.
Lemma save_chain_good st c st' c' s : good st -> save_chain sha fbits S jread jprev fuel st c = Done (st', c', s) -> good st'.
Proof.
  clear -P_see. intro G. unfold save_chain. destruct (check_sanity c); try (intro H; injection H as <- _ _; exact G).
  intro H. apply rbind_done in H as ([[st1 m] s1] & HM & H). pose proof (same_good _ _ (head_meta_same _ _ _ _ _ _ _ _ _ _ _ HM) G) as G1. clear HM.
  destruct (negb (is_ok s1)); [injection H as <- _ _; exact G1|].
  apply rbind_done in H as ([st2 s2] & W1 & H).
  assert (G2 : good st2).
  { destruct (negb (uuid_eqb (text_ref c) (m_id m))); [|injection W1 as <- _; exact G1]. destruct (meta_save m) as [rec|]; [|discriminate]. injection W1 as W1.
    apply jwrite_same in W1. exact (same_good _ _ W1 G1). }
  clear W1. destruct (negb (is_ok s2)); [injection H as <- _ _; exact G2|].
  apply rbind_done in H as ([[[[st3 m'] data] d] s3] & CL & H). unfold save_chainlet in CL.
  apply rbind_done in CL as ([[[[t m1] acc] d1] s4] & _ & Q). injection Q as <- -> _ <- ->.
  assert (G3 : good (set_tip S st2 t)) by exact G2.
  destruct (negb (is_ok s3)); [injection H as <- _ _; exact G3|].
  destruct (see_step S (set_tip S st2 t) (m_id m')) as [st5 s5] eqn:SE.
  assert (G5 : good st5).
  { unfold see_step in SE. specialize (P_see (m_id m') _ _ G3). destruct (clock_see (s_now (set_tip S st2 t)) (m_id m')) as [n5 x5]. injection SE as <- _. exact P_see. }
  clear SE. destruct (negb (is_ok s5)); [injection H as <- _ _; exact G5|]. destruct data as [f|]; [|discriminate].
  destruct (jwrite_step S st5 (key_as (m_obj m') LOG_FORM_UUID) f) as [st6 s6] eqn:W2. apply jwrite_same in W2. pose proof (same_good _ _ W2 G5) as G6.
  destruct (negb (is_ok s6)); [injection H as <- _ _; exact G6|].
  destruct (jwrite_step S st6 (key_as (m_obj m') (m_rdt m')) f) as [st7 s7] eqn:W3. apply jwrite_same in W3. pose proof (same_good _ _ W3 G6) as G7.
  destruct (negb (is_ok s7)); injection H as <- _ _; exact G7.
Qed.
Lemma receive_op_good st c st' c' s : good st -> receive_op sha fbits S jread jprev mwrite active fuel st c = Done (st', c', s) -> good st'.
Proof.
  clear -P_now P_see. intro G. unfold receive_op. destruct (version (text_id c) =? TIME).
  { destruct (c_term c =? QUERY); [intro H; apply receive_query_same in H; exact (same_good _ _ H G)|].
    destruct (negb (payload (uorigin (text_id c)) =? 0)); [apply save_chain_good; exact G|].
    unfold receive_writes. destruct (version (text_ref c) =? TIME); [apply write_new_good; exact G|].
    destruct (negb (version (text_ref c) =? NAME)); [intro H; injection H as <- _ _; exact G|].
    intro H. apply rbind_done in H as (x & _ & H). revert H.
    match goal with |- (if ?b then _ else _) = _ -> _ => destruct b end; [apply write_new_good; exact G|].
    destruct (uuid2form (text_ref c) =? TXT_MAP_FORM); [apply txt_write_good; exact G|]. intro H; injection H as <- _ _; exact G. }
  destruct (version (text_id c) =? DERIVED).
  { intro H. apply rbind_done in H as (p & _ & H). revert H.
    destruct (p =? QUERY); destruct (uuid2form (text_ref c) =? TXT_MAP_FORM); try (intro H; injection H as <- _ _; exact G).
    - intro H. apply txt_read_same in H. exact (same_good _ _ H G).
    - apply txt_write_good. exact G. }
  destruct (version (text_id c) =? NAME); [|intro H; injection H as <- _ _; exact G].
  destruct (uuid_eqb (text_id c) COMMENT).
  { destruct (next c); try discriminate; intro H; injection H as <- _ _; exact G. }
  destruct (uuid_eqb (text_id c) NAME_UUID); [apply write_name_good; exact G|intro H; injection H as <- _ _; exact G].
Qed.
Lemma receive_loop_good n : forall st c st' s, good st ->
  receive_loop sha fbits S jread jprev mwrite active fuel n st c = Done (st', s) -> good st'.
Proof.
  induction n as [|n IH]; intros st c st' s G H; [discriminate|]. cbn [receive_loop] in H.
  destruct (valid c); [|injection H as <- _; exact G].
  apply rbind_done in H as ([[st1 c1] s1] & RO & H). pose proof (receive_op_good _ _ _ _ _ G RO) as G1.
  destruct (is_ok s1); [|injection H as <- _; exact G1]. exact (IH _ _ _ _ G1 H).
Qed.
Lemma receive_frame_good main now rs tip frame main' now' s : P now rs ->
  receive_frame sha fbits S jread jprev mwrite mbatch active fuel main now rs tip frame = Done (main', now', s) -> exists rs', P now' rs'.
Proof.
  intros G H. unfold receive_frame in H. destruct (next (cursor_of frame)) as [c|c|c|]; try discriminate; [|injection H as _ <- _; eauto..].
  apply rbind_done in H as ([st2 s2] & R & Q). injection Q as _ <- _. unfold receive in R. apply rbind_done in R as ([st1 s1] & RL & R).
  pose proof (receive_loop_good fuel (commit_on S main now rs tip) _ _ _ G RL) as G1. exists (s_readings st1).
  destruct (is_ok s1); [|injection R as <- _; exact G1]. rewrite (save_now _ _ _ R). exact G1.
Qed.
Lemma create_branch_good main now rs y tr main' now' s : (forall n l, P n l -> P n (tl l)) -> P now rs ->
  create_branch sha fbits S jread jprev mbatch active fuel main now rs y tr = Done (main', now', s) -> exists rs', P now' rs'.
Proof.
  intros TL G H. unfold create_branch in H. pose proof (P_now y _ _ G) as GN.
  assert (E : exists now1 ev, (if tr then (now, uuid_time 0 y) else clock_now active now (hd 0 rs) y) = (now1, ev) /\ P now1 (tl rs)).
  { destruct tr; [eauto 8|]. destruct (clock_now active now (hd 0 rs) y) as [n v]. eauto 8. }
  destruct E as (now1 & ev & E & G1). rewrite E in H. clear E GN. destruct (one_op ev YARN_FORM_UUID []) as [f|]; [|discriminate].
  apply rbind_done in H as (c & _ & H). apply rbind_done in H as ([[st cx] sx] & SC & H). apply rbind_done in H as ([st2 s2] & SV & H). injection H as _ <- _.
  rewrite (save_now _ _ _ SV). exists (s_readings st). exact (save_chain_good _ _ _ _ _ (G1 : good (commit_on S main now1 (tl rs) NIL)) SC).
Qed.
End Replica.

(* ---- the stores of a replica ---- *)
Lemma find_in l id b : find_store l id = Some b -> In (id, b) l.
Proof.
  induction l as [|[i x] l IH]; [discriminate|]. cbn [find_store]. destruct (uuid_eqb i id) eqn:E; [apply uuid_eqb_eq in E as ->; intro H; injection H as ->; left; reflexivity|].
  intro H. right. apply IH. exact H.
Qed.
Lemma find_out l id : find_store l id = None <-> ~ In id (map fst l).
Proof.
  induction l as [|[i x] l IH]; [cbn; split; [auto|reflexivity]|]. cbn [find_store map fst In]. destruct (uuid_eqb i id) eqn:E.
  - apply uuid_eqb_eq in E. split; [discriminate|]. intro K. destruct K. left. exact E.
  - assert (N : i <> id) by (intros ->; rewrite (proj2 (uuid_eqb_eq _ _) eq_refl) in E; discriminate). rewrite IH. tauto.
Qed.
Lemma find_some l id b : NoDup (map fst l) -> In (id, b) l -> find_store l id = Some b.
Proof.
  induction l as [|[i x] l IH]; intros ND H; [destruct H|]. cbn [find_store]. cbn [map fst] in ND. inversion ND as [|? ? N1 N2]; subst. destruct H as [H|H].
  - injection H as -> ->. rewrite (proj2 (uuid_eqb_eq _ _) eq_refl). reflexivity.
  - destruct (uuid_eqb i id) eqn:E; [|apply IH; assumption]. apply uuid_eqb_eq in E. subst. destruct N1. change id with (fst (id, b)). apply in_map. exact H.
Qed.
Lemma find_put l id b i : find_store (put_store l id b) i = if uuid_eqb id i then Some b else find_store l i.
Proof.
  induction l as [|[j x] l IH]; [reflexivity|]. cbn [put_store]. destruct (uuid_eqb j id) eqn:E; cbn [find_store].
  - apply uuid_eqb_eq in E. subst. destruct (uuid_eqb id i); reflexivity.
  - rewrite IH. destruct (uuid_eqb j i) eqn:EJ; [|reflexivity]. apply uuid_eqb_eq in EJ. subst. destruct (uuid_eqb id i) eqn:EI; [|reflexivity].
    apply uuid_eqb_eq in EI. subst. rewrite (proj2 (uuid_eqb_eq _ _) eq_refl) in E. discriminate.
Qed.
Lemma find_app l id b i : find_store l id = None -> find_store (l ++ [(id, b)]) i = if uuid_eqb id i then Some b else find_store l i.
Proof.
  induction l as [|[j x] l IH]; intro N; [reflexivity|]. cbn [find_store app] in *. destruct (uuid_eqb j id) eqn:E; [discriminate|].
  rewrite (IH N). destruct (uuid_eqb j i) eqn:EJ; [|reflexivity]. apply uuid_eqb_eq in EJ. subst. destruct (uuid_eqb id i) eqn:EI; [|reflexivity].
  apply uuid_eqb_eq in EI. subst. rewrite (proj2 (uuid_eqb_eq _ _) eq_refl) in E. discriminate.
Qed.
Lemma find_drop l id i : find_store (drop_store l id) i = if uuid_eqb id i then None else find_store l i.
Proof.
  unfold drop_store. induction l as [|[j x] l IH]; [destruct (uuid_eqb id i); reflexivity|]. cbn [filter fst]. destruct (uuid_eqb j id) eqn:E; cbn [negb find_store].
  - rewrite IH. apply uuid_eqb_eq in E. subst. destruct (uuid_eqb id i); reflexivity.
  - rewrite IH. destruct (uuid_eqb j i) eqn:EJ; [|reflexivity]. apply uuid_eqb_eq in EJ. subst. destruct (uuid_eqb id i) eqn:EI; [|reflexivity].
    apply uuid_eqb_eq in EI. subst. rewrite (proj2 (uuid_eqb_eq _ _) eq_refl) in E. discriminate.
Qed.
Lemma ids_put l id b x : find_store l id = Some x -> map fst (put_store l id b) = map fst l.
Proof.
  induction l as [|[j y] l IH]; [discriminate|]. cbn [find_store put_store]. destruct (uuid_eqb j id); [reflexivity|]. intro H. cbn [map fst]. rewrite (IH H). reflexivity.
Qed.
Lemma eqb_other id i : id <> i -> uuid_eqb id i = false.
Proof. intro N. destruct (uuid_eqb id i) eqn:E; [|reflexivity]. apply uuid_eqb_eq in E. contradiction. Qed.
Lemma in_use_some h id b : in_use h id = Some b -> h_open h = true /\ find_store (h_stores h) id = Some b.
Proof. unfold in_use. destruct (h_open h); [auto|discriminate]. Qed.
Lemma in_use_none h id : in_use h id = None -> h_open h = false \/ find_store (h_stores h) id = None.
Proof. unfold in_use. destruct (h_open h); auto. Qed.

Section Host.
Variable sha : bytes -> bytes.
Variable fbits : bytes -> N.
Variable fuel : nat.
Notation jread := (b_jread fbits fuel).
Notation jprev := (b_jprev fbits fuel).
Notation h_step := (h_step sha fbits fuel).
Notation h_run := (h_run sha fbits fuel).
Notation h_create := (h_create sha fbits fuel).
Notation h_fork := (h_fork sha fbits fuel).
Notation h_receive := (h_receive sha fbits fuel).
Notation h_reopen := (h_reopen fbits fuel).
Notation b_step a := (b_step sha fbits a fuel).
Notation b_run a := (b_run sha fbits a fuel).

Lemma open_main id d now d' now' t s : b_open fbits fuel id d now = Done (d', now', t, s) -> d' = d.
Proof.
  intro H. unfold b_open, open_store_tip in H. apply rbind_done in H as ([[d1 f] s2] & R & H). unfold b_read in R. apply rbind_done in R as ([g ks] & _ & R). injection R as <- _ _.
  destruct (is_ok s2); cbn [negb] in H; [|congruence]. destruct (next (cursor_of f)) as [c|c|c|]; try congruence.
  cbv zeta in H. remember (fst (clock_see now (text_id c))) as z eqn:EZ in H. clear EZ. destruct (_ && _) in H; congruence.
Qed.

(* each event, taken apart *)
Lemma create_inv h rs y tr h' s : h_create h rs y tr = Done (h', s) ->
  (h_open h = true /\ (exists b, find_store (h_stores h) (branch_id y) = Some b) /\ s = RBadArgs /\ h_stores h' = h_stores h /\ h_active h' = h_active h /\ h_open h' = true /\
    h_now h' = if tr then h_now h else fst (clock_now (uorigin (h_active h)) (h_now h) (hd 0 rs) y)) \/
  (h_open h = true /\ find_store (h_stores h) (branch_id y) = None /\ (exists m, find_store (h_stores h) NIL = Some m) /\
   exists b d0, b_create = Done (d0, ROk) /\ b_new sha fbits (uorigin (h_active h)) fuel (h_now h) rs y tr = Done (b, s) /\
    create_branch sha fbits family jread jprev b_batch (uorigin (h_active h)) fuel d0 (h_now h) rs y tr = Done (br_main b, h_now h', s) /\
    h_stores h' = h_stores h ++ [(branch_id y, b)] /\ h_active h' = h_active h /\ h_open h' = true).
Proof.
  unfold HostModel.h_create. destruct (in_use h (branch_id y)) as [b|] eqn:U.
  - apply in_use_some in U as [O F]. intro H. injection H as <- <-. left. cbn [h_open h_stores h_active h_now]. eauto 10.
  - unfold in_use in U. destruct (h_open h) eqn:O; cbn [negb]; [|discriminate]. destruct (find_store (h_stores h) NIL) as [m|]; [|discriminate].
    intro H. apply rbind_done in H as ([d0 s0] & BC & H). right. split; [reflexivity|]. split; [exact U|]. split; [eauto|].
    assert (s0 = ROk).
    { unfold b_create, b_write, rocks_write in BC. destruct (one_op NIL ZERO_FORM_UUID []); [|discriminate]. change (key_eqb KEY_ZERO KEY_END) with false in BC. cbn [andb] in BC. injection BC as _ <-. reflexivity. }
    subst s0. cbn [is_ok negb] in H. apply rbind_done in H as ([[d' now] s'] & CB & H). injection H as <- <-. exists (mkBranch d' NIL), d0. cbn [h_stores h_active h_open h_now br_main].
    split; [exact BC|]. unfold b_new. rewrite BC. cbn [rbind is_ok negb]. rewrite CB. cbn [rbind]. auto.
Qed.
Lemma fork_inv h rs y x h' s : h_fork h rs y x = Done (h', s) ->
  (h_open h = false \/ find_store (h_stores h) (branch_id x) = None) /\ h' = h /\ s = RNotFound \/
  exists h1 s1 o, h_open h = true /\ find_store (h_stores h) (branch_id x) = Some o /\ h_create h rs y false = Done (h1, s1) /\ h_active h' = h_active h /\ h_now h' = h_now h1 /\ h_open h' = true /\
    (s1 <> ROk /\ h' = h1 /\ s = s1 \/
     s1 = ROk /\ exists b b', find_store (h_stores h1) (branch_id y) = Some b /\ br_tip b' = br_tip b /\
       b_fork sha fbits (uorigin (h_active h)) fuel (br_main o) (h_now h) rs y = Done (b', s) /\
       (h_stores h' = put_store (h_stores h1) (branch_id y) b' \/ h_stores h' = h_stores h1 /\ b' = b)).
Proof.
  unfold HostModel.h_fork. destruct (in_use h (branch_id x)) as [o|] eqn:U.
  2:{ intro H. injection H as <- <-. left. split; [apply in_use_none; exact U|auto]. }
  apply in_use_some in U as [O F]. intro H. right. apply rbind_done in H as ([h1 s1] & CR & H). exists h1, s1, o. split; [exact O|]. split; [exact F|]. split; [exact CR|].
  destruct (create_inv _ _ _ _ _ _ CR) as [(_ & (b & FB) & -> & E1 & E2 & E3 & _)|(_ & FB & _ & b & d0 & BC & BN & CB & E1 & E2 & E3)].
  { cbn [is_ok negb] in H. injection H as <- <-. split; [exact E2|]. split; [reflexivity|]. split; [exact E3|]. left. split; [discriminate|auto]. }
  destruct (is_ok s1) eqn:OK; cbn [negb] in H.
  2:{ injection H as <- <-. split; [exact E2|]. split; [reflexivity|]. split; [exact E3|]. left. split; [intros ->; discriminate|auto]. }
  apply is_ok_iff in OK. subst s1.
  assert (NE : branch_id y <> branch_id x) by congruence.
  assert (FX : find_store (h_stores h1) (branch_id x) = Some o) by (rewrite E1, find_app by exact FB; rewrite (eqb_other _ _ NE); exact F).
  assert (FY : find_store (h_stores h1) (branch_id y) = Some b) by (rewrite E1, find_app by exact FB; rewrite (proj2 (uuid_eqb_eq _ _) eq_refl); reflexivity).
  rewrite FX, FY in H. apply rbind_done in H as ([it sk] & SK & H).
  assert (BF : forall r, match sk with KOk => rbind (fork_loop fbits fuel (Datatypes.S (length (br_main o))) (br_main o) it (br_main b)) (fun '(d, s2) => Done (mkBranch d (br_tip b), s2)) | _ => Done (b, kst sk) end = r ->
    b_fork sha fbits (uorigin (h_active h)) fuel (br_main o) (h_now h) rs y = r).
  { intros r E. unfold b_fork. rewrite BN. cbn [rbind is_ok negb]. rewrite SK. cbn [rbind]. exact E. }
  destruct sk.
  - apply rbind_done in H as ([d s2] & FL & H). injection H as <- <-. cbn [h_active h_now h_open h_stores]. split; [exact E2|]. split; [reflexivity|]. split; [reflexivity|].
    right. split; [reflexivity|]. exists b, (mkBranch d (br_tip b)). split; [exact FY|]. split; [reflexivity|]. split; [apply BF; rewrite FL; reflexivity|]. left. reflexivity.
  - injection H as <- <-. split; [exact E2|]. split; [reflexivity|]. split; [exact E3|]. right. split; [reflexivity|]. exists b, b. split; [exact FY|]. split; [reflexivity|]. split; [apply BF; reflexivity|]. right. auto.
  - injection H as <- <-. split; [exact E2|]. split; [reflexivity|]. split; [exact E3|]. right. split; [reflexivity|]. exists b, b. split; [exact FY|]. split; [reflexivity|]. split; [apply BF; reflexivity|]. right. auto.
  - injection H as <- <-. split; [exact E2|]. split; [reflexivity|]. split; [exact E3|]. right. split; [reflexivity|]. exists b, b. split; [exact FY|]. split; [reflexivity|]. split; [apply BF; reflexivity|]. right. auto.
Qed.
Lemma receive_inv h rs y f h' s : h_receive h rs y f = Done (h', s) ->
  no_op f /\ h' = h /\ s = ROk \/
  ~ no_op f /\ (h_open h = false /\ h' = h /\ s = RNotOpen \/
    h_open h = true /\ find_store (h_stores h) (branch_id y) = None /\ h' = h /\ s = RNotFound \/
    exists b d, h_open h = true /\ find_store (h_stores h) (branch_id y) = Some b /\
      receive_frame sha fbits family jread jprev b_write b_batch (uorigin (h_active h)) fuel (br_main b) (h_now h) rs (br_tip b) f = Done (d, h_now h', s) /\
      h_active h' = h_active h /\ h_open h' = true /\ h_stores h' = put_store (h_stores h) (branch_id y) (mkBranch d (br_tip b))).
Proof.
  unfold HostModel.h_receive. destruct (next (cursor_of f)) as [c|c|c|] eqn:N; try discriminate.
  2,3: intro H; injection H as <- <-; left; split; [|auto]; intros c' D; assert (O : ops_of f []) by (exists (cursor_of f), c; split; [constructor|auto]); exact (ops_complete _ _ _ O D).
  intro H. right. split. { intro K. apply (K c). exists []. apply (run_next _ [] _ _ (run_here _) N). }
  destruct (h_open h) eqn:O; cbn [negb] in H; [|injection H as <- <-; left; auto].
  destruct (find_store (h_stores h) (branch_id y)) as [b|] eqn:F; [|injection H as <- <-; right; left; auto].
  apply rbind_done in H as ([[d now] s1] & R & H). injection H as <- <-. right. right. exists b, d. cbn [h_now h_active h_open h_stores]. auto 8.
Qed.
Lemma drop_inv h id h' s : h_drop h id = (h', s) ->
  h' = h /\ s <> ROk /\ (s = RNotFound /\ (h_open h = false \/ find_store (h_stores h) id = None) \/ s = RDbFail /\ id = NIL /\ h_open h = true /\ find_store (h_stores h) id <> None) \/
  s = ROk /\ h_open h = true /\ id <> NIL /\ (exists b, find_store (h_stores h) id = Some b) /\ h_now h' = h_now h /\ h_active h' = h_active h /\ h_open h' = true /\ h_stores h' = drop_store (h_stores h) id.
Proof.
  unfold h_drop. destruct (in_use h id) as [b|] eqn:U.
  - apply in_use_some in U as [O F]. destruct (uuid_eqb id NIL) eqn:E; intro H; injection H as <- <-.
    + apply uuid_eqb_eq in E. left. split; [reflexivity|]. split; [discriminate|]. right. split; [reflexivity|]. split; [exact E|]. split; [exact O|]. congruence.
    + right. cbn. split; [reflexivity|]. split; [exact O|]. split; [intros ->; rewrite (proj2 (uuid_eqb_eq _ _) eq_refl) in E; discriminate|]. eauto 8.
  - intro H. injection H as <- <-. left. split; [reflexivity|]. split; [discriminate|]. left. split; [reflexivity|]. apply in_use_none. exact U.
Qed.
Lemma activate_inv h rs id h' s : h_activate h rs id = Done (h', s) ->
  h' = h /\ s = RNotFound /\ (h_open h = false \/ find_store (h_stores h) id = None) \/
  exists m d f u, h_open h = true /\ (exists b, find_store (h_stores h) id = Some b) /\ find_store (h_stores h) NIL = Some m /\ s = ROk /\
    (h_now h', u) = clock_now (uorigin (h_active h)) (h_now h) (hd 0 rs) 0 /\ one_op u id [] = Some f /\
    b_write (br_main m) ACTIVE_KEY f = Done (d, ROk) /\ h_active h' = id /\ h_open h' = true /\ h_stores h' = put_store (h_stores h) NIL (mkBranch d (br_tip m)).
Proof.
  unfold h_activate. destruct (in_use h id) as [b|] eqn:U.
  2:{ intro H. injection H as <- <-. left. split; [reflexivity|]. split; [reflexivity|]. apply in_use_none. exact U. }
  apply in_use_some in U as [O F]. destruct (clock_now (uorigin (h_active h)) (h_now h) (hd 0 rs) 0) as [now u] eqn:CN.
  destruct (one_op u id []) as [f|] eqn:OP; [|discriminate]. destruct (find_store (h_stores h) NIL) as [m|] eqn:M; [|discriminate].
  intro H. apply rbind_done in H as ([d s1] & W & H). right.
  assert (s1 = ROk).
  { unfold b_write, rocks_write in W. assert (E : key_eqb ACTIVE_KEY KEY_END = false) by (vm_compute; reflexivity). rewrite E in W. cbn [andb] in W. injection W as _ <-. reflexivity. }
  subst s1. cbn [is_ok] in H. injection H as <- <-. exists m, d, f, u. cbn [h_now h_active h_open h_stores]. eauto 14.
Qed.
Lemma close_inv h h' s : h_close h = Done (h', s) -> s = ROk /\ h_now h' = h_now h /\ h_active h' = h_active h /\ h_open h' = false /\ h_stores h' = h_stores h.
Proof.
  unfold h_close. destruct (h_open h) eqn:O; [|intro H; injection H as <- <-; auto]. destruct (find_store (h_stores h) NIL); [|discriminate]. intro H. injection H as <- <-. auto.
Qed.
Lemma compact_inv h id k e h' s : h_compact fbits fuel h id k e = Done (h', s) -> s = ROk /\ h_now h' = h_now h /\ h_active h' = h_active h /\ h_open h' = h_open h /\
  (find_store (h_stores h) id = None /\ h_stores h' = h_stores h \/
   exists b d, find_store (h_stores h) id = Some b /\ compact fbits fuel (br_main b) k e = Done d /\ h_stores h' = put_store (h_stores h) id (mkBranch d (br_tip b))).
Proof.
  unfold h_compact. destruct (find_store (h_stores h) id) as [b|] eqn:F.
  - intro H. apply rbind_done in H as (d & C & H). injection H as <- <-. cbn. eauto 12.
  - intro H. injection H as <- <-. auto 8.
Qed.
Lemma reopen_inv h h' s : h_reopen h = Done (h', s) ->
  h_open h = true /\ h' = h /\ s = RBadState \/
  h_open h = false /\ h_open h' = true /\ open_all fbits fuel (h_now h) (h_stores h) = Done (h_stores h', h_now h', s) /\ h_active h' = h_active h.
Proof.
  unfold HostModel.h_reopen. destruct (h_open h) eqn:O; [intro H; injection H as <- <-; auto|]. intro H. right. split; [reflexivity|].
  apply rbind_done in H as ([[l now] s1] & OA & H). destruct (is_ok s1) eqn:E; cbn [negb] in H; [|injection H as <- <-; cbn [h_open h_stores h_now h_active]; auto].
  destruct (find_store l NIL) as [m|]; [|discriminate]. apply rbind_done in H as ([[d f] s2] & _ & H). apply is_ok_iff in E. subst s1.
  change (valid (cursor_of f)) with false in H. rewrite andb_false_r in H. cbn [andb] in H. injection H as <- <-. cbn [h_open h_stores h_now h_active]. auto.
Qed.
Lemma open_all_find now l l' now' s : open_all fbits fuel now l = Done (l', now', s) -> map fst l' = map fst l /\
  forall id b, find_store l id = Some b -> exists b', find_store l' id = Some b' /\ br_main b' = br_main b /\
    (s = ROk -> exists n n' t, b_open fbits fuel id (br_main b) n = Done (br_main b, n', t, ROk) /\ br_tip b' = t).
Proof.
  revert now l' now' s. induction l as [|[i x] l IH]; intros now l' now' s H; cbn [open_all] in H.
  - injection H as <- <- <-. split; [reflexivity|]. discriminate.
  - apply rbind_done in H as ([[[d n1] t] s1] & BO & H). pose proof (open_main _ _ _ _ _ _ _ BO) as ->. destruct (is_ok s1) eqn:E; cbn [negb] in H.
    + apply is_ok_iff in E. subst s1. apply rbind_done in H as ([[r' n2] s2] & OA & H). injection H as <- <- <-. destruct (IH _ _ _ _ OA) as [ID K]. cbn [map fst find_store]. split; [rewrite ID; reflexivity|].
      intros id b F. destruct (uuid_eqb i id) eqn:EI; [|exact (K id b F)]. apply uuid_eqb_eq in EI. subst i. injection F as <-. eexists. split; [reflexivity|]. cbn [br_main br_tip]. split; [reflexivity|].
      intros _. exists now, n1, t. auto.
    + injection H as <- <- <-. split; [cbn [map fst]; rewrite map_map; cbn [fst]; reflexivity|]. intros id b F. cbn [find_store] in F |- *.
      destruct (uuid_eqb i id) eqn:EI.
      * injection F as <-. eexists. split; [reflexivity|]. split; [reflexivity|]. intros ->. discriminate.
      * clear -F E. induction l as [|[j y] l IH]; [discriminate|]. cbn [map fst snd find_store] in *. destruct (uuid_eqb j id); [|apply IH; exact F].
        injection F as <-. eexists. split; [reflexivity|]. split; [reflexivity|]. intros ->. discriminate.
Qed.
End Host.
