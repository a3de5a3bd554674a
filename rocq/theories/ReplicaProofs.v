(* Proofs about commits: the walks over logs and frames, and what they do to the
   stores. *)
From Verif Require Import Prelude UuidModel KeyModel CodecModel TextTable TextModel MergeModel MergeTextModel
  StoreModel HashModel MetaModel ClockModel ScanModel ReplicaModel ReplicaSpec.
From Verif Require Import UuidTheorems UuidProofs.
From Verif Require ClockTheorems.

(* ---- cursors ---- *)
Lemma next_valid c c' : next c = NOk c' -> c_span c = 0 \/ valid c = true -> valid c' = true.
Proof.
  unfold next, valid. intros H K. destruct (c_span c =? 0) eqn:E; cbn [negb] in H.
  2:{ injection H as <-. cbn [c_state]. destruct K as [K|K]; [rewrite K in E; discriminate|exact K]. }
  destruct ((c_state c =? 0) && negb (c_pos c =? 0)); [discriminate|].
  destruct (c_state c =? RON_FULL_STOP); [discriminate|].
  destruct (c_pos c =? N.of_nat (length (c_buf c))); [discriminate|].
  match type of H with context [run ?a ?b ?c ?d ?e ?g] => destruct (run a b c d e g) as [[[st l] p]|] end; [|discriminate].
  destruct (l_term l =? 0), (st =? 0) eqn:E0; cbn [negb andb] in H; try (destruct (RON_START <=? st); discriminate).
  injection H as <-. cbn [c_state]. rewrite E0. reflexivity.
Qed.
Lemma next_stop c c' : next c = NEnd c' \/ next c = NBad c' -> valid c' = false.
Proof.
  unfold next, valid. intros H. destruct (c_span c =? 0) eqn:E; cbn [negb] in H; [|destruct H; discriminate].
  destruct ((c_state c =? 0) && negb (c_pos c =? 0)) eqn:E1.
  { destruct H as [H|H]; [discriminate|]. injection H as <-. apply andb_true_iff in E1 as [-> _]. reflexivity. }
  destruct (c_state c =? RON_FULL_STOP); [destruct H as [H|H]; [injection H as <-; reflexivity|discriminate]|].
  destruct (c_pos c =? N.of_nat (length (c_buf c))); [destruct H as [H|H]; [injection H as <-; reflexivity|discriminate]|].
  revert H.
  match goal with |- context [run ?a ?b ?c ?d ?e ?g] => destruct (run a b c d e g) as [[[st l] p]|] end; [|intros [H|H]; discriminate].
  destruct (negb (l_term l =? 0) && negb (st =? 0)); [intros [H|H]; discriminate|].
  destruct (RON_START <=? st); intros [H|H]; try discriminate; injection H as <-; reflexivity.
Qed.
Lemma next_any_inv c c' : next_any c = Done c' -> next c = NOk c' \/ next c = NEnd c' \/ next c = NBad c'.
Proof. unfold next_any. destruct (next c); intro H; try discriminate; injection H as <-; auto. Qed.

Lemma run_to_app c0 l1 c1 l2 c2 : run_to c0 l1 c1 -> run_to c1 l2 c2 -> run_to c0 (l1 ++ l2) c2.
Proof.
  intros H1 H2. induction H2 as [|l c c' H IH E]; [rewrite app_nil_r; exact H1|].
  rewrite app_assoc. eapply run_next; eassumption.
Qed.
Lemma run_to_one c c' : next c = NOk c' -> run_to c [c'] c'.
Proof. intro H. apply (run_next c [] c c'); [constructor|exact H]. Qed.
Lemma run_to_split c0 l1 l2 c2 : run_to c0 (l1 ++ l2) c2 -> exists c1, run_to c0 l1 c1 /\ run_to c1 l2 c2.
Proof.
  remember (l1 ++ l2) as l eqn:E. intro H. revert l1 l2 E. induction H as [|l c c' H IH N]; intros l1 l2 E.
  { symmetry in E. apply app_eq_nil in E as [-> ->]. exists c0. split; constructor. }
  destruct l2 as [|x l2 _] using rev_ind.
  { rewrite app_nil_r in E. subst l1. exists c'. split; [econstructor; eassumption|constructor]. }
  rewrite app_assoc in E. apply app_inj_tail in E as [E ->]. destruct (IH _ _ E) as (c1 & H1 & H2).
  exists c1. split; [exact H1|econstructor; eassumption].
Qed.
Lemma run_to_last c0 l x c : run_to c0 (l ++ [x]) c -> x = c.
Proof.
  remember (l ++ [x]) as k eqn:E. intro H. destruct H as [|k' d c' H N].
  - destruct l; discriminate.
  - apply app_inj_tail in E as [_ E]. auto.
Qed.
Lemma run_to_det c0 l c : run_to c0 l c -> forall l' c', run_to c0 l' c' -> length l = length l' -> l = l' /\ c = c'.
Proof.
  induction 1 as [|l c d H IH N]; intros l' c' H' L.
  - destruct H' as [|k e c' H' N']; [auto|]. rewrite app_length in L. cbn in L. lia.
  - destruct H' as [|k e c' H' N']; [rewrite app_length in L; cbn in L; lia|].
    rewrite !app_length in L. cbn in L. destruct (IH k e H' ltac:(lia)) as [-> ->]. rewrite N in N'. injection N' as <-. auto.
Qed.
(* all the ops include every delivered one *)
Lemma ops_complete frame l c : ops_of frame l -> delivered frame c -> In c l.
Proof.
  intros (e & d & R & St) (k & D).
  destruct (Nat.le_gt_cases (length (k ++ [c])) (length l)) as [L|L].
  - rewrite <- (firstn_skipn (length (k ++ [c])) l) in R. destruct (run_to_split _ _ _ _ R) as (c1 & R1 & _).
    destruct (run_to_det _ _ _ R1 _ _ D) as [E _]; [rewrite firstn_length; lia|].
    rewrite <- (firstn_skipn (length (k ++ [c])) l), E. rewrite !in_app_iff. left. right. left. reflexivity.
  - exfalso. rewrite <- (firstn_skipn (length l) (k ++ [c])) in D. destruct (run_to_split _ _ _ _ D) as (c1 & R1 & R2).
    destruct (run_to_det _ _ _ R1 _ _ R) as [E ->]; [rewrite firstn_length; lia|].
    destruct (skipn (length l) (k ++ [c])) as [|x r] eqn:Sk.
    { apply (f_equal (@length cursor)) in Sk. rewrite skipn_length in Sk. cbn in Sk. lia. }
    change (x :: r) with ([x] ++ r) in R2. destruct (run_to_split _ _ _ _ R2) as (c2 & R3 & _).
    inversion R3 as [|l0 c0 c' H N E1 E2]; subst. destruct l0 as [|y l0]; [|destruct l0; discriminate].
    inversion H as [K|k1 k2 k3 G1 G2 K]; [|destruct k1; discriminate]. subst. destruct St as [St|St]; congruence.
Qed.
Lemma ops_delivered frame l c : ops_of frame l -> In c l -> delivered frame c.
Proof.
  intros (e & d & R & _) I. apply in_split in I as (l1 & l2 & ->). change (l1 ++ c :: l2) with (l1 ++ [c] ++ l2) in R.
  rewrite app_assoc in R. destruct (run_to_split _ _ _ _ R) as (c1 & R1 & _).
  pose proof (run_to_last _ _ _ _ R1) as ->. exists l1. exact R1.
Qed.

(* c is left behind with the ops l, c itself first; c' is the current one; not
   valid: the frame is over *)
Inductive passes (c : cursor) : list cursor -> cursor -> Prop :=
| pass0 : passes c [] c
| pass1 l d c' : passes c l d -> valid d = true -> next d = NOk c' \/ next d = NEnd c' \/ next d = NBad c' -> passes c (l ++ [d]) c'.
Lemma passes_app c l1 d l2 e : passes c l1 d -> passes d l2 e -> passes c (l1 ++ l2) e.
Proof.
  intros H1 H2. induction H2 as [|l x y H IH V N]; [rewrite app_nil_r; exact H1|].
  rewrite app_assoc. eapply pass1; eassumption.
Qed.
Lemma passes_one c c' : valid c = true -> next_any c = Done c' -> passes c [c] c'.
Proof. intros V H. apply (pass1 c [] c c'); [constructor|exact V|apply next_any_inv; exact H]. Qed.
Lemma passes_ok c c' : valid c = true -> next c = NOk c' -> passes c [c] c'.
Proof. intros V H. apply passes_one; [exact V|]. unfold next_any. rewrite H. reflexivity. Qed.
(* the ops left behind, with the frame's beginning *)
Lemma passes_run frame c l d : next (cursor_of frame) = NOk c -> passes c l d ->
  if valid d then run_to (cursor_of frame) (l ++ [d]) d
  else exists e, run_to (cursor_of frame) l e /\ (next e = NEnd d \/ next e = NBad d).
Proof.
  intros N0 H. assert (V0 : valid c = true) by (eapply next_valid; [exact N0|left; reflexivity]).
  induction H as [|l d e H IH V N].
  - rewrite V0. apply run_to_one. exact N0.
  - rewrite V in IH. destruct N as [N|N].
    + rewrite (next_valid _ _ N (or_intror V)). eapply run_next; eassumption.
    + rewrite (next_stop _ _ N). exists d. split; assumption.
Qed.
Lemma passes_head c l d x : passes c l d -> In x l -> valid x = true.
Proof.
  induction 1 as [|l d e H IH V N]; intro I; [destruct I|]. apply in_app_iff in I as [I|[<-|[]]]; auto.
Qed.

(* ---- small things ---- *)
(* sublists *)
Lemma subl_refl {T} (l : list T) : subl l l. Proof. induction l; constructor; assumption. Qed.
Lemma subl_nil {T} (l : list T) : subl [] l. Proof. induction l; constructor; assumption. Qed.
Lemma subl_app {T} (a b c d : list T) : subl a b -> subl c d -> subl (a ++ c) (b ++ d).
Proof. intros H K. induction H; cbn [app]; [exact K|constructor; assumption..]. Qed.
Lemma subl_trans {T} (b c : list T) : subl b c -> forall a, subl a b -> subl a c.
Proof.
  induction 1 as [|x b c H IH|x b c H IH]; intros a K; [exact K|constructor; apply IH; exact K|].
  inversion K as [|y a' b' K'|y a' b' K']; subst; constructor; apply IH; exact K'.
Qed.
Lemma subl_right {T} (a b : list T) : subl b (a ++ b).
Proof. apply (subl_app [] a b b); [apply subl_nil|apply subl_refl]. Qed.
Lemma subl_left {T} (a b : list T) : subl a (a ++ b).
Proof. rewrite <- (app_nil_r a) at 1. apply subl_app; [apply subl_refl|apply subl_nil]. Qed.
Lemma subl_in {T} (a b : list T) x : subl a b -> In x a -> In x b.
Proof. induction 1; cbn [In]; intuition. Qed.
Lemma twice_app {T} (a b : list T) : twice (a ++ b) = twice a ++ twice b. Proof. apply flat_map_app. Qed.
Lemma twice_in {T} (l : list T) x : In x (twice l) <-> In x l.
Proof. induction l as [|y l IH]; [reflexivity|]. cbn [twice flat_map app In]. unfold twice in IH. tauto. Qed.
Lemma once_twice {T} (l : list T) : subl l (twice l).
Proof. induction l; cbn [twice flat_map app]; [constructor|]. apply subl_take, subl_skip. assumption. Qed.
Lemma subl_length {T} (a b : list T) : subl a b -> (length a <= length b)%nat.
Proof. induction 1; cbn [length]; lia. Qed.
Definition pend (c : cursor) : list cursor := if valid c then [c] else [].
Lemma passes_first c l d : passes c l d -> (l = [] /\ d = c) \/ exists l', l = c :: l'.
Proof.
  induction 1 as [|l x y P IH V N]; [left; auto|right]. destruct IH as [[-> ->]|(l' & ->)]; [exists []; reflexivity|]. exists (l' ++ [x]). reflexivity.
Qed.
Lemma is_ok_iff s : is_ok s = true <-> s = ROk. Proof. destruct s; cbn; split; congruence. Qed.
Lemma is_ok_not s : is_ok s = false -> s <> ROk. Proof. destruct s; cbn; congruence. Qed.
Lemma linked_snoc c l d : linked c l -> uorigin (text_id d) = uorigin (text_id c) ->
  uuid_ltb (text_id (last l c)) (text_id d) = true -> text_ref d = text_id (last l c) -> linked c (l ++ [d]).
Proof.
  revert c. induction l as [|x l IH]; intros c H O L R; cbn [app linked last] in *; [auto|].
  destruct H as (H1 & H2 & H3 & H4). split; [exact H1|]. split; [exact H2|]. split; [exact H3|].
  assert (E : last l x = match l with [] => x | _ => last l c end).
  { clear. destruct l as [|y l]; [reflexivity|]. revert y. induction l as [|z l IH]; intro y; [reflexivity|apply (IH z)]. }
  apply IH; [exact H4|congruence| |]; rewrite E; destruct l; assumption.
Qed.
Lemma last_snoc {T} (l : list T) x d : last (l ++ [x]) d = x. Proof. induction l as [|a l IH]; [reflexivity|]. cbn. destruct (l ++ [x]) eqn:E; [destruct l; discriminate|exact IH]. Qed.
Lemma linked_origin c l : linked c l -> uorigin (text_id (last l c)) = uorigin (text_id c).
Proof.
  revert c. induction l as [|d l IH]; intros c H; [reflexivity|]. destruct H as (H1 & H2 & H3 & H4).
  rewrite <- H1, <- (IH d H4). f_equal. f_equal. clear. destruct l as [|y l]; [reflexivity|]. cbn [last].
  revert y. induction l as [|z l IH]; intro y; [reflexivity|apply (IH z)].
Qed.
Lemma version_origin a b : uorigin a = uorigin b -> version a = version b.
Proof. unfold version. intros ->. reflexivity. Qed.

Section Replica.
Variable sha : bytes -> bytes.
Variable fbits : bytes -> N.
Variable S : Type.
Notation mem := (list (key * bytes)).
Variable jread : S -> mem -> key -> res (S * mem * bytes * rstatus).
Variable jprev : S -> mem -> key -> res (bytes * rstatus).
Variable mwrite : S -> key -> bytes -> res (S * rstatus).
Variable mbatch : S -> mem -> res (S * rstatus).
Variable active : N.
Variable fuel : nat.
Notation cst := (cst S).
Notation s_main := (s_main S).
Notation s_mem := (s_mem S).
Notation s_base := (s_base S).
Notation s_tip := (s_tip S).
Notation acts := (acts S jread mwrite).
Notation find_head := (find_head S jprev).
Notation find_op := (find_op sha fbits S jread jprev fuel).
Notation find_tip := (find_tip sha fbits S jread jprev fuel).
Notation record_before := (record_before S jprev).
Notation log_is := (log_is S jread).
Notation known := (known S jread jprev).
Notation yarn_tip := (yarn_tip S jread jprev).
Notation no_tip := (no_tip S jread jprev).
Notation admitted := (admitted S jread jprev mwrite).

Lemma acts_app x ws y ws' z : acts x ws y -> acts y ws' z -> acts x (ws ++ ws') z.
Proof.
  intros H1 H2. induction H2; rewrite ?app_nil_r, ?app_assoc; [exact H1|econstructor; eassumption..].
Qed.
Definition moved (st : cst) (ws : list act) (st' : cst) : Prop :=
  acts (s_main st, s_mem st) ws (s_main st', s_mem st') /\ s_base st' = s_base st.
Lemma moved_refl st : moved st [] st. Proof. split; [constructor|reflexivity]. Qed.
Lemma moved_app st ws st1 ws' st2 : moved st ws st1 -> moved st1 ws' st2 -> moved st (ws ++ ws') st2.
Proof. intros [H1 E1] [H2 E2]. split; [eapply acts_app; eassumption|congruence]. Qed.
Lemma moved_same st st' : s_main st' = s_main st -> s_mem st' = s_mem st -> s_base st' = s_base st -> moved st [] st'.
Proof. intros E1 E2 E3. split; [rewrite E1, E2; constructor|exact E3]. Qed.

Lemma jread_step_inv st k st' f s : jread_step S jread st k = Done (st', f, s) ->
  moved st [] st' /\ (s_tip st', s_now S st') = (s_tip st, s_now S st) /\ jread (s_main st) (s_mem st) k = Done (s_main st', s_mem st', f, s).
Proof.
  unfold jread_step. intro H. destruct (jread (s_main st) (s_mem st) k) as [[[[m w] f0] s0]| |] eqn:E; try discriminate.
  cbn [rbind] in H. injection H as <- <- <-. cbn. split; [|split; [reflexivity|reflexivity]].
  split; [|reflexivity]. cbn. eapply acts_read; [constructor|exact E].
Qed.

Lemma meta_next_inv m c refd m' : meta_next sha fbits m c refd = Done m' ->
  m_id m' = text_id c /\ m_rdt m' = m_rdt refd /\ m_obj m' = m_obj refd /\
  uorigin (text_id c) = uorigin (m_id m) /\ uuid_ltb (m_id m) (text_id c) = true.
Proof.
  unfold meta_next. destruct (uorigin (text_id c) =? uorigin (m_id m)) eqn:E1; [|discriminate].
  unfold uuid_gtb. destruct (uuid_ltb (m_id m) (text_id c)) eqn:E2; [|discriminate]. cbn [andb negb].
  destruct (op_hash sha fbits c (m_hash m) (m_hash refd)) as [h| |]; cbn [rbind]; try discriminate.
  intro H. injection H as <-. cbn. apply N.eqb_eq in E1. auto.
Qed.
Lemma meta_root_inv c p m : meta_root sha fbits c p = Done m ->
  m_id m = text_id c /\ m_rdt m = text_ref c /\ m_obj m = text_id c.
Proof.
  unfold meta_root. destruct (version (text_id c) =? TIME); [|discriminate]. destruct (version (text_ref c) =? NAME); [|discriminate].
  cbn [negb]. destruct (op_hash sha fbits c (m_hash p) (sha_uuid sha (text_ref c))) as [h| |]; cbn [rbind]; try discriminate.
  intro H. injection H as <-. auto.
Qed.

Lemma find_head_ok st id m : find_head st id = Done (m, ROk) ->
  record_before (s_main st) (s_mem st) id (m_id m) (m_obj m) (m_rdt m).
Proof.
  unfold find_head. destruct (jprev (s_main st) (s_mem st) (key_as id META_FORM_UUID)) as [[f s]| |] eqn:J; try discriminate.
  cbn [rbind]. destruct (is_ok s) eqn:Es; cbn [negb]; [|intro H; injection H as _ ->; discriminate].
  apply is_ok_iff in Es. subst s. destruct (next (cursor_of f)) as [c|c|c|] eqn:N; try discriminate.
  destruct (uorigin (text_id c) =? uorigin id) eqn:Eo; cbn [negb orb]; [|discriminate].
  destruct (uuid_eqb (text_ref c) META_FORM_UUID) eqn:Er; cbn [negb orb]; [|discriminate].
  unfold meta_load. rewrite Er. cbn [negb]. apply N.eqb_eq in Eo. apply uuid_eqb_eq in Er.
  destruct (uuid_at c 2) as [obj|] eqn:U2; [|discriminate]. destruct (uuid_at c 3) as [rdt|] eqn:U3; [|discriminate].
  intro H. injection H as <-. cbn. exists f, c. repeat (split; [assumption || reflexivity|]). exact U3.
Qed.
Lemma find_head_missing st id m : find_head st id = Done (m, RNotFound) ->
  (exists f, jprev (s_main st) (s_mem st) (key_as id META_FORM_UUID) = Done (f, RNotFound)) \/
  (exists f c, jprev (s_main st) (s_mem st) (key_as id META_FORM_UUID) = Done (f, ROk) /\
     next (cursor_of f) = NOk c /\ (uorigin (text_id c) <> uorigin id \/ text_ref c <> META_FORM_UUID)).
Proof.
  unfold find_head. destruct (jprev (s_main st) (s_mem st) (key_as id META_FORM_UUID)) as [[f s]| |] eqn:J; try discriminate.
  cbn [rbind]. destruct (is_ok s) eqn:Es; cbn [negb].
  2:{ intro H. injection H as _ ->. left. exists f. reflexivity. }
  apply is_ok_iff in Es. subst s. destruct (next (cursor_of f)) as [c|c|c|] eqn:N; try discriminate.
  destruct (uorigin (text_id c) =? uorigin id) eqn:Eo; cbn [negb orb].
  2:{ intros _. right. exists f, c. apply N.eqb_neq in Eo. auto. }
  destruct (uuid_eqb (text_ref c) META_FORM_UUID) eqn:Er; cbn [negb orb].
  2:{ intros _. right. exists f, c. split; [reflexivity|]. split; [exact N|]. right. intro K. apply uuid_eqb_eq in K. congruence. }
  unfold meta_load. rewrite Er. cbn [negb]. destruct (uuid_at c 2); [destruct (uuid_at c 3)|]; discriminate.
Qed.

(* seeking the head of a chain in a log *)
Lemma seek_id_inv log n id : forall l c c', run_to (cursor_of log) (l ++ [c]) c -> valid c = true ->
  Forall (fun x => text_id x <> id) l ->
  seek_id n id c = Done c' ->
  (valid c' = true /\ text_id c' = id /\ exists l', run_to (cursor_of log) (l' ++ [c']) c') \/
  (valid c' = false /\ forall x, delivered log x -> text_id x <> id).
Proof.
  induction n as [|n IH]; intros l c c' R V F H; [discriminate|]. cbn [seek_id] in H. rewrite V in H. cbn [andb] in H.
  destruct (uuid_eqb (text_id c) id) eqn:E; cbn [negb] in H.
  { injection H as <-. left. apply uuid_eqb_eq in E. split; [exact V|]. split; [exact E|]. exists l. exact R. }
  assert (NE : text_id c <> id) by (intro K; apply uuid_eqb_eq in K; congruence).
  destruct (next_any c) as [d| |] eqn:N; cbn [rbind] in H; try discriminate. apply next_any_inv in N as [N|N].
  - apply (IH (l ++ [c]) d c'); [econstructor; eassumption|exact (next_valid _ _ N (or_intror V))| |exact H].
    apply Forall_app. auto.
  - pose proof (next_stop _ _ N) as W. destruct n as [|n]; [discriminate|]. cbn [seek_id] in H. rewrite W in H. cbn [andb] in H.
    injection H as <-. right. split; [exact W|]. intros x D.
    assert (O : ops_of log (l ++ [c])) by (exists c, d; auto). pose proof (ops_complete _ _ _ O D) as I.
    apply in_app_iff in I as [I|[<-|[]]]; [|exact NE]. rewrite Forall_forall in F. auto.
Qed.

(* following a chain in a log *)
Lemma follow_inv log head id n : forall l1 ch l2 c m m' v s,
  uorigin head = uorigin id -> text_id ch = head ->
  run_to (cursor_of log) (l1 ++ ch :: l2) c -> valid c = true ->
  linked ch (filter (same_yarn head) l2) -> m_id m = text_id (last (filter (same_yarn head) l2) ch) ->
  follow sha fbits n m id c = Done (m', v, s) ->
  m_obj m' = m_obj m /\ m_rdt m' = m_rdt m /\
  ((s = ROk /\ v = true /\ m_id m' = id /\ exists l d, run_to (cursor_of log) l d /\ leads l head id) \/
   (s = ROk /\ v = false /\ exists l, ops_of log l /\ leads l head (m_id m')) \/
   (s = RNotFound /\ exists l d e, run_to (cursor_of log) (l ++ [d]) d /\ leads l head e /\
      uorigin (text_id d) = uorigin id /\ text_ref d <> e)).
Proof.
  induction n as [|n IH]; intros l1 ch l2 c m m' v s Ho Hh R V L E H; [discriminate|]. cbn [follow] in H.
  destruct (next c) as [d|d|d|] eqn:N; try discriminate.
  - assert (R' : run_to (cursor_of log) (l1 ++ ch :: (l2 ++ [d])) d).
    { change (ch :: l2 ++ [d]) with ((ch :: l2) ++ [d]). rewrite app_assoc. econstructor; eassumption. }
    pose proof (next_valid _ _ N (or_intror V)) as Vd.
    destruct (uorigin (text_id d) =? uorigin id) eqn:Eo; cbn [negb] in H.
    2:{ assert (Fl : filter (same_yarn head) (l2 ++ [d]) = filter (same_yarn head) l2).
        { rewrite filter_app. cbn [filter]. unfold same_yarn at 2. rewrite Ho, Eo. apply app_nil_r. }
        apply (IH l1 ch (l2 ++ [d]) d m m' v s); try assumption; rewrite Fl; assumption. }
    assert (Fl : filter (same_yarn head) (l2 ++ [d]) = filter (same_yarn head) l2 ++ [d]).
    { rewrite filter_app. cbn [filter]. unfold same_yarn at 2. rewrite Ho, Eo. reflexivity. }
    apply N.eqb_eq in Eo.
    destruct (uuid_eqb (text_ref d) (m_id m)) eqn:Er; cbn [negb] in H.
    2:{ injection H as <- <- <-. split; [reflexivity|]. split; [reflexivity|]. right. right. split; [reflexivity|].
        exists (l1 ++ ch :: l2), d, (m_id m). split; [rewrite <- app_assoc; exact R'|]. split.
        - exists l1, ch, l2. auto.
        - split; [exact Eo|]. intro K. apply uuid_eqb_eq in K. congruence. }
    apply uuid_eqb_eq in Er. destruct (meta_next sha fbits m d m) as [m1| |] eqn:M; cbn [rbind] in H; try discriminate.
    destruct (meta_next_inv _ _ _ _ M) as (M1 & M2 & M3 & M4 & M5).
    assert (L' : linked ch (filter (same_yarn head) (l2 ++ [d]))).
    { rewrite Fl. apply linked_snoc; [exact L| | |].
      - rewrite M4, E. apply linked_origin. exact L.
      - rewrite <- E. exact M5.
      - rewrite <- E. exact Er. }
    assert (E' : m_id m1 = text_id (last (filter (same_yarn head) (l2 ++ [d])) ch)) by (rewrite Fl, last_snoc; exact M1).
    destruct (uuid_eqb (m_id m1) id) eqn:Ei.
    + injection H as <- <- <-. apply uuid_eqb_eq in Ei. split; [exact M3|]. split; [exact M2|]. left. split; [reflexivity|].
      split; [exact Vd|]. split; [exact Ei|]. exists (l1 ++ ch :: l2 ++ [d]), d. split; [exact R'|].
      exists l1, ch, (l2 ++ [d]). split; [reflexivity|]. split; [exact Hh|]. split; [exact L'|congruence].
    + destruct (IH l1 ch (l2 ++ [d]) d m1 m' v s Ho Hh R' Vd L' E' H) as (I1 & I2 & I3).
      split; [congruence|]. split; [congruence|]. exact I3.
  - injection H as <- <- <-. split; [reflexivity|]. split; [reflexivity|]. right. left. split; [reflexivity|].
    split; [apply (next_stop c); auto|]. exists (l1 ++ ch :: l2). split; [exists c, d; auto|]. exists l1, ch, l2. auto.
  - injection H as <- <- <-. split; [reflexivity|]. split; [reflexivity|]. right. left. split; [reflexivity|].
    split; [apply (next_stop c); auto|]. exists (l1 ++ ch :: l2). split; [exists c, d; auto|]. exists l1, ch, l2. auto.
Qed.

(* finding the metadata of an event *)
Lemma find_op_inv st id st' m s : find_op st id = Done (st', m, s) ->
  moved st [] st' /\ (s_tip st', s_now S st') = (s_tip st, s_now S st) /\
  (s = ROk -> exists head, record_before (s_main st) (s_mem st) id head (m_obj m) (m_rdt m) /\
     ((m_id m = id /\ (id = head \/ exists log l c, log_is (s_main st) (s_mem st) (m_obj m) log ROk /\
                                       run_to (cursor_of log) l c /\ leads l head id)) \/
      (uvalue id = NEVER_W /\ exists log l, log_is (s_main st) (s_mem st) (m_obj m) log ROk /\ ops_of log l /\ leads l head (m_id m)))) /\
  (s = RNotFound -> uvalue id = NEVER_W ->
     find_head st id = Done (m, RNotFound) \/
     exists head obj rdt log, record_before (s_main st) (s_mem st) id head obj rdt /\
       (log_is (s_main st) (s_mem st) obj log RNotFound \/
        log_is (s_main st) (s_mem st) obj log ROk /\ (forall c, delivered log c -> text_id c <> head) \/
        log_is (s_main st) (s_mem st) obj log ROk /\ exists l c e, run_to (cursor_of log) (l ++ [c]) c /\ leads l head e /\
          uorigin (text_id c) = uorigin id /\ text_ref c <> e)).
Proof.
  unfold find_op. destruct (find_head st id) as [[m0 s0]| |] eqn:FH; try discriminate. cbn [rbind].
  destruct (is_ok s0) eqn:E0; cbn [negb].
  2:{ intro H. injection H as <- <- <-. apply is_ok_not in E0. split; [apply moved_refl|]. split; [reflexivity|].
      split; [congruence|]. intros -> _. left. reflexivity. }
  apply is_ok_iff in E0. subst s0. pose proof (find_head_ok _ _ _ FH) as RB.
  destruct (uuid_eqb (m_id m0) id) eqn:Ei.
  { intro H. injection H as <- <- <-. apply uuid_eqb_eq in Ei. split; [apply moved_refl|]. split; [reflexivity|].
    split; [|congruence]. intros _. exists (m_id m0). split; [exact RB|]. left. auto. }
  destruct (jread_step S jread st (key_of (m_obj m0) LOG_RAW_FORM)) as [[[st1 log] s1]| |] eqn:JR; try discriminate. cbn [rbind].
  destruct (jread_step_inv _ _ _ _ _ JR) as (MV & TP & JQ).
  destruct (is_ok s1) eqn:E1; cbn [negb].
  2:{ intro H. injection H as <- <- <-. apply is_ok_not in E1. split; [exact MV|]. split; [exact TP|]. split; [congruence|].
      intros -> _. right. exists (m_id m0), (m_obj m0), (m_rdt m0), log. split; [exact RB|]. left. eexists _, _. exact JQ. }
  apply is_ok_iff in E1. subst s1.
  assert (LI : log_is (s_main st) (s_mem st) (m_obj m0) log ROk) by (eexists _, _; exact JQ).
  destruct (next_any (cursor_of log)) as [c0| |] eqn:N0; cbn [rbind]; try discriminate.
  destruct (seek_id fuel (m_id m0) c0) as [c| |] eqn:SK; cbn [rbind]; try discriminate.
  destruct (next_any_inv _ _ N0) as [NX|NX].
  2:{ (* an empty log *)
      assert (V0 : valid c0 = false) by (eapply next_stop; exact NX).
      assert (Ec : c = c0) by (destruct fuel; [discriminate|]; cbn [seek_id] in SK; rewrite V0 in SK; cbn [andb] in SK; congruence).
      subst c. rewrite V0. cbn [negb]. intro H. injection H as <- <- <-. split; [exact MV|]. split; [exact TP|]. split; [congruence|].
      intros _ _. right. exists (m_id m0), (m_obj m0), (m_rdt m0), log. split; [exact RB|]. right. left. split; [exact LI|].
      intros x D. exfalso. assert (O : ops_of log []) by (exists (cursor_of log), c0; split; [constructor|exact NX]).
      exact (ops_complete _ _ _ O D). }
  assert (V0 : valid c0 = true) by (eapply next_valid; [exact NX|left; reflexivity]).
  pose proof (seek_id_inv log fuel (m_id m0) [] c0 c (run_to_one _ _ NX) V0 (Forall_nil _) SK) as [(V & Eid & l' & R)|(V & D)].
  2:{ rewrite V. cbn [negb]. intro H. injection H as <- <- <-. split; [exact MV|]. split; [exact TP|]. split; [congruence|].
      intros _ _. right. exists (m_id m0), (m_obj m0), (m_rdt m0), log. split; [exact RB|]. right. left. auto. }
  rewrite V. cbn [negb]. destruct (follow sha fbits fuel m0 id c) as [[[m' v] s']| |] eqn:FO; cbn [rbind]; try discriminate.
  assert (Ho : uorigin (m_id m0) = uorigin id) by (destruct RB as (? & ? & RB); intuition congruence).
  destruct (follow_inv log (m_id m0) id fuel l' c [] c m0 m' v s' Ho Eid R V I) as (O1 & O2 & O3); [symmetry; exact Eid|exact FO|].
  rewrite <- O1, <- O2 in RB. rewrite <- O1 in LI. intro H.
  destruct O3 as [(-> & -> & F3 & l & d & F4 & F5)|[(-> & -> & l & F3 & F4)|(-> & l & d & e & F3 & F4 & F5 & F6)]]; cbn [is_ok negb] in H.
  - injection H as <- <- <-. split; [exact MV|]. split; [exact TP|]. split; [|congruence].
    intros _. exists (m_id m0). split; [exact RB|]. left. split; [exact F3|]. right. exists log, l, d. auto.
  - destruct (uvalue id =? NEVER_W) eqn:EN.
    + apply N.eqb_eq in EN. injection H as <- <- <-. split; [exact MV|]. split; [exact TP|]. split; [|congruence]. intros _.
      exists (m_id m0). split; [exact RB|]. right. split; [exact EN|]. exists log, l. auto.
    + apply N.eqb_neq in EN. injection H as <- <- <-. split; [exact MV|]. split; [exact TP|]. split; [congruence|]. intros _ K. contradiction.
  - injection H as <- <- <-. split; [exact MV|]. split; [exact TP|]. split; [congruence|]. intros _ _. right.
    exists (m_id m0), (m_obj m'), (m_rdt m'), log. split; [exact RB|]. right. right. split; [exact LI|]. exists l, d, e. auto.
Qed.

(* ---- accepting a chain ---- *)
Lemma sanity_inv c : check_sanity c = ROk ->
  version (text_id c) = TIME /\ (version (text_ref c) = TIME -> uuid_ltb (text_ref c) (text_id c) = true) /\
  (version (text_ref c) = TIME \/ version (text_ref c) = NAME /\ uuid2form (text_ref c) <> ZERO_RAW_FORM).
Proof.
  unfold check_sanity. destruct (version (text_id c) =? TIME) eqn:E1; cbn [negb]; [|discriminate]. apply N.eqb_eq in E1.
  destruct (version (text_ref c) =? TIME) eqn:E2.
  - apply N.eqb_eq in E2. destruct (uuid_ltb (text_ref c) (text_id c)); cbn [negb]; [|discriminate]. auto.
  - apply N.eqb_neq in E2. destruct (version (text_ref c) =? NAME) eqn:E3; cbn [negb]; [|discriminate]. apply N.eqb_eq in E3.
    destruct (uuid2form (text_ref c) =? ZERO_RAW_FORM) eqn:E4; [discriminate|]. apply N.eqb_neq in E4.
    intros _. split; [exact E1|]. split; [contradiction|]. right. auto.
Qed.
Lemma sanity_ref c : check_sanity c = ROk -> uuid_eqb (text_ref c) (text_id c) = false.
Proof.
  intro H. destruct (sanity_inv c H) as (H1 & H2 & H3). destruct (uuid_eqb (text_ref c) (text_id c)) eqn:E; [|reflexivity].
  apply uuid_eqb_eq in E. destruct H3 as [K|[K _]].
  - specialize (H2 K). rewrite E, uuid_ltb_irrefl in H2. discriminate.
  - rewrite E, H1 in K. discriminate.
Qed.

Notation chainlet := (chainlet sha fbits).
Lemma chainlet_inv n : forall base tip m acc c t m' acc' c' s, valid c = true ->
  chainlet n base tip m acc c = Done (t, m', acc', c', s) ->
  exists rest l, acc' = rev rest ++ acc /\ passes c l c' /\ m_obj m' = m_obj m /\ m_rdt m' = m_rdt m /\
    (forall ch pre, linked ch pre -> m_id m = text_id (last pre ch) ->
       linked ch (pre ++ rest) /\ m_id m' = text_id (last (pre ++ rest) ch)) /\
    Forall (fun d => d = c \/ In d rest \/ ~ stamped d) l /\
    Forall (fun d => In d l \/ (d = c' /\ valid c' = true)) rest /\ In c l /\ subl (c :: rest) (l ++ pend c').
Proof.
  induction n as [|n IH]; intros base tip m acc c t m' acc' c' s V H; [discriminate|]. cbn [ReplicaModel.chainlet] in H.
  assert (STOP : forall d, next c = NOk d \/ next c = NEnd d \/ next c = NBad d -> passes c [c] d).
  { intros d Hd. apply (pass1 c [] c d); [constructor|exact V|exact Hd]. }
  assert (LAST : forall d, next c = NOk d \/ next c = NEnd d \/ next c = NBad d ->
    exists rest l, acc = rev rest ++ acc /\ passes c l d /\ m_obj m = m_obj m /\ m_rdt m = m_rdt m /\
    (forall ch pre, linked ch pre -> m_id m = text_id (last pre ch) ->
       linked ch (pre ++ rest) /\ m_id m = text_id (last (pre ++ rest) ch)) /\
    Forall (fun x => x = c \/ In x rest \/ ~ stamped x) l /\ Forall (fun x => In x l \/ (x = d /\ valid d = true)) rest /\ In c l /\ subl (c :: rest) (l ++ pend d)).
  { intros d Hd. exists [], [c]. split; [reflexivity|]. split; [apply STOP; exact Hd|]. split; [reflexivity|]. split; [reflexivity|].
    split; [intros ch pre; rewrite app_nil_r; auto|]. split; [|split; [constructor|split; [left; reflexivity|]]]; [|apply subl_left]. constructor; [left; reflexivity|constructor]. }
  destruct (next c) as [d|d|d|] eqn:N; try discriminate.
  2:{ injection H as <- <- <- <- <-. apply LAST. auto. }
  2:{ injection H as <- <- <- <- <-. apply LAST. auto. }
  pose proof (next_valid _ _ N (or_intror V)) as Vd.
  (* ops that are skipped *)
  assert (SKIP : ~ stamped d -> chainlet n base tip m acc d = Done (t, m', acc', c', s) ->
    exists rest l, acc' = rev rest ++ acc /\ passes c l c' /\ m_obj m' = m_obj m /\ m_rdt m' = m_rdt m /\
    (forall ch pre, linked ch pre -> m_id m = text_id (last pre ch) ->
       linked ch (pre ++ rest) /\ m_id m' = text_id (last (pre ++ rest) ch)) /\
    Forall (fun x => x = c \/ In x rest \/ ~ stamped x) l /\ Forall (fun x => In x l \/ (x = c' /\ valid c' = true)) rest /\ In c l /\ subl (c :: rest) (l ++ pend c')).
  { intros NS K. destruct (IH _ _ _ _ _ _ _ _ _ _ Vd K) as (rest & l & I1 & I2 & I3 & I4 & I5 & I6 & I7 & I8 & I9).
    exists rest, ([c] ++ l). split; [exact I1|]. split; [eapply passes_app; [apply STOP; left; reflexivity|exact I2]|].
    split; [exact I3|]. split; [exact I4|]. split; [exact I5|]. split; [|split; [|split; [left; reflexivity|]]].
    3: cbn [app]; apply subl_take; eapply subl_trans; [exact I9|]; apply subl_skip, subl_refl.
    - apply Forall_app. split; [constructor; [left; reflexivity|constructor]|].
      eapply Forall_impl; [|exact I6]. intros x [-> |[X|X]]; auto.
    - eapply Forall_impl; [|exact I7]. intros x [X|X]; [left; apply in_app_iff; right; exact X|right; exact X]. }
  destruct (uuid_eqb (text_id d) COMMENT) eqn:EC.
  { apply SKIP; [|exact H]. apply uuid_eqb_eq in EC. intros [X _]. rewrite EC in X. vm_compute in X. discriminate. }
  destruct (meta_is_next m d) eqn:EN.
  2:{ destruct (meta_is_check m d) eqn:EK.
      - destruct (meta_check d); [apply SKIP; [|exact H]|injection H as <- <- <- <- <-; apply LAST; auto..].
        unfold meta_is_check in EK. apply andb_true_iff in EK as [EK _]. apply N.eqb_eq in EK. intros [X _]. rewrite EK in X. discriminate.
      - injection H as <- <- <- <- <-. apply LAST. auto. }
  destruct (check_sanity d) eqn:ES; try (injection H as <- <- <- <- <-; apply LAST; auto).
  destruct (meta_next sha fbits m d m) as [m1| |] eqn:M; cbn [rbind] in H; try discriminate.
  destruct (meta_next_inv _ _ _ _ M) as (M1 & M2 & M3 & M4 & M5).
  unfold meta_is_next in EN. repeat rewrite andb_true_iff in EN. destruct EN as [[_ _] ER]. apply uuid_eqb_eq in ER.
  assert (LK : forall ch pre, linked ch pre -> m_id m = text_id (last pre ch) ->
    linked ch (pre ++ [d]) /\ m_id m1 = text_id (last (pre ++ [d]) ch)).
  { intros ch pre L E. split; [|rewrite last_snoc; exact M1]. apply linked_snoc; [exact L| | |].
    - rewrite M4, E. apply linked_origin. exact L.
    - rewrite <- E. exact M5.
    - rewrite <- E. exact ER. }
  assert (GO : forall tip', chainlet n base tip' m1 (d :: acc) d = Done (t, m', acc', c', s) ->
    exists rest l, acc' = rev rest ++ acc /\ passes c l c' /\ m_obj m' = m_obj m /\ m_rdt m' = m_rdt m /\
    (forall ch pre, linked ch pre -> m_id m = text_id (last pre ch) ->
       linked ch (pre ++ rest) /\ m_id m' = text_id (last (pre ++ rest) ch)) /\
    Forall (fun x => x = c \/ In x rest \/ ~ stamped x) l /\ Forall (fun x => In x l \/ (x = c' /\ valid c' = true)) rest /\ In c l /\ subl (c :: rest) (l ++ pend c')).
  { intros tip' K. destruct (IH _ _ _ _ _ _ _ _ _ _ Vd K) as (rest & l & I1 & I2 & I3 & I4 & I5 & I6 & I7 & I8 & I9).
    exists (d :: rest), ([c] ++ l). split; [cbn [rev]; rewrite <- app_assoc; exact I1|].
    split; [eapply passes_app; [apply STOP; left; reflexivity|exact I2]|].
    split; [congruence|]. split; [congruence|]. split; [|split; [|split; [|split; [left; reflexivity|cbn [app]; apply subl_take; exact I9]]]].
    - intros ch pre L E. destruct (LK ch pre L E) as [L1 E1]. destruct (I5 ch (pre ++ [d]) L1 E1) as [L2 E2].
      rewrite <- app_assoc in L2, E2. auto.
    - apply Forall_app. split; [constructor; [left; reflexivity|constructor]|].
      eapply Forall_impl; [|exact I6]. intros x [-> |[X|X]]; cbn [In]; auto.
    - assert (Hd : In d l \/ (d = c' /\ valid c' = true)).
      { clear -I2 Vd. remember d as d0 eqn:Ed in I2. revert Ed. induction I2 as [|l x y P IHP Vx Nx]; intros ->.
        - right. auto.
        - left. apply in_app_iff. destruct (IHP eq_refl) as [X|[X _]]; [left; exact X|right; left; symmetry; exact X]. }
      constructor; [destruct Hd as [X|X]; [left; apply in_app_iff; right; exact X|right; exact X]|].
      eapply Forall_impl; [|exact I7]. intros x [X|X]; [left; apply in_app_iff; right; exact X|right; exact X]. }
  destruct (uorigin (text_id d) =? uorigin base); [|apply (GO tip); exact H].
  destruct (uuid_ltb tip (text_id d)); cbn [negb] in H; [apply (GO (text_id d)); exact H|].
  injection H as <- <- <- <- <-. exists [d], [c]. split; [reflexivity|]. split; [apply STOP; left; reflexivity|].
  split; [exact M3|]. split; [exact M2|]. split; [exact LK|]. split; [constructor; [left; reflexivity|constructor]|].
  split; [|split; [left; reflexivity|unfold pend; rewrite Vd; apply subl_refl]]. constructor; [right; auto|constructor].
Qed.

Notation head_meta := (head_meta sha fbits S jread jprev fuel).
Definition grounds (m : S) (w : mem) (c : cursor) (obj rdt : uuid) : Prop :=
  let ref := text_ref c in
  let origin := uorigin (text_id c) in
  (ref = YARN_FORM_UUID /\ no_tip m w origin /\ obj = text_id c /\ rdt = ref) \/
  (ref <> YARN_FORM_UUID /\ exists e o r, yarn_tip m w origin e o r /\ uuid_ltb e (text_id c) = true /\
     ((ref = e /\ obj = o /\ rdt = r) \/
      (version ref = NAME /\ uuid2form ref <> ZERO_RAW_FORM /\ uuid2form ref <> ERROR_NO_FORM /\ obj = text_id c /\ rdt = ref) \/
      (version ref = TIME /\ exists m' w', acts (m, w) [] (m', w') /\
         (known m' w' ref obj rdt \/ uvalue ref = NEVER_W /\ exists e', yarn_tip m' w' (uorigin ref) e' obj rdt)))).
Lemma find_op_known st id st' m : find_op st id = Done (st', m, ROk) ->
  known (s_main st) (s_mem st) id (m_obj m) (m_rdt m) \/
  uvalue id = NEVER_W /\ exists e', yarn_tip (s_main st) (s_mem st) (uorigin id) e' (m_obj m) (m_rdt m).
Proof.
  intro H. destruct (find_op_inv _ _ _ _ _ H) as (_ & _ & H3 & _). destruct (H3 eq_refl) as (head & RB & [[E K]|(E & log & l & K)]).
  - left. exists head. split; [exact RB|exact K].
  - right. split; [exact E|]. exists (m_id m), head. replace (mkUuid NEVER_W (uorigin id)) with id by (destruct id as [v o]; cbn in *; congruence).
    split; [exact RB|]. right. exists log, l. exact K.
Qed.
Lemma find_tip_known st o st' m : find_tip st o = Done (st', m, ROk) -> yarn_tip (s_main st) (s_mem st) o (m_id m) (m_obj m) (m_rdt m).
Proof.
  unfold ReplicaModel.find_tip. intro H. destruct (find_op_inv _ _ _ _ _ H) as (_ & _ & H3 & _).
  destruct (H3 eq_refl) as (head & RB & [[E K]|(E & log & l & K)]); exists head; (split; [exact RB|]).
  - left. exact E.
  - right. exists log, l. exact K.
Qed.
Lemma find_tip_missing st o st' m : find_tip st o = Done (st', m, RNotFound) -> no_tip (s_main st) (s_mem st) o.
Proof.
  unfold ReplicaModel.find_tip. intro H. destruct (find_op_inv _ _ _ _ _ H) as (_ & _ & _ & H4).
  destruct (H4 eq_refl eq_refl) as [K|K].
  - destruct (find_head_missing _ _ _ K) as [J|J]; [left; exact J|right; left; exact J].
  - right. right. exact K.
Qed.

Lemma head_meta_inv st c st' m s : check_sanity c = ROk -> head_meta st c = Done (st', m, s) ->
  moved st [] st' /\ (s_tip st', s_now S st') = (s_tip st, s_now S st) /\
  (s = ROk -> m_id m = text_id c /\ grounds (s_main st) (s_mem st) c (m_obj m) (m_rdt m)).
Proof.
  intros SN. destruct (sanity_inv c SN) as (S1 & S2 & S3). unfold ReplicaModel.head_meta.
  destruct (find_tip st (uorigin (text_id c))) as [[[st1 tip] st0]| |] eqn:FT; try discriminate. cbn [rbind].
  pose proof FT as FT'. unfold ReplicaModel.find_tip in FT'. destruct (find_op_inv _ _ _ _ _ FT') as (MV & TP & _ & _). clear FT'.
  destruct (uuid_eqb (text_ref c) YARN_FORM_UUID) eqn:EY.
  - apply uuid_eqb_eq in EY. destruct st0; intro H; try (injection H as <- <- <-; split; [exact MV|]; split; [exact TP|]; discriminate).
    + destruct (uuid_eqb (text_id c) (m_id tip)); injection H as <- <- <-; split; [exact MV|split; [exact TP|discriminate]|exact MV|split; [exact TP|discriminate]].
    + apply find_tip_missing in FT. destruct (meta_root sha fbits c meta_nil) as [t0| |] eqn:R0; cbn [rbind] in H; try discriminate.
      destruct (meta_root_inv _ _ _ R0) as (R1 & R2 & R3). rewrite R1 in H. rewrite (sanity_ref c SN) in H.
      assert (VN : version (text_ref c) =? NAME = true) by (rewrite EY; reflexivity). rewrite VN in H.
      assert (VF : uuid2form (text_ref c) =? ERROR_NO_FORM = false) by (rewrite EY; vm_compute; reflexivity). rewrite VF in H.
      destruct (meta_root sha fbits c t0) as [m1| |] eqn:R4; cbn [rbind] in H; try discriminate. injection H as <- <- <-.
      destruct (meta_root_inv _ _ _ R4) as (Q1 & Q2 & Q3).
      split; [exact MV|]. split; [exact TP|]. intros _. split; [exact Q1|]. left. rewrite Q2, Q3. auto.
  - assert (NY : text_ref c <> YARN_FORM_UUID) by (intro K; apply uuid_eqb_eq in K; congruence).
    destruct st0; intro H; try (injection H as <- <- <-; split; [exact MV|]; split; [exact TP|]; discriminate).
    apply find_tip_known in FT. destruct (uuid_ltb (m_id tip) (text_id c)) eqn:LT; cbn [negb] in H;
      [|injection H as <- <- <-; split; [exact MV|]; split; [exact TP|]; discriminate].
    destruct (uuid_eqb (text_ref c) (m_id tip)) eqn:ET.
    { apply uuid_eqb_eq in ET. destruct (meta_next sha fbits tip c tip) as [m1| |] eqn:M; cbn [rbind] in H; try discriminate.
      injection H as <- <- <-. destruct (meta_next_inv _ _ _ _ M) as (M1 & M2 & M3 & _ & _).
      split; [exact MV|]. split; [exact TP|]. intros _. split; [exact M1|]. right. split; [exact NY|].
      exists (m_id tip), (m_obj tip), (m_rdt tip). split; [exact FT|]. split; [exact LT|]. left. auto. }
    destruct (version (text_ref c) =? NAME) eqn:EV.
    { apply N.eqb_eq in EV. destruct (uuid2form (text_ref c) =? ERROR_NO_FORM) eqn:EF;
        [injection H as <- <- <-; split; [exact MV|]; split; [exact TP|]; discriminate|].
      destruct (meta_root sha fbits c tip) as [m1| |] eqn:R4; cbn [rbind] in H; try discriminate. injection H as <- <- <-.
      destruct (meta_root_inv _ _ _ R4) as (Q1 & Q2 & Q3). apply N.eqb_neq in EF.
      split; [exact MV|]. split; [exact TP|]. intros _. split; [exact Q1|]. right. split; [exact NY|].
      exists (m_id tip), (m_obj tip), (m_rdt tip). split; [exact FT|]. split; [exact LT|]. right. left. split; [exact EV|].
      split; [destruct S3 as [K|[_ K]]; [rewrite EV in K; discriminate|exact K]|]. auto. }
    apply N.eqb_neq in EV.
    destruct (find_op st1 (text_ref c)) as [[[st2 refd] s2]| |] eqn:FO; cbn [rbind] in H; try discriminate.
    destruct (find_op_inv _ _ _ _ _ FO) as (MV2 & TP2 & _ & _).
    assert (MV' : moved st [] st2) by (apply (moved_app st [] st1 [] st2); assumption).
    destruct (is_ok s2) eqn:E2; cbn [negb] in H.
    2:{ injection H as <- <- <-. split; [exact MV'|]. split; [congruence|]. intros ->. discriminate. }
    apply is_ok_iff in E2. subst s2.
    destruct (meta_next sha fbits tip c refd) as [m1| |] eqn:M; cbn [rbind] in H; try discriminate. injection H as <- <- <-.
    destruct (meta_next_inv _ _ _ _ M) as (M1 & M2 & M3 & _ & _).
    split; [exact MV'|]. split; [congruence|]. intros _. split; [exact M1|]. right. split; [exact NY|].
    exists (m_id tip), (m_obj tip), (m_rdt tip). split; [exact FT|]. split; [exact LT|]. right. right.
    split; [destruct S3 as [K|[K _]]; [exact K|contradiction]|]. exists (s_main st1), (s_mem st1).
    split; [exact (proj1 MV)|]. rewrite M2, M3. apply find_op_known in FO. exact FO.
Qed.

Lemma jwrite_step_inv st k f st' s : jwrite_step S st k f = (st', s) -> (s_tip st', s_now S st') = (s_tip st, s_now S st) /\
  ((s = ROk /\ moved st [AWrite k f] st') \/ (s <> ROk /\ moved st [] st')).
Proof.
  unfold jwrite_step, write. destruct (key_eqb k KEY_END) eqn:E; intro H; injection H as <- <-; split; try reflexivity.
  - right. split; [discriminate|]. split; [constructor|reflexivity].
  - left. split; [reflexivity|]. split; [|reflexivity]. cbn.
    eapply (acts_write _ _ _ _ []); [constructor|]. unfold write. rewrite E. reflexivity.
Qed.
Lemma rbind_some {X Y} (r : res X) (f : X -> res Y) y : rbind r f = Done y -> exists x, r = Done x /\ f x = Done y.
Proof. destruct r as [x| |]; cbn [rbind]; intro H; try discriminate. eauto. Qed.
Lemma op_hash_bits c a b h : op_hash sha fbits c a b = Done h -> known_bits h = 256.
Proof.
  unfold op_hash. intro H. apply rbind_some in H as (l & _ & H). injection H as <-. reflexivity.
Qed.
Lemma meta_next_bits m c r m' : meta_next sha fbits m c r = Done m' -> known_bits (m_hash m') = 256.
Proof.
  unfold meta_next. destruct (negb _); [discriminate|]. intro H. apply rbind_some in H as (h & E & H). injection H as <-.
  cbn [m_hash]. eapply op_hash_bits. exact E.
Qed.
Lemma meta_root_bits c p m : meta_root sha fbits c p = Done m -> known_bits (m_hash m) = 256.
Proof.
  unfold meta_root. destruct (negb _); [discriminate|]. destruct (negb _); [discriminate|]. intro H. apply rbind_some in H as (h & E & H). injection H as <-.
  cbn [m_hash]. eapply op_hash_bits. exact E.
Qed.
Lemma head_meta_bits st c st' m : head_meta st c = Done (st', m, ROk) -> known_bits (m_hash m) = 256.
Proof.
  unfold ReplicaModel.head_meta. intro H. apply rbind_some in H as ([[st1 tip] s] & _ & H). cbv zeta in H.
  destruct (uuid_eqb (text_ref c) YARN_FORM_UUID).
  - destruct s; try (injection H as _ _ ?; discriminate).
    + destruct (uuid_eqb (text_id c) (m_id tip)); injection H as _ _ ?; discriminate.
    + apply rbind_some in H as (t0 & _ & H).
      destruct (uuid_eqb (text_ref c) (m_id t0)); [apply rbind_some in H as (m1 & E & H); injection H as _ <-; eapply meta_next_bits; exact E|].
      destruct (version (text_ref c) =? NAME).
      * destruct (uuid2form (text_ref c) =? ERROR_NO_FORM); [discriminate|].
        apply rbind_some in H as (m1 & E & H); injection H as _ <-; eapply meta_root_bits; exact E.
      * apply rbind_some in H as ([[st2 refd] s2] & _ & H). destruct (negb (is_ok s2)) eqn:E2; [injection H as _ _ ->; discriminate|].
        apply rbind_some in H as (m1 & E & H); injection H as _ <-; eapply meta_next_bits; exact E.
  - destruct s; try (injection H as _ _ ?; discriminate).
    destruct (negb (uuid_ltb (m_id tip) (text_id c))); [discriminate|].
    destruct (uuid_eqb (text_ref c) (m_id tip)); [apply rbind_some in H as (m1 & E & H); injection H as _ <-; eapply meta_next_bits; exact E|].
    destruct (version (text_ref c) =? NAME).
    + destruct (uuid2form (text_ref c) =? ERROR_NO_FORM); [discriminate|].
      apply rbind_some in H as (m1 & E & H); injection H as _ <-; eapply meta_root_bits; exact E.
    + apply rbind_some in H as ([[st2 refd] s2] & _ & H). destruct (negb (is_ok s2)) eqn:E2; [injection H as _ _ ->; discriminate|].
      apply rbind_some in H as (m1 & E & H); injection H as _ <-; eapply meta_next_bits; exact E.
Qed.
Lemma meta_save_record m f : known_bits (m_hash m) = 256 -> meta_save m = Some f -> is_record f (m_id m) (m_obj m) (m_rdt m).
Proof.
  unfold meta_save, is_record, one_op. intro KB. destruct (m_hash m) as [n raw]. cbn in KB. subst n.
  destruct (sha2_base64 (mkSha2 256 raw)) as [h|] eqn:E; [|discriminate]. intro H. exists raw, h. split; [exact E|exact H].
Qed.

Notation save_chain := (save_chain sha fbits S jread jprev fuel).
Definition only_writes (ws : list act) : Prop := Forall (fun a => match a with AWrite _ _ => True | AName _ => False end) ws.
Lemma save_chain_inv st c st' c' s : valid c = true -> save_chain st c = Done (st', c', s) ->
  exists ws, moved st ws st' /\ only_writes ws /\
  (s = ROk -> exists h l, ch_head h = c /\ admitted (s_main st) (s_mem st) h /\ writes_of ws = ch_records h /\
     passes c l c' /\ s_tip st' = ch_tip h /\
     (uvalue (ch_tip h) < NEVER_W \/ uvalue (ch_tip h) < s_now S st) /\ s_now S st' = N.max (s_now S st) (uvalue (ch_tip h)) /\
     Forall (fun d => In d (ch_ops h) \/ ~ stamped d) l /\
     Forall (fun d => In d l \/ (d = c' /\ valid c' = true)) (ch_ops h) /\ In c l /\ subl (ch_ops h) (l ++ pend c')).
Proof.
  intro V. unfold ReplicaModel.save_chain. destruct (check_sanity c) eqn:SN;
    try (intro H; injection H as <- <- <-; exists []; split; [apply moved_refl|]; split; [constructor|discriminate]).
  destruct (head_meta st c) as [[[st1 m] s1]| |] eqn:HM; cbn [rbind]; try discriminate.
  destruct (head_meta_inv _ _ _ _ _ SN HM) as (MV1 & TP1 & OK1).
  destruct (is_ok s1) eqn:E1; cbn [negb].
  2:{ intro H. injection H as <- <- <-. exists []. split; [exact MV1|]. split; [constructor|]. intros ->. discriminate. }
  apply is_ok_iff in E1. subst s1. destruct (OK1 eq_refl) as [ID GR]. rewrite ID, (sanity_ref c SN). cbn [negb].
  destruct (meta_save m) as [rec|] eqn:MS; cbn [rbind]; try discriminate.
  destruct (jwrite_step S st1 (key_as (text_id c) META_FORM_UUID) rec) as [st2 s2] eqn:W1.
  destruct (jwrite_step_inv _ _ _ _ _ W1) as (TP2 & [[-> MV2]|[NE MV2]]).
  2:{ destruct (is_ok s2) eqn:E2; [apply is_ok_iff in E2; contradiction|]. cbn [negb]. intro H. injection H as <- <- <-.
      exists []. split; [apply (moved_app st [] st1 [] st2); assumption|]. split; [constructor|]. contradiction. }
  cbn [is_ok negb]. unfold ReplicaModel.save_chainlet.
  destruct (chainlet fuel (s_base st2) (s_tip st2) m [c] c) as [[[[[t m'] acc] d] s3]| |] eqn:CL; cbn [rbind]; try discriminate.
  destruct (chainlet_inv _ _ _ _ _ _ _ _ _ _ _ V CL) as (rest & l & C1 & C2 & C3 & C4 & C5 & C6 & C7 & C8 & C9).
  assert (MV12 : moved st [AWrite (key_as (text_id c) META_FORM_UUID) rec] st2) by (apply (moved_app st [] st1 _ st2); assumption).
  assert (MV3 : moved st2 [] (set_tip S st2 t)) by (apply moved_same; reflexivity).
  assert (OW1 : only_writes [AWrite (key_as (text_id c) META_FORM_UUID) rec]) by (constructor; [exact I|constructor]).
  destruct (is_ok s3) eqn:E3; cbn [negb].
  2:{ intro H. injection H as <- <- <-. exists [AWrite (key_as (text_id c) META_FORM_UUID) rec]. split.
      - apply (moved_app st _ st2 [] _ MV12 MV3).
      - split; [exact OW1|]. intros ->. discriminate. }
  destruct (see_step S (set_tip S st2 t) (m_id m')) as [st4 s4] eqn:SE.
  unfold see_step in SE. destruct (clock_see (s_now S (set_tip S st2 t)) (m_id m')) as [now4 sst] eqn:CS.
  injection SE as SE4 SEs. subst s4.
  assert (MV4 : moved st2 [] st4) by (rewrite <- SE4; apply moved_same; reflexivity).
  assert (MV14 : moved st [AWrite (key_as (text_id c) META_FORM_UUID) rec] st4) by (apply (moved_app st _ st2 [] _ MV12 MV4)).
  assert (N4 : s_now S st4 = now4) by (rewrite <- SE4; reflexivity). assert (N2 : s_now S (set_tip S st2 t) = s_now S st) by (cbn; congruence).
  rewrite N2 in CS. clear MV4 SE4.
  destruct (is_ok (rstatus_of sst)) eqn:E4; cbn [negb].
  2:{ intro H. injection H as <- <- <-. exists [AWrite (key_as (text_id c) META_FORM_UUID) rec].
      split; [exact MV14|]. split; [exact OW1|]. intro K. rewrite K in E4. discriminate. }
  destruct (build (map (fun x => BAppend (wop_of_cursor x)) (rev acc))) as [data|] eqn:BD; [|discriminate].
  destruct (jwrite_step S st4 (key_as (m_obj m') LOG_FORM_UUID) data) as [st5 s5] eqn:W2.
  destruct (jwrite_step_inv _ _ _ _ _ W2) as (TP5 & [[-> MV5]|[NE MV5]]).
  2:{ destruct (is_ok s5) eqn:E5; [apply is_ok_iff in E5; contradiction|]. cbn [negb]. intro H. injection H as <- <- <-.
      exists ([AWrite (key_as (text_id c) META_FORM_UUID) rec] ++ []). split; [apply (moved_app st _ st4 [] st5); assumption|].
      split; [exact OW1|]. contradiction. }
  cbn [is_ok negb].
  destruct (jwrite_step S st5 (key_as (m_obj m') (m_rdt m')) data) as [st6 s6] eqn:W3.
  destruct (jwrite_step_inv _ _ _ _ _ W3) as (TP6 & [[-> MV6]|[NE MV6]]).
  2:{ destruct (is_ok s6) eqn:E6; [apply is_ok_iff in E6; contradiction|]. cbn [negb]. intro H. injection H as <- <- <-.
      exists (([AWrite (key_as (text_id c) META_FORM_UUID) rec] ++ [AWrite (key_as (m_obj m') LOG_FORM_UUID) data]) ++ []).
      split; [apply (moved_app st _ st5 [] st6); [apply (moved_app st _ st4 _ st5); assumption|assumption]|].
      split; [repeat constructor|]. contradiction. }
  cbn [is_ok negb]. intro H. injection H as <- <- <-.
  exists (([AWrite (key_as (text_id c) META_FORM_UUID) rec] ++ [AWrite (key_as (m_obj m') LOG_FORM_UUID) data]) ++ [AWrite (key_as (m_obj m') (m_rdt m')) data]).
  split.
  { pose proof (moved_app st _ st5 _ st6 (moved_app st _ st4 _ st5 MV14 MV5) MV6) as [A1 A2]. split; [exact A1|exact A2]. }
  split; [repeat constructor|]. intros _.
  destruct (C5 c [] I ltac:(exact ID)) as [LK TI]. cbn [app] in LK, TI.
  assert (OPS : rev acc = c :: rest) by (rewrite C1, rev_app_distr, rev_involutive; reflexivity).
  exists (mkChain c rest (m_obj m) (m_rdt m) rec data), l.
  destruct (sanity_inv c SN) as (S1 & S2 & S3).
  assert (TIP : text_id (last rest c) = m_id m') by congruence.
  cbn [ch_head]. split; [reflexivity|]. split.
  { unfold ReplicaSpec.admitted. cbn [ch_head ch_rest ch_obj ch_rdt ch_record ch_text ch_id ch_ops].
    unfold ch_id, ch_ops, creates, ch_id. cbn [ch_head ch_rest ch_obj ch_rdt].
    split; [exact S1|]. split; [exact LK|]. split; [exact S2|].
    split; [rewrite <- ID; apply meta_save_record; [eapply head_meta_bits; exact HM|exact MS]|]. split; [unfold ops_text; rewrite <- OPS; exact BD|]. exact GR. }
  split. { unfold ch_records, ch_id. cbn. rewrite C3, C4. reflexivity. }
  split; [exact C2|]. split; [cbn; symmetry; exact TIP|].
  unfold ch_tip. cbn [ch_rest ch_head]. rewrite TIP.
  assert (NW : s_now S (set_tip S st6 (m_id m')) = now4) by (cbn; congruence). rewrite NW.
  unfold clock_see in CS. destruct (version (m_id m') =? TIME); cbn [negb] in CS; [|injection CS as <- <-; discriminate].
  assert (REST : Forall (fun d0 => In d0 (ch_ops (mkChain c rest (m_obj m) (m_rdt m) rec data)) \/ ~ stamped d0) l /\
    Forall (fun d0 => In d0 l \/ (d0 = d /\ valid d = true)) (ch_ops (mkChain c rest (m_obj m) (m_rdt m) rec data)) /\
    In c l /\ subl (ch_ops (mkChain c rest (m_obj m) (m_rdt m) rec data)) (l ++ pend d)).
  { split; [|split; [|split; [exact C8|exact C9]]].
    - eapply Forall_impl; [|exact C6]. intros x [-> |[X|X]]; unfold ch_ops; cbn; auto.
    - unfold ch_ops. cbn [ch_head ch_rest]. constructor; [left; exact C8|exact C7]. }
  destruct (uvalue (m_id m') <? s_now S st) eqn:L1.
  { injection CS as <- <-. split; [right; lia|]. split; [lia|]. exact REST. }
  destruct (NEVER_W <=? uvalue (m_id m')) eqn:L2; [injection CS as <- <-; discriminate|].
  injection CS as <- <-. split; [left; lia|]. split; [lia|]. exact REST.
Qed.

(* ---- receiving a frame ---- *)
Lemma now_step_inv st st' u : now_step S active st = (st', u) -> moved st [] st' /\ s_tip st' = s_tip st /\ version u = TIME.
Proof.
  unfold now_step, clock_now. intro H. injection H as <- <-. split; [apply moved_same; reflexivity|]. split; [reflexivity|].
  apply ClockTheorems.time_version.
Qed.
Lemma stamp_loop_inv n : forall c c', stamp_loop n c = Done c' -> exists l, passes c l c' /\ Forall (fun d => ~ stamped d) l.
Proof.
  induction n as [|n IH]; intros c c' H; [discriminate|]. cbn [stamp_loop] in H.
  destruct (valid c) eqn:V; cbn [andb] in H; [|injection H as <-; exists []; split; constructor].
  destruct (payload (uorigin (text_id c)) =? 0) eqn:P; [|injection H as <-; exists []; split; constructor].
  destruct (amend c) as [u| |]; cbn [rbind] in H; try discriminate.
  destruct (next_any c) as [d| |] eqn:N; cbn [rbind] in H; try discriminate.
  destruct (IH _ _ H) as (l & H1 & H2). exists ([c] ++ l). split; [eapply passes_app; [apply passes_one; eassumption|exact H1]|].
  constructor; [|exact H2]. intros (_ & K & _). apply N.eqb_eq in P. contradiction.
Qed.
Lemma write_new_inv st c st' c' s : write_new S active fuel st c = Done (st', c', s) ->
  moved st [] st' /\ s_tip st' = s_tip st /\ exists l, passes c l c' /\ Forall (fun d => ~ stamped d) l.
Proof.
  unfold write_new. destruct (now_step S active st) as [st1 u] eqn:NS. destruct (now_step_inv _ _ _ NS) as (MV & TP & _).
  destruct (stamp_loop fuel c) as [d| |] eqn:SL; cbn [rbind]; try discriminate. intro H. injection H as <- <- <-.
  split; [exact MV|]. split; [exact TP|]. apply (stamp_loop_inv _ _ _ SL).
Qed.

(* one op, not an event of the frame, is dealt with *)
Definition dealt (st : cst) (c : cursor) (st' : cst) (c' : cursor) (s : rstatus) : Prop :=
  moved st [] st' /\ (s = ROk -> exists l, passes c l c' /\ Forall (fun d => ~ stamped d) l).
Lemma dealt_fail st c s : s <> ROk -> dealt st c st c s.
Proof. intro H. split; [apply moved_refl|contradiction]. Qed.
Lemma dealt_one st c st' c' s : moved st [] st' -> valid c = true -> ~ stamped c -> next_any c = Done c' -> dealt st c st' c' s.
Proof. intros M V NS N. split; [exact M|]. intros _. exists [c]. split; [apply passes_one; assumption|constructor; [exact NS|constructor]]. Qed.

Lemma txt_write_dealt st c st' c' s : valid c = true -> ~ stamped c ->
  txt_write S jread active fuel st c = Done (st', c', s) -> dealt st c st' c' s.
Proof.
  intros V NS. unfold txt_write. destruct (nth_error (c_op c) 2) as [[u|b e|cp n b e|b e]|];
    try (intro H; injection H as <- <- <-; apply dealt_fail; discriminate).
  { destruct (uuid_eqb u SINCE_COMMAND || uuid_eqb u HILI_COMMAND); intro H; injection H as <- <- <-; apply dealt_fail; discriminate. }
  unfold txt_write_state.
  destruct (jread_step S jread st (key_as (text_id c) RGA_FORM_UUID)) as [[[st1 f] s1]| |] eqn:JR; cbn [rbind]; try discriminate.
  destruct (jread_step_inv _ _ _ _ _ JR) as (MV & _ & _).
  destruct (is_ok s1) eqn:E1; cbn [negb].
  2:{ intro H. injection H as <- <- <-. split; [exact MV|]. intros ->. discriminate. }
  destruct (scan_text fuel f) as [ss tombs| | |]; try discriminate.
  destruct ss; try (intro H; injection H as <- <- <-; split; [exact MV|discriminate]).
  destruct (next_any c) as [d| |] eqn:N; cbn [rbind]; try discriminate.
  destruct (now_step S active st1) as [st2 now] eqn:NW. destruct (now_step_inv _ _ _ NW) as (MV2 & _ & _).
  destruct (write_new S active fuel (set_tip S st2 now) (cursor_of [])) as [[[st3 x] s3]| |] eqn:WN; cbn [rbind]; try discriminate.
  destruct (write_new_inv _ _ _ _ _ WN) as (MV3 & _ & _). intro H. injection H as <- <- <-.
  apply dealt_one; try assumption. apply (moved_app st [] st1 [] _ MV). apply (moved_app st1 [] st2 [] _ MV2).
  apply (moved_app st2 [] (set_tip S st2 now) [] _); [apply moved_same; reflexivity|exact MV3].
Qed.
Lemma txt_read_dealt st c st' c' s : valid c = true -> ~ stamped c ->
  txt_read S jread fuel st c = Done (st', c', s) -> dealt st c st' c' s.
Proof.
  intros V NS. unfold txt_read.
  match goal with |- context [jread_step S jread st ?k] => destruct (jread_step S jread st k) as [[[st1 f] s1]| |] eqn:JR end;
    cbn [rbind]; try discriminate.
  destruct (jread_step_inv _ _ _ _ _ JR) as (MV & _ & _).
  destruct (is_ok s1) eqn:E1; cbn [negb].
  2:{ intro H. injection H as <- <- <-. split; [exact MV|]. intros ->. discriminate. }
  destruct (scan_text fuel f) as [ss tombs| | |]; try discriminate.
  destruct (weave fuel tombs (cursor_of f)) as [u| |]; cbn [rbind]; try discriminate.
  destruct (next_any c) as [d| |] eqn:N; cbn [rbind]; try discriminate. intro H. injection H as <- <- <-.
  apply dealt_one; assumption.
Qed.
Lemma receive_query_dealt st c st' c' s : valid c = true -> ~ stamped c ->
  receive_query sha fbits S jread jprev fuel st c = Done (st', c', s) -> dealt st c st' c' s.
Proof.
  intros V NS. unfold receive_query.
  destruct ((uuid2form (text_ref c) =? LWW_RDT_FORM) || (uuid2form (text_ref c) =? RGA_RDT_FORM) ||
            (uuid2form (text_ref c) =? MX_RDT_FORM) || (uuid2form (text_ref c) =? YARN_RAW_FORM)).
  { unfold query_object.
    destruct (jread_step S jread st (key_as (text_id c) (text_ref c))) as [[[st1 f] s1]| |] eqn:JR; cbn [rbind]; try discriminate.
    destruct (jread_step_inv _ _ _ _ _ JR) as (MV & _ & _).
    destruct (is_ok s1) eqn:E1; cbn [negb].
    2:{ intro H. injection H as <- <- <-. split; [exact MV|]. intros ->. discriminate. }
    destruct (next_any c) as [d| |] eqn:N; cbn [rbind]; try discriminate. intro H. injection H as <- <- <-.
    apply dealt_one; assumption. }
  destruct (uuid2form (text_ref c) =? LOG_RAW_FORM); [|intro H; injection H as <- <- <-; apply dealt_fail; discriminate].
  unfold query_log. destruct (next_any c) as [d| |] eqn:N; cbn [rbind]; try discriminate.
  destruct (find_op st (text_id c)) as [[[st1 m] s1]| |] eqn:FO; cbn [rbind]; try discriminate.
  destruct (find_op_inv _ _ _ _ _ FO) as (MV & _ & _).
  destruct (is_ok s1) eqn:E1; cbn [negb].
  2:{ intro H. injection H as <- <- <-. split; [exact MV|]. intros ->. discriminate. }
  destruct (jread_step S jread st1 (key_as (m_obj m) (m_rdt m))) as [[[st2 log] s2]| |] eqn:JR; cbn [rbind]; try discriminate.
  destruct (jread_step_inv _ _ _ _ _ JR) as (MV2 & _ & _). pose proof (moved_app st [] st1 [] st2 MV MV2) as MV3.
  destruct (is_ok s2) eqn:E2; cbn [negb].
  2:{ intro H. injection H as <- <- <-. split; [exact MV3|]. intros ->. discriminate. }
  destruct (uuid_eqb (text_id c) (m_obj m)); [intro H; injection H as <- <- <-; apply dealt_one; assumption|].
  destruct (log_upto fuel (text_id c) (cursor_of log)) as [c1| |]; cbn [rbind]; try discriminate.
  destruct (c_op c1) as [|a r]; [discriminate|]. intro H. injection H as <- <- <-. apply dealt_one; assumption.
Qed.
Lemma receive_writes_dealt st c st' c' s : valid c = true -> ~ stamped c ->
  receive_writes S jread active fuel st c = Done (st', c', s) -> dealt st c st' c' s.
Proof.
  intros V NS. unfold receive_writes.
  assert (WN : write_new S active fuel st c = Done (st', c', s) -> dealt st c st' c' s).
  { intro H. destruct (write_new_inv _ _ _ _ _ H) as (H1 & _ & H2). split; [exact H1|]. intros _. exact H2. }
  destruct (version (text_ref c) =? TIME); [exact WN|].
  destruct (version (text_ref c) =? NAME); cbn [negb]; [|intro H; injection H as <- <- <-; apply dealt_fail; discriminate].
  destruct (if negb (c_term c =? REDUCED) then Done tt else look_ahead fuel c); cbn [rbind]; try discriminate.
  destruct ((uuid2form (text_ref c) =? LWW_RDT_FORM) || (uuid2form (text_ref c) =? RGA_RDT_FORM) ||
            (uuid2form (text_ref c) =? MX_RDT_FORM) || (uuid2form (text_ref c) =? YARN_RAW_FORM)); [exact WN|].
  destruct (uuid2form (text_ref c) =? TXT_MAP_FORM); [apply txt_write_dealt; assumption|].
  intro H; injection H as <- <- <-; apply dealt_fail; discriminate.
Qed.
Lemma write_name_inv frame st c st' c' s : delivered frame c -> valid c = true -> naming c ->
  write_name S mwrite active st c = Done (st', c', s) ->
  exists ws, moved st ws st' /\ Forall (name_from frame) ws /\ writes_of ws = [] /\
    (s = ROk -> exists l, passes c l c' /\ Forall (fun d => ~ stamped d) l).
Proof.
  intros D V NM. unfold write_name.
  assert (NS : ~ stamped c) by (intros [K _]; rewrite NM in K; vm_compute in K; discriminate).
  destruct (nth_error (c_op c) 2) as [[tag|b e|cp n b e|b e]|] eqn:NT;
    try (intro H; injection H as <- <- <-; exists []; split; [apply moved_refl|]; split; [constructor|]; split; [reflexivity|discriminate]).
  destruct (version tag =? NAME) eqn:VT; cbn [negb];
    [|intro H; injection H as <- <- <-; exists []; split; [apply moved_refl|]; split; [constructor|]; split; [reflexivity|discriminate]].
  destruct (next_any c) as [d| |] eqn:N; cbn [rbind]; try discriminate.
  destruct (now_step S active st) as [st1 id] eqn:NW. destruct (now_step_inv _ _ _ NW) as (MV & TP & VI).
  destruct (one_op id NIL [VUuid tag; VUuid (s_tip st1)]) as [f|] eqn:OO; try discriminate.
  destruct (mwrite (s_main st1) (key_of NIL LWW_RDT_FORM) f) as [[m s1]| |] eqn:MW; cbn [rbind]; try discriminate.
  intro H. injection H as <- <- <-. exists ([] ++ [AName f]). split.
  - apply (moved_app st [] st1 [AName f] _ MV). split; [|reflexivity]. cbn. eapply (acts_name _ _ _ _ []); [constructor|exact MW].
  - split; [|split; [reflexivity|]].
    + constructor; [|constructor]. exists c, tag, id, (s_tip st1). split; [exact D|]. split; [exact NM|].
      split; [unfold uuid_at; rewrite NT; reflexivity|]. split; [apply N.eqb_eq; exact VT|]. auto.
    + intros _. exists [c]. split; [apply passes_one; assumption|constructor; [exact NS|constructor]].
Qed.

Notation receive_op := (receive_op sha fbits S jread jprev mwrite active fuel).
Lemma only_writes_names frame ws : only_writes ws -> Forall (name_from frame) ws.
Proof. apply Forall_impl. intros [k f|f]; cbn; tauto. Qed.
Lemma receive_op_inv frame st c st' c' s : delivered frame c -> valid c = true -> receive_op st c = Done (st', c', s) ->
  exists ws, moved st ws st' /\ Forall (name_from frame) ws /\
  (s = ROk -> exists l, passes c l c' /\
     ((writes_of ws = [] /\ Forall (fun d => ~ stamped d) l) \/
      exists h, ch_head h = c /\ admitted (s_main st) (s_mem st) h /\ writes_of ws = ch_records h /\ s_tip st' = ch_tip h /\
        Forall (fun d => In d (ch_ops h) \/ ~ stamped d) l /\ Forall (fun d => In d l \/ (d = c' /\ valid c' = true)) (ch_ops h) /\ In c l /\ subl (ch_ops h) (l ++ pend c'))).
Proof.
  intros D V. unfold ReplicaModel.receive_op.
  assert (DE : dealt st c st' c' s -> exists ws, moved st ws st' /\ Forall (name_from frame) ws /\
    (s = ROk -> exists l, passes c l c' /\
     ((writes_of ws = [] /\ Forall (fun d => ~ stamped d) l) \/
      exists h, ch_head h = c /\ admitted (s_main st) (s_mem st) h /\ writes_of ws = ch_records h /\ s_tip st' = ch_tip h /\
        Forall (fun d => In d (ch_ops h) \/ ~ stamped d) l /\ Forall (fun d => In d l \/ (d = c' /\ valid c' = true)) (ch_ops h) /\ In c l /\ subl (ch_ops h) (l ++ pend c')))).
  { intros [H1 H2]. exists []. split; [exact H1|]. split; [constructor|]. intro K. destruct (H2 K) as (l & H3 & H4).
    exists l. split; [exact H3|]. left. auto. }
  destruct (version (text_id c) =? TIME) eqn:VT.
  { destruct (c_term c =? QUERY) eqn:TQ.
    { intro H. apply DE. eapply receive_query_dealt; [exact V| |exact H]. intros (_ & _ & K). apply N.eqb_eq in TQ. contradiction. }
    destruct (payload (uorigin (text_id c)) =? 0) eqn:PZ; cbn [negb].
    { intro H. apply DE. eapply receive_writes_dealt; [exact V| |exact H]. intros (_ & K & _). apply N.eqb_eq in PZ. contradiction. }
    intro H. destruct (save_chain_inv _ _ _ _ _ V H) as (ws & H1 & H2 & H3). exists ws. split; [exact H1|].
    split; [apply only_writes_names; exact H2|]. intro K. destruct (H3 K) as (h & l & A1 & A2 & A3 & A4 & A5 & A6 & A7 & A8 & A9 & A10 & A11).
    exists l. split; [exact A4|]. right. exists h. auto 12. }
  assert (NS : ~ stamped c) by (intros [K _]; rewrite K in VT; discriminate).
  destruct (version (text_id c) =? DERIVED).
  { destruct (peek_term c) as [p| |]; cbn [rbind]; try discriminate.
    destruct (p =? QUERY); destruct (uuid2form (text_ref c) =? TXT_MAP_FORM); intro H; apply DE;
      try (injection H as <- <- <-; apply dealt_fail; discriminate);
      [eapply txt_read_dealt|eapply txt_write_dealt]; eassumption. }
  destruct (version (text_id c) =? NAME).
  { destruct (uuid_eqb (text_id c) COMMENT).
    { destruct (next c) as [d|d|d|] eqn:N; try discriminate; intro H; injection H as <- <- <-; apply DE.
      - split; [apply moved_refl|]. intros _. exists [c]. split; [apply passes_ok; assumption|constructor; [exact NS|constructor]].
      - split; [apply moved_refl|discriminate].
      - split; [apply moved_refl|discriminate]. }
    destruct (uuid_eqb (text_id c) NAME_UUID) eqn:EN; [|intro H; injection H as <- <- <-; apply DE; apply dealt_fail; discriminate].
    apply uuid_eqb_eq in EN. intro H. destruct (write_name_inv frame _ _ _ _ _ D V EN H) as (ws & H1 & H2 & H3 & H4).
    exists ws. split; [exact H1|]. split; [exact H2|]. intro K. destruct (H4 K) as (l & H5 & H6). exists l. split; [exact H5|].
    left. auto. }
  intro H; injection H as <- <- <-; apply DE; apply dealt_fail; discriminate.
Qed.

Notation accepted := (accepted S jread jprev mwrite).
Notation receive_loop := (receive_loop sha fbits S jread jprev mwrite active fuel).
Lemma writes_of_app a b : writes_of (a ++ b) = writes_of a ++ writes_of b. Proof. apply flat_map_app. Qed.
Lemma accepted_acts x hs ws y : accepted x hs ws y -> acts x ws y.
Proof. induction 1; [constructor|eapply acts_app; eassumption..]. Qed.
Lemma accepted_writes x hs ws y : accepted x hs ws y -> writes_of ws = flat_map ch_records hs.
Proof.
  induction 1 as [|hs ws m w ws' y H IH A E|hs ws m w h ws' y H IH AD A E]; [reflexivity| |];
    rewrite writes_of_app, IH, E; [apply app_nil_r|]. rewrite flat_map_app. cbn. reflexivity.
Qed.

Lemma receive_loop_inv frame c0 n : forall st0 hs ws st l c st' s,
  next (cursor_of frame) = NOk c0 -> s_base st = s_base st0 ->
  accepted (s_main st0, s_mem st0) hs ws (s_main st, s_mem st) -> passes c0 l c -> Forall (name_from frame) ws ->
  Forall (fun d => ~ stamped d \/ exists h, In h hs /\ In d (ch_ops h)) l ->
  Forall (fun h => Forall (fun d => In d l \/ (d = c /\ valid c = true)) (ch_ops h)) hs ->
  subl (flat_map ch_ops hs) (twice l ++ pend c) -> subl (map ch_head hs) l ->
  receive_loop n st c = Done (st', s) ->
  exists hs' ws', acts (s_main st0, s_mem st0) ws' (s_main st', s_mem st') /\ s_base st' = s_base st0 /\
    Forall (name_from frame) ws' /\
    (s = ROk -> accepted (s_main st0, s_mem st0) hs' ws' (s_main st', s_mem st') /\
       exists l', ops_of frame l' /\
         Forall (fun d => ~ stamped d \/ exists h, In h hs' /\ In d (ch_ops h)) l' /\
         Forall (fun h => Forall (fun d => In d l') (ch_ops h)) hs' /\ subl (flat_map ch_ops hs') (twice l') /\ subl (map ch_head hs') l').
Proof.
  induction n as [|n IH]; intros st0 hs ws st l c st' s N0 B A P NF F1 F2 F3 F4 H; [discriminate|]. cbn [ReplicaModel.receive_loop] in H.
  pose proof (passes_run _ _ _ _ N0 P) as R.
  destruct (valid c) eqn:V.
  2:{ injection H as <- <-. exists hs, ws. split; [eapply accepted_acts; exact A|]. split; [exact B|]. split; [exact NF|].
      intros _. split; [exact A|]. exists l. destruct R as (e & R1 & R2). split; [exists e, c; auto|]. split; [exact F1|].
      split; [|unfold pend in F3; rewrite V, app_nil_r in F3; split; [exact F3|exact F4]].
      eapply Forall_impl; [|exact F2]. intro h. apply Forall_impl. intros d [K|[_ K]]; [exact K|discriminate]. }
  destruct (receive_op st c) as [[[st1 c1] s1]| |] eqn:RO; cbn [rbind] in H; try discriminate.
  assert (D : delivered frame c) by (exists l; exact R).
  destruct (receive_op_inv frame _ _ _ _ _ D V RO) as (w1 & [M1 M2] & M3 & M4).
  destruct (is_ok s1) eqn:E1.
  2:{ injection H as <- <-. exists [], (ws ++ w1). split; [eapply acts_app; [eapply accepted_acts; exact A|exact M1]|].
      split; [congruence|]. split; [apply Forall_app; auto|]. intros ->. discriminate. }
  apply is_ok_iff in E1. subst s1. destruct (M4 eq_refl) as (l1 & P1 & K).
  assert (CL : forall d, In d l \/ (d = c /\ true = true) -> In d (l ++ l1) \/ (d = c1 /\ valid c1 = true)).
  { intros d [X|[-> _]]; [left; apply in_app_iff; auto|].
    clear -P1 V. remember c as d eqn:Ed in P1. revert Ed. induction P1 as [|k x y Pk IHP Vx Nx]; intros ->; [right; auto|].
    left. destruct (IHP eq_refl) as [X|[X _]].
    - rewrite app_assoc. apply in_app_iff. auto.
    - rewrite !in_app_iff. right. right. left. symmetry. exact X. }
  destruct K as [[K1 K2]|(h & K1 & K2 & K3 & K4 & K5 & K6 & K7 & K8)].
  - apply (IH st0 hs (ws ++ w1) st1 (l ++ l1) c1 st' s N0); [congruence| | | | | | | |exact H].
    + eapply acc_other; [exact A|exact M1|exact K1].
    + eapply passes_app; eassumption.
    + apply Forall_app. auto.
    + apply Forall_app. split; [exact F1|]. eapply Forall_impl; [|exact K2]. intros d X. left. exact X.
    + eapply Forall_impl; [|exact F2]. intro h. apply Forall_impl. exact CL.
    + eapply subl_trans; [|exact F3]. rewrite twice_app, <- app_assoc. apply subl_app; [apply subl_refl|]. unfold pend at 1. rewrite V.
      destruct (passes_first _ _ _ P1) as [[-> ->]|(l' & ->)]; [cbn [twice flat_map app]; unfold pend; rewrite V; apply subl_refl|].
      cbn [twice flat_map app]. apply subl_take, subl_nil.
    + eapply subl_trans; [|exact F4]. rewrite <- (app_nil_r l) at 1. apply subl_app; [apply subl_refl|apply subl_nil].
  - apply (IH st0 (hs ++ [h]) (ws ++ w1) st1 (l ++ l1) c1 st' s N0); [congruence| | | | | | | |exact H].
    + eapply acc_chain; [exact A|exact K2|exact M1|exact K3].
    + eapply passes_app; eassumption.
    + apply Forall_app. auto.
    + apply Forall_app. split.
      * eapply Forall_impl; [|exact F1]. intros d [X|(h' & X1 & X2)]; [left; exact X|right; exists h'; rewrite in_app_iff; auto].
      * eapply Forall_impl; [|exact K5]. intros d [X|X]; [right; exists h; rewrite in_app_iff; cbn; auto|left; exact X].
    + apply Forall_app. split; [eapply Forall_impl; [|exact F2]; intro h'; apply Forall_impl; exact CL|].
      constructor; [|constructor]. eapply Forall_impl; [|exact K6]. intros d [X|X]; [left; apply in_app_iff; auto|right; exact X].
    + rewrite flat_map_app. cbn [flat_map]. rewrite app_nil_r. eapply subl_trans; [|apply subl_app; [exact F3|exact K8]].
      rewrite twice_app, <- !app_assoc. apply subl_app; [apply subl_refl|]. rewrite app_assoc. apply subl_app; [|apply subl_refl].
      unfold pend. rewrite V. destruct (passes_first _ _ _ P1) as [[-> ->]|(l' & ->)]; [destruct K7|].
      cbn [twice flat_map app]. apply subl_take, subl_take. apply once_twice.
    + rewrite map_app. apply subl_app; [exact F4|]. cbn [map]. rewrite K1. destruct (passes_first _ _ _ P1) as [[-> ->]|(l' & ->)]; [destruct K7|].
      apply subl_take, subl_nil.
Qed.
(* ---- nothing is overlooked after a chain ---- *)
Lemma time_form u : version u = TIME -> uuid2form u = ZERO_RAW_FORM.
Proof.
  intro V. unfold uuid2form. assert (N : forall l i, find_form l i u = None).
  { induction l as [|f l IH]; intro i; [reflexivity|]. cbn [find_form]. destruct (uuid_eqb u (mkUuid f 0)) eqn:E; [|apply IH].
    apply uuid_eqb_eq in E. rewrite E in V. discriminate V. }
  rewrite N. destruct (uuid_eqb u FATAL) eqn:E; [|reflexivity]. apply uuid_eqb_eq in E. rewrite E in V. discriminate V.
Qed.
Lemma chainlet_clean n : forall h base tip m acc c t m' acc' c', valid c = true ->
  m_id m = text_id h -> version (text_id h) = TIME -> (forall o, lands h o -> lands c o) -> c = h \/ ~ stamped c ->
  chainlet n base tip m acc c = Done (t, m', acc', c', ROk) ->
  clean h /\ exists l, passes c l c' /\ Forall (fun d => stamped d -> clean d) l.
Proof.
  induction n as [|n IH]; intros h base tip m acc c t m' acc' c' V ID VT LD CH H; [discriminate|]. cbn [ReplicaModel.chainlet] in H.
  assert (LAST : forall d, next c = NOk d \/ next c = NEnd d -> clean h -> clean h /\ exists l, passes c l d /\ Forall (fun d => stamped d -> clean d) l).
  { intros d Hd K. split; [exact K|]. exists [c]. split; [apply (pass1 c [] c d); [constructor|exact V|tauto]|].
    constructor; [|constructor]. intro St. destruct CH as [->|CH]; [exact K|contradiction]. }
  destruct (next c) as [d|d|d|] eqn:N; try discriminate.
  2:{ injection H as <- <- <- <-. apply LAST; [auto|]. intros o L. apply LD in L. inversion L as [L1 L2|x o' L1 L2 L3]; [|congruence].
      rewrite N. split; discriminate. }
  pose proof (next_valid _ _ N (or_intror V)) as Vd.
  destruct (uuid_eqb (text_id d) COMMENT) eqn:EC.
  { apply uuid_eqb_eq in EC.
    destruct (IH h base tip m acc d t m' acc' c' Vd ID VT) as (K & l & K1 & K2); [| |exact H|].
    - intros o L. apply LD in L. inversion L as [L1 L2|x o' L1 L2 L3]; [destruct (L1 d N EC)|]. rewrite N in L1. injection L1 as <-. exact L3.
    - right. intros [X _]. rewrite EC in X. vm_compute in X. discriminate.
    - split; [exact K|]. exists ([c] ++ l). split; [eapply passes_app; [apply passes_ok; eassumption|exact K1]|].
      apply Forall_app. split; [|exact K2]. constructor; [|constructor]. intro St. destruct CH as [->|CH]; [exact K|contradiction]. }
  assert (ONE : (version (text_id d) = NAME -> text_ref d <> text_id h) -> clean h).
  { intros K o L. apply LD in L. inversion L as [L1 L2|x o' L1 L2 L3].
    - rewrite N. split; [discriminate|]. intros x X. injection X as <-. exact K.
    - rewrite N in L1. injection L1 as <-. rewrite L2 in EC. rewrite (proj2 (uuid_eqb_eq _ _) eq_refl) in EC. discriminate. }
  destruct (meta_is_next m d) eqn:EN.
  2:{ destruct (meta_is_check m d) eqn:EK.
      - exfalso. unfold meta_is_check in EK. apply andb_true_iff in EK as [_ EK]. apply uuid_eqb_eq in EK.
        unfold meta_check in H. rewrite EK, ID, (time_form _ VT) in H. discriminate H.
      - injection H as <- <- <- <-. apply LAST; [auto|]. apply ONE. intros K1 K2. unfold meta_is_check in EK.
        rewrite ID, K1, K2, (proj2 (uuid_eqb_eq _ _) eq_refl) in EK. discriminate EK. }
  unfold meta_is_next in EN. repeat rewrite andb_true_iff in EN. destruct EN as [[[EN _] _] _]. apply N.eqb_eq in EN.
  assert (CL : clean h) by (apply ONE; rewrite EN; discriminate).
  destruct (check_sanity d) eqn:ES; try discriminate.
  destruct (meta_next sha fbits m d m) as [m1| |] eqn:M; cbn [rbind] in H; try discriminate.
  destruct (meta_next_inv _ _ _ _ M) as (M1 & _).
  assert (GO : forall tip', chainlet n base tip' m1 (d :: acc) d = Done (t, m', acc', c', ROk) ->
    clean h /\ exists l, passes c l c' /\ Forall (fun d => stamped d -> clean d) l).
  { intros tip' K. destruct (IH d _ _ _ _ _ _ _ _ _ Vd M1 EN (fun o X => X) (or_introl eq_refl) K) as (_ & l & K1 & K2).
    split; [exact CL|]. exists ([c] ++ l). split; [eapply passes_app; [apply passes_ok; eassumption|exact K1]|].
    apply Forall_app. split; [|exact K2]. constructor; [|constructor]. intro St. destruct CH as [->|CH]; [exact CL|contradiction]. }
  destruct (uorigin (text_id d) =? uorigin base); [|apply (GO tip); exact H].
  destruct (uuid_ltb tip (text_id d)); cbn [negb] in H; [apply (GO (text_id d)); exact H|].
  injection H as <- <- <- <-. apply LAST; auto.
Qed.
Lemma save_chain_clean st c st' c' : valid c = true -> save_chain st c = Done (st', c', ROk) ->
  exists l, passes c l c' /\ Forall (fun d => stamped d -> clean d) l.
Proof.
  intro V. unfold ReplicaModel.save_chain. destruct (check_sanity c) eqn:SN; try discriminate.
  destruct (head_meta st c) as [[[st1 m] s1]| |] eqn:HM; cbn [rbind]; try discriminate.
  destruct (head_meta_inv _ _ _ _ _ SN HM) as (_ & _ & OK1).
  destruct (is_ok s1) eqn:E1; cbn [negb]; [|intro H; injection H as <- <- ->; discriminate].
  apply is_ok_iff in E1. subst s1. destruct (OK1 eq_refl) as [ID _]. rewrite ID, (sanity_ref c SN). cbn [negb].
  destruct (meta_save m) as [rec|] eqn:MS; cbn [rbind]; try discriminate.
  destruct (jwrite_step S st1 (key_as (text_id c) META_FORM_UUID) rec) as [st2 s2] eqn:W1.
  destruct (is_ok s2) eqn:E2; cbn [negb]; [|intro H; injection H as <- <- ->; discriminate].
  unfold ReplicaModel.save_chainlet.
  destruct (chainlet fuel (s_base st2) (s_tip st2) m [c] c) as [[[[[t m'] acc] d] s3]| |] eqn:CL; cbn [rbind]; try discriminate.
  destruct (is_ok s3) eqn:E3; cbn [negb]; [|intro H; injection H as <- <- ->; discriminate].
  apply is_ok_iff in E3. subst s3. destruct (sanity_inv c SN) as (S1 & _).
  destruct (chainlet_clean _ c _ _ _ _ _ _ _ _ _ V ID S1 (fun o X => X) (or_introl eq_refl) CL) as (_ & l & K1 & K2).
  destruct (see_step S (set_tip S st2 t) (m_id m')) as [st4 s4].
  destruct (is_ok s4) eqn:E4; cbn [negb]; [|intro H; injection H as <- <- ->; discriminate].
  destruct (build (map (fun x => BAppend (wop_of_cursor x)) (rev acc))) as [data|]; [|discriminate].
  destruct (jwrite_step S st4 (key_as (m_obj m') LOG_FORM_UUID) data) as [st5 s5].
  destruct (is_ok s5) eqn:E5; cbn [negb]; [|intro H; injection H as <- <- ->; discriminate].
  destruct (jwrite_step S st5 (key_as (m_obj m') (m_rdt m')) data) as [st6 s6].
  destruct (is_ok s6) eqn:E6; cbn [negb]; [|intro H; injection H as <- <- ->; discriminate].
  intro H. injection H as <- <-. exists l. auto.
Qed.
Lemma receive_op_clean frame st c st' c' : delivered frame c -> valid c = true -> receive_op st c = Done (st', c', ROk) ->
  exists l, passes c l c' /\ Forall (fun d => stamped d -> clean d) l.
Proof.
  intros D V. unfold ReplicaModel.receive_op.
  assert (DL : forall l, passes c l c' -> Forall (fun d => ~ stamped d) l -> exists l, passes c l c' /\ Forall (fun d => stamped d -> clean d) l).
  { intros l K1 K2. exists l. split; [exact K1|]. eapply Forall_impl; [|exact K2]. intros d X Y. contradiction. }
  assert (DE : dealt st c st' c' ROk -> exists l, passes c l c' /\ Forall (fun d => stamped d -> clean d) l).
  { intros [_ H2]. destruct (H2 eq_refl) as (l & H3 & H4). exact (DL l H3 H4). }
  destruct (version (text_id c) =? TIME) eqn:VT.
  { destruct (c_term c =? QUERY) eqn:TQ.
    { intro H. apply DE. eapply receive_query_dealt; [exact V| |exact H]. intros (_ & _ & K). apply N.eqb_eq in TQ. contradiction. }
    destruct (payload (uorigin (text_id c)) =? 0) eqn:PZ; cbn [negb].
    { intro H. apply DE. eapply receive_writes_dealt; [exact V| |exact H]. intros (_ & K & _). apply N.eqb_eq in PZ. contradiction. }
    apply save_chain_clean. exact V. }
  assert (NS : ~ stamped c) by (intros [K _]; rewrite K in VT; discriminate).
  destruct (version (text_id c) =? DERIVED).
  { destruct (peek_term c) as [p| |]; cbn [rbind]; try discriminate.
    destruct (p =? QUERY); destruct (uuid2form (text_ref c) =? TXT_MAP_FORM); intro H; try discriminate; apply DE;
      [eapply txt_read_dealt|eapply txt_write_dealt]; eassumption. }
  destruct (version (text_id c) =? NAME); [|discriminate].
  destruct (uuid_eqb (text_id c) COMMENT).
  { destruct (next c) as [d|d|d|] eqn:N; try discriminate. intro H; injection H as <- <-.
    apply (DL [c]); [apply passes_ok; assumption|constructor; [exact NS|constructor]]. }
  destruct (uuid_eqb (text_id c) NAME_UUID) eqn:EN; [|discriminate].
  apply uuid_eqb_eq in EN. intro H. destruct (write_name_inv frame _ _ _ _ _ D V EN H) as (ws & H1 & H2 & H3 & H4).
  destruct (H4 eq_refl) as (l & H5 & H6). exact (DL l H5 H6).
Qed.
Lemma receive_loop_clean frame c0 n : forall st l c st',
  next (cursor_of frame) = NOk c0 -> passes c0 l c -> Forall (fun d => stamped d -> clean d) l ->
  receive_loop n st c = Done (st', ROk) ->
  exists l', ops_of frame l' /\ Forall (fun d => stamped d -> clean d) l'.
Proof.
  induction n as [|n IH]; intros st l c st' N0 P F H; [discriminate|]. cbn [ReplicaModel.receive_loop] in H.
  pose proof (passes_run _ _ _ _ N0 P) as R.
  destruct (valid c) eqn:V; [|destruct R as (e & R1 & R2); exists l; split; [exists e, c; auto|exact F]].
  destruct (receive_op st c) as [[[st1 c1] s1]| |] eqn:RO; cbn [rbind] in H; try discriminate.
  destruct (is_ok s1) eqn:E1; [|injection H as <- ->; discriminate]. apply is_ok_iff in E1. subst s1.
  destruct (receive_op_clean frame _ _ _ _ (ex_intro _ l R) V RO) as (l1 & P1 & F1).
  apply (IH st1 (l ++ l1) c1 st' N0); [eapply passes_app; eassumption|apply Forall_app; auto|exact H].
Qed.
End Replica.
