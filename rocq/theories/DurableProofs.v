(* A key of a branch over its history: reads, writes and merges of the joined
   stores inside commits, batches, restarts and compactions. *)
From Coq Require Import Sorted.
From Verif Require Import Prelude UuidModel UuidProofs KeyModel KeyProofs CodecModel TextModel TextSpec BuilderSpec MergeModel MergeSpec MergeTextModel
  TextMergeSpec TextCursors MergeKeeps TextMerge SizeProofs TextMergeTheorems StoreModel StoreSpec StoreProofs StoreTheorems RocksModel RocksSpec RocksProofs MetaModel ClockModel
  ReplicaModel ReplicaSpec ReplicaProofs ReplicaTheorems BranchModel BranchSpec BranchProofs BranchTheorems DurableSpec.

Section Keep.
Variable sha : bytes -> bytes.
Variable fbits : bytes -> N.
Variable active : N.
Variable fuel : nat.
Notation b_jread := (b_jread fbits fuel).
Notation b_jprev := (b_jprev fbits fuel).
Notation acts := (acts family b_jread b_write).
Notation accepted := (ReplicaSpec.accepted family b_jread b_jprev b_write).
Notation receive_loop := (receive_loop sha fbits family b_jread b_jprev b_write active fuel).
Notation receive_frame := (receive_frame sha fbits family b_jread b_jprev b_write b_batch active fuel).
Notation result := (result sha fbits active fuel).

Lemma contents_one (k1 : key) (f : bytes) k : contents [(k1, f)] k = if key_eqb k1 k then [f] else [].
Proof. unfold contents. cbn [filter fst]. destruct (key_eqb k1 k); reflexivity. Qed.
(* ---- what acts leave alone ---- *)
Lemma acts_cell k x ws y : only_writes ws -> acts x ws y -> in_order (fst x) -> sorted_store (snd x) ->
  in_order (fst y) /\ sorted_store (snd y) /\ cell_at (fst y) k = cell_at (fst x) k.
Proof.
  intros OW A O SS. induction A as [|ws m w k1 m' w' f s A IH J|ws m w k1 f w' A IH W|ws m w f m' s A IH W]; [auto| | |].
  - destruct (IH OW) as (O1 & S1 & C1). cbn [fst snd] in *. destruct (jread_keeps fbits fuel _ _ _ _ _ _ _ S1 J) as [-> S2]. auto.
  - apply Forall_app in OW as [OW _]. destruct (IH OW) as (O1 & S1 & C1). cbn [fst snd] in *.
    split; [exact O1|]. split; [|exact C1]. pose proof (write_ok w k1 f S1) as K. rewrite W in K. apply K.
  - apply Forall_app in OW as [_ OW]. inversion OW; contradiction.
Qed.

(* ---- an invariant of a key through the acts of a commit ---- *)
Section Inv.
Variable k : key.
Variable ok : bytes -> list rop -> Prop.
Variable bound : list (list rop) -> Prop.
Variable P : option bytes -> list bytes -> list (list rop) -> Prop.
Hypothesis bound_prefix : forall a b, bound (a ++ b) -> bound a.
Hypothesis P_write : forall v ops W f d, P v ops W -> ok f d -> P v (ops ++ [f]) (W ++ [d]).
Hypothesis P_partial : forall v a b c W g, P v (a ++ b ++ c) W -> bound W -> b <> [] ->
  operator_merge fbits fuel (key_form k) b = Done (Some g) -> P v (a ++ g :: c) W.
Hypothesis P_full : forall v b c W g, P v (b ++ c) W -> bound W -> b <> [] ->
  operator_merge fbits fuel (key_form k) (held v ++ b) = Done (Some g) -> P (Some g) c W.
Hypothesis P_mem : forall v a b W, P v (a ++ b) W -> bound W -> exists g, merge_as fbits fuel (key_form k) b = Done (Some g, StOK).
Hypothesis NZ : k <> KEY_ZERO.

Definition joint (x : family * mem) (W : list (list rop)) : Prop :=
  P (ce_value (cell_at (fst x) k)) (ce_operands (cell_at (fst x) k) ++ contents (snd x) k) W.

Lemma read_joint d w k1 w' f s W : sorted_store w -> joint (d, w) W -> bound W ->
  read bytes [] (merge_as fbits fuel) w k1 [] = Done (w', f, s) -> joint (d, w') W.
Proof.
  intros SS J B R. pose proof (read_ok (F := bytes) [] (merge_as fbits fuel) w k1 [] SS) as K.
  destruct (contents w k1) as [|a [|b l]] eqn:C; [rewrite K in R; injection R as <- _ _; exact J|rewrite K in R; injection R as <- _ _; exact J|].
  destruct K as [K1 K2]. rewrite K1 in R. apply rbind_done in R as ([r s1] & M & R). injection R as <- _ _.
  unfold joint in *. cbn [fst snd] in *. destruct (K2 (match r with Some f0 => f0 | None => [] end)) as [_ K3]. rewrite K3.
  destruct (key_eqb k k1) eqn:E; [|exact J]. apply key_eqb_eq in E. subst k1. rewrite C in J.
  destruct (P_mem _ _ _ _ J B) as (g & MG). rewrite MG in M. injection M as <- <-.
  apply (P_partial _ (ce_operands (cell_at d k)) (a :: b :: l) [] W g); [rewrite app_nil_r; exact J|exact B|discriminate|].
  unfold operator_merge. rewrite MG. reflexivity.
Qed.
Lemma acts_joint x ws y : only_writes ws -> acts x ws y -> in_order (fst x) -> sorted_store (snd x) -> forall W dss, joint x W ->
  Forall2 ok (contents (writes_of ws) k) dss -> bound (W ++ dss) -> joint y (W ++ dss).
Proof.
  intros OW A O SS. induction A as [|ws m w k1 m' w' f s A IH J|ws m w k1 f w' A IH W|ws m w f m' s A IH W]; intros W0 dss JX F B.
  - inversion F; subst. rewrite app_nil_r. exact JX.
  - specialize (IH OW W0 dss JX F B). destruct (acts_cell k _ _ _ OW A O SS) as (O1 & S1 & _). cbn [fst snd] in *.
    unfold BranchModel.b_jread in J. apply rbind_done in J as ([fa sa] & _ & J).
    destruct sa; try (injection J as <- <- _ _; exact IH; fail).
    apply rbind_done in J as ([[w1 fb] sb] & R & J). pose proof (read_joint m w k1 w1 fb sb (W0 ++ dss) S1 IH B R) as J1.
    destruct sb; try (injection J as <- <- _ _; exact J1; fail).
    destruct (blank fa); [injection J as <- <- _ _; exact J1|]. destruct (blank fb); [injection J as <- <- _ _; exact J1|].
    apply rbind_done in J as ([r s1] & _ & J). injection J as <- <- _ _. exact J1.
  - rewrite writes_of_app, contents_app in F. apply Forall2_app_inv_l in F as (w1 & w2 & F1 & F2 & ->). rewrite app_assoc in *.
    apply Forall_app in OW as [OW _]. specialize (IH OW W0 w1 JX F1 (bound_prefix _ _ B)). destruct (acts_cell k _ _ _ OW A O SS) as (O1 & S1 & _). cbn [fst snd] in *.
    pose proof (write_ok w k1 f S1) as K. rewrite W in K. destruct K as (_ & K & _ & KS).
    assert (NE : key_eqb k1 KEY_END = false) by (destruct (key_eqb k1 KEY_END); [discriminate|reflexivity]).
    unfold joint in *. cbn [fst snd] in *. rewrite K. cbn [before_end]. rewrite NE. unfold writes_of in F2. cbn [flat_map app] in F2.
    rewrite contents_one in *. destruct (key_eqb k1 k) eqn:EK.
    + inversion F2 as [|? d ? ? OK F3]; subst. inversion F3; subst. rewrite app_assoc. apply P_write; assumption.
    + inversion F2; subst. rewrite !app_nil_r. exact IH.
  - apply Forall_app in OW as [_ OW]. inversion OW; contradiction.
Qed.
(* the batch *)
Lemma batch_inv m w f batch d' s W : in_order m -> sorted_store w -> joint (m, w) W -> write bytes w KEY_ZERO f = (batch, StOK) ->
  b_batch m batch = Done (d', s) -> in_order d' /\ P (ce_value (cell_at d' k)) (ce_operands (cell_at d' k)) W.
Proof.
  intros O SS J WR B. pose proof (write_ok w KEY_ZERO f SS) as K. rewrite WR in K. destruct K as (_ & K & _).
  unfold b_batch, rocks_batch in B. injection B as <- _. destruct (adds_at batch m k O) as [O2 E]. unfold adds in *. split; [exact O2|].
  rewrite E. cbn [ce_value ce_operands]. rewrite K. cbn [before_end]. change (key_eqb KEY_ZERO KEY_END) with false. cbn match.
  rewrite contents_one, key_eqb_neq by (intro Q; apply NZ; symmetry; exact Q). rewrite app_nil_r. exact J.
Qed.
End Inv.

(* ---- a received frame ---- *)
Definition proper (h : chain) : Prop := version (ch_id h) = TIME /\ linked (ch_head h) (ch_rest h) /\ ops_text (ch_ops h) = Some (ch_text h) /\
  (version (text_ref (ch_head h)) = TIME -> uuid_ltb (text_ref (ch_head h)) (ch_id h) = true).
Lemma accepted_chains x hs ws y : accepted x hs ws y -> Forall proper hs.
Proof.
  induction 1 as [|hs ws m w ws' y H IH A E|hs ws m w h ws' y H IH AD A E]; [constructor|exact IH|].
  apply Forall_app. split; [exact IH|]. constructor; [|constructor]. destruct AD as (V & L & B & _ & T & _). split; [exact V|]. auto.
Qed.
Lemma receive_keeps d now rs base frame d' now' s : receive_frame d now rs base frame = Done (d', now', s) ->
  (exists ws w, (events_only frame -> only_writes ws) /\ acts (d, []) ws (d', w) /\
     (s = ROk -> (forall c, ~ delivered frame c) \/ exists st, result d now rs base frame st /\ s_tip family st = base)) \/
  (s = ROk /\ exists st hs ws m w f batch, result d now rs base frame st /\ s_tip family st <> base /\
     (events_only frame -> only_writes ws) /\ accepted (d, []) hs ws (m, w) /\ chains_of frame hs /\ write bytes w KEY_ZERO f = (batch, StOK) /\ b_batch m batch = Done (d', ROk)).
Proof.
  intro H. unfold ReplicaModel.receive_frame in H.
  assert (NONE : (exists e, next (cursor_of frame) = NEnd e \/ next (cursor_of frame) = NBad e) -> forall c, ~ delivered frame c).
  { intros (e & E) c D. assert (O : ops_of frame []) by (exists (cursor_of frame), e; split; [constructor|exact E]). exact (ops_complete _ _ _ O D). }
  destruct (next (cursor_of frame)) as [c|c|c|] eqn:N; try discriminate.
  2,3: injection H as <- _ <-; left; exists [], []; split; [constructor|]; split; [constructor|]; intros _; left; apply NONE; eauto.
  clear NONE. unfold receive in H. apply rbind_done in H as ([st2 s2] & H & Q). injection Q as <- _ <-.
  apply rbind_done in H as ([st1 s1] & RL & H).
  destruct (receive_loop_inv sha fbits family b_jread b_jprev b_write active fuel frame c fuel _ [] [] _ [] c st1 s1 N eq_refl
              (acc_none _ _ _ _ _) (pass0 c) (Forall_nil _) (Forall_nil _) (Forall_nil _) (subl_nil _) (subl_nil _) RL) as (hs & ws & A1 & A2 & A3 & A4).
  assert (QW : events_only frame -> only_writes ws).
  { intro EO. unfold only_writes. eapply Forall_impl; [|exact A3]. intros [k f|f]; [auto|]. intros (x & _ & _ & _ & D & NA & _).
    destruct (EO x D) as [[V _]|V]; unfold naming in NA; rewrite NA in V; vm_compute in V; discriminate. }
  change (s_base family (commit_on family d now rs base)) with base in A2.
  change (s_main family (commit_on family d now rs base), s_mem family (commit_on family d now rs base)) with (d, @nil (key * bytes)) in *.
  destruct (is_ok s1) eqn:E1.
  2:{ injection H as <- <-. left. exists ws, (s_mem family st1). split; [exact QW|]. split; [exact A1|]. intros ->. discriminate. }
  apply is_ok_iff in E1. subst s1. destruct (A4 eq_refl) as (A5 & l & A6 & A7 & A8 & A9 & A10).
  destruct (save_inv _ _ _ _ _ H) as [(Q1 & -> & ->)|[(Q1 & Q2)|(Q1 & Q2 & Q3 & f & w & F & W & B)]].
  - left. exists ws, (s_mem family st1). split; [exact QW|]. split; [exact A1|]. intros _. right. exists st1. split; [exists c; auto|congruence].
  - left. exists ws, (s_mem family st1). rewrite Q2. split; [exact QW|]. split; [exact A1|]. contradiction.
  - right. assert (s2 = ROk) by (unfold b_batch, rocks_batch in B; injection B as _ <-; reflexivity). subst s2. split; [reflexivity|].
    exists st1, hs, ws, (s_main family st1), (s_mem family st1), f, w. split; [exists c; auto|]. split; [congruence|]. split; [exact QW|]. split; [exact A5|].
    split; [|split; [exact W|exact B]]. split; [|split; [|split]].
    + intros x D St. rewrite Forall_forall in A7. destruct (A7 x (ops_complete _ _ _ A6 D)) as [K|(h & I & J)]; [contradiction|]. apply in_flat_map. eauto.
    + exists l. auto.
    + pose proof (accepted_chains _ _ _ _ A5) as PR. eapply Forall_impl; [|exact PR]. intros h (_ & L & _). exact L.
    + exists l. auto.
Qed.
End Keep.

(* ---- the texts of chains ---- *)
Lemma key_form_of id form : form < 256 -> key_form (key_of id form) = form.
Proof.
  intro H. unfold key_form. rewrite key_of_eq by exact H. cbn [kfirst]. rewrite ?shiftr_div.
  pose proof (N.mod_lt (uorigin id) (2 ^ 60) ltac:(discriminate)) as L. remember (uorigin id mod 2 ^ 60) as x eqn:EX. clear EX.
  change (2 ^ 60) with 1152921504606846976 in *. change (2 ^ 56) with 72057594037927936 in *. dlia.
Qed.

Lemma visits_run c0 pre c cs c' : run_to c0 pre c -> text_next c = Some (valid c', c') -> visits valid text_next c' cs ->
  exists e d, run_to c0 (pre ++ cs) e /\ (next e = NEnd d \/ next e = NBad d).
Proof.
  intros R N V. revert pre c R N. induction V as [c1 Z|c1 c2 l Z N1 V IH]; intros pre c R N; unfold text_next in N.
  - exists c, c1. rewrite app_nil_r. split; [exact R|]. rewrite Z in N. destruct (next c) as [x|x|x|]; try discriminate; injection N as <-; auto.
  - rewrite Z in N. assert (NC : next c = NOk c1) by (destruct (next c) as [x|x|x|]; try discriminate; injection N as <-; reflexivity).
    replace (pre ++ c1 :: l) with ((pre ++ [c1]) ++ l) by (rewrite <- app_assoc; reflexivity). apply (IH (pre ++ [c1]) c1).
    + eapply run_next; eassumption.
    + exact N1.
Qed.
Lemma frame_cursors f d l : frame_says f d -> ops_of f l -> map rop_of l = d /\ Forall canonical l.
Proof.
  intros [FL SM] O. destruct (frame_visits f d FL SM) as (cs & (c' & N & V) & F).
  assert (O2 : ops_of f cs) by (destruct (visits_run _ [] _ _ _ (run_here _) N V) as (e & d0 & R & St); exists e, d0; auto).
  rewrite (ops_unique _ _ _ O O2). clear -F. induction F as [|c o cs d K F [IH1 IH2]]; [split; [reflexivity|constructor]|].
  split; [cbn [map]; rewrite IH1; destruct K as [-> _]; reflexivity|]. constructor; [exists o; exact K|exact IH2].
Qed.
Lemma good_prefix a b : forall last opn ext, good_calls last opn ext (a ++ b) -> good_calls last opn ext a.
Proof.
  induction a as [|x a IH]; intros last opn ext G; [exact Logic.I|]. cbn [app good_calls] in *. destruct x as [o|t].
  - destruct G as (A & B & C & D). split; [exact A|]. split; [exact B|]. split; [exact C|]. apply IH. exact D.
  - destruct G as (A & B). split; [exact A|]. apply IH. exact B.
Qed.
Definition as_ops (l : list cursor) : list uop := map (fun c => bare (rop_of c)) l.
Lemma bare_appends us : map bare (denote (map UAppend us)) = us.
Proof. induction us as [|[i r v] us IH]; [reflexivity|]. cbn [map denote]. unfold bare at 1. cbn [r_id r_ref r_vals]. rewrite IH. reflexivity. Qed.
Lemma chain_text cs text U : Forall canonical cs -> ops_text cs = Some text -> mergeable U -> incl (as_ops cs) U ->
  N.of_nat (length cs) < 2 ^ 32 -> N.of_nat (room (as_ops cs)) < 2 ^ 32 -> exists d, frame_says text d /\ map bare d = as_ops cs.
Proof.
  intros C T M I L R. set (calls := map (@MAppend cursor) cs).
  assert (EU : ucalls calls = map UAppend (as_ops cs)) by (unfold ucalls, calls, as_ops; rewrite !map_map; reflexivity).
  assert (EB : bcalls calls = map (fun x => BAppend (wop_of_cursor x)) cs) by (unfold bcalls, calls; rewrite map_map; reflexivity).
  assert (K : forall c, In (MAppend c) calls -> canonical c).
  { intros c J. unfold calls in J. apply in_map_iff in J as (x & E & J). injection E as ->. rewrite Forall_forall in C. auto. }
  destruct (build_merged calls K) as (text' & B & FL).
  - rewrite EU. eapply good_prefix. apply (mergeable_good U); eassumption.
  - unfold calls. rewrite map_length. exact L.
  - rewrite EB in B. unfold ops_text in T. rewrite T in B. injection B as <-. exists (denote (ucalls calls)).
    assert (EQ : map bare (denote (ucalls calls)) = as_ops cs) by (rewrite EU; apply bare_appends). split; [|exact EQ]. split; [exact FL|].
    rewrite <- EB in T. pose proof (build_len _ _ T) as BL. pose proof (calls_room calls K) as CR. rewrite EQ in CR. lia.
Qed.
Lemma linked_increasing cs c : linked c cs -> increasing_ids (map rop_of (c :: cs)).
Proof.
  revert c. induction cs as [|d cs IH]; intros c L; [cbn [map]; repeat constructor|]. destruct L as (_ & LT & _ & L). specialize (IH d L).
  cbn [map] in *. constructor; [exact IH|]. inversion IH as [|x y H1 H2]; subst. constructor; [exact LT|].
  eapply Forall_impl; [|exact H2]. intros o Ho. unfold id_lt in *. eapply uuid_ltb_trans; [exact LT|exact Ho].
Qed.

(* ---- how much is written under a key ---- *)
Lemma subl_map {T V} (g : T -> V) a b : subl a b -> subl (map g a) (map g b).
Proof. induction 1; cbn [map]; constructor; assumption. Qed.
Lemma subl_room a b : subl a b -> (room a <= room b)%nat.
Proof. unfold room. induction 1; cbn [map list_sum fold_right]; unfold list_sum in *; lia. Qed.
Lemma twice_length {T} (l : list T) : length (twice l) = (2 * length l)%nat.
Proof. induction l as [|x l IH]; [reflexivity|]. cbn [twice flat_map app length]. unfold twice in IH. lia. Qed.
Lemma twice_map {T V} (g : T -> V) l : map g (twice l) = twice (map g l).
Proof. induction l as [|x l IH]; [reflexivity|]. cbn [twice flat_map app map]. unfold twice in IH. rewrite IH. reflexivity. Qed.
Lemma twice_room l : room (twice l) = (2 * room l)%nat.
Proof. induction l as [|x l IH]; [reflexivity|]. unfold room in *. cbn [twice flat_map app map list_sum fold_right] in *. unfold twice, list_sum in *. lia. Qed.
Lemma subl_keep {T} (p : T -> bool) a b : Forall (fun x => p x = true) a -> subl a b -> subl a (filter p b).
Proof.
  intros F H. induction H as [|x a b H IH|x a b H IH]; [constructor| |].
  - cbn [filter]. destruct (p x); [apply subl_skip|]; apply IH; exact F.
  - inversion F as [|y z F1 F2]; subst. cbn [filter]. rewrite F1. apply subl_take. apply IH. exact F2.
Qed.
Lemma twice_filter {T} (p : T -> bool) l : filter p (twice l) = twice (filter p l).
Proof. induction l as [|x l IH]; [reflexivity|]. cbn [twice flat_map app filter]. unfold twice in IH. destruct (p x) eqn:E; cbn [flat_map app]; rewrite ?E, IH; reflexivity. Qed.

Lemma stamped_op c : stampedb c = event_op (rop_of c).
Proof. reflexivity. Qed.
Lemma filter_ops l : filter event_op (map rop_of l) = map rop_of (filter stampedb l).
Proof. induction l as [|c l IH]; [reflexivity|]. cbn [map filter]. rewrite <- stamped_op, IH. destruct (stampedb c); reflexivity. Qed.
Lemma linked_origins cs : forall c d, linked c cs -> In d (c :: cs) -> uorigin (text_id d) = uorigin (text_id c).
Proof.
  induction cs as [|x cs IH]; intros c d L [->|I]; try reflexivity; [destruct I|]. destruct L as (E & _ & _ & L).
  rewrite <- E. apply IH; assumption.
Qed.
(* the chains of a frame have nothing but its events *)
Lemma chain_events f d hs : frame_says f d -> events_only f -> chains_of f hs -> Forall proper hs ->
  subl (as_ops (flat_map ch_ops hs)) (twice (map bare (filter event_op d))) /\ Forall canonical (flat_map ch_ops hs).
Proof.
  intros FS EO (_ & (l & O & SL) & _) PR. destruct (frame_cursors _ _ _ FS O) as [<- C].
  assert (ST : Forall (fun c => stampedb c = true) (flat_map ch_ops hs)).
  { rewrite Forall_forall in *. intros c I. apply in_flat_map in I as (h & I & J). destruct (PR h I) as (V & L & _).
    apply stampedb_iff. destruct (EO c) as [K|K]; [|exact K|].
    - eapply ops_delivered; [exact O|]. apply twice_in. eapply subl_in; [exact SL|]. apply in_flat_map. eauto.
    - exfalso. pose proof (linked_origins _ _ _ L J) as Q. apply version_origin in Q. unfold ch_id in V. rewrite V, K in Q. vm_compute in Q. discriminate. }
  split.
  - rewrite filter_ops. unfold as_ops. rewrite map_map, <- twice_map. apply subl_map. rewrite <- twice_filter. apply subl_keep; assumption.
  - rewrite Forall_forall in *. intros c I. apply C. apply twice_in. eapply subl_in; eassumption.
Qed.
Lemma filed_app k a b : filed k (a ++ b) = filed k a ++ filed k b. Proof. apply flat_map_app. Qed.
Lemma filed_in k hs h : In h (filed k hs) -> In h hs.
Proof.
  intro I. apply in_flat_map in I as (x & J & I). apply in_app_iff in I.
  destruct I as [I|I]; match type of I with In _ (if ?b then _ else _) => destruct b end; try (destruct I; fail); destruct I as [<-|[]]; exact J.
Qed.
Lemma filed_measure k hs : (length (says_ops (filed k hs)) <= 2 * length (as_ops (flat_map ch_ops hs)))%nat /\
  (room (says_ops (filed k hs)) <= 2 * room (as_ops (flat_map ch_ops hs)))%nat /\
  incl (says_ops (filed k hs)) (as_ops (flat_map ch_ops hs)).
Proof.
  unfold says_ops, as_ops. induction hs as [|h hs (I1 & I2 & I3)]; [cbn; split; [lia|split; [lia|intros x []]]|].
  change (filed k (h :: hs)) with (filed k ([h] ++ hs)). rewrite filed_app. rewrite !flat_map_app, !map_app, !app_length, !room_app. cbn [flat_map] in *. rewrite map_app, app_length, room_app.
  assert (H : (length (map (fun c => bare (rop_of c)) (flat_map ch_ops (filed k [h]))) <= 2 * length (map (fun c => bare (rop_of c)) (ch_ops h)))%nat /\
    (room (map (fun c => bare (rop_of c)) (flat_map ch_ops (filed k [h]))) <= 2 * room (map (fun c => bare (rop_of c)) (ch_ops h)))%nat /\
    incl (map (fun c => bare (rop_of c)) (flat_map ch_ops (filed k [h]))) (map (fun c => bare (rop_of c)) (ch_ops h))).
  { unfold filed. cbn [flat_map]. destruct (key_eqb _ k); destruct (key_eqb _ k); cbn [app flat_map]; rewrite ?app_nil_r, ?map_app, ?app_length, ?room_app;
      (split; [cbn [map length]; lia|]; split; [cbn [map length]; try lia; cbn; lia|]).
    all: try (apply incl_app; apply incl_refl). all: try apply incl_refl. intros x []. }
  destruct H as (H1 & H2 & H3). split; [lia|]. split; [lia|]. apply incl_app; [apply incl_appl; exact H3|apply incl_appr; exact I3].
Qed.
(* the records under a key that is neither a chain record's nor the tip's *)
Lemma records_filed k hs : key_form k <> META_META_FORM -> contents (flat_map ch_records hs) k = map ch_text (filed k hs).
Proof.
  intro NM. induction hs as [|h hs IH]; [reflexivity|]. cbn [flat_map]. rewrite contents_app, IH. change (filed k (h :: hs)) with (filed k ([h] ++ hs)). rewrite filed_app, map_app. f_equal.
  unfold ch_records. change [?a; ?b; ?c] with ([a] ++ [b] ++ [c]). rewrite !contents_app, !contents_one. unfold filed. cbn [flat_map]. rewrite app_nil_r, map_app.
  assert (E : key_eqb (key_as (ch_id h) META_FORM_UUID) k = false).
  { apply key_eqb_neq. intros <-. apply NM. unfold key_as. rewrite key_form_of by (vm_compute; reflexivity). vm_compute. reflexivity. }
  rewrite E. cbn [app]. unfold key_as at 1. change (uuid2form LOG_FORM_UUID) with LOG_RAW_FORM.
  destruct (key_eqb (key_of (ch_obj h) LOG_RAW_FORM) k); destruct (key_eqb (key_as (ch_obj h) (ch_rdt h)) k); reflexivity.
Qed.

(* ---- the life of a branch ---- *)
Section Life.
Variable sha : bytes -> bytes.
Variable fbits : bytes -> N.
Variable active : N.
Variable fuel : nat.
Notation b_jread := (b_jread fbits fuel).
Notation b_jprev := (b_jprev fbits fuel).
Notation acts := (acts family b_jread b_write).
Notation accepted := (ReplicaSpec.accepted family b_jread b_jprev b_write).
Notation b_step := (b_step sha fbits active fuel).
Notation b_run := (b_run sha fbits active fuel).

(* how the records change in one step; hs: the chains saved *)
Definition grows (d : family) (hs : list chain) (d' : family) : Prop :=
  (hs = [] /\ (d' = d \/ (exists ws w, only_writes ws /\ acts (d, []) ws (d', w)) \/ (exists k e, compact fbits fuel d k e = Done d'))) \/
  (exists ws m w f batch, only_writes ws /\ accepted (d, []) hs ws (m, w) /\ write bytes w KEY_ZERO f = (batch, StOK) /\ b_batch m batch = Done (d', ROk)).
Definition sourced (e : bevent) (s : rstatus) (hs : list chain) : Prop :=
  hs = [] \/ exists now rs f, e = BReceive now rs f /\ s = ROk /\ events_only f /\ chains_of f hs /\ Forall proper hs.
Inductive story : family -> list bevent -> list rstatus -> list (list chain) -> family -> Prop :=
| story_none d : story d [] [] [] d
| story_more d e s hs d1 es ss hss d2 : grows d hs d1 -> sourced e s hs -> story d1 es ss hss d2 ->
    story d (e :: es) (s :: ss) (hs :: hss) d2.

Lemma step_keeps id b e b' s t : tipped (br_main b) t -> uorigin t = uorigin id -> b_step id b e = Done (b', s) ->
  (forall n rs f, e = BReceive n rs f -> events_only f) ->
  exists hs, stores (br_tip b) e s hs /\ grows (br_main b) hs (br_main b') /\ sourced e s hs.
Proof.
  intros T Y H EO. destruct e as [now rs frame|now|k e]; cbn [BranchModel.b_step] in H.
  - unfold b_receive in H. apply rbind_done in H as ([[d n'] s1] & H & Q). injection Q as <- <-. cbn [br_main br_tip]. specialize (EO now rs frame eq_refl).
    destruct (receive_keeps sha fbits active fuel _ _ _ _ _ _ _ _ H) as [(ws & w & QW & A & K)|(-> & st & hs & ws & m & w & f & batch & R & NT & QW & A & C & W & B)].
    + exists []. split; [|split; [left; split; [reflexivity|]; right; left; exists ws, w; split; [apply QW; exact EO|exact A]|left; reflexivity]].
      destruct s1; cbn [stores]; try reflexivity. right. split; [|reflexivity]. intros c L.
      destruct (K eq_refl) as [K1|(st & R & E)].
      * destruct L as (l1 & l2 & O & _). exfalso. apply (K1 c). eapply ops_delivered; [exact O|]. apply in_or_app. right. left. reflexivity.
      * destruct (events_tip sha fbits active fuel _ _ _ _ _ _ EO R) as [[NV _]|(c' & L' & E2)].
        -- destruct L as (l1 & l2 & O & St & _). exfalso. apply (NV c); [|exact St]. eapply ops_delivered; [exact O|]. apply in_or_app. right. left. reflexivity.
        -- rewrite (last_unique _ _ _ L L'). congruence.
    + exists hs. split; [|split; [right; exists ws, m, w, f, batch; auto 6|]].
      * cbn [stores]. left. destruct (events_tip sha fbits active fuel _ _ _ _ _ _ EO R) as [[_ E]|(c & L & E)]; [contradiction|].
        exists c. split; [exact L|]. split; [congruence|exact C].
      * right. exists now, rs, frame. split; [reflexivity|]. split; [reflexivity|]. split; [exact EO|]. split; [exact C|]. eapply accepted_chains. exact A.
  - apply rbind_done in H as ([[[d n'] t'] s1] & H & Q). destruct (tipped_open fbits fuel _ _ _ _ _ _ _ _ T (or_introl Y) H) as (-> & -> & ->).
    injection Q as <- <-. exists []. split; [reflexivity|]. split; [left; cbn; auto|left; reflexivity].
  - apply rbind_done in H as (d & H & Q). injection Q as <- <-. exists []. split; [reflexivity|]. split; [left; cbn; eauto 8|left; reflexivity].
Qed.
Lemma run_keeps id : version id = TIME -> forall es b b' ss t, healthy id b t -> Forall clocks es -> b_run id b es = Done (b', ss) ->
  (forall n rs f, In (BReceive n rs f) es -> events_only f) ->
  exists hss, keeps (br_tip b) t es ss (concat hss) /\ story (br_main b) es ss hss (br_main b').
Proof.
  intro VT. induction es as [|e es IH]; intros b b' ss t HT C H EO; cbn [BranchModel.b_run] in H.
  - injection H as <- <-. exists []. split; constructor.
  - assert (H0 := H). apply rbind_done in H as ([b1 s] & H1 & H). apply rbind_done in H as ([b2 s2] & H2 & H). injection H as <- <-.
    inversion C as [|? ? C1 C2]; subst. pose proof HT as (T & TB & Y & YB).
    assert (EO1 : forall n rs f, e = BReceive n rs f -> events_only f) by (intros n rs f ->; eapply EO; left; reflexivity).
    destruct (step_keeps id b e b1 s t T Y H1 EO1) as (hs & S1 & G1 & SO1).
    assert (R1 : b_run id b [e] = Done (b1, [s])) by (cbn [BranchModel.b_run]; rewrite H1; reflexivity).
    destruct (run_tip sha fbits active fuel id VT [e] b b1 [s] t HT ltac:(apply Forall_cons; [exact C1|constructor]) R1) as (t1 & HT1 & _ & RM).
    specialize (RM ltac:(intros n rs f [->|[]]; eapply EO1; reflexivity)).
    inversion RM as [|? ? ? ? o1 u1 ? ? ? ? RC RM1]; subst. inversion RM1; subst.
    destruct (IH b1 b2 s2 t1 HT1 C2 H2) as (hss & K1 & K2); [intros n rs f I; eapply EO; right; exact I|].
    exists (hs :: hss). split; [cbn [concat]; eapply keeps_more; eassumption|eapply story_more; eassumption].
Qed.

Section Inv.
Variable k : key.
Variable ok : bytes -> list rop -> Prop.
Variable bound : list (list rop) -> Prop.
Variable P : option bytes -> list bytes -> list (list rop) -> Prop.
Variable X : list uop -> Prop.
Hypothesis bound_prefix : forall a b, bound (a ++ b) -> bound a.
Hypothesis P_write : forall v ops W f d, P v ops W -> ok f d -> P v (ops ++ [f]) (W ++ [d]).
Hypothesis P_partial : forall v a b c W g, P v (a ++ b ++ c) W -> bound W -> b <> [] ->
  operator_merge fbits fuel (key_form k) b = Done (Some g) -> P v (a ++ g :: c) W.
Hypothesis P_full : forall v b c W g, P v (b ++ c) W -> bound W -> b <> [] ->
  operator_merge fbits fuel (key_form k) (held v ++ b) = Done (Some g) -> P (Some g) c W.
Hypothesis P_mem : forall v a b W, P v (a ++ b) W -> bound W -> exists g, merge_as fbits fuel (key_form k) b = Done (Some g, StOK).
Hypothesis NZ : k <> KEY_ZERO.
Hypothesis NM : key_form k <> META_META_FORM.
Hypothesis ok_text : forall f d, frame_says f d -> increasing_ids d -> ok f d.
Hypothesis X_incl : forall U V, incl V U -> X U -> X V.
Hypothesis bound_of : forall W, keep_bound fuel (map bare (concat W)) [] -> X (map bare (concat W)) -> bound W.

Lemma keep_step W E1 E2 us : keep_bound fuel W (E1 ++ E2) -> X (W ++ map bare (E1 ++ E2)) ->
  incl us (map bare E1) -> (length us <= 4 * length E1)%nat -> (room us <= 4 * room (map bare E1))%nat ->
  keep_bound fuel (W ++ us) E2 /\ X ((W ++ us) ++ map bare E2).
Proof.
  intros (M & L & N & R) HX I LU RU. assert (IN : incl ((W ++ us) ++ map bare E2) (W ++ map bare (E1 ++ E2))).
  { rewrite map_app. intros u J. rewrite !in_app_iff in *. destruct J as [[J|J]|J]; auto. }
  rewrite map_app in R. rewrite room_app in R. rewrite app_length in L, N.
  split; [|eapply X_incl; eassumption]. split; [eapply mergeable_incl; eassumption|]. rewrite app_length, room_app.
  split; [lia|]. split; lia.
Qed.
Lemma keep_here W E : keep_bound fuel (map bare (concat W)) E -> X (map bare (concat W) ++ map bare E) -> bound W.
Proof.
  intros B HX. assert (B0 : keep_bound fuel (map bare (concat W)) (E ++ [])) by (rewrite app_nil_r; exact B).
  destruct (keep_step _ E [] [] B0) as [A1 A2]; [rewrite app_nil_r; exact HX|intros u []|cbn; lia|cbn; lia|].
  cbn [map] in A2. rewrite !app_nil_r in *. apply bound_of; assumption.
Qed.
Definition kept (d : family) (W : list (list rop)) : Prop := in_order d /\ P (ce_value (cell_at d k)) (ce_operands (cell_at d k)) W.

Lemma texts_ok f d hs E : frame_says f d -> events_only f -> chains_of f hs -> Forall proper hs -> 
  forall W, keep_bound fuel W (filter event_op d ++ E) ->
  exists dss, Forall2 ok (map ch_text (filed k hs)) dss /\ map bare (concat dss) = says_ops (filed k hs).
Proof.
  intros FS EO CO PR W KB. destruct (chain_events f d hs FS EO CO PR) as [SL CA].
  assert (SM : forall h, In h hs -> incl (as_ops (ch_ops h)) (as_ops (flat_map ch_ops hs)) /\ (length (ch_ops h) <= length (flat_map ch_ops hs))%nat /\
    (room (as_ops (ch_ops h)) <= room (as_ops (flat_map ch_ops hs)))%nat).
  { clear. induction hs as [|x hs IH]; intros h I; [destruct I|]. cbn [flat_map]. unfold as_ops in *. rewrite map_app, app_length, room_app.
    destruct I as [->|I]; [split; [apply incl_appl, incl_refl|split; lia]|]. destruct (IH h I) as (A & B & C). split; [apply incl_appr; exact A|split; lia]. }
  assert (LEN : (length (flat_map ch_ops hs) <= 2 * length (filter event_op d))%nat).
  { pose proof (subl_length _ _ SL) as Q. unfold as_ops in Q. rewrite twice_length, !map_length in Q. lia. }
  assert (RM : (room (as_ops (flat_map ch_ops hs)) <= 2 * room (map bare (filter event_op d)))%nat) by (pose proof (subl_room _ _ SL) as Q; rewrite twice_room in Q; lia).
  assert (INC : incl (as_ops (flat_map ch_ops hs)) (map bare (filter event_op d))) by (intros u J; apply twice_in; eapply subl_in; eassumption).
  destruct KB as (M & L & N & R). rewrite map_app, room_app in R. rewrite app_length in L, N.
  assert (G : forall h, In h hs -> exists d0, ok (ch_text h) d0 /\ map bare d0 = as_ops (ch_ops h)).
  { intros h I. destruct (SM h I) as (A & B & C). rewrite Forall_forall in PR. destruct (PR h I) as (_ & LK & TX & _).
    destruct (chain_text (ch_ops h) (ch_text h) (W ++ map bare (filter event_op d ++ E))) as (d0 & F0 & E0); try assumption.
    - rewrite Forall_forall in *. intros c J. apply CA. apply in_flat_map. eauto.
    - intros u J. rewrite map_app, !in_app_iff. right. left. apply INC, A, J.
    - lia.
    - lia.
    - exists d0. split; [|exact E0]. apply ok_text; [exact F0|].
      eapply increasing_of_bare; [|apply (linked_increasing (ch_rest h) (ch_head h)); exact LK]. rewrite E0, map_map. reflexivity. }
  assert (G2 : forall gs, (forall h, In h gs -> In h hs) -> exists dss, Forall2 ok (map ch_text gs) dss /\ map bare (concat dss) = says_ops gs).
  { clear -G. induction gs as [|h gs IH]; intro I; [exists []; split; [constructor|reflexivity]|].
    destruct (IH (fun x J => I x (or_intror J))) as (dss & A & B). destruct (G h (I h (or_introl eq_refl))) as (d0 & A0 & B0).
    exists (d0 :: dss). split; [constructor; assumption|]. cbn [concat]. rewrite map_app, B0, B. unfold says_ops, as_ops. cbn [flat_map]. rewrite map_app. reflexivity. }
  apply G2. intros h I. eapply filed_in. exact I.
Qed.

Lemma story_inv d es ss hss d' : story d es ss hss d' -> forall E W, received es ss E -> kept d W ->
  keep_bound fuel (map bare (concat W)) E -> X (map bare (concat W) ++ map bare E) ->
  exists dss, kept d' (W ++ dss) /\ map bare (concat dss) = says_ops (filed k (concat hss)) /\ bound (W ++ dss).
Proof.
  induction 1 as [d|d e s hs d1 es ss hss d2 G SO ST IH]; intros E W RV (O & HP) KB HX.
  - exists []. rewrite app_nil_r. split; [split; assumption|]. split; [reflexivity|]. eapply keep_here; eassumption.
  - (* nothing stored *)
    assert (B : bound W) by (eapply keep_here; eassumption).
    assert (STAY : hs = [] -> kept d1 W).
    { intros ->. destruct G as [(_ & [->|[(ws & w & OW & A)|(k1 & ce & A)]])|(ws & m & w & f & batch & OW & A & WR & BB)].
      - split; assumption.
      - destruct (acts_cell fbits fuel k _ _ _ OW A O ltac:(constructor)) as (O1 & _ & C1). cbn [fst] in *. split; [exact O1|]. rewrite C1. exact HP.
      - destruct (key_eqb k1 k) eqn:EK.
        + apply key_eqb_eq in EK. subst k1. apply (compact_ok fbits fuel k bound P P_partial P_full d ce d1 W); assumption.
        + destruct (compact_other fbits fuel k d k1 ce d1 O) as [O1 C1]; [intros ->; rewrite key_eqb_refl in EK; discriminate|exact A|].
          split; [exact O1|]. rewrite C1. exact HP.
      - pose proof (accepted_acts _ _ _ _ _ _ _ _ A) as AC. pose proof (accepted_writes _ _ _ _ _ _ _ _ A) as AW. cbn in AW.
        destruct (acts_cell fbits fuel k _ _ _ OW AC O ltac:(constructor)) as (O1 & S1 & _). cbn [fst snd] in *.
        pose proof (acts_joint fbits fuel k ok bound P bound_prefix P_write P_partial P_mem _ _ _ OW AC O ltac:(constructor) W []) as J.
        rewrite AW in J. cbn [contents filter map] in J. rewrite app_nil_r in J.
        destruct (batch_inv k P NZ m w f batch d1 ROk W O1 S1 (J ltac:(unfold joint; cbn [fst snd]; rewrite app_nil_r; exact HP) (Forall2_nil _) B) WR BB) as [O2 P2]. split; assumption. }
    destruct SO as [->|(now & rs & f & -> & -> & EO & CO & PR)].
    { cbn [concat app]. specialize (STAY eq_refl). inversion RV as [|? ? ? dd ? ? E2 FS RV2|? ? ? ? ? ? ? NE RV2|? ? ? ? ? RV2|? ? ? ? ? ? RV2]; subst.
      - destruct (keep_step _ (filter event_op dd) E2 [] KB HX) as [KB2 HX2]; [intros u []|cbn; lia|cbn; lia|]. rewrite app_nil_r in *.
        apply (IH E2 W); assumption.
      - apply (IH E W); assumption.
      - apply (IH E W); assumption.
      - apply (IH E W); assumption. }
    inversion RV as [|? ? ? dd ? ? E2 FS RV2|? ? ? ? ? ? ? NE RV2| |]; subst; [|contradiction].
    destruct (texts_ok f dd hs E2 FS EO CO PR _ KB) as (ds1 & T1 & T2).
    destruct (chain_events f dd hs FS EO CO PR) as [SL _]. destruct (filed_measure k hs) as (M1 & M2 & M3).
    pose proof (subl_length _ _ SL) as SL1. pose proof (subl_room _ _ SL) as SL2. rewrite twice_length, map_length in SL1. rewrite twice_room in SL2.
    destruct (keep_step _ (filter event_op dd) E2 (says_ops (filed k hs)) KB HX) as [KB2 HX2].
    { intros u J. apply twice_in. eapply subl_in; [exact SL|]. apply M3. exact J. } { lia. } { lia. }
    rewrite <- T2, <- map_app, <- concat_app in KB2, HX2.
    assert (K1 : kept d1 (W ++ ds1)).
    { destruct hs as [|h0 hs0].
      - cbn in T1. inversion T1; subst. rewrite app_nil_r. apply STAY. reflexivity.
      - destruct G as [(Q & _)|(ws & m & w & g & batch & OW & A & WR & BB)]; [discriminate|]. clear STAY. remember (h0 :: hs0) as hs eqn:EH.
        pose proof (accepted_acts _ _ _ _ _ _ _ _ A) as AC. pose proof (accepted_writes _ _ _ _ _ _ _ _ A) as AW.
        destruct (acts_cell fbits fuel k _ _ _ OW AC O ltac:(constructor)) as (O1 & S1 & _). cbn [fst snd] in *.
        assert (J : joint k P (m, w) (W ++ ds1)).
        { apply (acts_joint fbits fuel k ok bound P bound_prefix P_write P_partial P_mem _ _ _ OW AC O ltac:(constructor)).
          - unfold joint. cbn [fst snd]. rewrite app_nil_r. exact HP.
          - rewrite AW, (records_filed k hs NM). exact T1.
          - eapply keep_here; eassumption. }
        destruct (batch_inv k P NZ m w g batch d1 ROk _ O1 S1 J WR BB) as [O2 P2]. split; assumption. }
    destruct (IH E2 (W ++ ds1) RV2 K1 KB2 HX2) as (ds2 & K2 & T3 & B2). exists (ds1 ++ ds2). rewrite app_assoc. split; [exact K2|]. split; [|exact B2].
    rewrite concat_app, map_app, T2, T3. cbn [concat]. rewrite filed_app. unfold says_ops. rewrite flat_map_app, map_app. reflexivity.
Qed.
End Inv.
End Life.
