(* C48: the events a branch has accepted and saved stay readable. *)
From Coq Require Import Sorted.
From Verif Require ClockTheorems.
From Verif Require Import Prelude UuidModel UuidProofs KeyModel KeyProofs CodecModel TextModel TextSpec BuilderSpec BuilderProofs MetaTheorems MergeModel MergeSpec MergeTextModel
  TextMergeSpec TextCursors MergeKeeps TextMerge SizeProofs TextMergeTheorems StoreModel StoreSpec StoreProofs StoreTheorems RocksModel RocksSpec RocksProofs MetaModel ClockModel
  ReplicaModel ReplicaSpec ReplicaProofs ReplicaTheorems BranchModel BranchSpec BranchProofs BranchTheorems DurableSpec DurableProofs.

Lemma form_key_neq k k' : key_form k <> key_form k' -> k <> k'.
Proof. intros H ->. apply H. reflexivity. Qed.
Lemma ops_for us : exists ds : list (list rop), map bare (concat ds) = us.
Proof.
  exists [map (fun u => mkRop (u_id u) (u_ref u) (u_vals u) RAW) us]. cbn [concat]. rewrite app_nil_r, map_map. rewrite <- (map_id us) at 2.
  apply map_ext. intros [i r v]. reflexivity.
Qed.

Section Durable.
Variable sha : bytes -> bytes.
Variable fbits : bytes -> N.
Variable active : N.
Variable fuel : nat.
Notation b_step := (b_step sha fbits active fuel).
Notation b_run := (b_run sha fbits active fuel).
Notation rread := (rocks_read fbits fuel).

Lemma read_of d k g : k <> KEY_END -> cell_get fbits fuel k (cell_at d k) = Done (GValue g) -> rread d k = Done (g, KOk).
Proof. intros NE G. unfold rocks_read. rewrite (key_eqb_neq _ _ NE), G. reflexivity. Qed.

(* the log of an object *)
Lemma log_mem k v a b W : key_form k = LOG_RAW_FORM -> log_inv v (a ++ b) W -> log_bound fuel W ->
  exists g, merge_as fbits fuel (key_form k) b = Done (Some g, StOK).
Proof.
  intros FM (ds & F & E) B. rewrite app_assoc in F. apply Forall2_app_inv_l in F as (d1 & d2 & F1 & F2 & ->).
  destruct (frame_texts _ _ F2) as (A2 & B2). pose proof (same_bare_bound fuel _ W E B) as BD.
  destruct (log_text fbits fuel b d2 A2 B2) as (g & MG & _); [apply (mid_bound fuel d1 d2 []); rewrite app_nil_r; exact BD|].
  rewrite FM. eauto.
Qed.
Lemma log_inv_at d k W : log_at d k W <-> exists ds, log_inv (ce_value (cell_at d k)) (ce_operands (cell_at d k)) ds /\ map bare (concat ds) = W.
Proof.
  split.
  - intros (ds & F & E). exists ds. split; [exists ds; auto|exact E].
  - intros (ds & (es & F & E) & <-). exists es. auto.
Qed.
Lemma log_of_keep W : keep_bound fuel (map bare (concat W)) [] -> spanless (map bare (concat W)) -> log_bound fuel W.
Proof.
  intros (M & L & N & R) S. cbn [map] in M. rewrite app_nil_r in M. rewrite map_length in L, N. cbn [length map] in L, N, R. change (room []) with 0%nat in R.
  split; [exact M|]. split; [exact S|]. split; [lia|]. split; [lia|]. lia.
Qed.
Lemma log_nonvoid d k W : log_at d k W -> W <> [] -> held (ce_value (cell_at d k)) ++ ce_operands (cell_at d k) <> [].
Proof. intros (ds & F & E) NW Q. rewrite Q in F. inversion F; subst. apply NW. reflexivity. Qed.

Lemma log_kept d es ss hss d' E k W : in_order d -> story fbits fuel d es ss hss d' -> received es ss E ->
  key_form k = LOG_RAW_FORM -> log_at d k W -> keep_bound fuel W E -> spanless (W ++ map bare E) ->
  log_at d' k (W ++ says_ops (filed k (concat hss))) /\ keep_bound fuel (W ++ says_ops (filed k (concat hss))) [] /\
  (W ++ says_ops (filed k (concat hss)) <> [] ->
   exists text ops, rread d' k = Done (text, KOk) /\ frame_says text ops /\ map bare ops = W ++ says_ops (filed k (concat hss))).
Proof.
  intros IO ST RV FM LA KB SP.
  assert (N2 : k <> KEY_ZERO) by (apply form_key_neq; rewrite FM; vm_compute; discriminate).
  assert (N3 : k <> KEY_END) by (apply form_key_neq; rewrite FM; vm_compute; discriminate).
  assert (N4 : key_form k <> META_META_FORM) by (rewrite FM; discriminate).
  apply log_inv_at in LA as (W0 & LI & EW). subst W.
  destruct (story_inv sha fbits fuel k frame_text (log_bound fuel) log_inv spanless (log_bound_prefix fuel)
    (log_write) (log_partial fbits fuel k FM) (log_full fbits fuel k FM) (fun v a b0 W => log_mem k v a b0 W FM) N2 N4
    (fun f d A _ => A) ltac:(intros U V I S a b0 IA IB; apply S; apply I; assumption) log_of_keep
    _ _ _ _ _ ST E W0 RV (conj IO LI) KB SP) as (dss & (O & LI2) & Q & B).
  assert (EQ : map bare (concat (W0 ++ dss)) = map bare (concat W0) ++ says_ops (filed k (concat hss))) by (rewrite concat_app, map_app, Q; reflexivity).
  assert (LA2 : log_at d' k (map bare (concat W0) ++ says_ops (filed k (concat hss)))) by (apply log_inv_at; exists (W0 ++ dss); auto).
  split; [exact LA2|]. split.
  { rewrite <- EQ. destruct B as (B1 & _ & B2 & B3 & B4). unfold keep_bound. cbn [map length]. change (room []) with 0%nat. rewrite app_nil_r, map_length.
    split; [exact B1|]. split; [lia|]. split; lia. }
  intro NV. pose proof (log_nonvoid _ _ _ LA2 NV) as NH.
  destruct (log_get_small fbits fuel k FM (cell_at d' k) (W0 ++ dss) LI2 B NH) as (text & ops & G & FL & EO2 & SM).
  exists text, ops. split; [apply read_of; assumption|]. split; [split; assumption|]. rewrite EO2. exact EQ.
Qed.
Lemma log_story d es ss hss d' E k W : in_order d -> story fbits fuel d es ss hss d' -> received es ss E ->
  key_form k = LOG_RAW_FORM -> log_at d k W -> keep_bound fuel W E -> spanless (W ++ map bare E) ->
  log_at d' k (W ++ says_ops (filed k (concat hss))) /\
  (W ++ says_ops (filed k (concat hss)) <> [] ->
   exists text ops, rread d' k = Done (text, KOk) /\ frame_says text ops /\ map bare ops = W ++ says_ops (filed k (concat hss))).
Proof. intros IO ST RV FM LA KB SP. destruct (log_kept d es ss hss d' E k W IO ST RV FM LA KB SP) as (A & _ & B). split; assumption. Qed.

(* Whatever a branch receives, however often it is opened again and however its
   records are compacted: a log has what it had and the ops of the saved chains
   of its object, in order; a read gives exactly that. *)
Theorem C48_log id b t es b' ss E : version id = TIME -> healthy id b t -> Forall clocks es ->
  (forall now rs f, In (BReceive now rs f) es -> events_only f) ->
  b_run id b es = Done (b', ss) -> received es ss E ->
  exists hs, keeps (br_tip b) t es ss hs /\
    forall k W, key_form k = LOG_RAW_FORM -> log_at (br_main b) k W -> keep_bound fuel W E -> spanless (W ++ map bare E) ->
      log_at (br_main b') k (W ++ says_ops (filed k hs)) /\
      (W ++ says_ops (filed k hs) <> [] ->
       exists text ops, rread (br_main b') k = Done (text, KOk) /\ frame_says text ops /\ map bare ops = W ++ says_ops (filed k hs)).
Proof.
  intros VT HT C EO R RV. destruct (run_keeps sha fbits active fuel id VT es b b' ss t HT C R EO) as (hss & KP & ST).
  exists (concat hss). split; [exact KP|]. intros k W FM LA KB SP. apply (log_story (br_main b) es ss hss (br_main b') E); try assumption. apply HT.
Qed.

(* the state of an object whose frames are merged by id *)
Lemma union_inv_at d k W : state_at d k W <-> exists ds, union_inv (ce_value (cell_at d k)) (ce_operands (cell_at d k)) ds /\ map bare (concat ds) = W.
Proof.
  split.
  - intros (ds & F & U & L & R & V). destruct (ops_for W) as (W0 & EW). exists W0. split; [|exact EW]. exists ds. split; [|exact V].
    rewrite <- EW in *. rewrite map_length in L. split; [|auto]. clear -F. induction F as [|f d0 fs ds ((A & B) & C) F IH]; constructor; [split; auto|exact IH].
  - intros (W0 & (ds & (F & U & L & R) & V) & <-). exists ds. split; [|rewrite map_length; auto].
    clear -F. induction F as [|f d0 fs ds (A & B & C) F IH]; constructor; [split; [split|]; auto|exact IH].
Qed.
Lemma union_mem k v a b W : In (key_form k) [LWW_RDT_FORM; MX_RDT_FORM; YARN_RAW_FORM; META_META_FORM] -> union_inv v (a ++ b) W -> union_bound fuel W ->
  exists g, merge_as fbits fuel (key_form k) b = Done (Some g, StOK).
Proof.
  intros FM (ds & SY & V) B. destruct (merge_said fbits fuel (key_form k) _ ds W SY B FM (held v ++ a) b []) as (g & us & d1 & d2 & d3 & MG & _).
  { rewrite app_nil_r, app_assoc. reflexivity. }
  eauto.
Qed.
Lemma union_of_keep W : keep_bound fuel (map bare (concat W)) [] -> True -> union_bound fuel W.
Proof.
  intros (M & L & N & R) _. cbn [map] in M. rewrite app_nil_r in M. rewrite map_length in L, N. cbn [length map] in L, N, R. change (room []) with 0%nat in R.
  split; [exact M|]. split; [lia|]. split; lia.
Qed.
Lemma state_story d es ss hss d' E k W : in_order d -> story fbits fuel d es ss hss d' -> received es ss E ->
  In (key_form k) [LWW_RDT_FORM; MX_RDT_FORM; YARN_RAW_FORM] -> state_at d k W -> keep_bound fuel W E ->
  state_at d' k (W ++ says_ops (filed k (concat hss))) /\
  (W ++ says_ops (filed k (concat hss)) <> [] ->
   exists text us, rread d' k = Done (text, KOk) /\ frame_lit canon text (chunk_of us) /\ increasing_ids (chunk_of us) /\
     forall u, In u us <-> In u (W ++ says_ops (filed k (concat hss)))).
Proof.
  intros IO ST RV FM LA KB.
  assert (N2 : k <> KEY_ZERO) by (apply form_key_neq; destruct FM as [<-|[<-|[<-|[]]]]; vm_compute; discriminate).
  assert (N3 : k <> KEY_END) by (apply form_key_neq; destruct FM as [<-|[<-|[<-|[]]]]; vm_compute; discriminate).
  assert (N4 : key_form k <> META_META_FORM) by (destruct FM as [<-|[<-|[<-|[]]]]; vm_compute; discriminate).
  assert (FM2 : In (key_form k) [LWW_RDT_FORM; MX_RDT_FORM; YARN_RAW_FORM; META_META_FORM]) by (cbn [In] in *; tauto).
  apply union_inv_at in LA as (W0 & LI & EW). subst W.
  destruct (story_inv sha fbits fuel k text_frame (union_bound fuel) union_inv (fun _ => True) (union_bound_prefix fuel)
    (union_write fbits) (union_partial fbits fuel k FM2) (union_full fbits fuel k FM2) (fun v a b0 W => union_mem k v a b0 W FM2) N2 N4
    (fun f d A I => conj (proj1 A) (conj (increasing_sorted d I) (proj2 A))) (fun U V I S => S) union_of_keep
    _ _ _ _ _ ST E W0 RV (conj IO LI) KB Logic.I) as (dss & (O & LI2) & Q & B).
  assert (EQ : map bare (concat (W0 ++ dss)) = map bare (concat W0) ++ says_ops (filed k (concat hss))) by (rewrite concat_app, map_app, Q; reflexivity).
  split; [apply union_inv_at; exists (W0 ++ dss); auto|]. intro NV. rewrite <- EQ in *.
  destruct (union_get fbits fuel k FM2 (cell_at d' k) (W0 ++ dss) LI2 B) as (text & us & G & FL & I & U).
  - intro Z. rewrite Z in NV. apply NV. reflexivity.
  - intro Z. destruct LI2 as (ds & (F & UU & _) & _). rewrite Z in F. inversion F; subst. destruct (map bare (concat (W0 ++ dss))) as [|u us0] eqn:EM; [apply NV; reflexivity|].
    destruct (proj2 (UU u) (or_introl eq_refl)).
  - exists text, us. split; [apply read_of; assumption|auto].
Qed.

(* The state of an object: a read gives what was there and the ops of the saved
   chains of the object, each op once, in the order of ids. *)
Theorem C48_state id b t es b' ss E : version id = TIME -> healthy id b t -> Forall clocks es ->
  (forall now rs f, In (BReceive now rs f) es -> events_only f) ->
  b_run id b es = Done (b', ss) -> received es ss E ->
  exists hs, keeps (br_tip b) t es ss hs /\
    forall k W, In (key_form k) [LWW_RDT_FORM; MX_RDT_FORM; YARN_RAW_FORM] ->
      state_at (br_main b) k W -> keep_bound fuel W E ->
      state_at (br_main b') k (W ++ says_ops (filed k hs)) /\
      (W ++ says_ops (filed k hs) <> [] ->
       exists text us, rread (br_main b') k = Done (text, KOk) /\ frame_lit canon text (chunk_of us) /\ increasing_ids (chunk_of us) /\
         forall u, In u us <-> In u (W ++ says_ops (filed k hs))).
Proof.
  intros VT HT C EO R RV. destruct (run_keeps sha fbits active fuel id VT es b b' ss t HT C R EO) as (hss & KP & ST).
  exists (concat hss). split; [exact KP|]. intros k W FM LA KB. apply (state_story (br_main b) es ss hss (br_main b') E); try assumption. apply HT.
Qed.
(* ---- every event of a saved frame ---- *)
Lemma filed_log h hs : In h hs -> In h (filed (key_of (ch_obj h) LOG_RAW_FORM) hs).
Proof. intro I. apply in_flat_map. exists h. split; [exact I|]. rewrite key_eqb_refl. left. reflexivity. Qed.
(* A frame is accepted and does not end with the event the branch was opened at.
   However long the branch lives on, each event of the frame is in the log of
   some object. *)
Theorem C48_event id b t now rs f es b' ss E c : version id = TIME -> healthy id b t -> Forall clocks (BReceive now rs f :: es) ->
  (forall n r g, In (BReceive n r g) (BReceive now rs f :: es) -> events_only g) ->
  b_run id b (BReceive now rs f :: es) = Done (b', ROk :: ss) -> received (BReceive now rs f :: es) (ROk :: ss) E ->
  last_event f c -> text_id c <> br_tip b ->
  (forall obj, exists W, log_at (br_main b) (key_of obj LOG_RAW_FORM) W /\ keep_bound fuel W E /\ spanless (W ++ map bare E)) ->
  forall x, delivered f x -> stamped x -> exists obj text ops,
    rread (br_main b') (key_of obj LOG_RAW_FORM) = Done (text, KOk) /\ frame_says text ops /\ In (bare (rop_of x)) (map bare ops).
Proof.
  intros VT HT C EO R RV LE NT LA x D SX. destruct (C48_log id b t _ b' _ E VT HT C EO R RV) as (hs & KP & K).
  inversion KP as [|? ? ? ? o1 u1 hs1 ? ? hs2 RC ST KP2]; subst. cbn [stores] in ST.
  destruct ST as [(c2 & _ & _ & CO & _)|(NS & _)]; [|exfalso; apply NT, NS, LE].
  specialize (CO x D SX). apply in_flat_map in CO as (h & IH & IX). destruct (LA (ch_obj h)) as (W & LW & KB & SP).
  destruct (K (key_of (ch_obj h) LOG_RAW_FORM) W) as [_ K2]; try assumption; [apply key_form_of; reflexivity|].
  assert (IN : In (bare (rop_of x)) (W ++ says_ops (filed (key_of (ch_obj h) LOG_RAW_FORM) (hs1 ++ hs2)))).
  { apply in_or_app. right. unfold says_ops. apply in_map_iff. exists x. split; [reflexivity|]. apply in_flat_map. exists h. split; [|exact IX].
    apply filed_log. apply in_or_app. left. exact IH. }
  destruct K2 as (text & ops & RD & FL & EQ); [intro Z; rewrite Z in IN; destruct IN|].
  exists (ch_obj h), text, ops. split; [exact RD|]. split; [exact FL|]. rewrite EQ. exact IN.
Qed.

(* ---- from the creation of the branch ---- *)
Lemma one_says t ref f : tip_ok t -> id_ok ref -> one_op t ref [] = Some f -> frame_says f [mkRop t ref [] RAW].
Proof.
  intros TK RO F. destruct (one_reads t ref TK RO) as (f1 & _ & _ & F1 & _). assert (f1 = f) by congruence. subst f1. clear F1. destruct TK as [OK NI].
  destruct (build_calls_frame [UAppend (mkUop t ref [])] canon_writes) as (text & BT & FL).
  { cbn [good_calls]. split; [split; [exact OK|]; split; [exact RO|constructor]|]. split; [intro Q; contradiction|]. split; [|exact Logic.I].
    unfold continues. intro Q. exfalso. apply andb_true_iff in Q as [Q _]. apply andb_true_iff in Q as [Q _]. apply uuid_eqb_eq in Q. contradiction. }
  { reflexivity. }
  assert (text = f) by (unfold build_calls in BT; unfold one_op in F; cbn in BT, F; congruence). subst text. split; [exact FL|]. clear FL BT.
  assert (NS : is_same_span (mkWop t ref []) builder0 = false).
  { unfold is_same_span. cbn [w_ref w_id b_prev builder0]. destruct (uuid_eqb t (inc NIL)) eqn:Q; [apply uuid_eqb_eq in Q; contradiction|].
    rewrite andb_false_r. reflexivity. }
  unfold one_op, wop_of_op in F. cbn [wvals_of option_map] in F.
  unfold build, build_from in F. cbn [fold_left bstep] in F. unfold append_op in F. cbn [w_ref w_id] in F.
  rewrite NS in F. cbn [option_map] in F. injection F as <-.
  unfold release, write_values, write_spec. cbn [write_term b_span builder0 N.eqb b_prev b_data b_prev2 fst].
  pose proof (write_uuid_len t). pose proof (write_uuid_len ref).
  change (2 ^ 32) with 4294967296. unfold write_term. cbn [b_span b_data b_prev b_prev2 N.eqb N.ltb N.compare Pos.compare Pos.compare_cont].
  cbn [flat_map w_vals value_text].
  destruct (uuid_eqb t (inc NIL)), (uuid_eqb ref NIL);
    repeat (rewrite app_length || cbn [length app]); lia.
Qed.
(* what the records of a new branch say *)
Definition first_ops (k : key) (ev : uuid) : list uop :=
  if key_eqb (key_of ev LOG_RAW_FORM) k || key_eqb (key_as ev YARN_FORM_UUID) k then [mkUop ev YARN_FORM_UUID []] else [].
Lemma first_joint k (ok : bytes -> list rop -> Prop) (bound : list (list rop) -> Prop) (P : option bytes -> list bytes -> list (list rop) -> Prop) now rs yarn tr b s : (forall a b, bound (a ++ b) -> bound a) ->
  (forall v ops W f d, P v ops W -> ok f d -> P v (ops ++ [f]) (W ++ [d])) ->
  (forall v a b c W g, P v (a ++ b ++ c) W -> bound W -> b <> [] ->
     operator_merge fbits fuel (key_form k) b = Done (Some g) -> P v (a ++ g :: c) W) ->
  (forall v a b W, P v (a ++ b) W -> bound W -> exists g, merge_as fbits fuel (key_form k) b = Done (Some g, StOK)) ->
  k <> KEY_ZERO -> key_form k <> META_META_FORM ->
  (forall f d, frame_says f d -> increasing_ids d -> ok f d) -> P None [] [] ->
  (forall W, map bare (concat W) = first_ops k (first_event active now rs yarn tr) -> bound W) ->
  uvalue (first_event active now rs yarn tr) < NEVER_W -> b_new sha fbits active fuel now rs yarn tr = Done (b, s) ->
  exists W, P (ce_value (cell_at (br_main b) k)) (ce_operands (cell_at (br_main b) k)) W /\
    map bare (concat W) = first_ops k (first_event active now rs yarn tr).
Proof.
  intros BP PW PP PM NZ NM OT P0 BW NV H.
  destruct (new_inv sha fbits active fuel _ _ _ _ _ _ NV H) as (f0 & c & h & ws & m & w & f & batch & TK & T & OW & A1 & WO & CH & OB & RD & WC & TX & F & WW & B & BT & _).
  set (ev := first_event active now rs yarn tr) in *. clearbody ev.
  assert (FS : frame_says (ch_text h) [mkRop ev YARN_FORM_UUID [] RAW]).
  { apply one_says; [exact TK|split; [split|]; reflexivity|]. unfold ops_text in TX. cbn [map] in TX. rewrite WC in TX. exact TX. }
  assert (OKT : ok (ch_text h) [mkRop ev YARN_FORM_UUID [] RAW]) by (apply OT; [exact FS|unfold increasing_ids; cbn; repeat constructor]).
  assert (D : exists dss, Forall2 ok (contents (writes_of ws) k) dss /\ map bare (concat dss) = first_ops k ev).
  { assert (E : contents (writes_of ws) k = map ch_text (filed k [h])).
    { rewrite WO. pose proof (records_filed k [h] NM) as Q. cbn [flat_map] in Q. rewrite app_nil_r in Q. exact Q. }
    rewrite E. unfold filed, first_ops. cbn [flat_map]. rewrite app_nil_r, OB, RD.
    destruct (key_eqb (key_of ev LOG_RAW_FORM) k) eqn:K1; destruct (key_eqb (key_as ev YARN_FORM_UUID) k) eqn:K2; cbn [orb app map].
    - exfalso. apply key_eqb_eq in K1, K2. rewrite <- K2 in K1. apply (f_equal key_form) in K1. unfold key_as in K1. rewrite !key_form_of in K1 by reflexivity. discriminate.
    - exists [[mkRop ev YARN_FORM_UUID [] RAW]]. split; [repeat constructor; exact OKT|reflexivity].
    - exists [[mkRop ev YARN_FORM_UUID [] RAW]]. split; [repeat constructor; exact OKT|reflexivity].
    - exists []. split; [constructor|reflexivity]. }
  destruct D as (dss & FD & ED). destruct T as (O & _ & _).
  assert (C0 : cell_at [(KEY_ZERO, mkCell None [f0])] k = cell0).
  { cbn [cell_at]. rewrite key_eqb_neq by (intro Q; apply NZ; symmetry; exact Q). destruct (key_ltb k KEY_ZERO); reflexivity. }
  destruct (acts_cell fbits fuel k _ _ _ OW A1 O ltac:(constructor)) as (O1 & S1 & _). cbn [fst snd] in O1, S1.
  pose proof (acts_joint fbits fuel k ok bound P BP PW PP PM _ _ _ OW A1 O ltac:(constructor) [] dss) as J. unfold joint in J. cbn [fst snd] in J. rewrite C0 in J.
  specialize (J P0 FD (BW dss ED)). destruct (batch_inv k P NZ m w f batch _ _ dss O1 S1 J WW B) as [_ P2]. exists dss. auto.
Qed.
Theorem C48_created now rs yarn tr b s : let ev := first_event active now rs yarn tr in
  uvalue ev < NEVER_W -> b_new sha fbits active fuel now rs yarn tr = Done (b, s) ->
  forall k, keep_bound fuel (first_ops k ev) [] ->
    (key_form k = LOG_RAW_FORM -> spanless (first_ops k ev) -> log_at (br_main b) k (first_ops k ev)) /\
    (In (key_form k) [LWW_RDT_FORM; MX_RDT_FORM; YARN_RAW_FORM] -> state_at (br_main b) k (first_ops k ev)).
Proof.
  intros ev NV H k KB. split.
  - intros FM SP. 
    assert (N2 : k <> KEY_ZERO) by (apply form_key_neq; rewrite FM; vm_compute; discriminate).
    assert (N4 : key_form k <> META_META_FORM) by (rewrite FM; discriminate).
    apply log_inv_at.
    apply (first_joint k frame_text (log_bound fuel) log_inv now rs yarn tr b s (log_bound_prefix fuel) log_write (log_partial fbits fuel k FM)
      (fun v a b0 W => log_mem k v a b0 W FM) N2 N4 (fun f d A _ => A)); [exists []; split; [constructor|reflexivity]| |exact NV|exact H].
    intros W EW. apply log_of_keep; rewrite EW; assumption.
  - intros FM.
    assert (N2 : k <> KEY_ZERO) by (apply form_key_neq; destruct FM as [<-|[<-|[<-|[]]]]; vm_compute; discriminate).
    assert (N4 : key_form k <> META_META_FORM) by (destruct FM as [<-|[<-|[<-|[]]]]; vm_compute; discriminate).
    assert (FM2 : In (key_form k) [LWW_RDT_FORM; MX_RDT_FORM; YARN_RAW_FORM; META_META_FORM]) by (cbn [In] in *; tauto).
    apply union_inv_at.
    apply (first_joint k text_frame (union_bound fuel) union_inv now rs yarn tr b s (union_bound_prefix fuel) (union_write fbits) (union_partial fbits fuel k FM2)
      (fun v a b0 W => union_mem k v a b0 W FM2) N2 N4 (fun f d A I => conj (proj1 A) (conj (increasing_sorted d I) (proj2 A)))); [| |exact NV|exact H].
    { exists []. split; [|congruence]. split; [constructor|]. split; [intro u; reflexivity|split; apply le_n]. }
    intros W EW. apply union_of_keep; [rewrite EW; exact KB|exact Logic.I].
Qed.
(* The whole life of a branch, from its creation. *)
Theorem C48_life now rs yarn tr b s now1 es b' s1 ss E : let ev := first_event active now rs yarn tr in
  tr = true \/ yarn <> 0 -> uvalue ev < NEVER_W -> b_new sha fbits active fuel now rs yarn tr = Done (b, s) -> Forall clocks es ->
  (forall n r f, In (BReceive n r f) es -> events_only f) ->
  b_run (branch_id yarn) b (BOpen now1 :: es) = Done (b', s1 :: ss) -> received es ss E ->
  exists hs, keeps ev ev es ss hs /\
    (forall k, let said := first_ops k ev ++ says_ops (filed k hs) in
       key_form k = LOG_RAW_FORM -> keep_bound fuel (first_ops k ev) E -> spanless (first_ops k ev ++ map bare E) -> said <> [] ->
       exists text ops, rread (br_main b') k = Done (text, KOk) /\ frame_says text ops /\ map bare ops = said) /\
    (forall k, let said := first_ops k ev ++ says_ops (filed k hs) in
       In (key_form k) [LWW_RDT_FORM; MX_RDT_FORM; YARN_RAW_FORM] -> keep_bound fuel (first_ops k ev) E -> said <> [] ->
       exists text us, rread (br_main b') k = Done (text, KOk) /\ frame_lit canon text (chunk_of us) /\ increasing_ids (chunk_of us) /\
         forall u, In u us <-> In u said).
Proof.
  intros ev Y NV H C EO R RV. subst ev. cbn [BranchModel.b_run] in R. apply rbind_done in R as ([b1 s2] & R1 & R). apply rbind_done in R as ([b2 ss2] & R & Q). injection Q as -> -> ->.
  destruct (C47_created sha fbits active fuel _ _ _ _ _ _ Y NV H) as (-> & _ & _ & K). destruct (K _ _ _ R1) as (-> & BT & HT). clear K.
  assert (MB : br_main b1 = br_main b).
  { destruct (new_tip sha fbits active fuel _ _ _ _ _ _ NV H) as (_ & _ & T). cbn [BranchModel.b_step] in R1. apply rbind_done in R1 as ([[[d n'] t'] s1] & H1 & Q).
    destruct (first_time active now rs yarn tr) as [_ OR]. destruct (tipped_open fbits fuel _ _ _ _ _ _ _ _ T (or_introl (OR Y)) H1) as (-> & -> & ->). injection Q as <-. reflexivity. }
  assert (VT : version (branch_id yarn) = TIME) by apply ClockTheorems.time_version.
  destruct (run_keeps sha fbits active fuel _ VT es b1 b' ss _ HT C R EO) as (hss & KP & ST). rewrite BT in KP. exists (concat hss). split; [exact KP|].
  assert (IO : in_order (br_main b1)) by apply HT.
  assert (Z : forall W, keep_bound fuel W E -> keep_bound fuel W []).
  { clear. intros W (M & L & NN & RR). unfold keep_bound. cbn [map length]. change (room []) with 0%nat. rewrite app_nil_r. split; [|split; [lia|split; lia]].
    eapply mergeable_incl; [exact M|]. apply incl_appl, incl_refl. }
  split; intro k; cbv zeta.
  - intros FM KB SP NE. destruct (C48_created now rs yarn tr b ROk NV H k (Z _ KB)) as [K _].
    apply (log_story (br_main b1) es ss hss (br_main b') E k (first_ops k (first_event active now rs yarn tr))); try assumption. rewrite MB. apply K; [exact FM|].
    intros x y IX IY. apply SP; apply in_or_app; left; assumption.
  - intros FM KB NE. destruct (C48_created now rs yarn tr b ROk NV H k (Z _ KB)) as [_ K].
    apply (state_story (br_main b1) es ss hss (br_main b') E k (first_ops k (first_event active now rs yarn tr))); try assumption. rewrite MB. apply K; assumption.
Qed.
End Durable.
Print Assumptions C48_log.
Print Assumptions C48_state.
Print Assumptions C48_event.
Print Assumptions C48_created.
Print Assumptions C48_life.
