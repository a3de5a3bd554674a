(* C81: the fields of an LWW object, on a branch and across branches. *)
From Coq Require Import Sorted.
From Verif Require Import Prelude UuidModel UuidProofs KeyModel KeyProofs CodecModel TextModel TextSpec BuilderSpec BuilderProofs MergeModel MergeSpec MergeTextModel
  TextMergeSpec TextCursors MergeKeeps TextMerge StoreModel StoreSpec StoreProofs RocksModel RocksSpec RocksProofs MetaModel ClockModel
  ReplicaModel ReplicaSpec BranchModel BranchSpec BranchProofs DurableSpec DurableProofs DurableTheorems NamesTheorems LwwObjModel LwwObjSpec LwwObjTheorems YarnSpec YarnProofs YarnJoin YarnTheorems.

(* of the events that belong to the object o of type t, the newest one that
   writes the field k gives it the value v *)
Definition newest_write (us : list uop) (o t k : uuid) (v : value) : Prop :=
  exists u, belongs us u o t /\ sets u k v /\ forall u' v', belongs us u' o t -> sets u' k v' -> u' = u \/ uuid_ltb (u_id u') (u_id u) = true.
(* none of them writes it *)
Definition no_write (us : list uop) (o t k : uuid) : Prop := forall u v, belongs us u o t -> ~ sets u k v.

(* an event for any field, or none *)
Lemma sets_dec u k : (exists v, sets u k v) \/ forall v, ~ sets u k v.
Proof.
  unfold sets. destruct (u_vals u) as [|[k0| | |] [|v r]]; try (right; intros w (r0 & Q); discriminate Q).
  destruct (uuid_eqb k0 k) eqn:E; [apply uuid_eqb_eq in E; subst k0; left; eauto|].
  right. intros w (r0 & Q). injection Q as -> _ _. rewrite (proj2 (uuid_eqb_eq _ _) eq_refl) in E. discriminate.
Qed.
Lemma newest_in W k : (forall a b, In a W -> In b W -> u_id a = u_id b -> a = b) -> (exists v, field W k v) \/ forall u v, In u W -> ~ sets u k v.
Proof.
  induction W as [|x W IH]; intro U; [right; intros u v []|].
  destruct IH as [(v & u & I & SV & K)|N]; [intros a b A B; apply U; right; assumption| |].
  - destruct (sets_dec x k) as [(w & SX)|NX].
    + destruct (uuid_ltb (u_id u) (u_id x)) eqn:L.
      * left. exists w, x. split; [left; reflexivity|]. split; [exact SX|]. intros u' v' [<-|J] SU; [left; reflexivity|]. right. destruct (K u' v' J SU) as [->|Q]; [exact L|exact (uuid_ltb_trans _ _ _ Q L)].
      * left. exists v, u. split; [right; exact I|]. split; [exact SV|]. intros u' v' [<-|J] SU; [|exact (K u' v' J SU)].
        destruct (uuid_ltb (u_id x) (u_id u)) eqn:L2; [right; reflexivity|]. left. apply U; [left; reflexivity|right; exact I|]. destruct (uuid_total (u_id x) (u_id u)) as [Q|[Q|Q]]; [congruence|exact Q|congruence].
    + left. exists v, u. split; [right; exact I|]. split; [exact SV|]. intros u' v' [<-|J] SU; [exfalso; exact (NX _ SU)|exact (K u' v' J SU)].
  - destruct (sets_dec x k) as [(w & SX)|NX].
    + left. exists w, x. split; [left; reflexivity|]. split; [exact SX|]. intros u' v' [<-|J] SU; [left; reflexivity|exfalso; exact (N _ _ J SU)].
    + right. intros u v [<-|J]; [apply NX|apply N; exact J].
Qed.

Section Fields.
Variable sha : bytes -> bytes.
Variable fbits : bytes -> N.
Variable active : N.
Variable fuel : nat.
Notation rread := (rocks_read fbits fuel).
Notation obj_new := (obj_new fbits fuel).
Notation lives := (lives sha fbits active fuel).
Notation opener ev := (mkUop ev YARN_FORM_UUID []).

(* the index over the state of an object *)
Lemma state_index now rs yarn tr es ss E b' : lives now rs yarn tr es ss E b' ->
  let ev := first_event active now rs yarn tr in
  exists hss, keeps ev ev es ss (concat hss) /\ stored_of es ss hss /\ (Forall (apart (opener ev :: map bare E)) hss -> let all := opener ev :: says_ops (concat hss) in
    forall u o t, belongs all u o t -> uuid2form t = LWW_RDT_FORM ->
    exists text x W, rread (br_main b') (key_as o t) = Done (text, KOk) /\ obj_new text = Done x /\ (forall v, In v W <-> belongs all v o t) /\
      mergeable W /\ (forall n v, field W n v -> tells fbits x n v) /\ (forall n, (forall u v, In u W -> ~ sets u n v) -> silent x n)).
Proof.
  intros LV ev. destruct (life_good _ _ _ _ _ _ _ _ _ _ _ _ LV) as (hss & h & b1 & KP & ST & IO & SO & OB & RD & SA & SU & G). fold ev in KP, SO, G, OB, SA, SU.
  destruct LV as (_ & _ & _ & _ & _ & RV & KB & _). fold ev in KB.
  exists hss. split; [exact KP|]. split; [eapply story_stored; exact ST|]. intros ONE all u o t BU FL. destruct (G ONE) as (GD & _ & _). clear G.
  assert (EA : says_ops ([h] ++ concat hss) = all) by (rewrite says_app, SO; reflexivity).
  assert (FK : key_form (key_as o t) = LWW_RDT_FORM) by (unfold key_as; rewrite key_form_of; [exact FL|rewrite FL; reflexivity]).
  assert (FM' : In (key_form (key_as o t)) [LWW_RDT_FORM; MX_RDT_FORM; YARN_RAW_FORM]) by (left; symmetry; exact FK).
  set (W := first_ops (key_as o t) ev ++ says_ops (filed (key_as o t) (concat hss))).
  destruct (state_story sha fbits fuel (br_main b1) es ss hss (br_main b') E (key_as o t) (first_ops (key_as o t) ev) IO ST RV FM' (SA _ FM') (first_bound _ _ _ _ KB)) as [SA2 _].
  assert (EQ : forall v, In v W <-> In v (says_ops (filed (key_as o t) ([h] ++ concat hss)))).
  { intro v. unfold W. rewrite filed_app, says_app, !in_app_iff. apply or_iff_compat_r.
    unfold first_ops, filed. cbn [flat_map]. rewrite app_nil_r, OB, RD.
    destruct (key_eqb (key_of ev LOG_RAW_FORM) (key_as o t)) eqn:K1.
    { exfalso. apply key_eqb_eq in K1. apply (f_equal key_form) in K1. rewrite FK, key_form_of in K1 by reflexivity. discriminate. }
    destruct (key_eqb (key_as ev YARN_FORM_UUID) (key_as o t)); cbn [orb app]; [rewrite SO|]; reflexivity. }
  assert (ME : forall v, In v W <-> belongs all v o t).
  { intro v. rewrite EQ, <- EA. apply (state_ops (opener ev :: map bare E)); [exact SU|exact GD|]. exists u. rewrite EA. exact BU. }
  assert (KB2 : keep_bound fuel W []).
  { destruct (story_measure sha fbits fuel _ _ _ _ _ (key_as o t) ST E RV) as (I1 & I2 & I3). unfold W. rewrite <- (app_nil_r (first_ops _ _ ++ _)).
    apply (bound_moves fuel (first_ops (key_as o t) ev) [] E [] _); try assumption. rewrite !app_nil_r. apply first_bound. exact KB. }
  destruct (LwwObjTheorems.stored sha fbits fuel (br_main b') (key_as o t) W FK SA2 KB2) as (text & x & R & N & T & Q).
  { intro Z. apply ME in BU. rewrite Z in BU. destruct BU. }
  exists text, x, W. split; [exact R|]. split; [exact N|]. split; [exact ME|]. split; [|auto].
  destruct KB2 as (M & _). cbn [map] in M. rewrite app_nil_r in M. exact M.
Qed.

(* the events of a life in which all that comes is stored *)
Lemma index_all now rs yarn tr es ss E b' : lives now rs yarn tr es ss E b' ->
  let all := opener (first_event active now rs yarn tr) :: map bare E in
  NoDup (map u_id all) -> plain_objects all -> (forall n r f, In (BReceive n r f) es -> opens_first f) ->
  forall u o t, belongs all u o t -> uuid2form t = LWW_RDT_FORM ->
  exists text x W, rread (br_main b') (key_as o t) = Done (text, KOk) /\ obj_new text = Done x /\ (forall v, In v W <-> belongs all v o t) /\
    mergeable W /\ (forall n v, field W n v -> tells fbits x n v) /\ (forall n, (forall u v, In u W -> ~ sets u n v) -> silent x n).
Proof.
  intros LV all ND PO OF u o t BU FL. destruct (state_index _ _ _ _ _ _ _ _ LV) as (hss & KP & SO & R). set (ev := first_event active now rs yarn tr) in *.
  assert (EO : forall n r f, In (BReceive n r f) es -> events_only f) by apply LV.
  assert (VS : Forall (fun h => version (ch_id h) = TIME) (concat hss)).
  { clear -SO. unfold stored_of in SO. revert SO. generalize (combine es ss). intros xs ST. induction ST as [|x hs xs hss SO ST IH]; [constructor|]. cbn [concat]. apply Forall_app. split; [|exact IH].
    destruct SO as [->|(now & rs & f & _ & _ & V)]; [constructor|exact V]. }
  assert (A : forall x, In x (opener ev :: says_ops (concat hss)) <-> In x all).
  { intro x. cbn [In]. unfold all in ND. cbn [map u_id] in ND. rewrite map_map in ND. inversion ND as [|? ? NI ND1]; subst. apply or_iff_compat_l. apply (keeps_all ev ev es ss); auto; apply LV. }
  assert (P : Forall (apart all) hss) by (apply (C60_frames all es ss); [exact SO|exact EO|right; split; [exact OF|exact PO]]).
  assert (BB : forall v, belongs (opener ev :: says_ops (concat hss)) v o t <-> belongs all v o t) by (intro v; split; apply belongs_more; intros w; apply A).
  destruct (R P u o t (proj2 (BB u) BU) FL) as (text & x & W & RR & N & ME & K). exists text, x, W. split; [exact RR|]. split; [exact N|]. split; [|exact K].
  intro v. rewrite ME. apply BB.
Qed.

(* Last write wins: the index over an object read from the branch shows of each
   field what the newest of the events that write it says, in whatever order they
   came. *)
Theorem C81_fields now rs yarn tr es ss E b' : lives now rs yarn tr es ss E b' ->
  let all := opener (first_event active now rs yarn tr) :: map bare E in
  NoDup (map u_id all) -> plain_objects all -> (forall n r f, In (BReceive n r f) es -> opens_first f) ->
  forall u o t, belongs all u o t -> uuid2form t = LWW_RDT_FORM ->
  exists text x, rread (br_main b') (key_as o t) = Done (text, KOk) /\ obj_new text = Done x /\
    (forall k v, newest_write all o t k v -> tells fbits x k v) /\ (forall k, no_write all o t k -> silent x k) /\
    (forall k, (exists v, newest_write all o t k v) \/ no_write all o t k).
Proof.
  intros LV all ND PO OF u o t BU FL. destruct (index_all _ _ _ _ _ _ _ _ LV ND PO OF u o t BU FL) as (text & x & W & R & N & ME & M & T & Q). fold all in ME.
  exists text, x. split; [exact R|]. split; [exact N|]. split; [|split].
  - intros k v (w & B & S1 & K). apply T. exists w. split; [apply ME; exact B|]. split; [exact S1|]. intros u' v' J. apply K, ME, J.
  - intros k NW. apply Q. intros w v J. apply NW, ME, J.
  - intro k. destruct M as (_ & UQ & _). destruct (newest_in W k UQ) as [(v & w & I & S1 & K)|NW].
    + left. exists v, w. split; [apply ME; exact I|]. split; [exact S1|]. intros u' v' J. apply K, ME, J.
    + right. intros w v J. apply NW, ME, J.
Qed.

(* Two branches with the same events, in whatever order and frames they came: the
   index shows the same of every field of every object. *)
Theorem C81_agree now1 rs1 yarn1 tr1 es1 ss1 E1 b1 now2 rs2 yarn2 tr2 es2 ss2 E2 b2 :
  lives now1 rs1 yarn1 tr1 es1 ss1 E1 b1 -> lives now2 rs2 yarn2 tr2 es2 ss2 E2 b2 ->
  let all1 := opener (first_event active now1 rs1 yarn1 tr1) :: map bare E1 in let all2 := opener (first_event active now2 rs2 yarn2 tr2) :: map bare E2 in
  NoDup (map u_id all1) -> NoDup (map u_id all2) -> (forall u, In u all1 <-> In u all2) -> plain_objects all1 ->
  (forall n r f, In (BReceive n r f) (es1 ++ es2) -> opens_first f) ->
  forall u o t, belongs all1 u o t -> uuid2form t = LWW_RDT_FORM ->
  exists text1 text2 x1 x2, rread (br_main b1) (key_as o t) = Done (text1, KOk) /\ rread (br_main b2) (key_as o t) = Done (text2, KOk) /\
    obj_new text1 = Done x1 /\ obj_new text2 = Done x2 /\
    forall k, obj_uuid x1 k = obj_uuid x2 k /\ obj_number x1 k = obj_number x2 k /\ obj_string x1 k = obj_string x2 k.
Proof.
  intros L1 L2 all1 all2 ND1 ND2 SAME PO OF u o t BU FL.
  assert (PO2 : plain_objects all2) by (apply Forall_forall; intros v I; apply SAME in I; unfold plain_objects in PO; rewrite Forall_forall in PO; exact (PO v I)).
  assert (SB : forall v, belongs all1 v o t <-> belongs all2 v o t) by (intro v; split; apply belongs_more; intros w; apply SAME).
  destruct (index_all _ _ _ _ _ _ _ _ L1 ND1 PO) with (u := u) (o := o) (t := t) as (text1 & x1 & W1 & R1 & N1 & M1 & MG & T1 & Q1); try assumption; [intros n r f I; apply (OF n r f), in_or_app; left; exact I|].
  destruct (index_all _ _ _ _ _ _ _ _ L2 ND2 PO2) with (u := u) (o := o) (t := t) as (text2 & x2 & W2 & R2 & N2 & M2 & _ & T2 & Q2); try assumption; [intros n r f I; apply (OF n r f), in_or_app; right; exact I|apply SB; exact BU|].
  fold all1 in M1. fold all2 in M2. assert (EW : forall v, In v W1 <-> In v W2) by (intro v; rewrite M1, M2; apply SB).
  exists text1, text2, x1, x2. split; [exact R1|]. split; [exact R2|]. split; [exact N1|]. split; [exact N2|]. intro k.
  pose proof MG as (OK & UQ & _). destruct (newest_in W1 k UQ) as [(v & F)|NW].
  - assert (VO : v <> VStr None).
    { destruct F as (w & I & (r & SV) & _). rewrite Forall_forall in OK. destruct (OK w I) as (_ & _ & VS). rewrite SV in VS. inversion VS as [|? ? _ VS2]; subst. apply Forall_inv in VS2. intros ->. exact VS2. }
    destruct (T1 k v F) as (A1 & A2 & A3 & A4). destruct (T2 k v (field_same W1 W2 k v EW F)) as (B1 & B2 & B3 & B4).
    assert (NS : (forall s, v <> VStr s) -> obj_string x1 k = obj_string x2 k) by (intro K; rewrite (A4 K), (B4 K); reflexivity).
    destruct v as [w|z|[cps|]|ft]; try (exfalso; apply VO; reflexivity).
    + split; [congruence|]. split; [congruence|]. apply NS. discriminate.
    + split; [congruence|]. split; [congruence|]. apply NS. discriminate.
    + split; [congruence|]. split; [congruence|]. rewrite (A3 cps eq_refl), (B3 cps eq_refl). reflexivity.
    + split; [congruence|]. split; [congruence|]. apply NS. discriminate.
  - destruct (Q1 k NW) as (A1 & A2 & A3). destruct (Q2 k) as (B1 & B2 & B3); [intros w v J; apply NW, EW, J|]. split; [congruence|]. split; congruence.
Qed.
End Fields.
Print Assumptions C81_fields.
Print Assumptions C81_agree.
