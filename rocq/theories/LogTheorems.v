(* C51: replaying the log of an object gives its state, now or at a version. *)
From Coq Require Import Sorted Permutation.
From Verif Require Import Prelude UuidModel UuidSpec UuidProofs KeyModel CodecModel CodecSpec TextTable TextModel TextSpec TextSafety FrameProofs
  BuilderSpec BuilderProofs MergeModel MergeSpec MergeTextModel HeapProofs MergeProofs RgaProofs RgaTree MergeTheorems TextMergeSpec TextCursors
  MergeKeeps TextMerge SizeProofs TextMergeTheorems LogModel LogSpec LogProofs.

Lemma piece_reads buf ch g : piece buf ch g -> valid ch = true /\ reads valid text_next rop_of ch (map rop_of g).
Proof.
  intros (n & VI & FP & FV & LN & c & r & EG & ->). split.
  - subst g. inversion FV; subst. exact (live_valid buf c ltac:(assumption)).
  - clear EG LN. remember (map (cut n) g) as l eqn:EL. remember (cut n c) as x eqn:EX. clear EX c r.
    revert g FP FV EL. induction VI as [x VX|x x' l VX NX VI IH]; intros g FP FV EL.
    + destruct g; [|discriminate]. constructor. exact VX.
    + destruct g as [|y g]; [discriminate|]. cbn [map] in EL. pose proof (f_equal (@tl _) EL) as E2. cbn [tl] in E2.
      assert (EX : x = cut n y) by congruence. inversion FP; subst. inversion FV as [|? ? VY FV']; subst.
      cbn [map]. rewrite <- (rop_cut n y).
      * eapply reads_cons; [exact VX|exact NX|]. apply IH; auto.
      * apply (Forall_impl _ (fun a => ends_by_mono _ _ a ltac:(eassumption)) (op_ends _ _ (v_op _ _ VY))).
Qed.

(* the split, for any log text: a chain for each run of ops that refer to the
   previous one, up to the end of the log or of the span the version is in *)
Theorem C51_split : forall fuel n input cutoff ops e,
  scan n (cursor_of input) = (ops, e) -> e = SEnd \/ e = SBad -> cutoff <> NIL -> (length ops <= fuel)%nat ->
  exists chains ok gs tail, split_log fuel input cutoff = Done (chains, ok) /\
    Forall2 (fun ch g => valid ch = true /\ reads valid text_next rop_of ch g) chains gs /\
    Forall is_chain gs /\ apart gs /\ concat gs = upto cutoff ops ++ tail /\
    (tail = [] \/ exists l o, upto cutoff ops = l ++ [o] /\ r_id o = cutoff /\ runs_on o tail) /\
    (exists rest, ops = upto cutoff ops ++ tail ++ rest) /\
    (ok = false <-> ops <> [] /\ e = SBad /\ upto cutoff ops = ops).
Proof.
  intros fuel n input cutoff ops e SC E NC L. destruct (scan_walk n _ ops e SC E) as (cs & W & <-). unfold split_log.
  inversion W as [? ? NX|? ? NX|? c l ? NX W']; subst; rewrite NX.
  1,2: exists [], true, [], []; cbn [map upto app concat]; do 6 (split; [solve [constructor|reflexivity|left; reflexivity]|]);
    (split; [exists []; reflexivity|]); (split; [discriminate|intros [? _]; congruence]).
  pose proof (live_first input c NX) as V.
  destruct (split_loop_ok input cutoff fuel c l e NIL W' V ltac:(cbn [map length] in L; rewrite map_length in L; lia) ltac:(congruence))
    as (chains & ok & gs & tail & g & gs' & -> & F2 & FC & AP & EG & CC & RO & RS & _ & OK).
  exists chains, ok, (map (map rop_of) gs), tail. split; [reflexivity|]. split.
  { clear -F2. induction F2 as [|ch x chains gs H F IH]; constructor; [exact (piece_reads input ch x H)|exact IH]. }
  split; [exact FC|]. split; [exact AP|]. split; [rewrite <- concat_map; exact CC|]. split; [exact RO|]. split; [exact RS|].
  rewrite OK. split; [intros [A B]; split; [discriminate|auto]|tauto].
Qed.
Print Assumptions C51_split.

(* ---- chains as a function of the ops ---- *)
Lemma pieces_cons o p l : pieces (o :: p :: l) = match pieces (p :: l) with
  | (x :: g) :: gs => if uuid_eqb (r_ref x) (r_id o) then (o :: x :: g) :: gs else [o] :: (x :: g) :: gs
  | gs => [o] :: gs
  end.
Proof. reflexivity. Qed.
Lemma pieces_unique gs : Forall is_chain gs -> apart gs -> gs = pieces (concat gs).
Proof.
  induction gs as [|g gs IH]; intros F A; [reflexivity|]. inversion F as [|? ? H1 H2]; subst.
  assert (A2 : apart gs) by (destruct gs as [|h gs]; [exact Logic.I|destruct A; assumption]).
  specialize (IH H2 A2). cbn [concat]. destruct g as [|o g]; [contradiction|]. cbn [is_chain] in H1.
  assert (AP : match gs with [] => True | h :: _ => match h with x :: _ => ~ ends_with (o :: g) (r_ref x) | [] => True end end)
    by (destruct gs as [|h gs']; [exact Logic.I|destruct A; assumption]).
  clear A A2 H2. revert o H1 AP F. induction g as [|p g IHg]; intros o H1 AP F.
  - cbn [app pieces]. rewrite <- IH. destruct gs as [|h gs]; [reflexivity|]. inversion F as [|? ? _ F2]; subst. inversion F2 as [|? ? F3 _]; subst.
    destruct h as [|x h]; [contradiction|]. destruct (uuid_eqb (r_ref x) (r_id o)) eqn:E; [|reflexivity].
    exfalso. apply AP. apply uuid_eqb_eq in E. exists [], o. split; [reflexivity|symmetry; exact E].
  - destruct H1 as [H1 H3]. cbn [app]. rewrite pieces_cons. inversion F as [|? ? _ F2]; subst.
    specialize (IHg p H3). cbn [app] in IHg. rewrite <- IHg.
    + rewrite (proj2 (uuid_eqb_eq _ _) H1). reflexivity.
    + destruct gs as [|[|x h] gs]; try exact Logic.I. intros (q & z & E & Z). apply AP. exists (o :: q), z. rewrite E. split; [reflexivity|exact Z].
    + constructor; [exact H3|exact F2].
Qed.

Lemma settled_tail v ops tail rest : settled v ops -> ops = upto v ops ++ tail ++ rest ->
  (tail = [] \/ exists l o, upto v ops = l ++ [o] /\ r_id o = v /\ runs_on o tail) -> tail = [].
Proof.
  intros ST E [->|(l & o & U & Z & RO)]; [reflexivity|]. destruct tail as [|p tail]; [reflexivity|exfalso].
  destruct RO as (SO & _). apply (ST l o p (tail ++ rest)); [|exact Z|exact SO]. rewrite E, U, <- app_assoc. reflexivity.
Qed.

(* ---- logs written by the builder ---- *)
Lemma visits_same c l : visits valid text_next c l -> forall m, visits valid text_next c m -> l = m.
Proof.
  induction 1 as [c V|c c' l V NX VI IH]; intros m H; inversion H as [? V2|? c2 m2 V2 NX2 VI2]; subst; try congruence.
  rewrite NX in NX2. injection NX2 as _ <-. f_equal. apply IH. exact VI2.
Qed.
Lemma lit_firstn buf n a v : ends_by (N.of_nat n) a -> lit_atom canon buf a v -> lit_atom canon (firstn n buf) a v.
Proof. destruct a as [u|b e|cp k b e|b e], v as [u'|z|[cps|]|t]; cbn [lit_atom ends_by]; intro H; rewrite ?sub_firstn by exact H; trivial. Qed.
Lemma cut_canonical buf n c : live buf c -> c_pos c <= N.of_nat n -> canonical c -> canonical (cut n c).
Proof.
  intros V P (o & E & F). exists o. pose proof (op_ends _ _ (v_op _ _ V)) as EB.
  assert (EN : Forall (ends_by (N.of_nat n)) (c_op c)) by (revert EB; apply Forall_impl; intro a; apply ends_by_mono; exact P).
  split; [rewrite rop_cut by exact EN; exact E|]. cbn [cut c_buf c_op].
  assert (ES : Forall (ends_by (N.of_nat n)) (skipn 2 (c_op c))).
  { rewrite <- (firstn_skipn 2 (c_op c)) in EN. apply Forall_app in EN as [_ EN]. exact EN. }
  clear -F ES. induction F as [|a v atoms vs H F IH]; constructor; inversion ES; subst; [apply lit_firstn; assumption|auto].
Qed.

Lemma split_canonical fuel input cutoff ops :
  frame_lit canon input ops -> small input -> cutoff <> NIL -> (length ops <= fuel)%nat -> settled cutoff ops ->
  exists chains, split_log fuel input cutoff = Done (chains, true) /\
    Forall2 (fun ch g => valid ch = true /\ reads valid text_next rop_of ch g) chains (pieces (upto cutoff ops)) /\
    Forall is_chain (pieces (upto cutoff ops)) /\ concat (pieces (upto cutoff ops)) = upto cutoff ops /\ Forall on_canonical chains.
Proof.
  intros FL SM NC L ST.
  assert (SC : scan (S (length ops + 0)) (cursor_of input) = (ops, SEnd)) by (apply (scan_frame (CW := canon)); assumption).
  destruct (frame_visits input ops FL SM) as (vs & (c1 & NX1 & VI1) & LC).
  destruct (scan_walk _ _ ops SEnd SC (or_introl eq_refl)) as (cs & W & EO). unfold split_log.
  inversion W as [? ? NX|? ? NX|? c l ? NX W']; subst; rewrite NX.
  1: exists []; cbn [map upto pieces concat]; do 4 (split; [solve [constructor|reflexivity]|]); constructor.
  pose proof (live_first input c NX) as V. unfold text_next in NX1. rewrite NX in NX1. injection NX1 as _ <-.
  pose proof (visits_same c _ (walk_visits input SEnd l c W' V) _ VI1) as EV. subst vs.
  assert (CA : Forall canonical (c :: l)).
  { clear -LC. remember (map rop_of (c :: l)) as q eqn:Q. clear Q. induction LC; constructor; [eexists; eassumption|assumption]. }
  destruct (split_loop_ok input cutoff fuel c l SEnd NIL W' V ltac:(cbn [map length] in L; rewrite map_length in L; lia) ltac:(congruence))
    as (chains & ok & gs & tail & g & gs' & -> & F2 & FC & AP & EG & CC & RO & (rs & RS) & IC & OK).
  assert (tail = []) as -> by exact (settled_tail cutoff _ tail rs ST RS RO).
  rewrite app_nil_r in CC.
  assert (EP : map (map rop_of) gs = pieces (upto cutoff (map rop_of (c :: l)))).
  { rewrite <- CC, concat_map. apply pieces_unique; assumption. }
  assert (ok = true) as ->.
  { destruct ok; [reflexivity|]. destruct (proj1 OK eq_refl) as [X _]. discriminate. }
  exists chains. split; [reflexivity|]. rewrite <- EP. split.
  { clear -F2. induction F2 as [|ch x chains gs H F IH]; constructor; [exact (piece_reads input ch x H)|exact IH]. }
  split; [exact FC|]. split; [rewrite <- concat_map; exact CC|].
  assert (AC : Forall canonical (concat gs)) by (apply Forall_forall; intros x I; rewrite Forall_forall in CA; apply CA, IC; exact I).
  clear -F2 AC. induction F2 as [|ch x chains gs (n & VI & FP & FV & _) F IH]; constructor; cbn [concat] in AC; apply Forall_app in AC as [A1 A2]; [|auto].
  exists (map (cut n) x). split; [exact VI|]. clear -FP FV A1. induction x as [|y x IH]; cbn [map]; constructor;
    inversion FP; inversion FV; inversion A1; subst; [eapply cut_canonical; eassumption|auto].
Qed.

Lemma chain_sorted g all : is_chain g -> backwards all -> incl g all -> sorted_ids g.
Proof.
  intros H B. destruct g as [|o g]; [contradiction|]. cbn [is_chain] in H. intro I.
  assert (K : StronglySorted id_lt (o :: g)).
  { apply Sorted_StronglySorted.
    - intros x y z A1 A2. exact (uuid_ltb_trans _ _ _ A1 A2).
    - revert o H I. induction g as [|p g IH]; intros o H I; constructor.
      + constructor.
      + constructor.
      + destruct H as [E H]. apply IH; [exact H|]. intros x J. apply I. right. exact J.
      + constructor. destruct H as [E _]. apply B; [apply I; left; reflexivity|apply I; right; left; reflexivity|exact E]. }
  clear -K. induction K as [|x l K IH F]; constructor; [exact IH|]. revert F. apply Forall_impl. intros y H. unfold id_lt in H. unfold id_le.
  apply uuid_ltb_asym. exact H.
Qed.
Lemma upto_incl v l : incl (upto v l) l.
Proof. induction l as [|o l IH]; cbn [upto]; [apply incl_refl|]. destruct (uuid_eqb (r_id o) v); intros x [<-|I]; [left; reflexivity|contradiction|left; reflexivity|right; auto]. Qed.
Lemma upto_length v l : (length (upto v l) <= length l)%nat.
Proof. induction l as [|o l IH]; cbn [upto]; [lia|]. destruct (uuid_eqb (r_id o) v); cbn [length]; lia. Qed.
Lemma upto_head v o r : exists q, upto v (o :: r) = o :: q.
Proof. rewrite upto_cons. eauto. Qed.
Lemma pieces_head o l : exists g gs, pieces (o :: l) = (o :: g) :: gs.
Proof. destruct l as [|p l]; [exists [], []; reflexivity|]. rewrite pieces_cons. destruct (pieces (p :: l)) as [|[|x g] gs]; eauto. destruct (uuid_eqb _ _); eauto. Qed.
Lemma reads_ref ch o g : valid ch = true -> reads valid text_next rop_of ch (o :: g) -> text_ref ch = r_ref o.
Proof. intros V R. inversion R; subst. reflexivity. Qed.
Lemma chains_nonempty gs : Forall is_chain gs -> Forall (fun l : list rop => l <> []) gs.
Proof. apply Forall_impl. intros [|o g] H; [contradiction|discriminate]. Qed.
Lemma drop_valid chains gs : Forall2 (fun ch g => valid ch = true /\ reads valid text_next rop_of ch g) chains gs -> Forall2 (reads valid text_next rop_of) chains gs.
Proof. induction 1 as [|c g cs gs [_ H] F IH]; constructor; assumption. Qed.

(* the first chain begins with the first op of the log *)
Lemma first_chain chains o r v : Forall2 (fun ch g => valid ch = true /\ reads valid text_next rop_of ch g) chains (pieces (upto v (o :: r))) ->
  exists ch cs, chains = ch :: cs /\ text_ref ch = r_ref o.
Proof.
  destruct (upto_head v o r) as (q & ->). destruct (pieces_head o q) as (g & gs & ->). intro F. inversion F as [|ch ? cs ? [V R] F']; subst.
  exists ch, cs. split; [reflexivity|]. exact (reads_ref ch o g V R).
Qed.

(* replaying the log of a last-write-wins like object up to a version gives
   exactly the ops of the log up to that version, each once, in id order *)
Theorem C51_state : forall fbits fuel input v o r,
  frame_lit canon input (o :: r) -> small input -> v <> NIL -> settled v (o :: r) ->
  In (uuid2form (r_ref o)) [LWW_RDT_FORM; MX_RDT_FORM; YARN_RAW_FORM; META_META_FORM] ->
  backwards (upto v (o :: r)) -> mergeable (map bare (upto v (o :: r))) ->
  (length (o :: r) <= fuel)%nat -> N.of_nat (length (o :: r)) < 2 ^ 32 - 1 ->
  exists text us, log_state fbits fuel input v = Done (Some text, LMerge StOK) /\
    frame_lit canon text (chunk_of us) /\ increasing_ids (chunk_of us) /\
    (forall u, In u us <-> In u (map bare (upto v (o :: r)))).
Proof.
  intros fbits fuel input v o r FL SM NC ST FM BK M FU LN.
  destruct (split_canonical fuel input v (o :: r) FL SM NC FU ST) as (chains & SP & F2 & FC & CC & CA).
  destruct (first_chain chains o r v F2) as (ch & cs & -> & ER).
  pose proof (upto_length v (o :: r)) as UL.
  destruct (opened_union fbits fuel (uuid2form (r_ref o)) (ch :: cs) (pieces (upto v (o :: r)))) as (text & us & E & T1 & T2 & T3 & _).
  - apply drop_valid. exact F2.
  - exact CA.
  - rewrite Forall_forall in *. intros g I. apply (chain_sorted g (upto v (o :: r))); [apply FC; exact I|exact BK|].
    intros x J. rewrite <- CC. apply in_concat. eauto.
  - apply chains_nonempty. exact FC.
  - rewrite CC. exact M.
  - exact FM.
  - rewrite CC. lia.
  - rewrite CC. lia.
  - rewrite CC in T3. exists text, us. split; [|auto]. unfold log_state. rewrite SP. cbn [rbind negb]. rewrite ER, E. reflexivity.
Qed.
Print Assumptions C51_state.

(* a chain is a tree without branches *)
Fixpoint path (o : rop) (g : list rop) : tree :=
  match g with [] => Node o [] | p :: q => Node o [path p q] end.
Lemma path_root o g : root (path o g) = o.
Proof. destruct g; reflexivity. Qed.
Lemma path_listing g : forall o, listing (path o g) = o :: g.
Proof. induction g as [|p g IH]; intro o; [reflexivity|]. cbn [path listing flat_map]. rewrite IH, app_nil_r. reflexivity. Qed.
Lemma path_causal g all : backwards all -> forall o, linked (r_id o) g -> incl (o :: g) all -> causal (path o g).
Proof.
  intro B. induction g as [|p g IH]; intros o H I; cbn [path]; [constructor; constructor|]. destruct H as [E H]. constructor; [|constructor; constructor].
  constructor; [|constructor]. rewrite path_root. split; [|split; [exact E|]].
  - apply IH; [exact H|]. intros x J. apply I. right. exact J.
  - apply B; [apply I; left; reflexivity|apply I; right; left; reflexivity|exact E].
Qed.
Definition tree_of (g : list rop) : tree := match g with [] => Node (mkRop NIL NIL [] 0) [] | o :: q => path o q end.
Lemma tree_listing gs : Forall is_chain gs -> flat_map listing (map tree_of gs) = concat gs.
Proof.
  induction 1 as [|g gs H F IH]; [reflexivity|]. cbn [map flat_map concat]. rewrite IH. destruct g; [contradiction|].
  cbn [tree_of]. rewrite path_listing. reflexivity.
Qed.

(* replaying the log of an RGA object with up to three chains gives the causal
   tree of the ops up to the version *)
Theorem C51_rga : forall fbits fuel input v o r,
  frame_lit canon input (o :: r) -> small input -> v <> NIL -> settled v (o :: r) -> uuid2form (r_ref o) = RGA_RDT_FORM ->
  backwards (upto v (o :: r)) -> NoDup (map r_id (upto v (o :: r))) -> mergeable (map bare (upto v (o :: r))) ->
  (forall x, In x (upto v (o :: r)) -> x = o \/ (uuid_ltb (r_id o) (r_id x) = true /\ In (r_ref x) (map r_id (upto v (o :: r))))) ->
  (length (pieces (upto v (o :: r))) <= 3)%nat -> (length (o :: r) <= fuel)%nat -> N.of_nat (length (o :: r)) < 2 ^ 32 - 1 ->
  exists text T, log_state fbits fuel input v = Done (Some text, LMerge StOK) /\
    causal T /\ Permutation (listing T) (upto v (o :: r)) /\ frame_lit canon text (chunk_of (map bare (listing T))).
Proof.
  intros fbits fuel input v o r FL SM NC ST FM BK ND M AT N3 FU LN.
  destruct (split_canonical fuel input v (o :: r) FL SM NC FU ST) as (chains & SP & F2 & FC & CC & CA).
  destruct (first_chain chains o r v F2) as (ch & cs & -> & ER).
  pose proof (upto_length v (o :: r)) as UL.
  set (kept := upto v (o :: r)) in *. set (ts := map tree_of (pieces kept)).
  assert (EU : flat_map listing ts = kept) by (unfold ts; rewrite tree_listing by exact FC; exact CC).
  assert (FT : Forall2 (fun c t => valid c = true /\ reads valid text_next rop_of c (listing t)) (ch :: cs) ts).
  { unfold ts. clear -F2 FC. revert F2. generalize (ch :: cs) as chains. induction FC as [|g gs H F IH]; intros chains F2; inversion F2 as [|? ? ? ? [V R] F2']; subst; constructor; [|auto].
    destruct g as [|x0 g]; [contradiction|]. cbn [tree_of]. rewrite path_listing. auto. }
  assert (CS : Forall causal ts).
  { unfold ts. rewrite Forall_map. apply Forall_forall. intros g I. rewrite Forall_forall in FC. specialize (FC g I).
    destruct g as [|x g]; [contradiction|]. cbn [tree_of]. apply (path_causal g kept BK x FC). intros y J. rewrite <- CC. apply in_concat. eauto. }
  assert (L3 : (length (ch :: cs) <= 3)%nat) by (rewrite (F2_length _ _ _ _ _ F2); exact N3).
  destruct (C22_causal_merge cursor valid text_next rop_of (text_val fbits) c_term fuel (ch :: cs) ts FT ltac:(discriminate) L3 CS) as
    (calls & st & E & OC & _ & SI & SOK).
  - rewrite EU. exact ND.
  - rewrite EU. intros a b IA IB Q. apply BK; assumption.
  - rewrite EU. lia.
  - rewrite EU in SI, SOK.
    assert (RT : forall t, In t ts -> In (root t) kept).
    { intros t I. rewrite <- EU. apply in_flat_map. exists t. split; [exact I|]. destruct t as [x k]. left. reflexivity. }
    assert (OK : st = StOK).
    { apply SI. intros t I. destruct (AT (root t) (RT t I)) as [Q|[_ Q]]; [left|right; exact Q].
      intros t' I'. rewrite Q. destruct (AT (root t') (RT t' I')) as [Q'|[Q' _]]; [rewrite Q'; apply uuid_ltb_irrefl|apply uuid_ltb_asym; exact Q']. }
    rewrite OK in *. destruct (SOK eq_refl) as ((T & CT & PT) & ALL). specialize (ALL T CT PT). destruct OC as (cl & EC).
    assert (EA : appended rop_of calls = map rop_of cl).
    { rewrite EC. unfold appended. rewrite flat_map_app. cbn [flat_map app]. rewrite app_nil_r. clear. induction cl; [reflexivity|]. cbn [map flat_map app]. congruence. }
    assert (LC : length cl = length kept).
    { rewrite <- (map_length rop_of cl), <- EA, ALL. apply Permutation_length. exact PT. }
    assert (EUC : ucalls calls = map UAppend (map bare (listing T)) ++ [UEnd RAW]).
    { rewrite EC, ucalls_chunk, <- EA, ALL. reflexivity. }
    destruct (opened_merge fbits fuel RGA_RDT_FORM (ch :: cs) calls CA ltac:(discriminate) E) as (text & EM & FLT & _).
    + rewrite EUC. apply (mergeable_good (map bare kept)); [exact M|]. intros u I. apply in_map_iff in I as (x & <- & I). apply in_map.
      apply (Permutation_in _ PT). exact I.
    + rewrite EC, app_length, map_length. cbn [length]. lia.
    + exists text, T. split; [|split; [exact CT|split; [exact PT|]]].
      * unfold log_state. rewrite SP. cbn [rbind negb]. rewrite ER, FM, EM. reflexivity.
      * rewrite EUC in FLT. exact FLT.
Qed.
Print Assumptions C51_rga.

(* with more chains it is refused *)
Theorem C51_rga_limit : forall fbits fuel input v o r,
  frame_lit canon input (o :: r) -> small input -> v <> NIL -> settled v (o :: r) -> uuid2form (r_ref o) = RGA_RDT_FORM ->
  (3 < length (pieces (upto v (o :: r))))%nat -> (length (o :: r) <= fuel)%nat ->
  log_state fbits fuel input v = Done (None, LMerge StNotImplemented).
Proof.
  intros fbits fuel input v o r FL SM NC ST FM N3 FU.
  destruct (split_canonical fuel input v (o :: r) FL SM NC FU ST) as (chains & SP & F2 & FC & CC & CA).
  destruct (first_chain chains o r v F2) as (ch & cs & -> & ER).
  pose proof (upto_length v (o :: r)) as UL.
  destruct (C23_status cursor valid text_next rop_of (text_val fbits) c_term fuel (ch :: cs) _ F2) as [N _]; [rewrite CC; lia|].
  unfold log_state. rewrite SP. cbn [rbind negb]. rewrite ER, FM. unfold merge_opened.
  assert (E : master_merge cursor valid text_next text_id text_ref (text_val fbits) c_term fuel RGA_RDT_FORM (ch :: cs) = Done ([], StNotImplemented)).
  { apply N. rewrite (F2_length _ _ _ _ _ F2). exact N3. }
  rewrite E. reflexivity.
Qed.
Print Assumptions C51_rga_limit.

(* recalling a version (GetObjectVersion) is replaying the log up to it, if no
   op but the first has a name for a reference *)
Lemma get_form_rest cs f : Forall (fun c => version (text_ref c) =? NAME = false) cs -> get_form_loop cursor valid text_ref f cs = Some f.
Proof. induction 1 as [|c cs H F IH]; [reflexivity|]. cbn [get_form_loop]. rewrite H, orb_true_r. exact IH. Qed.
Theorem C51_version : forall fbits fuel n input v o r e,
  scan n (cursor_of input) = (o :: r, e) -> e = SEnd \/ e = SBad -> v <> NIL -> (length (o :: r) <= fuel)%nat ->
  version (r_ref o) = NAME -> r_ref o <> NIL -> (forall x, In x r -> version (r_ref x) <> NAME) ->
  log_version fbits fuel input v = log_state fbits fuel input v.
Proof.
  intros fbits fuel n input v o r e SC E NV FU VN NN NO.
  destruct (C51_split fuel n input v (o :: r) e SC E NV FU) as (chains & ok & gs & tail & SP & F2 & FC & AP & CC & _ & (rs & RS) & _ & _).
  unfold log_version, log_state. rewrite SP. cbn [rbind]. destruct ok; [|reflexivity]. cbn [negb].
  destruct (upto_head v o r) as (q & UQ). rewrite UQ in CC, RS.
  assert (IN : forall x, In x (q ++ tail) -> In x r).
  { intros x I. cbn [app] in RS. injection RS as ->. rewrite app_assoc. apply in_or_app. left. exact I. }
  destruct gs as [|g gs]; [discriminate CC|]. inversion F2 as [|ch ? cs ? [VC RC] F2']; subst.
  inversion FC as [|? ? FC1 FC2]; subst. destruct g as [|x g]; [contradiction|]. cbn [concat app] in CC. injection CC as -> CC.
  pose proof (reads_ref ch o g VC RC) as ER. unfold get_form. cbn [get_form_loop]. rewrite VC, ER, VN. cbn [negb orb].
  change (NAME =? NAME) with true. cbn [negb]. change (uuid_zero NIL) with true. cbn iota.
  rewrite get_form_rest; [reflexivity|].
  apply Forall_forall. intros c I.
  assert (exists x g', In (x :: g') gs /\ text_ref c = r_ref x) as (x & g' & IX & ->).
  { clear -F2' FC2 I. revert cs F2' I. induction FC2 as [|g gs H F IH]; intros cs F2 I; inversion F2 as [|? ? ? ? [V R] F2']; subst; [contradiction|].
    destruct g as [|z g]; [contradiction|]. destruct I as [<-|I].
    - exists z, g. split; [left; reflexivity|exact (reads_ref _ _ _ V R)].
    - destruct (IH _ F2' I) as (y & g' & J & Q). exists y, g'. split; [right; exact J|exact Q]. }
  apply N.eqb_neq. apply NO, IN. rewrite <- CC. apply in_or_app. right. apply in_concat. exists (x :: g'). split; [exact IX|left; reflexivity].
Qed.
Print Assumptions C51_version.
