(* Theorems about merging: C19-C25. The code is a template over the frame type;
   so are the statements: C is any cursor type, cop the op under a cursor. *)
From Coq Require Import Sorted Permutation.
From Verif Require Import Prelude UuidModel UuidSpec UuidProofs KeyModel CodecModel TextModel TextSpec TextSafety MergeModel MergeSpec MergeTextModel
  HeapProofs MergeProofs RgaProofs RgaTree MaxProofs BuilderSpec.

(* ---- text cursors are such readers ---- *)
Lemma text_reads_from : forall fuel buf c l e, TextSafety.C buf c -> st_ok c -> valid c = true ->
  scan fuel c = (l, e) -> e = SEnd \/ e = SBad -> reads valid text_next rop_of c (rop_of c :: l).
Proof.
  induction fuel as [|f IH]; intros buf c l e HC HS V E D.
  - cbn [scan] in E. injection E as <- <-. destruct D; discriminate.
  - cbn [scan] in E. pose proof (next_safe buf c HC HS) as N. unfold next_ok in N.
    destruct (next c) as [c'|c'|c'|] eqn:NX.
    + destruct (scan f c') as [r e'] eqn:SC. injection E as <- <-. destruct N as (N1 & N2 & N3 & N4).
      assert (V' : valid c' = true).
      { unfold valid in *. destruct N4 as [(_ & _ & ->)|(_ & -> & _)]; [reflexivity|exact V]. }
      apply (reads_cons valid text_next rop_of c c'); [exact V|unfold text_next; rewrite NX, V'; reflexivity|].
      eapply IH; eassumption.
    + injection E as <- <-. destruct N as (_ & S0 & _). apply (reads_cons valid text_next rop_of c c'); [exact V| |].
      * unfold text_next. rewrite NX. unfold valid. rewrite S0. reflexivity.
      * constructor. unfold valid. rewrite S0. reflexivity.
    + injection E as <- <-. destruct N as (_ & S0 & _). apply (reads_cons valid text_next rop_of c c'); [exact V| |].
      * unfold text_next. rewrite NX. unfold valid. rewrite S0. reflexivity.
      * constructor. unfold valid. rewrite S0. reflexivity.
    + injection E as <- <-. destruct D; discriminate.
Qed.

(* what MergeFrames reads of a frame: the ops a full scan delivers, which ends
   regularly or at a syntax error *)
Definition frame_ops (f : bytes) (l : list rop) : Prop :=
  exists fuel e, scan fuel (cursor_of f) = (l, e) /\ (e = SEnd \/ e = SBad).

Lemma text_open : forall f l, frame_ops f l ->
  match l with
  | [] => exists c, text_next (cursor_of f) = Some (false, c)
  | _ => exists c, text_next (cursor_of f) = Some (true, c) /\ valid c = true /\ reads valid text_next rop_of c l
  end.
Proof.
  intros f l (fuel & e & E & D). destruct fuel as [|fu]; [cbn [scan] in E; injection E as <- <-; destruct D; discriminate|].
  cbn [scan] in E. destruct (C_start f) as [HC HS]. pose proof (next_safe f _ HC HS) as N. unfold next_ok in N.
  unfold text_next. destruct (next (cursor_of f)) as [c'|c'|c'|].
  - destruct (scan fu c') as [r e'] eqn:SC. injection E as <- <-. destruct N as (N1 & N2 & N3 & N4).
    exists c'. assert (V : valid c' = true).
    { unfold valid. destruct N4 as [(_ & _ & ->)|(_ & _ & X)]; [reflexivity|]. cbn in X. lia. }
    split; [reflexivity|]. split; [exact V|]. eapply text_reads_from; eassumption.
  - injection E as <- <-. exists c'. reflexivity.
  - injection E as <- <-. exists c'. reflexivity.
  - injection E as <- <-. destruct D; discriminate.
Qed.

Definition nonempty {X} (l : list X) : bool := match l with [] => false | _ => true end.
(* the cursors MergeFrames opens deliver the ops of the frames that have any *)
Theorem C19_text_reader : forall fs ls, Forall2 frame_ops fs ls ->
  exists cs, open_cursors fs = Some cs /\
    Forall2 (fun c l => valid c = true /\ reads valid text_next rop_of c l) cs (filter nonempty ls).
Proof.
  intros fs ls F. induction F as [|f l fs ls H F (cs & E & R)]; [exists []; split; constructor|].
  cbn [open_cursors]. rewrite E. pose proof (text_open f l H) as T. fold (cursor_of f). cbn [filter].
  destruct l as [|o l]; cbn [nonempty].
  - destruct T as (c & T). rewrite T. exists cs. split; [reflexivity|exact R].
  - destruct T as (c & T & V & RD). rewrite T. exists (c :: cs). split; [reflexivity|]. constructor; [split; assumption|exact R].
Qed.
Print Assumptions C19_text_reader.

Section Generic.
Variable C : Type.
Variable cvalid : C -> bool.
Variable cnext : C -> option (bool * C).
Variable cop : C -> rop.
Variable cval : C -> option (N * N).
Variable cterm : C -> N.
Notation cid := (fun c => r_id (cop c)).
Notation cref := (fun c => r_ref (cop c)).
Notation reads := (reads cvalid cnext cop).
Notation visits := (visits cvalid cnext).
Notation merge := (master_merge C cvalid cnext cid cref cval cterm).

Lemma appended_map : forall out (t : list (mcall C)), (forall x, In x t -> exists n, x = MEnd n) ->
  appended cop (map MAppend out ++ t) = map cop out.
Proof.
  intros out t H. unfold appended. rewrite flat_map_app.
  replace (flat_map _ t) with (@nil rop).
  - rewrite app_nil_r. induction out as [|c out IH]; [reflexivity|]. cbn [map flat_map app]. rewrite IH. reflexivity.
  - induction t as [|x t IH]; [reflexivity|]. destruct (H x (or_introl eq_refl)) as [n ->]. cbn [flat_map app].
    apply IH. intros y I. apply H. right. exact I.
Qed.

Lemma appended_out : forall out, appended cop (map MAppend out ++ match out with [] => [] | _ => [MEnd RAW] end) = map cop out.
Proof. intro out. apply appended_map. intros x I. destruct out; [destruct I|]. destruct I as [<-|[]]. exists RAW. reflexivity. Qed.

(* C19: the id-ordered rules yield the sorted union, in one chunk *)
Theorem C19_sorted_union : forall fuel form cs ls,
  Forall2 reads cs ls -> Forall sorted_ids ls -> (length (concat ls) <= fuel)%nat ->
  In form [LWW_RDT_FORM; MX_RDT_FORM; YARN_RAW_FORM] ->
  exists calls, merge fuel form cs = Done (calls, StOK) /\
    sorted_union ls (appended cop calls) /\
    (concat ls <> [] -> one_chunk calls).
Proof.
  intros fuel form cs ls R S L F.
  set (lessA := fun a b : rop => uuid_ltb (r_id a) (r_id b)).
  destruct (merge_all_ok C cvalid cnext cop lessA) with (fuel := fuel) (cs := cs) (ls := ls) as [out [E [I1 [I2 I3]]]]; try assumption.
  - intros a b. apply uuid_ltb_asym.
  - intros a b c. apply uuid_ltb_trans.
  - intros a b c. unfold lessA. intros H1 H2. exact (uuid_le_trans _ _ _ H1 H2).
  - intros a b. exact (fun H => H).
  - exists (map MAppend out ++ match out with [] => [] | _ => [MEnd RAW] end). split.
    + assert (M : lww_merge C cvalid cnext cid fuel cs = Done (map MAppend out ++ match out with [] => [] | _ => [MEnd RAW] end, StOK)).
      { unfold lww_merge. change (less_id C cid) with (lessC C cop lessA). rewrite E. reflexivity. }
      destruct F as [<-|[<-|[<-|[]]]]; exact M.
    + rewrite appended_out. split; [split; [exact I1|split]|].
      * intros o I. apply I2. exact I.
      * intros o I. apply I3 in I. apply in_map_iff in I. destruct I as [o' [E1 E2]]. exists o'. split; assumption.
      * intro NE. destruct out as [|c out]; [|exists (c :: out); reflexivity].
        exfalso. destruct (concat ls) as [|o q] eqn:Q; [congruence|]. apply (I3 o). left. reflexivity.
Qed.

(* C20: the merged ops depend on the set of ops read only. An op is compared
   without its terminator, which the builder chooses anew. *)
Definition bare_identify (l : list rop) : Prop :=
  forall a b, In a l -> In b l -> r_id a = r_id b -> bare a = bare b.

Lemma increasing_bare : forall a b, increasing_ids a -> increasing_ids b ->
  (forall x, In x (map bare a) <-> In x (map bare b)) -> map bare a = map bare b.
Proof.
  induction a as [|x a IH]; intros b IA IB H.
  - destruct b as [|y b]; [reflexivity|]. exfalso. apply (H (bare y)). left. reflexivity.
  - destruct b as [|y b]; [exfalso; apply (H (bare x)); left; reflexivity|].
    inversion IA as [|? ? A1 A2]; subst. inversion IB as [|? ? B1 B2]; subst.
    assert (LTA : forall u, In u (map bare a) -> uuid_ltb (r_id x) (u_id u) = true).
    { intros u I. apply in_map_iff in I. destruct I as [o [<- I]]. rewrite Forall_forall in A2. apply A2. exact I. }
    assert (LTB : forall u, In u (map bare b) -> uuid_ltb (r_id y) (u_id u) = true).
    { intros u I. apply in_map_iff in I. destruct I as [o [<- I]]. rewrite Forall_forall in B2. apply B2. exact I. }
    assert (E : bare x = bare y).
    { destruct (proj1 (H (bare x)) (or_introl eq_refl)) as [E|E]; [symmetry; exact E|].
      destruct (proj2 (H (bare y)) (or_introl eq_refl)) as [F|F]; [exact F|].
      pose proof (LTB _ E) as L1. pose proof (LTA _ F) as L2. cbn [u_id bare] in L1, L2.
      pose proof (uuid_ltb_trans _ _ _ L1 L2) as K. rewrite uuid_ltb_irrefl in K. discriminate. }
    cbn [map]. rewrite E. f_equal. apply IH; [exact A1|exact B1|]. intro u. split; intro I.
    + destruct (proj1 (H u) (or_intror I)) as [F|F]; [|exact F]. exfalso.
      pose proof (LTA u I) as K. rewrite <- F, <- E in K. cbn [u_id bare] in K. rewrite uuid_ltb_irrefl in K. discriminate.
    + destruct (proj2 (H u) (or_intror I)) as [F|F]; [|exact F]. exfalso.
      pose proof (LTB u I) as K. rewrite <- F, E in K. cbn [u_id bare] in K. rewrite uuid_ltb_irrefl in K. discriminate.
Qed.

Lemma union_bare : forall ls out, sorted_union ls out -> bare_identify (concat ls) ->
  forall u, In u (map bare out) <-> In u (map bare (concat ls)).
Proof.
  intros ls out (_ & A & B) ID u. split; intro I; apply in_map_iff in I; destruct I as [o [<- I]].
  - apply in_map. apply A. exact I.
  - destruct (B o I) as [o' [I' E]]. rewrite <- (ID o' o (A o' I') I E). apply in_map. exact I'.
Qed.

Theorem C20_convergence : forall fuel form cs1 ls1 cs2 ls2 calls1 calls2,
  Forall2 reads cs1 ls1 -> Forall2 reads cs2 ls2 -> Forall sorted_ids ls1 -> Forall sorted_ids ls2 ->
  (length (concat ls1) <= fuel)%nat -> (length (concat ls2) <= fuel)%nat ->
  In form [LWW_RDT_FORM; MX_RDT_FORM; YARN_RAW_FORM] ->
  bare_identify (concat ls1) ->
  (forall u, In u (map bare (concat ls1)) <-> In u (map bare (concat ls2))) ->
  merge fuel form cs1 = Done (calls1, StOK) -> merge fuel form cs2 = Done (calls2, StOK) ->
  map bare (appended cop calls1) = map bare (appended cop calls2).
Proof.
  intros fuel form cs1 ls1 cs2 ls2 calls1 calls2 R1 R2 S1 S2 L1 L2 F ID SAME M1 M2.
  destruct (C19_sorted_union fuel form cs1 ls1 R1 S1 L1 F) as [k1 [E1 [U1 _]]].
  destruct (C19_sorted_union fuel form cs2 ls2 R2 S2 L2 F) as [k2 [E2 [U2 _]]].
  assert (k1 = calls1) by congruence. assert (k2 = calls2) by congruence. subst k1 k2.
  assert (ID2 : bare_identify (concat ls2)).
  { intros a b IA IB E. apply (in_map bare) in IA, IB. apply SAME in IA, IB.
    apply in_map_iff in IA, IB. destruct IA as [a' [EA IA]], IB as [b' [EB IB]]. rewrite <- EA, <- EB. apply ID; try assumption.
    replace (r_id a') with (r_id a) by (change (u_id (bare a) = u_id (bare a')); congruence).
    replace (r_id b') with (r_id b) by (change (u_id (bare b) = u_id (bare b')); congruence). exact E. }
  apply increasing_bare; [apply U1|apply U2|]. intro u.
  rewrite (union_bare _ _ U1 ID), (union_bare _ _ U2 ID2). apply SAME.
Qed.

(* grouping: merging the result g of a partial merge (re-read with any
   terminators) with the rest is merging everything at once *)
Theorem C20_grouping : forall fuel form cs1 ls1 cs2 ls2 g lg part once twice,
  Forall2 reads cs1 ls1 -> Forall2 reads cs2 ls2 -> Forall sorted_ids ls1 -> Forall sorted_ids ls2 ->
  reads g lg -> (length (concat (ls1 ++ ls2)) <= fuel)%nat -> (length (concat (lg :: ls2)) <= fuel)%nat ->
  In form [LWW_RDT_FORM; MX_RDT_FORM; YARN_RAW_FORM] ->
  bare_identify (concat (ls1 ++ ls2)) ->
  merge fuel form cs1 = Done (part, StOK) -> map bare lg = map bare (appended cop part) ->
  merge fuel form (g :: cs2) = Done (twice, StOK) -> merge fuel form (cs1 ++ cs2) = Done (once, StOK) ->
  map bare (appended cop twice) = map bare (appended cop once).
Proof.
  intros fuel form cs1 ls1 cs2 ls2 g lg part once twice R1 R2 S1 S2 RG L1 L2 F ID M1 EG M2 M3.
  rewrite concat_app, app_length in L1.
  destruct (C19_sorted_union fuel form cs1 ls1 R1 S1 ltac:(lia) F) as [k1 [E1 [U1 _]]].
  assert (k1 = part) by congruence. subst k1.
  assert (ID1 : bare_identify (concat ls1)).
  { intros a b IA IB. apply ID; rewrite concat_app; apply in_or_app; left; assumption. }
  symmetry. apply (C20_convergence fuel form (cs1 ++ cs2) (ls1 ++ ls2) (g :: cs2) (lg :: ls2)); try assumption.
  - apply Forall2_app; assumption.
  - constructor; assumption.
  - apply Forall_app. split; assumption.
  - constructor; [|exact S2]. destruct U1 as [U1 _]. clear - U1 EG. revert EG U1. generalize (appended cop part) as out.
    induction lg as [|o lg IH]; intros out EG U; [constructor|]. destruct out as [|p out]; [discriminate EG|].
    cbn [map] in EG. assert (E1 : bare o = bare p) by congruence. assert (E2 : map bare lg = map bare out) by congruence.
    inversion U as [|? ? V1 V2]; subst. constructor; [apply (IH out E2 V1)|].
    apply Forall_forall. intros x I. unfold id_le. apply (in_map bare) in I. rewrite E2 in I. apply in_map_iff in I.
    destruct I as [y [Y1 Y2]]. rewrite Forall_forall in V2. pose proof (V2 y Y2) as K. unfold id_lt in K.
    change (r_id x) with (u_id (bare x)). change (r_id o) with (u_id (bare o)). rewrite <- Y1, E1. apply uuid_ltb_asym. exact K.
  - rewrite concat_app, app_length. lia.
  - intro u. cbn [concat]. rewrite concat_app, !map_app, !in_app_iff, EG, (union_bare _ _ U1 ID1). reflexivity.
Qed.

(* C21: per id the op with the greatest reference *)
Lemma meta_less_cases : forall a b, less_meta rop r_id r_ref a b = true <->
  uuid_ltb (r_id a) (r_id b) = true \/ (r_id a = r_id b /\ uuid_ltb (r_ref b) (r_ref a) = true).
Proof.
  intros a b. unfold less_meta. destruct (uuid_eqb (r_id a) (r_id b)) eqn:E.
  - apply uuid_eqb_eq in E. rewrite E, uuid_ltb_irrefl. split; [intro; right; split; [reflexivity|assumption]|intros [H|[_ H]]; [discriminate|exact H]].
  - split; [left; assumption|]. intros [H|[H _]]; [exact H|]. apply uuid_eqb_eq in H. congruence.
Qed.
Lemma meta_nless : forall a b, less_meta rop r_id r_ref a b = false <->
  uuid_ltb (r_id b) (r_id a) = true \/ (r_id a = r_id b /\ uuid_ltb (r_ref b) (r_ref a) = false).
Proof.
  intros a b. unfold less_meta. destruct (uuid_eqb (r_id a) (r_id b)) eqn:E.
  - apply uuid_eqb_eq in E. rewrite E, uuid_ltb_irrefl. split; [intro; right; split; [reflexivity|assumption]|intros [H|[_ H]]; [discriminate|exact H]].
  - split.
    + intro H. left. destruct (uuid_total (r_id a) (r_id b)) as [K|[K|K]]; [congruence|apply uuid_eqb_eq in K; congruence|exact K].
    + intros [H|[H _]]; [apply uuid_ltb_asym; exact H|]. apply uuid_eqb_eq in H. congruence.
Qed.

Theorem C21_meta : forall fuel cs ls,
  Forall2 reads cs ls -> Forall (StronglySorted meta_le) ls -> (length (concat ls) <= fuel)%nat ->
  exists calls, merge fuel META_META_FORM cs = Done (calls, StOK) /\
    sorted_union ls (appended cop calls) /\
    (forall o o', In o (appended cop calls) -> In o' (concat ls) -> r_id o' = r_id o ->
       uuid_ltb (r_ref o) (r_ref o') = false) /\
    (concat ls <> [] -> one_chunk calls).
Proof.
  intros fuel cs ls R S L. set (lessA := less_meta rop r_id r_ref).
  destruct (merge_all_ok C cvalid cnext cop lessA) with (fuel := fuel) (cs := cs) (ls := ls) as [out [E [I1 [I2 I3]]]]; try assumption.
  - intros a b H. unfold lessA in *. apply meta_less_cases in H. apply meta_nless. destruct H as [H|[H1 H2]]; [left; exact H|right].
    split; [symmetry; exact H1|apply uuid_ltb_asym; exact H2].
  - intros a b c H1 H2. unfold lessA in *. apply meta_less_cases in H1, H2. apply meta_less_cases.
    destruct H1 as [H1|[H1 H3]], H2 as [H2|[H2 H4]].
    + left. exact (uuid_ltb_trans _ _ _ H1 H2).
    + left. rewrite <- H2. exact H1.
    + left. rewrite H1. exact H2.
    + right. split; [congruence|exact (uuid_ltb_trans _ _ _ H4 H3)].
  - intros a b c H1 H2. unfold lessA in *. apply meta_nless in H1, H2. apply meta_nless.
    destruct H1 as [H1|[H1 H3]], H2 as [H2|[H2 H4]].
    + left. exact (uuid_ltb_trans _ _ _ H1 H2).
    + left. rewrite H2. exact H1.
    + left. rewrite <- H1. exact H2.
    + right. split; [congruence|exact (uuid_le_trans _ _ _ H4 H3)].
  - intros a b H. apply meta_less_cases. left. exact H.
  - clear - S. induction S as [|l ls S F IH]; constructor; [|exact IH].
    clear - S. induction S as [|o l S IH F]; constructor; [exact IH|]. eapply Forall_impl; [|exact F].
    intros x H. unfold leA, lessA. apply meta_nless. unfold meta_le in H. destruct H as [H|[H1 H2]]; [left; exact H|right].
    split; [symmetry; exact H1|exact H2].
  - exists (map MAppend out ++ match out with [] => [] | _ => [MEnd RAW] end). split.
    + change (merge fuel META_META_FORM cs) with (meta_merge C cvalid cnext cid cref fuel cs). unfold meta_merge.
      change (less_meta C cid cref) with (lessC C cop lessA). rewrite E. reflexivity.
    + rewrite appended_out. split; [split; [exact I1|split]|split].
      * intros o I. apply I2. exact I.
      * intros o I. apply I3 in I. apply in_map_iff in I. destruct I as [o' [E1 E2]]. exists o'. split; assumption.
      * intros o o' I I' EQ. destruct (I2 o I) as [_ K]. specialize (K o' I' EQ). unfold leA, lessA in K. apply meta_nless in K.
        destruct K as [K|[_ K]]; [rewrite EQ, uuid_ltb_irrefl in K; discriminate|exact K].
      * intro NE. destruct out as [|c out]; [|exists (c :: out); reflexivity].
        exfalso. destruct (concat ls) as [|o q] eqn:Q; [congruence|]. apply (I3 o). left. reflexivity.
Qed.

(* C22: up to three disjoint pieces of causal trees. The merge succeeds iff
   every piece but the one with the oldest root hangs on an op of a piece, and
   then lists the union tree: the only causal tree with these ops. *)
Theorem C22_causal_merge : forall fuel cs ts,
  let U := flat_map listing ts in
  Forall2 (fun c t => cvalid c = true /\ reads c (listing t)) cs ts ->
  cs <> [] -> (length cs <= 3)%nat -> Forall causal ts -> NoDup (ids U) ->
  (forall o o', In o U -> In o' U -> r_ref o = r_id o' -> uuid_ltb (r_id o') (r_id o) = true) ->
  (length U <= fuel)%nat ->
  exists calls st, merge fuel RGA_RDT_FORM cs = Done (calls, st) /\ one_chunk calls /\
    (st = StOK \/ st = StCauseBreak) /\
    (st = StOK <-> forall t, In t ts ->
       (forall t', In t' ts -> uuid_ltb (r_id (root t')) (r_id (root t)) = false) \/ In (r_ref (root t)) (ids U)) /\
    (st = StOK -> (exists T, causal T /\ Permutation (listing T) U) /\
                  forall T, causal T -> Permutation (listing T) U -> appended cop calls = listing T).
Proof.
  intros fuel cs ts U R0 NE N3 CS ND BK FU.
  assert (R : Forall2 (fun c l => cvalid c = true /\ reads c l) cs (map listing ts)).
  { clear - R0. induction R0; cbn [map]; constructor; assumption. }
  assert (CU : concat (map listing ts) = U) by (unfold U; rewrite flat_map_concat_map; reflexivity).
  destruct (rga_merge_any C cvalid cnext cop fuel cs (map listing ts) R N3) as [out [st [E [ST [IFF SUB]]]]]; [rewrite CU; exact FU|].
  assert (HEAD : Forall2 (fun c t => cop c = root t) cs ts).
  { clear - R0. induction R0 as [|c t cs ts [V RD] F IH]; constructor; [|exact IH].
    destruct (reads_valid C cvalid cnext cop c _ V RD) as [c' [l' [EQ _]]]. destruct t as [o k]. cbn [listing root] in *. congruence. }
  assert (H1 : forall c, In c cs -> exists t, In t ts /\ cop c = root t).
  { clear - HEAD. induction HEAD as [|c t cs ts E F IH]; intros d []; [subst; exists t; split; [left; reflexivity|exact E]|].
    destruct (IH d H) as [x [A B]]. exists x. split; [right; exact A|exact B]. }
  assert (H2 : forall t, In t ts -> exists c, In c cs /\ cop c = root t).
  { clear - HEAD. induction HEAD as [|c t cs ts E F IH]; intros d []; [subst; exists c; split; [left; reflexivity|exact E]|].
    destruct (IH d H) as [x [A B]]. exists x. split; [right; exact A|exact B]. }
  assert (RTU : forall t, In t ts -> In (root t) U).
  { intros t I. unfold U. apply in_flat_map. exists t. split; [exact I|]. destruct t; left; reflexivity. }
  assert (NDT : forall t, In t ts -> NoDup (ids (listing t))).
  { intros t I. unfold U in ND. apply in_split in I. destruct I as [a [b EQ]]. rewrite EQ in ND.
    rewrite flat_map_app in ND. cbn [flat_map] in ND. unfold ids in *. rewrite !map_app in ND.
    apply nodup_app in ND. destruct ND as [_ [ND _]]. apply nodup_app in ND. apply ND. }
  (* the union tree, when all pieces attach *)
  assert (UT : (forall t, In t ts ->
       (forall t', In t' ts -> uuid_ltb (r_id (root t')) (r_id (root t)) = false) \/ In (r_ref (root t)) (ids U)) ->
       exists T, causal T /\ Permutation (listing T) U).
  { intro AT.
    assert (TM : exists tm, In tm ts /\ forall t, In t ts -> uuid_ltb (r_id (root t)) (r_id (root tm)) = false).
    { assert (TN : ts <> []) by (destruct ts; [inversion R0; subst; congruence|discriminate]). clear - TN.
      induction ts as [|t ts IH]; [congruence|]. destruct ts as [|t2 ts].
      - exists t. split; [left; reflexivity|]. intros x [<-|[]]. apply uuid_ltb_irrefl.
      - destruct IH as [tm [A B]]; [discriminate|]. destruct (uuid_ltb (r_id (root t)) (r_id (root tm))) eqn:L.
        + exists t. split; [left; reflexivity|]. intros x [<-|I]; [apply uuid_ltb_irrefl|].
          pose proof (B x I) as K. destruct (uuid_ltb (r_id (root x)) (r_id (root t))) eqn:Q; [|reflexivity].
          rewrite (uuid_ltb_trans _ _ _ Q L) in K. discriminate.
        + exists tm. split; [right; exact A|]. intros x [<-|I]; [exact L|apply B; exact I]. }
    destruct TM as [tm [TM1 TM2]].
    destruct (tree_exists U (root tm)) as [T [T1 [_ T3]]]; [apply RTU; exact TM1|exact ND| |exact BK|exists T; split; assumption].
    intros o I. unfold U in I. apply in_flat_map in I. destruct I as [t [I1 I2]].
    rewrite Forall_forall in CS. pose proof (CS t I1) as CT.
    assert (ORD : o = root tm \/ uuid_ltb (r_id (root tm)) (r_id o) = true).
    { assert (OU : In o U) by (unfold U; apply in_flat_map; exists t; split; assumption).
      destruct (uuid_total (r_id (root tm)) (r_id o)) as [K|[K|K]]; [right; exact K| |].
      - left. symmetry. apply (ids_inj U); try assumption. apply RTU. exact TM1.
      - exfalso. pose proof (TM2 t I1) as Q. destruct (tree_min t o CT (NDT t I1) I2) as [->|X]; [congruence|].
        rewrite (uuid_ltb_trans _ _ _ X K) in Q. discriminate. }
    destruct ORD as [ORD|ORD]; [left; exact ORD|right]. split; [exact ORD|].
    assert (DE : o = root t \/ o <> root t).
    { destruct (uuid_eqb (r_id o) (r_id (root t))) eqn:Q.
      - left. apply uuid_eqb_eq in Q. apply (ids_inj (listing t)); [apply NDT; exact I1|exact I2|destruct t; left; reflexivity|exact Q].
      - right. intro X. rewrite X, (proj2 (uuid_eqb_eq _ _) eq_refl) in Q. discriminate. }
    destruct DE as [->|DE].
    - destruct (AT t I1) as [M|M]; [|exact M]. rewrite (M tm TM1) in ORD. discriminate.
    - pose proof (tree_refs t o CT (NDT t I1) I2 DE) as X. apply in_map_iff in X. destruct X as [p [X1 X2]].
      apply in_map_iff. exists p. split; [exact X1|]. unfold U. apply in_flat_map. exists t. split; assumption. }
  assert (RUN : forall T, causal T -> Permutation (listing T) U ->
     exists o2, merge fuel RGA_RDT_FORM cs = Done (map MAppend o2 ++ [MEnd RAW], StOK) /\ map cop o2 = listing T).
  { intros T CT PT. apply (rga_merge_tree C cvalid cnext cop fuel cs ts T R N3 CS CT).
    - apply (Permutation_NoDup (l := ids U)); [apply Permutation_map, Permutation_sym; exact PT|exact ND].
    - intro X. apply in_map_iff in X. destruct X as [p [X1 X2]].
      assert (IR : In (root T) (listing T)) by (destruct T; left; reflexivity).
      pose proof (BK (root T) p (Permutation_in _ PT IR) (Permutation_in _ PT X2) (eq_sym X1)) as K.
      assert (NDL : NoDup (ids (listing T))) by (apply (Permutation_NoDup (l := ids U)); [apply Permutation_map, Permutation_sym; exact PT|exact ND]).
      destruct (tree_min T p CT NDL X2) as [->|Y]; [rewrite uuid_ltb_irrefl in K; discriminate|].
      pose proof (uuid_ltb_trans _ _ _ K Y) as Z. rewrite uuid_ltb_irrefl in Z. discriminate.
    - fold U. apply Permutation_sym. exact PT.
    - rewrite (Permutation_length PT). exact FU. }
  change (merge fuel RGA_RDT_FORM cs) with (rga_merge C cvalid cnext cid cref fuel cs) in *.
  exists (map MAppend out ++ [MEnd RAW]), st. split; [exact E|]. split; [exists out; reflexivity|]. split; [exact ST|].
  assert (IFF2 : st = StOK <-> forall t, In t ts ->
       (forall t', In t' ts -> uuid_ltb (r_id (root t')) (r_id (root t)) = false) \/ In (r_ref (root t)) (ids U)).
  { split.
    - intros OK t I. destruct (H2 t I) as [c [IC EC]]. destruct (proj1 IFF OK c IC) as [K|K].
      + left. intros t' I'. destruct (H2 t' I') as [d [ID ED]]. rewrite <- EC, <- ED. apply K. exact ID.
      + right. rewrite <- EC. apply in_map_iff in K. destruct K as [o [K1 K2]]. apply in_map_iff. exists o.
        split; [exact K1|]. apply SUB in K2. rewrite CU in K2. exact K2.
    - intro AT. destruct (UT AT) as [T [CT PT]]. destruct (RUN T CT PT) as [o2 [E2 _]]. congruence. }
  split; [exact IFF2|]. intro OK. split; [apply UT; apply IFF2; exact OK|].
  intros T CT PT. destruct (RUN T CT PT) as [o2 [E2 M2]].
  assert (EE : map MAppend out ++ [MEnd RAW] = map (@MAppend C) o2 ++ [MEnd RAW]) by congruence.
  rewrite EE. rewrite appended_map; [exact M2|]. intros x [<-|[]]. exists RAW. reflexivity.
Qed.

(* pieces that share ops are outside C22: merging a listing with itself
   doubles it, with success reported *)
Theorem C22_self_merge_doubles : forall fuel c d t,
  cvalid c = true -> cvalid d = true -> reads c (listing t) -> reads d (listing t) ->
  causal t -> NoDup (ids (listing t)) -> (2 <= length (listing t))%nat ->
  (length (listing t) + length (listing t) <= fuel)%nat ->
  exists calls, merge fuel RGA_RDT_FORM [c; d] = Done (calls, StOK) /\
    appended cop calls = listing t ++ listing t.
Proof.
  intros fuel c d t V1 V2 R1 R2 CT ND TWO FU.
  destruct (self_merge C cvalid cnext cop fuel c d t V1 V2 R1 R2 CT ND TWO FU) as [out [E M]].
  exists (map MAppend out ++ [MEnd RAW]). split; [exact E|].
  rewrite appended_map; [exact M|]. intros x [<-|[]]. exists RAW. reflexivity.
Qed.

(* C23: any inputs. More than three are refused; otherwise the merge ends and
   reports success iff the first op of every input has the least id or
   references an op of the output. *)
Theorem C23_status : forall fuel cs ls,
  Forall2 (fun c l => cvalid c = true /\ reads c l) cs ls -> (length (concat ls) <= fuel)%nat ->
  ((3 < length cs)%nat -> merge fuel RGA_RDT_FORM cs = Done ([], StNotImplemented)) /\
  ((length cs <= 3)%nat -> exists calls st, merge fuel RGA_RDT_FORM cs = Done (calls, st) /\
    one_chunk calls /\ (st = StOK \/ st = StCauseBreak) /\
    (forall o, In o (appended cop calls) -> In o (concat ls)) /\
    (st = StOK <-> forall l o r, In l ls -> l = o :: r ->
       (forall l' o' r', In l' ls -> l' = o' :: r' -> uuid_ltb (r_id o') (r_id o) = false) \/
       In (r_ref o) (ids (appended cop calls)))).
Proof.
  intros fuel cs ls R FU. change (merge fuel RGA_RDT_FORM cs) with (rga_merge C cvalid cnext cid cref fuel cs). split.
  - intro L. unfold rga_merge. rewrite (proj2 (Nat.ltb_lt _ _) L). reflexivity.
  - intro L. destruct (rga_merge_any C cvalid cnext cop fuel cs ls R L FU) as [out [st [E [ST [IFF SUB]]]]].
    exists (map MAppend out ++ [MEnd RAW]), st. rewrite appended_map; [|intros x [<-|[]]; exists RAW; reflexivity].
    split; [exact E|]. split; [exists out; reflexivity|]. split; [exact ST|]. split; [exact SUB|].
    assert (H1 : forall c, In c cs -> exists l r, In l ls /\ l = cop c :: r).
    { clear - R. induction R as [|c l cs ls [V RD] F IH]; intros d []; [subst d|].
      - destruct (reads_valid C cvalid cnext cop c _ V RD) as [c' [l' [EQ _]]]. exists l, l'. split; [left; reflexivity|exact EQ].
      - destruct (IH d H) as [x [r [A B]]]. exists x, r. split; [right; exact A|exact B]. }
    assert (H2 : forall l o r, In l ls -> l = o :: r -> exists c, In c cs /\ cop c = o).
    { clear - R. induction R as [|c l cs ls [V RD] F IH]; intros l0 o r [] EQ; [subst l|].
      - destruct (reads_valid C cvalid cnext cop c _ V RD) as [c' [l' [EQ2 _]]]. exists c. split; [left; reflexivity|congruence].
      - destruct (IH _ _ _ H EQ) as [x [A B]]. exists x. split; [right; exact A|exact B]. }
    rewrite IFF. split.
    + intros K l o r I EQ. destruct (H2 l o r I EQ) as [c [IC EC]]. destruct (K c IC) as [Q|Q].
      * left. intros l' o' r' I' EQ'. destruct (H2 l' o' r' I' EQ') as [d [ID ED]]. rewrite <- EC, <- ED. apply Q. exact ID.
      * right. rewrite <- EC. exact Q.
    + intros K c IC. destruct (H1 c IC) as [l [r [I EQ]]]. destruct (K l (cop c) r I EQ) as [Q|Q]; [left|right; exact Q].
      intros d ID. destruct (H1 d ID) as [l' [r' [I' EQ']]]. exact (Q l' (cop d) r' I' EQ').
Qed.

(* C24: the max register outputs an op of the inputs that is not below any
   other, after the header of the first input if that has one *)
Theorem C24_max : forall fuel c v r vs,
  visits c (c :: v) -> Forall2 visits r vs -> Forall (fun w => w <> []) vs ->
  (length (v ++ concat vs) + 1 < fuel)%nat ->
  let header := cref c = MAX_FORM_UUID in
  let pool := fun x => (~ header /\ x = c) \/ In x (v ++ concat vs) in
  (header -> v <> [] \/ r <> []) ->
  exists x, merge fuel MAX_RDT_FORM (c :: r)
              = Done ((if uuid_eqb (cref c) MAX_FORM_UUID then [MAppend c] else []) ++ [MAppend x; MEnd RAW], StOK) /\
    pool x /\ forall y, pool y -> less_max C cid cval x y = false.
Proof.
  intros fuel c v r vs V F NV FU header pool H.
  change (merge fuel MAX_RDT_FORM (c :: r)) with (max_merge C cvalid cnext cid cref cval fuel (c :: r)).
  destruct (uuid_eqb (cref c) MAX_FORM_UUID) eqn:Q.
  - apply uuid_eqb_eq in Q.
    destruct (max_header C cvalid cnext cid cref cval cterm fuel c v r vs V F NV Q (H Q)) as [x [E [I B]]]; [lia|].
    exists x. split; [exact E|]. split; [right; exact I|]. intros y [[K _]|K]; [contradiction|apply B; exact K].
  - assert (NQ : cref c <> MAX_FORM_UUID) by (intro X; apply uuid_eqb_eq in X; congruence).
    destruct (max_plain C cvalid cnext cid cref cval cterm fuel c r ((c :: v) :: vs)) as [x [E [I B]]].
    + constructor; assumption.
    + constructor; [discriminate|exact NV].
    + exact NQ.
    + cbn [concat app length]. lia.
    + exists x. split; [exact E|]. cbn [concat app] in I, B. split.
      * destruct I as [<-|I]; [left; split; [exact NQ|reflexivity]|right; exact I].
      * intros y [[_ ->]|K]; apply B; [left; reflexivity|right; exact K].
Qed.

(* C25: log, last-input and unknown forms *)
Theorem C25_forms : forall fuel form cs vs,
  Forall2 visits cs vs -> (length (concat vs) < fuel)%nat ->
  (form = LOG_RAW_FORM -> merge fuel form cs =
     Done (flat_map (fun c => MAppend c :: if cterm c =? REDUCED then [] else [MEnd (cterm c)]) (concat vs), StOK)) /\
  (form = ZERO_RAW_FORM \/ form = ERROR_NO_FORM -> forall cs' c vs' v, cs = cs' ++ [c] -> vs = vs' ++ [v] -> length cs' = length vs' ->
     merge fuel form cs =
     Done (flat_map (fun c => MAppend c :: if cterm c =? REDUCED then [] else [MEnd (cterm c)]) v, StOK)) /\
  (~ In form [LOG_RAW_FORM; ZERO_RAW_FORM; ERROR_NO_FORM; META_META_FORM; YARN_RAW_FORM; LWW_RDT_FORM;
              MX_RDT_FORM; RGA_RDT_FORM; MAX_RDT_FORM] ->
     merge fuel form cs = Done ([], StNotImplemented)).
Proof.
  intros fuel form cs vs V FU. split; [|split].
  - intros ->. apply (log_ok C cvalid cnext cid cref cval cterm fuel cs vs V FU).
  - intros FM cs' c vs' v -> -> LE.
    assert (VC : visits c v).
    { clear FU. revert vs' LE V. clear. induction cs' as [|x cs' IH]; intros [|y vs'] LE V; try discriminate LE.
      - cbn [app] in V. inversion V; assumption.
      - cbn [app] in V. inversion V; subst. cbn [length] in LE. apply (IH vs'); [congruence|assumption]. }
    assert (LV : (length v < fuel)%nat) by (rewrite concat_app in FU; cbn [concat] in FU; rewrite !app_length in FU; cbn [length] in FU; lia).
    pose proof (last_ok C cvalid cnext cid cref cval cterm fuel cs' c v VC LV) as K. destruct FM as [->| ->]; exact K.
  - intro NI. cbn [In] in NI. unfold master_merge.
    repeat match goal with |- context [form =? ?k] => destruct (form =? k) eqn:?Q; [apply N.eqb_eq in Q; exfalso; apply NI; subst form; tauto|clear Q] end.
    reflexivity.
Qed.

(* a frame is released on success only; inputs with different named
   references are refused before merging *)
Theorem C25_release : forall fuel cs r st,
  merge_cursors C cvalid cnext cid cref cval cterm fuel cs = Done (r, st) ->
  (r = None <-> st <> StOK) /\
  (forall a b, In a cs -> In b cs -> cvalid a = true -> cvalid b = true ->
     version (cref a) = NAME -> version (cref b) = NAME -> cref a <> cref b ->
     uuid_zero (cref a) = false -> uuid_zero (cref b) = false -> st = StBadArgs).
Proof.
  intros fuel cs r st E. unfold merge_cursors in E. split.
  - destruct (get_form C cvalid cref cs); [|injection E as <- <-; split; congruence].
    destruct (merge fuel n cs) as [[k s]| |]; cbn [rbind] in E; try discriminate.
    injection E as <- <-. destruct s; split; congruence.
  - intros a b IA IB VA VB NA NB NE ZA ZB.
    assert (Q : get_form C cvalid cref cs = None).
    { assert (G : forall cs form f, get_form_loop C cvalid cref form cs = Some f ->
         (uuid_zero form = false -> f = form) /\
         (forall x, In x cs -> cvalid x = true -> version (cref x) = NAME -> uuid_zero (cref x) = false -> f = cref x)).
      { clear. induction cs as [|c cs IH]; intros form f E; cbn [get_form_loop] in E.
        - injection E as ->. split; [reflexivity|intros x []].
        - destruct (negb (cvalid c) || negb (version (cref c) =? NAME)) eqn:S.
          + destruct (IH _ _ E) as [A B]. split; [exact A|]. intros x [<-|I] V NM Z; [|apply B; assumption].
            rewrite V, NM, N.eqb_refl in S. discriminate.
          + destruct (uuid_zero form) eqn:ZF.
            * destruct (IH _ _ E) as [A B]. split; [discriminate|]. intros x [<-|I] V NM Z; [apply A; exact Z|apply B; assumption].
            * destruct (negb (uuid_eqb form (cref c))) eqn:NQ; [discriminate|]. apply negb_false_iff, uuid_eqb_eq in NQ.
              destruct (IH _ _ E) as [A B]. specialize (A ZF). split; [intros _; exact A|]. intros x [<-|I] V NM Z; [rewrite <- NQ; exact A|apply B; assumption]. }
      unfold get_form. destruct (get_form_loop C cvalid cref NIL cs) as [f|] eqn:GF; [|reflexivity].
      destruct (G _ _ _ GF) as [_ B]. exfalso. apply NE. rewrite <- (B a IA VA NA ZA). apply (B b IB VB NB ZB). }
    rewrite Q in E. injection E as _ <-. reflexivity.
Qed.
End Generic.
Print Assumptions C19_sorted_union.
Print Assumptions C20_convergence.
Print Assumptions C20_grouping.
Print Assumptions C21_meta.
Print Assumptions C22_causal_merge.
Print Assumptions C22_self_merge_doubles.
Print Assumptions C23_status.
Print Assumptions C24_max.
Print Assumptions C25_forms.
Print Assumptions C25_release.

(* C24 for text: non-negative integers: the output value is the greatest one *)
Theorem C24_text_integers : forall fbits fuel c v r vs,
  visits valid text_next c (c :: v) -> Forall2 (visits valid text_next) r vs -> Forall (fun w => w <> []) vs ->
  (length (v ++ concat vs) + 1 < fuel)%nat ->
  text_ref c = MAX_FORM_UUID -> v ++ concat vs <> [] ->
  (forall y, In y (v ++ concat vs) -> exists z t, r_vals (rop_of y) = VInt z :: t /\ (0 <= z < 2 ^ 63)%Z) ->
  exists x z t, max_merge cursor valid text_next text_id text_ref (text_val fbits) fuel (c :: r)
              = Done ([MAppend c; MAppend x; MEnd RAW], StOK) /\
    In x (v ++ concat vs) /\ r_vals (rop_of x) = VInt z :: t /\
    forall y z' t', In y (v ++ concat vs) -> r_vals (rop_of y) = VInt z' :: t' -> (z' <= z)%Z.
Proof.
  intros fbits fuel c v r vs V F NV FU H NE INT.
  destruct (max_header cursor valid text_next text_id text_ref (text_val fbits) c_term fuel c v r vs V F NV H) as [x [E [I B]]]; [|lia|].
  { destruct v; [right|left; discriminate]. destruct r; [|discriminate]. inversion F; subst. cbn in NE. congruence. }
  destruct (INT x I) as (z & t & X1 & X2). exists x, z, t. split; [exact E|]. split; [exact I|]. split; [exact X1|].
  intros y z' t' IY Y1. specialize (B y IY). destruct (INT y IY) as (z2 & t2 & Y2 & Y3).
  assert (z2 = z') by congruence. subst z2.
  assert (W : forall c0 z0 t0, r_vals (rop_of c0) = VInt z0 :: t0 -> (0 <= z0 < 2 ^ 63)%Z ->
              exists o, text_val fbits c0 = Some (Z.to_N z0, o)).
  { clear. intros c0 z0 t0 E R. unfold text_val. cbn [rop_of r_vals] in E. destruct (skipn 2 (c_op c0)) as [|a l]; [discriminate E|].
    cbn [map] in E. assert (VA : value_of (c_buf c0) a = VInt z0) by congruence. destruct a; cbn [value_of] in VA; try discriminate VA.
    injection VA as VA. cbn [atom_words]. rewrite VA. rewrite Z.mod_small by lia. eexists. reflexivity. }
  destruct (W x z t X1 X2) as [ox WX]. destruct (W y z' t' Y1 Y3) as [oy WY].
  unfold less_max in B. rewrite WX, WY in B. apply orb_false_iff in B. destruct B as [B _]. apply N.ltb_ge in B. lia.
Qed.
Print Assumptions C24_text_integers.
