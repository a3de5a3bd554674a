(* C44: merging text frames gives text frames. The merge rules (C19-C25), the
   text reader (C43) and the text writer (C16) together. *)
From Coq Require Import Sorted Permutation.
From Verif Require Import Prelude UuidModel UuidSpec UuidProofs KeyModel CodecModel CodecSpec TextModel TextSpec FrameProofs BuilderSpec BuilderProofs
  MergeModel MergeSpec MergeTextModel HeapProofs MergeProofs RgaProofs RgaTree MergeTheorems TextMergeSpec TextCursors MergeKeeps TextMerge SizeProofs.

Definition small (f : bytes) : Prop := N.of_nat (length f) < 2 ^ 32.

(* a merge of cursors on frames of the grammar *)
Lemma opened_marked fbits fuel form cs calls : Forall on_canonical cs -> form <> MAX_RDT_FORM ->
  master_merge cursor valid text_next text_id text_ref (text_val fbits) c_term fuel form cs = Done (calls, StOK) ->
  good_calls origin_op false false (ucalls calls) -> N.of_nat (length calls) < 2 ^ 32 ->
  exists text, merge_opened fbits fuel form cs = Done (Some text, StOK) /\ frame_marked canon text (denote (ucalls calls)) (in_runs origin_op (ucalls calls)) /\
    (length text <= room (map bare (denote (ucalls calls))))%nat.
Proof.
  intros K NM M G L.
  assert (KC : forall c, In (MAppend c) calls -> canonical c).
  { intros c I. destruct (master_keeps cursor valid text_next text_id text_ref (text_val fbits) c_term on_canonical fuel form cs calls StOK c
      canonical_next NM M K I) as [V H]. apply canonical_here; assumption. }
  destruct (build_merged_marked calls KC G L) as (text & BD & FL).
  exists text. split; [unfold merge_opened; rewrite M; cbn [rbind]; rewrite BD; reflexivity|]. split; [exact FL|].
  eapply Nat.le_trans; [apply build_len; exact BD|apply calls_room; exact KC].
Qed.
Lemma opened_merge fbits fuel form cs calls : Forall on_canonical cs -> form <> MAX_RDT_FORM ->
  master_merge cursor valid text_next text_id text_ref (text_val fbits) c_term fuel form cs = Done (calls, StOK) ->
  good_calls origin_op false false (ucalls calls) -> N.of_nat (length calls) < 2 ^ 32 ->
  exists text, merge_opened fbits fuel form cs = Done (Some text, StOK) /\ frame_lit canon text (denote (ucalls calls)) /\
    (length text <= room (map bare (denote (ucalls calls))))%nat.
Proof.
  intros K NM M G L. destruct (opened_marked fbits fuel form cs calls K NM M G L) as (text & E & F & LT). exists text.
  split; [exact E|]. split; [eapply frame_erase; exact F|exact LT].
Qed.

Lemma text_merge_marked : forall fbits fuel form fs opss cs calls,
  Forall2 (frame_lit canon) fs opss -> Forall small fs -> form <> MAX_RDT_FORM ->
  open_cursors fs = Some cs ->
  master_merge cursor valid text_next text_id text_ref (text_val fbits) c_term fuel form cs = Done (calls, StOK) ->
  good_calls origin_op false false (ucalls calls) -> N.of_nat (length calls) < 2 ^ 32 ->
  exists text, merge_as fbits fuel form fs = Done (Some text, StOK) /\ frame_marked canon text (denote (ucalls calls)) (in_runs origin_op (ucalls calls)) /\
    (length text <= room (map bare (denote (ucalls calls))))%nat.
Proof.
  intros fbits fuel form fs opss cs calls F B NM O M G L. destruct (open_frames fs opss F B) as (cs' & O' & _ & K).
  rewrite O in O'. injection O' as <-.
  destruct (opened_marked fbits fuel form cs calls K NM M G L) as (text & E & FL & LT).
  exists text. split; [unfold merge_as; rewrite O; exact E|]. auto.
Qed.

(* whatever the form (but MAX): the text a successful merge writes reads back
   as the calls of the merge denote; its length is bounded by what these ops
   say *)
Theorem C44_text_merge : forall fbits fuel form fs opss cs calls,
  Forall2 (frame_lit canon) fs opss -> Forall small fs -> form <> MAX_RDT_FORM ->
  open_cursors fs = Some cs ->
  master_merge cursor valid text_next text_id text_ref (text_val fbits) c_term fuel form cs = Done (calls, StOK) ->
  good_calls origin_op false false (ucalls calls) -> N.of_nat (length calls) < 2 ^ 32 ->
  exists text, merge_as fbits fuel form fs = Done (Some text, StOK) /\ frame_lit canon text (denote (ucalls calls)) /\
    (length text <= room (map bare (denote (ucalls calls))))%nat.
Proof.
  intros fbits fuel form fs opss cs calls F B NM O M G L.
  destruct (text_merge_marked fbits fuel form fs opss cs calls F B NM O M G L) as (text & E & FL & LT).
  exists text. split; [exact E|]. split; [eapply frame_erase; exact FL|exact LT].
Qed.
Print Assumptions C44_text_merge.

Lemma nodup_ids_length out (all : list rop) : increasing_ids out -> (forall o, In o out -> In o all) -> (length out <= length all)%nat.
Proof.
  intros I S. apply NoDup_incl_length; [|exact S]. clear S. induction I as [|x l I IH F]; constructor; [|exact IH].
  intro J. rewrite Forall_forall in F. specialize (F x J). unfold id_lt in F. rewrite uuid_ltb_irrefl in F. discriminate.
Qed.

Lemma bare_identify_of l : mergeable (map bare l) -> bare_identify l.
Proof. intros (_ & B & _) a b IA IB E. apply B; [apply in_map; exact IA|apply in_map; exact IB|exact E]. Qed.

Lemma opened_union fbits fuel form cs opss :
  Forall2 (reads valid text_next rop_of) cs opss -> Forall on_canonical cs -> Forall sorted_ids opss -> Forall (fun l => l <> []) opss ->
  mergeable (map bare (concat opss)) -> In form [LWW_RDT_FORM; MX_RDT_FORM; YARN_RAW_FORM; META_META_FORM] ->
  (length (concat opss) <= fuel)%nat -> N.of_nat (length (concat opss)) < 2 ^ 32 - 1 ->
  exists text us, merge_opened fbits fuel form cs = Done (Some text, StOK) /\
    frame_lit canon text (chunk_of us) /\ increasing_ids (chunk_of us) /\
    (forall u, In u us <-> In u (map bare (concat opss))) /\ (length text <= room us)%nat.
Proof.
  intros R2 K S2 NE M FM FU LN.
  assert (RES : exists calls, master_merge cursor valid text_next text_id text_ref (text_val fbits) c_term fuel form cs = Done (calls, StOK) /\
    sorted_union opss (appended rop_of calls) /\ (concat opss <> [] -> one_chunk calls)).
  { destruct (N.eq_dec form META_META_FORM) as [->|NME].
    - destruct (C21_meta cursor valid text_next rop_of (text_val fbits) c_term fuel cs _ R2) as (calls & E & U & _ & OC).
      + rewrite Forall_forall in *. intros l I. specialize (S2 l I).
        assert (IN : forall o, In o l -> In o (concat opss)) by (intros o J; apply in_concat; exists l; auto).
        pose proof (bare_identify_of _ M) as BI. clear -S2 IN BI. induction S2 as [|x l S2 IH FO]; constructor.
        * apply IH. intros o J. apply IN. right. exact J.
        * rewrite Forall_forall in *. intros y J. specialize (FO y J). unfold id_le in FO. unfold meta_le.
          destruct (uuid_total (r_id x) (r_id y)) as [T|[T|T]]; [left; exact T|right|congruence].
          split; [exact T|].
          assert (EB : bare x = bare y) by (apply BI; [apply IN; left; reflexivity|apply IN; right; exact J|exact T]).
          replace (r_ref y) with (r_ref x) by (apply (f_equal u_ref) in EB; exact EB). apply uuid_ltb_irrefl.
      + exact FU.
      + exists calls. auto.
    - apply (C19_sorted_union cursor valid text_next rop_of (text_val fbits) c_term fuel form cs _ R2 S2); [exact FU|].
      cbn [In] in *. intuition congruence. }
  destruct RES as (calls & E & U & OC). set (out := appended rop_of calls) in *.
  assert (UB : forall u, In u (map bare out) <-> In u (map bare (concat opss))).
  { intro u. apply (union_bare _ _ U). apply bare_identify_of. exact M. }
  assert (SUB : forall o, In o out -> In o (concat opss)) by (intros o I; apply U; exact I).
  assert (LO : (length out <= length (concat opss))%nat) by (apply nodup_ids_length; [apply U|exact SUB]).
  assert (NM : form <> MAX_RDT_FORM) by (intros ->; destruct FM as [X|[X|[X|[X|[]]]]]; discriminate).
  assert (CALLS : calls = [] /\ concat opss = [] \/ exists cl, calls = map MAppend cl ++ [MEnd RAW] /\ out = map rop_of cl).
  { destruct (concat opss) as [|o q] eqn:Q.
    - left. split; [|reflexivity].
      destruct opss as [|l ls].
      + inversion R2; subst. clear -E FM. destruct FM as [<-|[<-|[<-|[<-|[]]]]]; cbn in E; injection E as <-; reflexivity.
      + exfalso. inversion NE; subst. destruct l; [congruence|discriminate Q].
    - right. destruct (OC ltac:(discriminate)) as (cl & ->). exists cl. split; [reflexivity|]. unfold out, appended.
      rewrite flat_map_app. cbn [flat_map app]. rewrite app_nil_r. clear. induction cl; [reflexivity|]. cbn [map flat_map app]. congruence. }
  assert (G : good_calls origin_op false false (ucalls calls) /\ denote (ucalls calls) = chunk_of (map bare out) /\ N.of_nat (length calls) < 2 ^ 32).
  { destruct CALLS as [[-> _]|(cl & -> & EO)].
    - split; [exact Logic.I|]. split; [reflexivity|]. cbn. lia.
    - rewrite ucalls_chunk, <- EO. split; [|split; [reflexivity|]].
      + apply (mergeable_good (map bare (concat opss))); [exact M|]. intros u I. apply UB. exact I.
      + rewrite app_length, map_length. cbn [length]. rewrite EO, map_length in LO. lia. }
  destruct G as (G & D & L).
  destruct (opened_merge fbits fuel form cs calls K NM E G L) as (text & MA & FL & LT).
  exists text, (map bare out). rewrite D in FL, LT. split; [exact MA|]. split; [exact FL|].
  split; [|split; [exact UB|unfold chunk_of in LT; rewrite bare_denote in LT; exact LT]].
  apply (increasing_of_bare out); [symmetry; apply bare_denote|apply U].
Qed.

(* the last-write-wins family: the result is a frame with exactly the ops of
   the inputs, each once, in increasing id order, as one chunk *)
Theorem C44_union : forall fbits fuel form fs opss,
  Forall2 (frame_lit canon) fs opss -> Forall small fs -> Forall sorted_ids opss ->
  mergeable (map bare (concat opss)) -> In form [LWW_RDT_FORM; MX_RDT_FORM; YARN_RAW_FORM; META_META_FORM] ->
  (length (concat opss) <= fuel)%nat -> N.of_nat (length (concat opss)) < 2 ^ 32 - 1 ->
  exists text us, merge_as fbits fuel form fs = Done (Some text, StOK) /\
    frame_lit canon text (chunk_of us) /\ increasing_ids (chunk_of us) /\
    (forall u, In u us <-> In u (map bare (concat opss))) /\ (length text <= room us)%nat.
Proof.
  intros fbits fuel form fs opss F B SO M FM FU LN.
  destruct (open_frames fs opss F B) as (cs & O & R & K).
  assert (R2 : Forall2 (reads valid text_next rop_of) cs (filter nonempty opss)).
  { clear -R. induction R as [|c l cs ls [_ H] R IH]; constructor; assumption. }
  assert (S2 : Forall sorted_ids (filter nonempty opss)).
  { rewrite Forall_forall in *. intros l I. apply filter_In in I. apply SO, I. }
  assert (NE : Forall (fun l : list rop => l <> []) (filter nonempty opss)).
  { apply Forall_forall. intros l I. apply filter_In in I as [_ I]. destruct l; [discriminate|congruence]. }
  rewrite <- (concat_nonempty opss) in M, FU, LN |- *.
  destruct (opened_union fbits fuel form cs _ R2 K S2 NE M FM FU LN) as (text & us & E & REST).
  exists text, us. split; [unfold merge_as; rewrite O; exact E|exact REST].
Qed.
Print Assumptions C44_union.

Lemma chunk_same us1 us2 : increasing_ids (chunk_of us1) -> increasing_ids (chunk_of us2) ->
  (forall u, In u us1 <-> In u us2) -> us1 = us2.
Proof.
  intros A B H. pose proof (increasing_bare _ _ A B) as E. unfold chunk_of in E. rewrite !bare_denote in E. apply E. exact H.
Qed.

(* the order of the inputs, repeated inputs and the grouping of merges do not
   matter: the texts read back as the same ops *)
Theorem C44_regroup : forall fbits fuel form fs1 opss1 fs2 opss2 g,
  Forall2 (frame_lit canon) fs1 opss1 -> Forall2 (frame_lit canon) fs2 opss2 -> Forall small (fs1 ++ fs2) -> N.of_nat (room (map bare (concat opss1))) < 2 ^ 32 ->
  Forall sorted_ids (opss1 ++ opss2) -> mergeable (map bare (concat (opss1 ++ opss2))) ->
  In form [LWW_RDT_FORM; MX_RDT_FORM; YARN_RAW_FORM; META_META_FORM] ->
  (2 * length (concat (opss1 ++ opss2)) <= fuel)%nat -> 2 * N.of_nat (length (concat (opss1 ++ opss2))) < 2 ^ 32 - 1 ->
  merge_as fbits fuel form fs1 = Done (Some g, StOK) ->
  exists once twice ops,
    merge_as fbits fuel form (fs1 ++ fs2) = Done (Some once, StOK) /\ frame_lit canon once ops /\
    merge_as fbits fuel form (fs2 ++ [g]) = Done (Some twice, StOK) /\ frame_lit canon twice ops.
Proof.
  intros fbits fuel form fs1 opss1 fs2 opss2 g F1 F2 B12 RN SO M FM FU LN MG.
  pose proof B12 as B12'. apply Forall_app in B12' as [B1 B2].
  pose proof SO as SO'. apply Forall_app in SO' as [SO1 SO2]. rewrite concat_app, app_length in FU, LN.
  assert (M1 : mergeable (map bare (concat opss1))).
  { apply (mergeable_incl _ _ M). intros u I. rewrite concat_app, map_app. apply in_or_app. left. exact I. }
  destruct (C44_union fbits fuel form fs1 opss1 F1 B1 SO1 M1 FM ltac:(lia) ltac:(lia)) as (t1 & us1 & E1 & FL1 & I1 & U1 & LT).
  rewrite MG in E1. injection E1 as <-.
  assert (ND : NoDup us1).
  { rewrite <- (bare_denote us1 RAW). clear -I1. fold (chunk_of us1). induction I1 as [|x l H IH FO]; cbn [map]; constructor; [|exact IH].
    intro J. apply in_map_iff in J as (z & Z & J). rewrite Forall_forall in FO. specialize (FO z J). unfold id_lt in FO.
    replace (r_id z) with (r_id x) in FO by (apply (f_equal u_id) in Z; symmetry; exact Z). rewrite uuid_ltb_irrefl in FO. discriminate. }
  assert (L1 : (length us1 <= length (concat opss1))%nat).
  { rewrite <- (map_length bare (concat opss1)). apply NoDup_incl_length; [exact ND|intros u I; apply U1; exact I]. }
  assert (BG : small g).
  { pose proof (room_incl us1 ND (map bare (concat opss1)) (fun u I => proj1 (U1 u) I)). unfold small. lia. }
  destruct (C44_union fbits fuel form (fs1 ++ fs2) (opss1 ++ opss2) (Forall2_app F1 F2) B12 SO M FM) as (t2 & us2 & E2 & FL2 & I2 & U2 & _);
    [rewrite concat_app, app_length; lia|rewrite concat_app, app_length; lia|].
  assert (C : forall u, In u (map bare (concat (opss2 ++ [chunk_of us1]))) <-> In u (map bare (concat (opss1 ++ opss2)))).
  { intro u. rewrite !concat_app, !map_app, !in_app_iff. cbn [concat]. rewrite app_nil_r. unfold chunk_of. rewrite bare_denote, U1. tauto. }
  assert (LC : (length (chunk_of us1) = length us1)%nat).
  { rewrite <- (map_length bare). unfold chunk_of. rewrite bare_denote. reflexivity. }
  destruct (C44_union fbits fuel form (fs2 ++ [g]) (opss2 ++ [chunk_of us1])) as (t3 & us3 & E3 & FL3 & I3 & U3 & _); try exact FM.
  - apply Forall2_app; [exact F2|]. constructor; [exact FL1|constructor].
  - apply Forall_app. split; [exact B2|]. constructor; [exact BG|constructor].
  - apply Forall_app. split; [exact SO2|]. constructor; [|constructor].
    clear -I1. induction I1 as [|x l H IH FO]; constructor; [exact IH|]. rewrite Forall_forall in *. intros z J. specialize (FO z J).
    unfold id_le, id_lt in *. apply uuid_ltb_asym. exact FO.
  - apply (mergeable_incl _ _ M). intros u I. apply C. exact I.
  - rewrite concat_app, app_length. cbn [concat]. rewrite app_nil_r, LC. lia.
  - rewrite concat_app, app_length. cbn [concat]. rewrite app_nil_r, LC. lia.
  - exists t2, t3, (chunk_of us2). split; [exact E2|]. split; [exact FL2|]. split; [exact E3|].
    rewrite (chunk_same us2 us3 I2 I3); [exact FL3|]. intro u. rewrite U2, U3, C. reflexivity.
Qed.
Print Assumptions C44_regroup.

Lemma causal_marked : forall fbits fuel fs ts T,
  let U := flat_map listing ts in
  Forall2 (fun f t => frame_lit canon f (listing t)) fs ts -> Forall small fs ->
  fs <> [] -> (length fs <= 3)%nat -> Forall causal ts -> NoDup (ids U) ->
  (forall o o', In o U -> In o' U -> r_ref o = r_id o' -> uuid_ltb (r_id o') (r_id o) = true) ->
  mergeable (map bare U) -> (length U <= fuel)%nat -> N.of_nat (length U) < 2 ^ 32 - 1 ->
  (* every piece hangs on another one, but for the oldest *)
  (forall t, In t ts -> (forall t', In t' ts -> uuid_ltb (r_id (root t')) (r_id (root t)) = false) \/ In (r_ref (root t)) (ids U)) ->
  causal T -> Permutation (listing T) U ->
  exists text, merge_as fbits fuel RGA_RDT_FORM fs = Done (Some text, StOK) /\
    frame_marked canon text (chunk_of (map bare (listing T))) (in_runs origin_op (map UAppend (map bare (listing T)) ++ [UEnd RAW])) /\
    (length text <= room (map bare (listing T)))%nat.
Proof.
  intros fbits fuel fs ts T U F B NE N3 CS ND BK M FU LN HANG CT PT.
  assert (F' : Forall2 (frame_lit canon) fs (map listing ts)).
  { clear -F. induction F; cbn [map]; constructor; assumption. }
  destruct (open_frames fs _ F' B) as (cs & O & R & K).
  assert (FN : filter nonempty (map listing ts) = map listing ts).
  { clear. induction ts as [|[o l] ts IH]; [reflexivity|]. cbn [map filter listing nonempty]. rewrite IH. reflexivity. }
  rewrite FN in R.
  assert (R2 : Forall2 (fun c t => valid c = true /\ reads valid text_next rop_of c (listing t)) cs ts).
  { clear -R. remember (map listing ts) as ls eqn:Q. revert ts Q. induction R; intros [|t ts] Q; try discriminate; [constructor|].
    cbn [map] in Q. injection Q as -> ->. constructor; [assumption|]. apply IHR. reflexivity. }
  assert (LEN : length cs = length fs).
  { rewrite (F2_length _ _ _ _ _ F). apply (F2_length _ _ _ _ _ R2). }
  destruct (C22_causal_merge cursor valid text_next rop_of (text_val fbits) c_term fuel cs ts R2) as (calls & st & E & (cl & OC) & ST & IFF & RES);
    try assumption.
  - intros ->. destruct fs; [congruence|discriminate].
  - lia.
  - apply IFF in HANG. subst st. destruct (RES eq_refl) as [_ UNI]. specialize (UNI T CT PT).
    assert (EO : appended rop_of calls = map rop_of cl).
    { subst calls. unfold appended. rewrite flat_map_app. cbn [flat_map app]. rewrite app_nil_r. clear. induction cl; [reflexivity|]. cbn [map flat_map app]. congruence. }
    rewrite UNI in EO.
    destruct (text_merge_marked fbits fuel RGA_RDT_FORM fs _ cs calls F' B ltac:(discriminate) O E) as (text & MA & FL & LT).
    + rewrite OC, ucalls_chunk, <- EO. apply (mergeable_good (map bare U)); [exact M|].
      intros u I. apply in_map_iff in I as (o & <- & I). apply in_map. eapply Permutation_in; eassumption.
    + rewrite OC, app_length, map_length. cbn [length]. apply Permutation_length in PT. rewrite EO, map_length in PT. lia.
    + exists text. split; [exact MA|]. rewrite OC, ucalls_chunk, <- EO in FL, LT. split; [exact FL|].
      rewrite bare_denote in LT. exact LT.
Qed.

(* causal trees: the text of the merged tree *)
Theorem C44_causal : forall fbits fuel fs ts T,
  let U := flat_map listing ts in
  Forall2 (fun f t => frame_lit canon f (listing t)) fs ts -> Forall small fs ->
  fs <> [] -> (length fs <= 3)%nat -> Forall causal ts -> NoDup (ids U) ->
  (forall o o', In o U -> In o' U -> r_ref o = r_id o' -> uuid_ltb (r_id o') (r_id o) = true) ->
  mergeable (map bare U) -> (length U <= fuel)%nat -> N.of_nat (length U) < 2 ^ 32 - 1 ->
  (* every piece hangs on another one, but for the oldest *)
  (forall t, In t ts -> (forall t', In t' ts -> uuid_ltb (r_id (root t')) (r_id (root t)) = false) \/ In (r_ref (root t)) (ids U)) ->
  causal T -> Permutation (listing T) U ->
  exists text, merge_as fbits fuel RGA_RDT_FORM fs = Done (Some text, StOK) /\
    frame_lit canon text (chunk_of (map bare (listing T))).
Proof.
  intros fbits fuel fs ts T U F B NE N3 CS ND BK M FU LN HANG CT PT.
  destruct (causal_marked fbits fuel fs ts T F B NE N3 CS ND BK M FU LN HANG CT PT) as (text & E & FL & _).
  exists text. split; [exact E|]. eapply frame_erase. exact FL.
Qed.
Print Assumptions C44_causal.
