(* Merges by id of ops that are not sorted by id: the ops of the two frames, each
   frame's in its own order. *)
From Coq Require Import Sorted Permutation.
From Verif Require Import Prelude UuidModel UuidProofs KeyModel CodecModel TextModel TextSpec BuilderSpec MergeModel MergeSpec HeapProofs MergeProofs MergeTextModel
  TextMergeSpec TextCursors MergeKeeps MergeTheorems TextMerge SizeProofs TextMergeTheorems StoreModel StoreSpec StoreProofs StoreTheorems RocksModel RocksSpec RocksProofs ReplicaSpec ReplicaProofs BranchModel BranchSpec DurableSpec DurableProofs.

(* ---- merges by id of ops that are not sorted ---- *)
Inductive woven : list (list rop) -> list rop -> Prop :=
| woven_nil ls : concat ls = [] -> woven ls []
| woven_cons ls a l r out : Permutation ls ((a :: l) :: r) -> woven (tails l r) out -> woven ls (a :: out).
Lemma woven_perm ls ls' out : Permutation ls ls' -> woven ls' out -> woven ls out.
Proof.
  intros P W. destruct W as [ls' E|ls' a l r out Q W].
  - apply woven_nil. pose proof (perm_concat _ _ _ P) as PC. rewrite E in PC. apply Permutation_sym, Permutation_nil in PC. exact PC.
  - eapply woven_cons; [eapply Permutation_trans; eassumption|exact W].
Qed.
Lemma woven_all ls out : woven ls out -> Permutation (concat ls) out.
Proof.
  induction 1 as [ls E|ls a l r out P W IH]; [rewrite E; constructor|].
  eapply Permutation_trans; [apply perm_concat; exact P|]. cbn [concat app]. apply perm_skip. rewrite concat_tails in IH. exact IH.
Qed.
Lemma woven_in ls out : woven ls out -> forall l, In l ls -> subl l out.
Proof.
  induction 1 as [ls E|ls a l r out P W IH]; intros x I.
  - assert (x = []) as ->; [|constructor]. destruct x as [|o x]; [reflexivity|]. exfalso.
    assert (J : In o (concat ls)) by (apply in_concat; exists (o :: x); split; [exact I|left; reflexivity]). rewrite E in J. destruct J.
  - apply (Permutation_in _ P) in I. destruct I as [<-|I].
    + apply subl_take. destruct l as [|b l]; [apply subl_nil|]. apply IH. left. reflexivity.
    + apply subl_skip. apply IH. destruct l as [|b l]; [exact I|right; exact I].
Qed.
Section Woven.
Variable C : Type.
Variable cvalid : C -> bool.
Variable cnext : C -> option (bool * C).
Variable cop : C -> rop.
Variable lessA : rop -> rop -> bool.
Hypothesis less_asym : forall a b, lessA a b = true -> lessA b a = false.
Hypothesis less_trans : forall a b c, lessA a b = true -> lessA b c = true -> lessA a c = true.
Hypothesis le_trans : forall a b c, lessA b a = false -> lessA c b = false -> lessA c a = false.
Notation cid := (fun c => r_id (cop c)).
Notation lessC := (lessC C cop lessA).
Notation holds_lists := (holds_lists C cvalid cnext cop).
Notation heap_okC := (heap_okC C cop lessA).
Lemma pops_none id ls ls' : pops id ls ls' -> ~ In id (map r_id (concat ls)) -> Permutation ls ls'.
Proof.
  intros P N. destruct P as [ls ls' P|ls a l r ls' P E _]; [exact P|]. exfalso. apply N. subst id. apply in_map.
  apply (Permutation_in _ (Permutation_sym (perm_concat _ _ _ P))). left. reflexivity.
Qed.
Lemma merge_loop_woven : forall fuel c t ls, heap_okC (c :: t) -> holds_lists (c :: t) ls ->
  NoDup (map r_id (concat ls)) -> (length (concat ls) <= fuel)%nat ->
  exists cs, merge_loop C cnext cid lessC fuel (c :: t) = Done (map MAppend (c :: cs) ++ [MEnd RAW]) /\ woven ls (map cop (c :: cs)).
Proof.
  induction fuel as [|f IH]; intros c t ls H F ND L.
  - destruct (step_ok C cvalid cnext cop lessA less_asym less_trans le_trans c t ls H F) as [l [r [h1 [ls1 [-> _]]]]]. cbn [concat app length] in L. lia.
  - destruct (skip_same_ok C cvalid cnext cop lessA less_asym less_trans le_trans (Datatypes.S f) (cid c) c t ls H F eq_refl L) as
      [h' [ls' [l [r [P [Q [F' [X [PP NX]]]]]]]]].
    cbn [merge_loop]. unfold heap_next. rewrite P. cbn [rbind].
    rewrite X in ND. cbn [concat app map] in ND. inversion ND as [|? ? NI ND']; subst.
    assert (PM : Permutation (tails l r) ls') by (apply (pops_none _ _ _ PP); rewrite concat_tails; exact NI).
    pose proof (perm_concat _ _ _ PM) as PC. rewrite concat_tails in PC.
    destruct h' as [|d t'].
    + inversion F'; subst ls'. exists []. split; [reflexivity|]. cbn [map]. eapply woven_cons; [apply Permutation_refl|].
      apply woven_nil. rewrite concat_tails. apply Permutation_sym, Permutation_nil in PC. exact PC.
    + destruct (IH d t' ls' Q F') as [cs [I1 I2]].
      { eapply Permutation_NoDup; [apply Permutation_map; exact PC|exact ND']. }
      { cbn [concat app length] in L. rewrite <- (Permutation_length PC). lia. }
      exists (d :: cs). rewrite I1. split; [reflexivity|]. cbn [map] in *. eapply woven_cons; [apply Permutation_refl|]. eapply woven_perm; eassumption.
Qed.
Lemma merge_all_woven : forall fuel cs ls, Forall2 (reads cvalid cnext cop) cs ls -> NoDup (map r_id (concat ls)) ->
  (length (concat ls) <= fuel)%nat ->
  exists out, merge_all C cvalid cnext cid lessC fuel cs = Done (map MAppend out ++ match out with [] => [] | _ => [MEnd RAW] end) /\ woven (filter nonempty ls) (map cop out).
Proof.
  intros fuel cs ls R ND L. unfold merge_all.
  destruct (add_all_ok C cvalid cnext cop lessA less_asym less_trans le_trans cs ls [] [] ) as [h [hs [P [Q [F PM]]]]].
  - intros i I. unfold less_than. destruct i; reflexivity.
  - constructor.
  - exact R.
  - rewrite P. cbn [rbind]. rewrite app_nil_r in PM.
    assert (PC : Permutation (concat ls) (concat hs)) by (rewrite <- (concat_filter ls); apply perm_concat; exact PM).
    unfold heap_merge. destruct h as [|c t].
    + inversion F; subst hs. exists []. split; [reflexivity|]. cbn [map]. apply woven_nil. fold (filter nonempty ls) in PM.
      change (filter (fun l : list rop => match l with [] => false | _ :: _ => true end) ls) with (filter nonempty ls) in PM.
      apply Permutation_sym, Permutation_nil in PM. rewrite PM. reflexivity.
    + destruct (merge_loop_woven fuel c t hs Q F) as [out [I1 I2]].
      { eapply Permutation_NoDup; [apply Permutation_map; exact PC|exact ND]. }
      { rewrite <- (Permutation_length PC). exact L. }
      exists (c :: out). split; [exact I1|]. eapply woven_perm; [exact PM|exact I2].
Qed.
End Woven.

(* the text of such a merge *)
Lemma woven_opened fbits fuel form cs opss :
  Forall2 (reads valid text_next rop_of) cs opss -> Forall on_canonical cs -> opss <> [] -> Forall (fun l => l <> []) opss ->
  NoDup (map r_id (concat opss)) -> mergeable (map bare (concat opss)) -> In form [LWW_RDT_FORM; MX_RDT_FORM; YARN_RAW_FORM] ->
  (length (concat opss) <= fuel)%nat -> N.of_nat (length (concat opss)) < 2 ^ 32 - 1 ->
  exists text out, merge_opened fbits fuel form cs = Done (Some text, StOK) /\
    frame_lit canon text (chunk_of (map bare out)) /\ (length text <= room (map bare out))%nat /\ woven opss out.
Proof.
  intros R K NO NE ND M FM FU LN.
  destruct (merge_all_woven cursor valid text_next rop_of (fun a b : rop => uuid_ltb (r_id a) (r_id b))) with (fuel := fuel) (cs := cs) (ls := opss) as (out & E & W); try assumption.
  { intros a b. apply uuid_ltb_asym. } { intros a b c. apply uuid_ltb_trans. } { intros a b c H1 H2. exact (uuid_le_trans _ _ _ H1 H2). }
  assert (FN : filter nonempty opss = opss).
  { clear -NE. induction NE as [|l ls NL NE IH]; [reflexivity|]. cbn [filter]. destruct l; [contradiction|]. cbn [nonempty]. rewrite IH. reflexivity. }
  rewrite FN in W. pose proof (woven_all _ _ W) as PM.
  assert (OUT : exists c l, out = c :: l).
  { destruct out as [|c l]; [|eauto]. exfalso. cbn [map] in PM. apply Permutation_sym, Permutation_nil in PM. destruct opss as [|l ls]; [contradiction|]. inversion NE; subst. destruct l; [contradiction|discriminate]. }
  destruct OUT as (c & l & EO). subst out. set (out := c :: l) in *.
  assert (MM : master_merge cursor valid text_next text_id text_ref (text_val fbits) c_term fuel form cs = Done (map MAppend out ++ [MEnd RAW], StOK)).
  { assert (LM : lww_merge cursor valid text_next text_id fuel cs = Done (map MAppend out ++ [MEnd RAW], StOK)).
    { unfold lww_merge.
      assert (E2 : merge_all cursor valid text_next text_id (less_id cursor text_id) fuel cs = Done (map MAppend out ++ [MEnd RAW])) by exact E. rewrite E2. reflexivity. }
    destruct FM as [<-|[<-|[<-|[]]]]; exact LM. }
  assert (NM : form <> MAX_RDT_FORM) by (intros ->; destruct FM as [X|[X|[X|[]]]]; discriminate).
  assert (LO : length out = length (concat opss)) by (rewrite (Permutation_length PM), map_length; reflexivity).
  destruct (opened_merge fbits fuel form cs _ K NM MM) as (text & MA & FL & LT).
  - rewrite ucalls_chunk. apply (mergeable_good (map bare (concat opss))); [exact M|]. intros u I. eapply Permutation_in; [apply Permutation_map, Permutation_sym; exact PM|exact I].
  - rewrite app_length, map_length, LO. cbn [length]. lia.
  - rewrite ucalls_chunk in FL, LT. exists text, (map rop_of out). split; [exact MA|]. split; [exact FL|]. split; [|exact W].
    rewrite bare_denote in LT. exact LT.
Qed.
Lemma room_perm a b : Permutation a b -> room a = room b.
Proof.
  induction 1 as [|x a b P IH|x y a|a b c P1 IH1 P2 IH2]; [reflexivity| | |congruence].
  - change (x :: a) with ([x] ++ a). change (x :: b) with ([x] ++ b). rewrite !room_app, IH. reflexivity.
  - change (x :: y :: a) with ([x] ++ [y] ++ a). change (y :: x :: a) with ([y] ++ [x] ++ a). rewrite !room_app. lia.
Qed.
(* two frames, the first of which starts with the creation of the object *)
Lemma woven_frames fbits fuel fa fb oa da ob db : frame_says fa (oa :: da) -> frame_says fb (ob :: db) ->
  version (r_ref oa) = NAME -> uuid_zero (r_ref oa) = false -> In (uuid2form (r_ref oa)) [LWW_RDT_FORM; MX_RDT_FORM; YARN_RAW_FORM] -> version (r_ref ob) <> NAME ->
  NoDup (map r_id ((oa :: da) ++ ob :: db)) -> mergeable (map bare ((oa :: da) ++ ob :: db)) ->
  (length ((oa :: da) ++ ob :: db) <= fuel)%nat -> N.of_nat (length ((oa :: da) ++ ob :: db)) < 2 ^ 32 - 1 -> N.of_nat (room (map bare ((oa :: da) ++ ob :: db))) < 2 ^ 32 ->
  exists text ops, merge_frames fbits fuel [fa; fb] = Done (Some text, StOK) /\ frame_says text ops /\
    Permutation (map bare ops) (map bare ((oa :: da) ++ ob :: db)) /\ subl (map bare (oa :: da)) (map bare ops) /\ subl (map bare (ob :: db)) (map bare ops).
Proof.
  intros [FA SA] [FB SB] VA ZA FM VB ND M FU LN RM.
  assert (FF : Forall2 (frame_lit canon) [fa; fb] [oa :: da; ob :: db]) by (constructor; [exact FA|constructor; [exact FB|constructor]]).
  assert (SS : Forall (fun f => N.of_nat (length f) < 2 ^ 32) [fa; fb]) by (constructor; [exact SA|constructor; [exact SB|constructor]]).
  destruct (open_frames _ _ FF SS) as (cs & O & R & K). cbn [filter nonempty] in R.
  inversion R as [|ca ? cs' ? [CA RA] R']; subst. inversion R' as [|cb ? cs'' ? [CB RB] R'']; subst. inversion R''; subst.
  assert (GF : get_form cursor valid text_ref [ca; cb] = Some (uuid2form (r_ref oa))).
  { assert (EA : text_ref ca = r_ref oa) by (inversion RA; reflexivity). assert (EB : text_ref cb = r_ref ob) by (inversion RB; reflexivity).
    unfold get_form. cbn [get_form_loop]. rewrite CA, CB, EA, EB, VA, N.eqb_refl, (proj2 (N.eqb_neq _ _) VB). cbn [negb orb]. change (uuid_zero NIL) with true. cbn match. reflexivity. }
  assert (EC : concat [oa :: da; ob :: db] = (oa :: da) ++ ob :: db) by (cbn [concat]; rewrite app_nil_r; reflexivity).
  destruct (woven_opened fbits fuel (uuid2form (r_ref oa)) [ca; cb] [oa :: da; ob :: db]) as (text & out & MO & FL & LT & W); try (rewrite EC; assumption); try assumption.
  - constructor; [exact RA|constructor; [exact RB|constructor]].
  - discriminate.
  - constructor; [discriminate|constructor; [discriminate|constructor]].
  - pose proof (woven_all _ _ W) as PM. rewrite EC in PM. exists text, (chunk_of (map bare out)). split; [unfold merge_frames; rewrite O, GF; exact MO|].
    unfold chunk_of at 2 3 4. rewrite bare_denote. split; [split; [exact FL|]|].
    + rewrite <- (room_perm _ _ (Permutation_map bare PM)) in LT. lia.
    + split; [apply Permutation_map, Permutation_sym; exact PM|]. split; apply subl_map; apply (woven_in _ _ W); cbn; auto.
Qed.
