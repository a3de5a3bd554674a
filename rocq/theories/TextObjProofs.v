(* Text objects of a branch: the records under the state key of an RGA object are
   causal trees, through commits, batches, restarts and compactions. *)
From Coq Require Import Sorted Permutation.
From Verif Require Import Prelude UuidModel UuidProofs KeyModel KeyProofs CodecModel TextModel TextSpec FrameProofs BuilderSpec MergeModel MergeSpec HeapProofs MergeProofs RgaProofs RgaTree MergeTheorems MergeTextModel
  TextMergeSpec TextCursors MergeKeeps TextMerge SizeProofs TextMergeTheorems StoreModel StoreSpec StoreProofs StoreTheorems RocksModel RocksSpec RocksProofs MetaModel ClockModel
  ReplicaModel ReplicaSpec ReplicaProofs ReplicaTheorems BranchModel BranchSpec BranchProofs BranchTheorems DurableSpec DurableProofs TextObjSpec.

(* ---- trees with the same ops and other terminators ---- *)
Lemma bare_parts a b : bare a = bare b -> r_id a = r_id b /\ r_ref a = r_ref b /\ r_vals a = r_vals b.
Proof. unfold bare. intro E. injection E as A B C. auto. Qed.
Lemma relabel_all cs : Forall (fun t => forall L, map bare L = map bare (listing t) ->
    exists t', listing t' = L /\ bare (root t') = bare (root t) /\ (causal t -> causal t')) cs ->
  forall L, map bare L = map bare (flat_map listing cs) ->
  exists cs', flat_map listing cs' = L /\ Forall2 (fun c c' => bare (root c') = bare (root c) /\ (causal c -> causal c')) cs cs'.
Proof.
  induction 1 as [|c cs H F IH]; intros L E.
  - exists []. destruct L; [|discriminate]. split; [reflexivity|constructor].
  - cbn [flat_map] in E. rewrite map_app in E. apply map_eq_app in E as (L1 & L2 & -> & E1 & E2).
    destruct (H L1 E1) as (c' & A & B & C). destruct (IH L2 E2) as (cs' & D & G). exists (c' :: cs'). cbn [flat_map]. rewrite A, D.
    split; [reflexivity|]. constructor; auto.
Qed.
Lemma relabel : forall t L, map bare L = map bare (listing t) ->
  exists t', listing t' = L /\ bare (root t') = bare (root t) /\ (causal t -> causal t').
Proof.
  apply (tree_ind2 (fun t => forall L, map bare L = map bare (listing t) ->
    exists t', listing t' = L /\ bare (root t') = bare (root t) /\ (causal t -> causal t'))).
  intros o cs IH [|x L] E; [discriminate|]. cbn [listing map] in E. injection E as I1 I2 I3 E. destruct (relabel_all cs IH L E) as (cs' & A & B).
  exists (Node x cs'). cbn [listing root]. rewrite A. split; [reflexivity|]. split; [unfold bare; congruence|].
  intro C. inversion C as [? ? K S0]; subst. constructor.
  - clear S0 C E IH. induction B as [|c c' cs cs' [B1 B2] B IH]; [constructor|]. inversion K as [|? ? (K1 & K2 & K3) K4]; subst.
    constructor; [|auto]. apply bare_parts in B1 as (P1 & P2 & _). split; [auto|]. rewrite P1, P2, I1. auto.
  - clear K C E IH. induction B as [|c c' cs cs' [B1 B2] B IH]; [constructor|]. inversion S0 as [|? ? S1 S2]; subst. constructor; [auto|].
    apply bare_parts in B1 as (P1 & _). clear -S2 B P1. induction B as [|d d' cs cs' [B1 B2] B IH]; [constructor|]. inversion S2; subst.
    apply bare_parts in B1 as (Q1 & _). constructor; [rewrite P1, Q1; assumption|auto].
Qed.
Definition unbare (u : uop) : rop := mkRop (u_id u) (u_ref u) (u_vals u) RAW.
Lemma bare_unbare us : map bare (map unbare us) = us.
Proof. rewrite map_map. rewrite <- (map_id us) at 2. apply map_ext. intros [i r v]. reflexivity. Qed.
Lemma ids_bare l : ids l = map u_id (map bare l).
Proof. unfold ids. rewrite map_map. reflexivity. Qed.
(* one tree at most has these ops *)
Lemma one_tree T1 T2 : causal T1 -> causal T2 -> NoDup (ids (listing T1)) -> Permutation (map bare (listing T1)) (map bare (listing T2)) ->
  map bare (listing T1) = map bare (listing T2).
Proof.
  intros C1 C2 ND P. destruct (relabel T1 (map unbare (map bare (listing T1)))) as (S1 & A1 & _ & B1); [apply bare_unbare|].
  destruct (relabel T2 (map unbare (map bare (listing T2)))) as (S2 & A2 & _ & B2); [apply bare_unbare|].
  assert (E : listing S1 = listing S2).
  { apply tree_unique; auto.
    - rewrite A1, ids_bare, bare_unbare, <- ids_bare. exact ND.
    - rewrite A1, A2. apply Permutation_map. exact P. }
  rewrite <- (bare_unbare (map bare (listing T1))), <- A1, E, A2, bare_unbare. reflexivity.
Qed.
Lemma chunk_bare us : map bare (chunk_of us) = us.
Proof. unfold chunk_of. apply bare_denote. Qed.
Lemma root_in t : In (root t) (listing t). Proof. destruct t. left. reflexivity. Qed.

Lemma frame_list f d : frame_says f d -> exists l, ops_of f l.
Proof.
  intros [FL SM]. destruct (frame_visits f d FL SM) as (cs & (c' & N & V) & F).
  destruct (visits_run _ [] _ _ _ (run_here _) N V) as (e & d0 & R & St). exists cs, e, d0. auto.
Qed.

Section Obj.
Variable fbits : bytes -> N.
Variable fuel : nat.

(* ops that can be together in a tree *)
Definition apt (us : list uop) : Prop :=
  mergeable us /\ NoDup (map u_id us) /\ (forall u v, In u us -> In v us -> u_ref u = u_id v -> uuid_ltb (u_id v) (u_id u) = true) /\
  (length us < fuel)%nat /\ 2 * N.of_nat (length us) < 2 ^ 32 /\ N.of_nat (room us) < 2 ^ 32.
Lemma room_perm us vs : Permutation us vs -> room us = room vs.
Proof. unfold room. induction 1; cbn [map list_sum fold_right] in *; unfold list_sum in *; lia. Qed.
Lemma apt_perm us vs : Permutation us vs -> apt us -> apt vs.
Proof.
  intros P (M & ND & BK & L & N2 & R). split; [eapply mergeable_incl; [exact M|intros u I; eapply Permutation_in; [apply Permutation_sym; exact P|exact I]]|].
  split; [eapply Permutation_NoDup; [apply Permutation_map; exact P|exact ND]|].
  split; [intros u v I J; apply BK; (eapply Permutation_in; [apply Permutation_sym; exact P|assumption])|].
  rewrite <- (Permutation_length P), <- (room_perm _ _ P). auto.
Qed.
Lemma apt_app us vs : apt (us ++ vs) -> apt us /\ apt vs.
Proof.
  intros (M & ND & BK & L & N2 & R). rewrite map_app in ND. rewrite app_length in L, N2. rewrite room_app in R.
  assert (N1 : NoDup (map u_id us) /\ NoDup (map u_id vs)).
  { clear -ND. induction (map u_id us) as [|x l IH]; [split; [constructor|exact ND]|]. cbn [app] in ND. inversion ND as [|? ? A B]; subst. destruct (IH B). split; [|assumption].
    constructor; [|assumption]. intro I. apply A. apply in_or_app. auto. }
  split; (split; [eapply mergeable_incl; [exact M|]; (apply incl_appl, incl_refl) || (apply incl_appr, incl_refl)|]; split; [apply N1|]; split;
    [intros u v I J; apply BK; apply in_or_app; auto|]; split; [lia|]; split; lia).
Qed.

(* frames that list trees *)
Definition trees_in (fs : list bytes) (us : list uop) : Prop :=
  exists ts, Forall2 (fun f t => frame_says f (listing t)) fs ts /\ Forall causal ts /\ Permutation (map bare (flat_map listing ts)) us.
(* such frames are opened *)
Lemma opened_trees fs us : trees_in fs us -> apt us ->
  exists ts cs, Forall2 (fun f t => frame_lit canon f (listing t)) fs ts /\ Forall small fs /\ Forall causal ts /\ Permutation (map bare (flat_map listing ts)) us /\
    apt (map bare (flat_map listing ts)) /\ NoDup (ids (flat_map listing ts)) /\ (length (flat_map listing ts) < fuel)%nat /\
    (forall o o', In o (flat_map listing ts) -> In o' (flat_map listing ts) -> r_ref o = r_id o' -> uuid_ltb (r_id o') (r_id o) = true) /\
    open_cursors fs = Some cs /\ length cs = length fs /\ Forall2 (fun c t => valid c = true /\ reads valid text_next rop_of c (listing t)) cs ts.
Proof.
  intros (ts & F & CS & P) AP. pose proof (apt_perm _ _ (Permutation_sym P) AP) as AU. pose proof AU as (M & ND & BK & L & N2 & R). rewrite map_length in L, N2.
  assert (FL : Forall2 (fun f t => frame_lit canon f (listing t)) fs ts) by (clear -F; induction F as [|f t fs ts [A _] F IH]; constructor; assumption).
  assert (SM : Forall small fs) by (clear -F; induction F as [|f t fs ts [_ A] F IH]; constructor; assumption).
  assert (F' : Forall2 (frame_lit canon) fs (map listing ts)) by (clear -FL; induction FL; cbn [map]; constructor; assumption).
  destruct (open_frames fs _ F' SM) as (cs & O & RD & K).
  assert (FN : filter nonempty (map listing ts) = map listing ts).
  { clear. induction ts as [|[o l] ts IH]; [reflexivity|]. cbn [map filter listing nonempty]. rewrite IH. reflexivity. }
  rewrite FN in RD.
  assert (R2 : Forall2 (fun c t => valid c = true /\ reads valid text_next rop_of c (listing t)) cs ts).
  { clear -RD. remember (map listing ts) as ls eqn:Q. revert ts Q. induction RD; intros [|t ts] Q; try discriminate; [constructor|].
    cbn [map] in Q. injection Q as -> ->. constructor; [assumption|]. apply IHRD. reflexivity. }
  assert (LEN : length cs = length fs) by (rewrite (F2_length _ _ _ _ _ F); apply (F2_length _ _ _ _ _ R2)).
  exists ts, cs. rewrite ids_bare. do 6 (split; [assumption|]). split; [lia|]. split; [|auto].
  intros o o' I J. apply (BK (bare o) (bare o')); apply in_map; assumption.
Qed.
(* the merge of such frames *)
Lemma merged fs us g : trees_in fs us -> apt us -> fs <> [] -> operator_merge fbits fuel RGA_RDT_FORM fs = Done (Some g) ->
  exists T, causal T /\ Permutation (map bare (listing T)) us /\ told g (map bare (listing T)) /\ frame_says g (listing T).
Proof.
  intros TI AP NE OM. destruct (opened_trees fs us TI AP) as (ts & cs & FL & SM & CS & P & AU & ND & L & BK & O & LEN & R2). pose proof AU as (M & _ & _ & _ & N2 & R). rewrite map_length in N2.
  unfold operator_merge in OM. apply rbind_done in OM as ([r s] & MA & OM). destruct s; try discriminate. injection OM as ->.
  unfold merge_as in MA. rewrite O in MA. unfold merge_opened in MA.
  destruct (Nat.le_gt_cases (length cs) 3) as [N3|N3].
  - destruct (C22_causal_merge cursor valid text_next rop_of (text_val fbits) c_term fuel cs ts R2) as (calls & st & E & OC & ST & IFF & RES); try assumption.
    + intros ->. destruct fs; [congruence|discriminate].
    + lia.
    + assert (st = StOK).
      { change (fun c => r_id (rop_of c)) with text_id in E. change (fun c => r_ref (rop_of c)) with text_ref in E.
        rewrite E in MA. cbn [rbind] in MA. destruct (build (bcalls calls)); [|discriminate]. injection MA as _ ->. reflexivity. }
      subst st. destruct (RES eq_refl) as ((T & CT & PT) & _).
      destruct (causal_marked fbits fuel fs ts T FL SM NE ltac:(lia) CS) as (text & E2 & FM & LT); try assumption; [lia|lia|apply IFF; reflexivity|].
      unfold merge_as in E2. rewrite O in E2. unfold merge_opened in E2. rewrite MA in E2. injection E2 as <-.
      destruct (relabel T (chunk_of (map bare (listing T)))) as (V & LV & _ & CV); [apply chunk_bare|].
      exists V. split; [auto|]. rewrite LV, chunk_bare. assert (PP : Permutation (map bare (listing T)) us) by (eapply Permutation_trans; [apply Permutation_map; exact PT|exact P]).
      split; [exact PP|]. split; [exact FM|]. split; [eapply frame_erase; exact FM|].
      assert (RR : room (map bare (listing T)) = room (map bare (flat_map listing ts))) by (apply room_perm, Permutation_map; exact PT). lia.
  - exfalso. assert (RD : Forall2 (fun c l => valid c = true /\ reads valid text_next rop_of c l) cs (map listing ts)) by (clear -R2; induction R2; cbn [map]; constructor; assumption).
    pose proof (C23_status cursor valid text_next rop_of (text_val fbits) c_term fuel cs (map listing ts) RD) as K2.
    rewrite <- flat_map_concat_map in K2. destruct (K2 ltac:(lia)) as [K3 _]. specialize (K3 N3).
    change (fun c => r_id (rop_of c)) with text_id in K3. change (fun c => r_ref (rop_of c)) with text_ref in K3.
    rewrite K3 in MA. cbn [rbind] in MA. destruct (build (bcalls [])); discriminate.
Qed.
(* more than three are not merged *)
Lemma too_many fs us : trees_in fs us -> apt us -> (3 < length fs)%nat -> operator_merge fbits fuel RGA_RDT_FORM fs = Done None.
Proof.
  intros TI AP N3. destruct (opened_trees fs us TI AP) as (ts & cs & FL & SM & CS & P & AU & ND & L & BK & O & LEN & R2).
  assert (RD : Forall2 (fun c l => valid c = true /\ reads valid text_next rop_of c l) cs (map listing ts)) by (clear -R2; induction R2; cbn [map]; constructor; assumption).
  pose proof (C23_status cursor valid text_next rop_of (text_val fbits) c_term fuel cs (map listing ts) RD) as K2.
  rewrite <- flat_map_concat_map in K2. destruct (K2 ltac:(lia)) as [K3 _]. specialize (K3 ltac:(lia)).
  change (fun c => r_id (rop_of c)) with text_id in K3. change (fun c => r_ref (rop_of c)) with text_ref in K3.
  unfold operator_merge, merge_as. rewrite O. unfold merge_opened. rewrite K3. reflexivity.
Qed.
(* up to three are, if every op but the oldest one references another one *)
Lemma few fs us r : trees_in fs us -> apt us -> fs <> [] -> (length fs <= 3)%nat ->
  (forall u, In u us -> u = r \/ uuid_ltb (u_id r) (u_id u) = true /\ exists v, In v us /\ u_id v = u_ref u) ->
  exists g, operator_merge fbits fuel RGA_RDT_FORM fs = Done (Some g).
Proof.
  intros TI AP NE N3 CL. destruct (opened_trees fs us TI AP) as (ts & cs & FL & SM & CS & P & AU & ND & L & BK & O & LEN & R2). pose proof AU as (M & _ & _ & _ & N2 & R). rewrite map_length in N2.
  assert (RU : forall t, In t ts -> In (bare (root t)) us).
  { intros t I. eapply Permutation_in; [exact P|]. apply in_map. apply in_flat_map. exists t. split; [exact I|apply root_in]. }
  assert (HANG : forall t, In t ts -> (forall t', In t' ts -> uuid_ltb (r_id (root t')) (r_id (root t)) = false) \/ In (r_ref (root t)) (ids (flat_map listing ts))).
  { intros t I. destruct (CL _ (RU t I)) as [E|(_ & v & IV & E)].
    - left. intros t' I'. change (r_id (root t)) with (u_id (bare (root t))). rewrite E. change (r_id (root t')) with (u_id (bare (root t'))).
      destruct (CL _ (RU t' I')) as [->|[LT _]]; [apply uuid_ltb_irrefl|apply uuid_ltb_asym; exact LT].
    - right. rewrite ids_bare. change (r_ref (root t)) with (u_ref (bare (root t))). rewrite <- E. apply in_map. eapply Permutation_in; [apply Permutation_sym; exact P|exact IV]. }
  destruct (C22_causal_merge cursor valid text_next rop_of (text_val fbits) c_term fuel cs ts R2) as (calls & st & E & OC & ST & IFF & RES); try assumption.
  - intros ->. destruct fs; [congruence|discriminate].
  - lia.
  - lia.
  - destruct (RES (proj2 IFF HANG)) as ((T & CT & PT) & _).
    destruct (causal_marked fbits fuel fs ts T FL SM NE ltac:(lia) CS) as (text & E2 & FM & LT); try assumption; [lia|lia|].
    exists text. unfold operator_merge. rewrite E2. reflexivity.
Qed.

(* ---- the cell of the state key ---- *)
Definition cell_trees (v : option bytes) (ops : list bytes) (us : list uop) : Prop :=
  trees_in (held v ++ ops) us /\ forall f, v = Some f -> exists T, causal T /\ told f (map bare (listing T)).
Lemma trees_in_app fs gs us : trees_in (fs ++ gs) us -> exists a b, Permutation (a ++ b) us /\ trees_in fs a /\ trees_in gs b.
Proof.
  intros (ts & F & C & P). apply Forall2_app_inv_l in F as (t1 & t2 & F1 & F2 & ->). apply Forall_app in C as [C1 C2]. rewrite flat_map_app, map_app in P.
  exists (map bare (flat_map listing t1)), (map bare (flat_map listing t2)). split; [exact P|]. split; [exists t1|exists t2]; auto.
Qed.
Lemma trees_in_join fs gs a b us : trees_in fs a -> trees_in gs b -> Permutation (a ++ b) us -> trees_in (fs ++ gs) us.
Proof.
  intros (t1 & F1 & C1 & P1) (t2 & F2 & C2 & P2) P. exists (t1 ++ t2). split; [apply Forall2_app; assumption|]. split; [apply Forall_app; auto|].
  rewrite flat_map_app, map_app. eapply Permutation_trans; [apply Permutation_app; eassumption|exact P].
Qed.
(* a merge in the middle *)
Lemma swapped fs b c us g : trees_in (fs ++ b ++ c) us -> apt us -> b <> [] -> operator_merge fbits fuel RGA_RDT_FORM b = Done (Some g) ->
  trees_in (fs ++ g :: c) us /\ exists T, causal T /\ told g (map bare (listing T)).
Proof.
  intros TI AP NE OM. destruct (trees_in_app _ _ _ TI) as (x & y & P1 & T1 & T2). destruct (trees_in_app _ _ _ T2) as (z & w & P2 & T3 & T4).
  assert (AZ : apt z).
  { apply (apt_perm _ _ (Permutation_sym P1)) in AP. apply apt_app in AP as [_ AP]. apply (apt_perm _ _ (Permutation_sym P2)) in AP. apply apt_app in AP as [AP _]. exact AP. }
  destruct (merged b z g T3 AZ NE OM) as (T & CT & PT & TD & FS). split; [|exists T; auto].
  apply (trees_in_join fs (g :: c) x y us T1); [|exact P1]. change (g :: c) with ([g] ++ c). apply (trees_in_join [g] c z w y); [|exact T4|exact P2].
  exists [T]. split; [constructor; [exact FS|constructor]|]. split; [constructor; [exact CT|constructor]|]. cbn [flat_map]. rewrite app_nil_r. exact PT.
Qed.
Lemma cell_partial v a b c us g : cell_trees v (a ++ b ++ c) us -> apt us -> b <> [] ->
  operator_merge fbits fuel RGA_RDT_FORM b = Done (Some g) -> cell_trees v (a ++ g :: c) us.
Proof.
  intros [TI V] AP NE OM. split; [|exact V]. rewrite app_assoc in TI |- *. apply (swapped _ b c us g TI AP NE OM).
Qed.
Lemma cell_full v b c us g : cell_trees v (b ++ c) us -> apt us -> b <> [] ->
  operator_merge fbits fuel RGA_RDT_FORM (held v ++ b) = Done (Some g) -> cell_trees (Some g) c us.
Proof.
  intros [TI V] AP NE OM. rewrite app_assoc in TI. destruct (swapped [] (held v ++ b) c us g TI AP) as [A B]; [destruct v; [discriminate|exact NE]|exact OM|].
  split; [exact A|]. intros f E. injection E as <-. exact B.
Qed.
(* reading it *)
Lemma cell_read v ops us r k : key_form k = RGA_RDT_FORM -> cell_trees v ops us -> apt us -> us <> [] ->
  (forall u, In u us -> u = r \/ uuid_ltb (u_id r) (u_id u) = true /\ exists v, In v us /\ u_id v = u_ref u) ->
  (exists T, causal T /\ Permutation (map bare (listing T)) us) /\
  (ops = [] \/ (length (held v ++ ops) <= 3)%nat -> exists g T, cell_get fbits fuel k (mkCell v ops) = Done (GValue g) /\ causal T /\ Permutation (map bare (listing T)) us /\
     told g (map bare (listing T)) /\ N.of_nat (length g) < 2 ^ 32) /\
  (ops <> [] -> (3 < length (held v ++ ops))%nat -> cell_get fbits fuel k (mkCell v ops) = Done GFail).
Proof.
  intros FK [TI V] AP NE CL. split; [|split].
  - pose proof AP as (_ & ND & BK & _). assert (IR : In r us).
    { destruct us as [|x us]; [congruence|]. clear -ND BK CL.
      assert (MIN : forall n u, In u (x :: us) -> (length (filter (fun w => uuid_ltb (u_id w) (u_id u)) (x :: us)) < n)%nat -> In r (x :: us)).
      { induction n as [|n IH]; intros u I L; [lia|]. destruct (CL u I) as [<-|(_ & w & IW & E)]; [exact I|]. apply (IH w IW).
        pose proof (BK u w I IW (eq_sym E)) as LT.
        assert (SUB : forall l, In w l -> (length (filter (fun z => uuid_ltb (u_id z) (u_id w)) l) < length (filter (fun z => uuid_ltb (u_id z) (u_id u)) l))%nat).
        { assert (LE : forall l, (length (filter (fun z => uuid_ltb (u_id z) (u_id w)) l) <= length (filter (fun z => uuid_ltb (u_id z) (u_id u)) l))%nat).
          { induction l as [|z l IHl]; [cbn; lia|]. cbn [filter]. destruct (uuid_ltb (u_id z) (u_id w)) eqn:Z; [rewrite (uuid_ltb_trans _ _ _ Z LT); cbn [length]; lia|].
            destruct (uuid_ltb (u_id z) (u_id u)); cbn [length]; lia. }
          induction l as [|z l IHl]; [intros []|]. intros [->|J].
          - cbn [filter]. rewrite uuid_ltb_irrefl, LT. cbn [length]. specialize (LE l). lia.
          - specialize (IHl J). cbn [filter]. destruct (uuid_ltb (u_id z) (u_id w)) eqn:Z; [rewrite (uuid_ltb_trans _ _ _ Z LT); cbn [length]; lia|].
            destruct (uuid_ltb (u_id z) (u_id u)); cbn [length]; lia. }
        specialize (SUB (x :: us) IW). lia. }
      apply (MIN (Datatypes.S (length (filter (fun w => uuid_ltb (u_id w) (u_id x)) (x :: us)))) x); [left; reflexivity|lia]. }
    destruct (tree_exists (map unbare us) (unbare r)) as (T & CT & _ & PT).
    + apply in_map. exact IR.
    + rewrite ids_bare, bare_unbare. exact ND.
    + intros o I. apply in_map_iff in I as (u & <- & I). destruct (CL u I) as [->|(LT & w & IW & E)]; [left; reflexivity|right]. split; [exact LT|].
      rewrite ids_bare, bare_unbare. cbn [unbare r_ref]. rewrite <- E. apply in_map. exact IW.
    + intros o o' I J. apply in_map_iff in I as (u & <- & I). apply in_map_iff in J as (w & <- & J). apply BK; assumption.
    + exists T. split; [exact CT|]. rewrite <- (bare_unbare us). apply Permutation_map. exact PT.
  - intro HOW. destruct ops as [|op ops].
    + destruct v as [f|]; [|exfalso; apply NE; destruct TI as (ts & F & _ & P); inversion F; subst; apply Permutation_nil; exact P].
      destruct (V f eq_refl) as (T & CT & TD). destruct TI as (ts & F & C & P). cbn [held app] in F. inversion F as [|? T2 ? ? [FS SM] F2]; subst. inversion F2; subst. inversion C as [|? ? C2 _]; subst.
      cbn [flat_map] in P. rewrite app_nil_r in P. assert (EQ : listing T2 = chunk_of (map bare (listing T))).
      { pose proof (frame_erase _ _ _ TD) as FE. destruct (frame_list f (listing T2) (conj FS SM)) as (l & OL). destruct (frame_cursors f _ l (conj FS SM) OL) as [<- _]. apply (frame_cursors f _ l (conj FE SM) OL). }
      exists f, T. split; [reflexivity|]. split; [exact CT|]. rewrite EQ, chunk_bare in P. auto.
    + destruct HOW as [Q|N3]; [discriminate|]. destruct (few (held v ++ op :: ops) us r TI AP) as (g & OM); [destruct v; discriminate|exact N3|exact CL|].
      destruct (merged _ us g TI AP ltac:(destruct v; discriminate) OM) as (T & CT & PT & TD & FS). exists g, T. split.
      { unfold cell_get. cbn [ce_operands ce_value]. unfold full_merge. rewrite FK, OM. reflexivity. }
      split; [exact CT|]. split; [exact PT|]. split; [exact TD|apply FS].
  - intros NO N3. unfold cell_get. cbn [ce_operands ce_value]. destruct ops as [|op ops]; [congruence|]. unfold full_merge. rewrite FK, (too_many _ us TI AP N3). reflexivity.
Qed.
End Obj.
