(* Existence and uniqueness of the union tree, and the merge of a listing with
   itself. *)
From Coq Require Import Sorted Permutation.
From Verif Require Import Prelude UuidModel UuidSpec UuidProofs TextModel MergeModel MergeSpec HeapProofs MergeProofs RgaProofs.

(* ---- induction on trees ---- *)
Lemma tree_ind2 : forall P : tree -> Prop, (forall o cs, Forall P cs -> P (Node o cs)) -> forall t, P t.
Proof.
  intros P H. fix IH 1. intros [o cs]. apply H. induction cs as [|c cs IHc]; constructor; [apply IH|exact IHc].
Qed.

(* a new op becomes the first child of the op it references *)
Fixpoint graft (o : rop) (t : tree) : tree :=
  match t with
  | Node p cs => if uuid_eqb (r_id p) (r_ref o) then Node p (Node o [] :: map (graft o) cs)
                 else Node p (map (graft o) cs)
  end.

Lemma graft_absent : forall o t, ~ In (r_ref o) (ids (listing t)) -> graft o t = t.
Proof.
  intro o. apply (tree_ind2 (fun t => ~ In (r_ref o) (ids (listing t)) -> graft o t = t)). intros p cs IH N.
  assert (E : map (graft o) cs = cs).
  { assert (N1 : ~ In (r_ref o) (ids (flat_map listing cs))) by (intro X; apply N; right; exact X). clear N.
    induction IH as [|c cs IC H IHc]; [reflexivity|]. cbn [flat_map] in N1. unfold ids in N1. rewrite map_app in N1.
    cbn [map]. rewrite IC, IHc; [reflexivity| |]; intro X; apply N1; apply in_or_app; [right|left]; exact X. }
  cbn [graft]. rewrite E. destruct (uuid_eqb (r_id p) (r_ref o)) eqn:Q; [|reflexivity].
  exfalso. apply uuid_eqb_eq in Q. apply N. left. exact Q.
Qed.

Lemma graft_root : forall o t, root (graft o t) = root t.
Proof. intros o [p cs]. cbn [graft]. destruct (uuid_eqb _ _); reflexivity. Qed.

Lemma graft_perm : forall o t, NoDup (ids (listing t)) -> In (r_ref o) (ids (listing t)) ->
  Permutation (listing (graft o t)) (o :: listing t).
Proof.
  intro o. apply (tree_ind2 (fun t => NoDup (ids (listing t)) -> In (r_ref o) (ids (listing t)) ->
    Permutation (listing (graft o t)) (o :: listing t))). intros p cs IH ND I.
  cbn [listing ids map] in ND, I. inversion ND as [|? ? N1 N2]; subst.
  cbn [graft]. destruct (uuid_eqb (r_id p) (r_ref o)) eqn:Q.
  - apply uuid_eqb_eq in Q. rewrite Q in N1.
    assert (E : map (graft o) cs = cs).
    { rewrite <- (map_id cs) at 2. apply map_ext_in. intros c J. apply graft_absent. intro X. apply N1.
      apply in_map_iff in X. destruct X as [x [X1 X2]]. apply in_map_iff. exists x. split; [exact X1|].
      apply in_flat_map. exists c. split; assumption. }
    rewrite E. cbn [listing flat_map app]. apply perm_swap.
  - destruct I as [I|I]; [rewrite (proj2 (uuid_eqb_eq (r_id p) (r_ref o)) I) in Q; discriminate|].
    cbn [listing]. eapply Permutation_trans; [|apply perm_swap]. apply perm_skip.
    clear Q ND N1. fold (ids (flat_map listing cs)) in I, N2. induction IH as [|c cs IC H IHc]; [destruct I|].
    cbn [flat_map map] in *. unfold ids in N2, I. rewrite map_app in N2, I. destruct (nodup_app _ _ _ N2) as [D1 [D2 D3]].
    apply in_app_or in I. destruct I as [I|I].
    + assert (E : map (graft o) cs = cs).
      { rewrite <- (map_id cs) at 2. apply map_ext_in. intros d J. apply graft_absent. intro X. apply (D3 _ I).
        apply in_map_iff in X. destruct X as [x [X1 X2]]. apply in_map_iff. exists x. split; [exact X1|].
        apply in_flat_map. exists d. split; assumption. }
      rewrite E. change (o :: listing c ++ flat_map listing cs) with ((o :: listing c) ++ flat_map listing cs).
      apply Permutation_app_tail. apply IC; assumption.
    + rewrite (graft_absent o c); [|intro X; exact (D3 _ X I)].
      eapply Permutation_trans; [apply Permutation_app_head; apply IHc; assumption|].
      apply Permutation_sym, Permutation_middle.
Qed.

Lemma graft_causal : forall o t, causal t -> (forall x, In x (listing t) -> uuid_ltb (r_id x) (r_id o) = true) ->
  causal (graft o t).
Proof.
  intro o. apply (tree_ind2 (fun t => causal t -> (forall x, In x (listing t) -> uuid_ltb (r_id x) (r_id o) = true) -> causal (graft o t))).
  intros p cs IH CT NW. inversion CT as [? ? FK SK]; subst.
  assert (F1 : Forall (fun c => causal c /\ r_ref (root c) = r_id p /\ uuid_ltb (r_id p) (r_id (root c)) = true) (map (graft o) cs)).
  { apply Forall_forall. intros d J. apply in_map_iff in J. destruct J as [c [<- J]].
    rewrite Forall_forall in IH, FK. destruct (FK c J) as [A [B D]]. rewrite graft_root. split; [|split; assumption].
    apply (IH c J A). intros x X. apply NW. right. apply in_flat_map. exists c. split; assumption. }
  assert (S1 : StronglySorted (fun a b => uuid_ltb (r_id (root b)) (r_id (root a)) = true) (map (graft o) cs)).
  { clear - SK. induction SK as [|c cs S IHs F]; cbn [map]; constructor; [exact IHs|].
    apply Forall_forall. intros d J. apply in_map_iff in J. destruct J as [e [<- J]]. rewrite !graft_root.
    rewrite Forall_forall in F. apply F. exact J. }
  cbn [graft]. destruct (uuid_eqb (r_id p) (r_ref o)) eqn:Q; [|constructor; assumption].
  apply uuid_eqb_eq in Q. constructor.
  - constructor; [|exact F1]. split; [constructor; constructor|]. cbn [root]. split; [congruence|]. apply NW. left. reflexivity.
  - constructor; [exact S1|]. apply Forall_forall. intros d J. apply in_map_iff in J. destruct J as [e [<- J]].
    rewrite graft_root. cbn [root]. apply NW. right. apply in_flat_map. exists e. split; [exact J|]. destruct e; left; reflexivity.
Qed.

(* ---- sorting by id ---- *)
Lemma sort_by_id : forall l, NoDup (ids l) -> exists s, Permutation l s /\ increasing_ids s.
Proof.
  assert (INS : forall o s, ~ In (r_id o) (ids s) -> increasing_ids s -> exists s', Permutation (o :: s) s' /\ increasing_ids s').
  { intros o s. induction s as [|x s IH]; intros N I.
    - exists [o]. split; [apply Permutation_refl|]. constructor; constructor.
    - inversion I as [|? ? I1 I2]; subst. destruct (uuid_ltb (r_id o) (r_id x)) eqn:L.
      + exists (o :: x :: s). split; [apply Permutation_refl|]. constructor; [exact I|]. constructor; [exact L|].
        eapply Forall_impl; [|exact I2]. intros a H. unfold id_lt in *. exact (uuid_ltb_trans _ _ _ L H).
      + destruct IH as [s' [P1 P2]]; [intro X; apply N; right; exact X|exact I1|].
        exists (x :: s'). split; [eapply Permutation_trans; [apply perm_swap|apply perm_skip; exact P1]|].
        constructor; [exact P2|]. apply (Permutation_Forall P1). constructor; [|exact I2]. unfold id_lt.
        destruct (uuid_total (r_id o) (r_id x)) as [K|[K|K]]; [congruence| |exact K].
        exfalso. apply N. left. symmetry. exact K. }
  induction l as [|o l IH]; intros N; [exists []; split; constructor|].
  cbn [ids map] in N. inversion N as [|? ? N1 N2]; subst. destruct (IH N2) as [s [P1 P2]].
  destruct (INS o s) as [s' [P3 P4]]; [|exact P2|].
  - intro X. apply N1. apply (Permutation_in _ (Permutation_sym (Permutation_map r_id P1))). exact X.
  - exists s'. split; [|exact P4]. eapply Permutation_trans; [apply perm_skip; exact P1|exact P3].
Qed.

(* ops in increasing id order, each after the first referencing an op of the list *)
Lemma build_tree : forall s r done, increasing_ids (done ++ s) ->
  (forall o, In o s -> In (r_ref o) (ids (done ++ s))) ->
  (forall o o', In o (done ++ s) -> In o' (done ++ s) -> r_ref o = r_id o' -> uuid_ltb (r_id o') (r_id o) = true) ->
  forall t, causal t -> root t = r -> Permutation (listing t) done -> NoDup (ids (listing t)) ->
  exists t', causal t' /\ root t' = r /\ Permutation (listing t') (done ++ s).
Proof.
  induction s as [|o s IH]; intros r done I RF BK t CT RT PT ND.
  - exists t. rewrite app_nil_r. split; [exact CT|]. split; assumption.
  - assert (SPLIT : forall x, In x done -> uuid_ltb (r_id x) (r_id o) = true).
    { clear - I. intros x J. unfold increasing_ids in I. induction done as [|d done IHd]; [destruct J|].
      cbn [app] in I. inversion I as [|? ? I1 I2]; subst. destruct J as [->|J]; [|apply IHd; assumption].
      rewrite Forall_forall in I2. apply I2. apply in_or_app. right. left. reflexivity. }
    assert (LATER : forall x, In x s -> uuid_ltb (r_id o) (r_id x) = true).
    { clear - I. intros x J. unfold increasing_ids in I. induction done as [|d done IHd].
      - cbn [app] in I. inversion I as [|? ? I1 I2]; subst. rewrite Forall_forall in I2. apply I2. exact J.
      - cbn [app] in I. inversion I; subst. apply IHd. assumption. }
    assert (RO : In (r_ref o) (ids done)).
    { pose proof (RF o (or_introl eq_refl)) as X. apply in_map_iff in X. destruct X as [p [X1 X2]].
      pose proof (BK o p (in_elt o done s) X2 (eq_sym X1)) as L.
      apply in_app_or in X2. destruct X2 as [X2|[X2|X2]].
      - apply in_map_iff. exists p. split; assumption.
      - subst p. rewrite uuid_ltb_irrefl in L. discriminate.
      - pose proof (LATER p X2) as L2. pose proof (uuid_ltb_trans _ _ _ L L2) as L3. rewrite uuid_ltb_irrefl in L3. discriminate. }
    assert (RT2 : In (r_ref o) (ids (listing t))).
    { apply (Permutation_in _ (Permutation_sym (Permutation_map r_id PT))). exact RO. }
    pose proof (graft_perm o t ND RT2) as GP.
    destruct (IH r (done ++ [o])) with (t := graft o t) as [t' [A [B D]]].
    + rewrite <- app_assoc. exact I.
    + rewrite <- app_assoc. intros x J. apply RF. right. exact J.
    + rewrite <- app_assoc. exact BK.
    + apply graft_causal; [exact CT|]. intros x J. apply SPLIT. apply (Permutation_in _ PT). exact J.
    + rewrite graft_root. exact RT.
    + eapply Permutation_trans; [exact GP|]. eapply Permutation_trans; [apply perm_skip; exact PT|].
      apply Permutation_cons_append.
    + apply (Permutation_NoDup (l := r_id o :: ids (listing t))).
      * apply Permutation_sym. exact (Permutation_map r_id GP).
      * constructor; [|exact ND]. intro X. apply in_map_iff in X. destruct X as [x [X1 X2]].
        pose proof (SPLIT x (Permutation_in _ PT X2)) as L. rewrite X1, uuid_ltb_irrefl in L. discriminate.
    + exists t'. split; [exact A|]. split; [exact B|]. rewrite <- app_assoc in D. exact D.
Qed.

(* ops closed under references, but for the oldest, form one causal tree *)
Lemma tree_exists : forall U r, In r U -> NoDup (ids U) ->
  (forall o, In o U -> o = r \/ (uuid_ltb (r_id r) (r_id o) = true /\ In (r_ref o) (ids U))) ->
  (forall o o', In o U -> In o' U -> r_ref o = r_id o' -> uuid_ltb (r_id o') (r_id o) = true) ->
  exists T, causal T /\ root T = r /\ Permutation (listing T) U.
Proof.
  intros U r I ND CL BK. destruct (sort_by_id U ND) as [s [P Q]].
  assert (HS : exists q, s = r :: q).
  { pose proof (Permutation_in _ P I) as J. destruct s as [|x q]; [destruct J|]. exists q. f_equal.
    destruct J as [->|J]; [reflexivity|]. inversion Q as [|? ? _ F]; subst. rewrite Forall_forall in F.
    pose proof (F r J) as L. unfold id_lt in L.
    destruct (CL x) as [E|[E _]]; [apply (Permutation_in _ (Permutation_sym P)); left; reflexivity|exact E|].
    pose proof (uuid_ltb_trans _ _ _ L E) as K. rewrite uuid_ltb_irrefl in K. discriminate. }
  destruct HS as [q ->]. assert (BACK : forall x, In x (r :: q) -> In x U) by (intros x; apply (Permutation_in _ (Permutation_sym P))).
  destruct (build_tree q r [r]) with (t := Node r []) as [T [A [B D]]].
  - exact Q.
  - intros o J. apply (Permutation_in _ (Permutation_map r_id P)).
    destruct (CL o (BACK o (or_intror J))) as [->|[_ E]]; [|exact E].
    exfalso. apply (Permutation_NoDup (Permutation_map r_id P)) in ND. cbn [map] in ND. inversion ND as [|? ? N _]; subst.
    apply N. apply (in_map r_id). exact J.
  - intros o o' J J' E. apply BK; [apply BACK|apply BACK|]; assumption.
  - constructor; constructor.
  - reflexivity.
  - apply Permutation_refl.
  - constructor; [intros []|constructor].
  - exists T. split; [exact A|]. split; [exact B|]. eapply Permutation_trans; [exact D|apply Permutation_sym; exact P].
Qed.

Lemma tree_unique : forall T1 T2, causal T1 -> causal T2 -> NoDup (ids (listing T1)) ->
  Permutation (listing T1) (listing T2) -> listing T1 = listing T2.
Proof.
  intros T1 T2 C1 C2 N1 P. assert (N2 : NoDup (ids (listing T2))) by (apply (Permutation_NoDup (Permutation_map r_id P)); exact N1).
  assert (R : root T1 = root T2).
  { assert (I1 : In (root T1) (listing T2)) by (apply (Permutation_in _ P); destruct T1; left; reflexivity).
    assert (I2 : In (root T2) (listing T1)) by (apply (Permutation_in _ (Permutation_sym P)); destruct T2; left; reflexivity).
    destruct (tree_min T2 _ C2 N2 I1) as [E|E]; [exact E|]. destruct (tree_min T1 _ C1 N1 I2) as [F|F]; [congruence|].
    pose proof (uuid_ltb_trans _ _ _ E F) as K. rewrite uuid_ltb_irrefl in K. discriminate. }
  pose proof (tree_dfs T1 C1 N1) as D1. pose proof (tree_dfs T2 C2 N2) as D2.
  destruct T1 as [o k1], T2 as [o2 k2]. cbn [root] in R. subst o2. cbn [listing] in *.
  f_equal. apply (dfs_unique o); try assumption. apply Permutation_cons_inv in P. exact P.
Qed.

(* ---- merging a listing with itself ---- *)
Section Self.
Variable C : Type.
Variable cvalid : C -> bool.
Variable cnext : C -> option (bool * C).
Variable cop : C -> rop.
Notation cid := (fun c => r_id (cop c)).
Notation cref := (fun c => r_ref (cop c)).
Notation reads := (reads cvalid cnext cop).

Lemma add_where_done : forall cond h ins, Forall (fun x => snd x = true) ins ->
  add_where C cvalid cid cond h ins = Done (h, ins).
Proof.
  intros cond h ins F. induction F as [|[c b] ins B F IH]; [reflexivity|]. cbn [snd] in B. subst b.
  cbn [add_where negb andb]. rewrite IH. reflexivity.
Qed.

Lemma single : forall fuel c l ins, cvalid c = true -> reads c l -> NoDup (ids l) -> (length l <= fuel)%nat ->
  Forall (fun x => snd x = true) ins ->
  exists cs, rga_loop C cvalid cnext cid cref fuel [c] ins = Done (map MAppend cs, ins) /\ map cop cs = l.
Proof.
  induction fuel as [|f IH]; intros c l ins V R ND L F; destruct (reads_valid C cvalid cnext cop c l V R) as [c' [l' [-> [NX R']]]];
    cbn [length] in L; [lia|].
  cbn [rga_loop]. unfold heap_next. cbn [skip_same]. unfold step. rewrite NX. destruct (cvalid c') eqn:V'.
  - cbn [length push left right Nat.ltb Nat.leb Nat.add Nat.mul Nat.sub andb rbind].
    destruct (reads_valid C cvalid cnext cop c' l' V' R') as [c'' [l'' [-> [NX' R'']]]].
    cbn [ids map] in ND. inversion ND as [|? ? N1 N2]; subst.
    assert (NE : uuid_eqb (r_id (cop c')) (r_id (cop c)) = false).
    { destruct (uuid_eqb _ _) eqn:Q; [|reflexivity]. apply uuid_eqb_eq in Q. exfalso. apply N1. left. exact Q. }
    rewrite NE. cbn [rbind]. rewrite (add_where_done _ _ _ F). cbn [rbind].
    destruct (IH c' (cop c' :: l'') ins V' R' N2) as [cs [P Q]]; [lia|exact F|].
    rewrite P. cbn [rbind]. exists (c :: cs). split; [reflexivity|]. cbn [map]. rewrite Q. reflexivity.
  - cbn [eject rev app set_at firstn skipn removelast length push left right Nat.ltb Nat.leb Nat.add Nat.mul Nat.sub andb rbind].
    rewrite (add_where_done _ _ _ F). cbn [rbind]. inversion R'; subst; [|congruence].
    destruct f; cbn [rga_loop rbind]; exists [c]; split; reflexivity.
Qed.

Lemma paired : forall fuel c l d m ins, cvalid c = true -> reads c l -> NoDup (ids l) ->
  cvalid d = true -> reads d m -> NoDup (ids m) ->
  (l = m \/ Forall (fun o => uuid_ltb (r_id (cop d)) (r_id o) = true) l) ->
  (exists a b q, l = a :: b :: q) \/ (Forall (fun o => uuid_ltb (r_id (cop d)) (r_id o) = true) l) ->
  Forall (fun o => o = cop d \/ uuid_ltb (r_id (cop d)) (r_id o) = true) l ->
  (length l + length m <= fuel)%nat -> Forall (fun x => snd x = true) ins ->
  exists cs, rga_loop C cvalid cnext cid cref fuel [c; d] ins = Done (map MAppend cs, ins) /\ map cop cs = l ++ m.
Proof.
  induction fuel as [|f IH]; intros c l d m ins V R ND Vd Rd NDd X Y Z L F;
    destruct (reads_valid C cvalid cnext cop c l V R) as [c' [l' [-> [NX R']]]]; cbn [length] in L; [lia|].
  cbn [rga_loop]. unfold heap_next. cbn [skip_same]. unfold step. rewrite NX. destruct (cvalid c') eqn:V'.
  - destruct (reads_valid C cvalid cnext cop c' l' V' R') as [c'' [l'' [-> [NX' R'']]]].
    cbn [ids map] in ND. inversion ND as [|? ? N1 N2]; subst.
    assert (NE : uuid_eqb (r_id (cop c')) (r_id (cop c)) = false).
    { destruct (uuid_eqb _ _) eqn:Q; [|reflexivity]. apply uuid_eqb_eq in Q. exfalso. apply N1. left. exact Q. }
    assert (NEWER : Forall (fun o => uuid_ltb (r_id (cop d)) (r_id o) = true) (cop c' :: l'')).
    { destruct X as [X|X]; [|inversion X; assumption]. destruct (reads_valid C cvalid cnext cop d m Vd Rd) as [d' [m' [Em _]]].
      rewrite Em in X. injection X as X0 X1. inversion Z as [|? ? _ Z2]; subst. apply Forall_forall. intros o I.
      rewrite Forall_forall in Z2. destruct (Z2 o I) as [E|E]; [|exact E]. exfalso. apply N1. rewrite X0, <- E. exact (in_map r_id _ _ I). }
    assert (LT : less_rga C cid d c' = false).
    { unfold less_rga. inversion NEWER as [|? ? W _]; subst. apply uuid_ltb_asym. exact W. }
    assert (PU : push C (less_rga C cid) 3 [c'; d] 0 = Done [c'; d]).
    { cbn [push left right length Nat.ltb Nat.leb Nat.add Nat.mul Nat.sub andb]. unfold less_than. cbn [nth_error].
      rewrite LT. reflexivity. }
    change (S (length [c; d])) with 3%nat. rewrite PU. cbn [rbind]. rewrite NE. cbn [rbind].
    rewrite (add_where_done _ _ _ F). cbn [rbind].
    destruct (IH c' (cop c' :: l'') d m ins V' R' N2 Vd Rd NDd (or_intror NEWER) (or_intror NEWER)) as [cs [P Q]].
    + inversion Z; assumption.
    + cbn [length] in *. lia.
    + exact F.
    + rewrite P. cbn [rbind]. exists (c :: cs). split; [reflexivity|]. cbn [map app]. rewrite Q. reflexivity.
  - assert (l' = []) by (inversion R'; [reflexivity|congruence]). subst l'.
    assert (W : uuid_ltb (r_id (cop d)) (r_id (cop c)) = true).
    { destruct Y as [[a [b [q Y]]]|Y]; [discriminate Y|]. inversion Y; assumption. }
    assert (NE : uuid_eqb (r_id (cop d)) (r_id (cop c)) = false).
    { destruct (uuid_eqb _ _) eqn:Q; [|reflexivity]. apply uuid_eqb_eq in Q. rewrite Q, uuid_ltb_irrefl in W. discriminate. }
    cbn [eject rev app set_at firstn skipn removelast length push left right Nat.ltb Nat.leb Nat.add Nat.mul Nat.sub andb rbind].
    rewrite NE. cbn [rbind]. rewrite (add_where_done _ _ _ F). cbn [rbind].
    destruct (single f d m ins Vd Rd NDd) as [cs [P Q]]; [lia|exact F|].
    rewrite P. cbn [rbind]. exists (c :: cs). split; [reflexivity|]. cbn [map app]. rewrite Q. reflexivity.
Qed.

Lemma self_merge : forall fuel c d t, cvalid c = true -> cvalid d = true ->
  reads c (listing t) -> reads d (listing t) -> causal t -> NoDup (ids (listing t)) ->
  (2 <= length (listing t))%nat -> (length (listing t) + length (listing t) <= fuel)%nat ->
  exists cs, rga_merge C cvalid cnext cid cref fuel [c; d] = Done (map MAppend cs ++ [MEnd RAW], StOK) /\
    map cop cs = listing t ++ listing t.
Proof.
  intros fuel c d t Vc Vd Rc Rd CT ND TWO FU.
  destruct (reads_valid C cvalid cnext cop c _ Vc Rc) as [c' [l' [E1 _]]].
  destruct (reads_valid C cvalid cnext cop d _ Vd Rd) as [d' [m' [E2 _]]].
  assert (CD : cop c = cop d) by congruence.
  unfold rga_merge. cbn [length Nat.ltb Nat.leb map min_id]. rewrite CD, uuid_ltb_irrefl.
  cbn [add_where negb andb]. rewrite CD, (proj2 (uuid_eqb_eq _ _) eq_refl).
  unfold add. rewrite Vc, Vd. cbn [length pop app rbind up Nat.add Nat.div Nat.divmod fst Nat.sub].
  assert (LT : less_rga C cid c d = false) by (unfold less_rga; rewrite CD; apply uuid_ltb_irrefl).
  cbn [rbind length app] in *. 
  replace (less_than C (less_rga C cid) [c; d] 0 1) with false by (unfold less_than; cbn [nth_error]; symmetry; exact LT).
  change (swap C [c; d] 1 0) with [d; c]. cbn [rbind].

  destruct (paired fuel d (listing t) c (listing t) [(c, true); (d, true)]) as [cs [P Q]]; try assumption.
  - left. reflexivity.
  - left. destruct (listing t) as [|a [|b q]]; cbn [length] in TWO; [lia|lia|]. exists a, b, q. reflexivity.
  - apply Forall_forall. intros o I. destruct (tree_min t o CT ND I) as [E|E].
    + left. destruct t as [x k]. cbn [root listing] in *. congruence.
    + right. replace (cop c) with (root t); [exact E|]. destruct t as [x k]. cbn [root listing] in *. congruence.
  - repeat constructor.
  - rewrite P. cbn [rbind forallb snd andb]. exists cs. split; [reflexivity|exact Q].
Qed.
End Self.
