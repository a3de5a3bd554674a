(* The causal-tree merge: the output is the depth-first listing of the union. *)
From Coq Require Import Sorted Permutation.
From Verif Require Import Prelude UuidModel UuidSpec UuidProofs TextModel MergeModel MergeSpec HeapProofs MergeProofs.

Lemma nodup_app : forall X (a b : list X), NoDup (a ++ b) -> NoDup a /\ NoDup b /\ forall x, In x a -> ~ In x b.
Proof.
  induction a as [|x a IH]; intros b N; cbn [app] in N.
  - split; [constructor|]. split; [exact N|]. intros x [].
  - inversion N as [|? ? N1 N2]; subst. destruct (IH b N2) as [A [B D]]. split; [|split; [exact B|]].
    + constructor; [|exact A]. intro I. apply N1. apply in_or_app. left. exact I.
    + intros y [<-|I] J; [apply N1; apply in_or_app; right; exact J|exact (D y I J)].
Qed.

Lemma F2_length : forall X Y (P : X -> Y -> Prop) l m, Forall2 P l m -> length l = length m.
Proof. intros X Y P l m H. induction H; cbn [length]; congruence. Qed.

(* ---- depth-first listings, characterised locally ---- *)
Definition dfs (L : list rop) : Prop := forall E m R, L = E ++ m :: R ->
  (E <> [] -> In (r_ref m) (ids E)) /\
  (forall m', In m' R -> In (r_ref m') (ids E) -> uuid_ltb (r_id m') (r_id m) = true).

Fixpoint tsize (t : tree) : nat := match t with Node _ cs => S (list_sum (map tsize cs)) end.

Lemma forest_dfs : forall n p cs, (list_sum (map tsize cs) <= n)%nat ->
  Forall (fun c => causal c /\ r_ref (root c) = p /\ uuid_ltb p (r_id (root c)) = true) cs ->
  StronglySorted (fun a b => uuid_ltb (r_id (root b)) (r_id (root a)) = true) cs ->
  NoDup (p :: ids (flat_map listing cs)) ->
  forall E m R, flat_map listing cs = E ++ m :: R ->
    In (r_ref m) (p :: ids E) /\ uuid_ltb p (r_id m) = true /\
    (forall m', In m' R -> In (r_ref m') (p :: ids E) -> uuid_ltb (r_id m') (r_id m) = true).
Proof.
  induction n as [|n IH]; intros p cs SZ FA SS ND E m R X.
  { destruct cs as [|[o ks] rest]; [destruct E; discriminate X|]. cbn in SZ. lia. }
  destruct cs as [|[o ks] rest]; [destruct E; discriminate X|].
  inversion FA as [|? ? [CA [RO LO]] FA']; subst. inversion SS as [|? ? SS1 SS2]; subst.
  inversion CA as [? ? FK SK]; subst. cbn [root] in *.
  assert (SZK : (list_sum (map tsize ks) <= n)%nat /\ (list_sum (map tsize rest) <= n)%nat).
  { cbn [map tsize list_sum fold_right] in SZ. change (fold_right Nat.add 0%nat) with list_sum in SZ. lia. }
  destruct SZK as [SZ1 SZ2].
  cbn [flat_map listing app] in X, ND. unfold ids in ND. rewrite map_cons, map_app in ND. fold (ids (flat_map listing ks)) (ids (flat_map listing rest)) in ND.
  assert (ND1 : NoDup (r_id o :: ids (flat_map listing ks))).
  { inversion ND as [|? ? N1 N2]; subst. inversion N2 as [|? ? N3 N4]; subst. constructor.
    - intro I. apply N3. apply in_or_app. left. exact I.
    - apply (nodup_app _ _ _ N4). }
  assert (ND2 : NoDup (r_ref o :: ids (flat_map listing rest))).
  { inversion ND as [|? ? N1 N2]; subst. inversion N2 as [|? ? N3 N4]; subst. constructor.
    - intro I. apply N1. right. apply in_or_app. right. exact I.
    - apply (nodup_app _ _ _ N4). }
  assert (DISJ : forall u, In u (r_id o :: ids (flat_map listing ks)) -> ~ In u (r_ref o :: ids (flat_map listing rest))).
  { intros u I1 I2. inversion ND as [|? ? N1 N2]; subst.
    destruct I2 as [<-|I2]. { apply N1. destruct I1 as [I1|I1]; [left; exact I1|right; apply in_or_app; left; exact I1]. }
    inversion N2 as [|? ? N3 N4]; subst. destruct I1 as [<-|I1].
    - apply N3. apply in_or_app. right. exact I2.
    - apply nodup_app in N4. destruct N4 as [_ [_ N5]]. exact (N5 u I1 I2). }
  pose proof (IH (r_id o) ks SZ1 FK SK ND1) as IK.
  pose proof (IH (r_ref o) rest SZ2 FA' SS1 ND2) as IR.
  assert (IKin : forall x, In x (flat_map listing ks) -> In (r_ref x) (r_id o :: ids (flat_map listing ks)) /\ uuid_ltb (r_id o) (r_id x) = true).
  { intros x I. apply in_split in I. destruct I as [l1 [l2 EQ]]. destruct (IK l1 x l2 EQ) as [A [B _]]. split; [|exact B].
    rewrite EQ. unfold ids. rewrite map_app. destruct A as [A|A]; [left; exact A|right; apply in_or_app; left; exact A]. }
  assert (IRin : forall x, In x (flat_map listing rest) -> In (r_ref x) (r_ref o :: ids (flat_map listing rest))).
  { intros x I. apply in_split in I. destruct I as [l1 [l2 EQ]]. destruct (IR l1 x l2 EQ) as [A [B _]].
    rewrite EQ. unfold ids. rewrite map_app. destruct A as [A|A]; [left; exact A|right; apply in_or_app; left; exact A]. }
  assert (ROOTS : forall x, In x (flat_map listing rest) -> r_ref x = r_ref o -> uuid_ltb (r_id x) (r_id o) = true).
  { intros x I EX. destruct rest as [|[o2 ks2] rest2]; [destruct I|].
    inversion SS2 as [|? ? S3 _]; subst. cbn [root] in S3. cbn [flat_map listing app] in I, IR.
    destruct I as [<-|I]; [exact S3|].
    destruct (IR [] o2 (flat_map listing ks2 ++ flat_map listing rest2) eq_refl) as [_ [_ A]].
    apply (uuid_ltb_trans _ (r_id o2)); [|exact S3]. apply A; [exact I|]. left. symmetry. exact EX. }
  destruct E as [|e E].
  - cbn [app] in X. injection X as <- <-. split; [left; reflexivity|]. split; [exact LO|].
    intros m' I J. destruct J as [J|[]]. apply in_app_or in I. destruct I as [I|I].
    + exfalso. destruct (IKin m' I) as [A _]. apply (DISJ _ A). left. exact J.
    + apply ROOTS; [exact I|]. symmetry. exact J.
  - cbn [app] in X. injection X as -> X.
    assert (SPL : (exists R1, flat_map listing ks = E ++ m :: R1 /\ R = R1 ++ flat_map listing rest) \/
                  (exists E2, E = flat_map listing ks ++ E2 /\ flat_map listing rest = E2 ++ m :: R)).
    { clear - X. revert X. generalize (flat_map listing ks) as a, (flat_map listing rest) as b.
      induction E as [|e0 E IHE]; intros a b X.
      - destruct a as [|x a].
        + right. exists []. split; [reflexivity|exact X].
        + cbn [app] in X. injection X as <- <-. left. exists a. split; reflexivity.
      - destruct a as [|x a].
        + right. exists (e0 :: E). split; [reflexivity|exact X].
        + cbn [app] in X. injection X as -> X. destruct (IHE a b X) as [[R1 [-> ->]]|[E2 [-> ->]]].
          * left. exists R1. split; reflexivity.
          * right. exists E2. split; reflexivity. }
    destruct SPL as [[R1 [EK ->]]|[E2 [-> ER]]].
    + destruct (IK E m R1 EK) as [A [B D]]. split; [|split].
      * right. exact A.
      * apply (uuid_ltb_trans _ (r_id e)); assumption.
      * intros m' I J. apply in_app_or in I. destruct I as [I|I].
        -- apply D; [exact I|]. destruct J as [J|J]; [|exact J]. exfalso.
           assert (I2 : In m' (flat_map listing ks)) by (rewrite EK; apply in_or_app; right; right; exact I).
           destruct (IKin m' I2) as [Q _]. apply (DISJ _ Q). left. exact J.
        -- assert (EQ : r_ref m' = r_ref e).
           { pose proof (IRin m' I) as Q. destruct J as [J|J]; [symmetry; exact J|].
             exfalso. apply (DISJ (r_ref m')); [|exact Q].
             destruct J as [J|J]; [left; exact J|right]. rewrite EK. unfold ids. rewrite map_app. apply in_or_app. left. exact J. }
           apply (uuid_ltb_trans _ (r_id e)); [apply ROOTS; assumption|exact B].
    + destruct (IR E2 m R ER) as [A [B D]]. split; [|split; [exact B|]].
      * destruct A as [A|A]; [left; exact A|right; right]. unfold ids. rewrite map_app. apply in_or_app. right. exact A.
      * intros m' I J. apply D; [exact I|].
        assert (I2 : In m' (flat_map listing rest)) by (rewrite ER; apply in_or_app; right; right; exact I).
        pose proof (IRin m' I2) as Q. destruct J as [J|J]; [left; exact J|].
        cbn [ids map] in J. destruct J as [J|J]; [exfalso; apply (DISJ (r_ref m')); [left; exact J|exact Q]|].
        unfold ids in J. rewrite map_app in J. apply in_app_or in J. destruct J as [J|J]; [|right; exact J].
        exfalso. apply (DISJ (r_ref m')); [right; exact J|exact Q].
Qed.

Lemma tree_dfs : forall t, causal t -> NoDup (ids (listing t)) -> dfs (listing t).
Proof.
  intros [o cs] C ND E m R X. inversion C as [? ? FK SK]; subst. cbn [listing] in X, ND.
  destruct E as [|e E].
  - split; [congruence|]. intros m' _ [].
  - cbn [app] in X. injection X as -> X.
    destruct (forest_dfs _ (r_id e) cs (le_n _) FK SK ND E m R X) as [A [B D]].
    split; [intros _; exact A|exact D].
Qed.

Lemma tree_min : forall t x, causal t -> NoDup (ids (listing t)) -> In x (listing t) ->
  x = root t \/ uuid_ltb (r_id (root t)) (r_id x) = true.
Proof.
  intros [o cs] x C ND I. inversion C as [? ? FK SK]; subst. cbn [listing root] in *.
  destruct I as [->|I]; [left; reflexivity|right].
  apply in_split in I. destruct I as [l1 [l2 EQ]].
  destruct (forest_dfs _ (r_id o) cs (le_n _) FK SK ND l1 x l2 EQ) as [_ [B _]]. exact B.
Qed.

Lemma tree_refs : forall t x, causal t -> NoDup (ids (listing t)) -> In x (listing t) -> x <> root t ->
  In (r_ref x) (ids (listing t)).
Proof.
  intros [o cs] x C ND I N. inversion C as [? ? FK SK]; subst. cbn [listing root] in *.
  destruct I as [->|I]; [congruence|].
  apply in_split in I. destruct I as [l1 [l2 EQ]].
  destruct (forest_dfs _ (r_id o) cs (le_n _) FK SK ND l1 x l2 EQ) as [A _].
  cbn [ids map]. destruct A as [A|A]; [left; exact A|right]. rewrite EQ. unfold ids. rewrite map_app. apply in_or_app. left. exact A.
Qed.

Lemma ids_inj : forall L a b, NoDup (ids L) -> In a L -> In b L -> r_id a = r_id b -> a = b.
Proof.
  induction L as [|x L IH]; intros a b ND IA IB E; [destruct IA|].
  cbn [ids map] in ND. inversion ND as [|? ? N1 N2]; subst.
  destruct IA as [->|IA], IB as [->|IB].
  - reflexivity.
  - exfalso. apply N1. rewrite E. apply (in_map r_id). exact IB.
  - exfalso. apply N1. rewrite <- E. apply (in_map r_id). exact IA.
  - apply IH; assumption.
Qed.

Lemma dfs_unique_suffix : forall R1 R2 E, dfs (E ++ R1) -> dfs (E ++ R2) -> E <> [] -> NoDup (ids R1) ->
  Permutation R1 R2 -> R1 = R2.
Proof.
  induction R1 as [|m1 R1 IH]; intros R2 E D1 D2 NE ND P.
  - apply Permutation_nil in P. symmetry. exact P.
  - destruct R2 as [|m2 R2]; [apply Permutation_sym, Permutation_nil in P; discriminate|].
    destruct (D1 E m1 R1 eq_refl) as [A1 B1]. destruct (D2 E m2 R2 eq_refl) as [A2 B2].
    assert (M : m1 = m2).
    { destruct (Permutation_in m2 (Permutation_sym P) (or_introl eq_refl)) as [H|H]; [exact H|].
      destruct (Permutation_in m1 P (or_introl eq_refl)) as [H'|H']; [symmetry; exact H'|].
      specialize (B1 m2 H (A2 NE)). specialize (B2 m1 H' (A1 NE)).
      rewrite (uuid_ltb_asym _ _ B1) in B2. discriminate. }
    subst m2. f_equal. apply (IH R2 (E ++ [m1])).
    + rewrite <- app_assoc. exact D1.
    + rewrite <- app_assoc. exact D2.
    + destruct E; discriminate.
    + cbn [ids map] in ND. inversion ND; assumption.
    + apply Permutation_cons_inv in P. exact P.
Qed.

Lemma dfs_unique : forall h R1 R2, dfs (h :: R1) -> dfs (h :: R2) -> NoDup (ids (h :: R1)) ->
  Permutation R1 R2 -> R1 = R2.
Proof.
  intros h R1 R2 D1 D2 ND P. apply (dfs_unique_suffix R1 R2 [h]); try assumption; [discriminate|].
  cbn [ids map] in ND. inversion ND; assumption.
Qed.

Lemma filter_split : forall (f : rop -> bool) L E' m R', filter f L = E' ++ m :: R' ->
  exists E R, L = E ++ m :: R /\ filter f E = E' /\ filter f R = R' /\ f m = true.
Proof.
  induction L as [|x L IH]; intros E' m R' X; [destruct E'; discriminate X|].
  cbn [filter] in X. destruct (f x) eqn:F.
  - destruct E' as [|e E'].
    + cbn [app] in X. injection X as -> <-. exists [], L. auto.
    + cbn [app] in X. injection X as -> X. destruct (IH E' m R' X) as [E [R [-> [<- [<- FM]]]]].
      exists (e :: E), R. cbn [filter app]. rewrite F. auto.
  - destruct (IH E' m R' X) as [E [R [-> [<- [<- FM]]]]].
    exists (x :: E), R. cbn [filter app]. rewrite F. auto.
Qed.

(* membership of a piece, by id *)
Definition inp (l : list rop) (x : rop) : bool := existsb (uuid_eqb (r_id x)) (ids l).
Lemma inp_spec : forall l x, inp l x = true <-> In (r_id x) (ids l).
Proof.
  intros l x. unfold inp. rewrite existsb_exists. split.
  - intros [u [I E]]. apply uuid_eqb_eq in E. subst u. exact I.
  - intro I. exists (r_id x). split; [exact I|]. apply uuid_eqb_eq. reflexivity.
Qed.

(* a connected piece of a listing is itself listed in the same order *)
Lemma piece_filter : forall L h l, dfs L -> NoDup (ids L) ->
  match L with [] => True | r :: _ => ~ In (r_ref r) (ids L) end ->
  dfs (h :: l) -> NoDup (ids (h :: l)) -> (forall x, In x (h :: l) -> In x L) ->
  (forall x, In x (h :: l) -> x <> h -> In (r_ref x) (ids (h :: l))) ->
  filter (inp (h :: l)) L = h :: l.
Proof.
  intros L h l D ND RT DP NDP SUB REFS. set (P := h :: l) in *.
  assert (MEM : forall x, In x L -> (inp P x = true <-> In x P)).
  { intros x I. rewrite inp_spec. split.
    - intro J. apply in_map_iff in J. destruct J as [y [E J]].
      rewrite <- (ids_inj L y x ND (SUB y J) I E). exact J.
    - intro J. apply (in_map r_id). exact J. }
  assert (PERM : Permutation (filter (inp P) L) P).
  { apply NoDup_Permutation.
    - apply NoDup_filter. apply (NoDup_map_inv r_id). exact ND.
    - apply (NoDup_map_inv r_id). exact NDP.
    - intro x. rewrite filter_In. split.
      + intros [I J]. apply (MEM x I). exact J.
      + intro J. split; [apply SUB; exact J|]. apply (MEM x (SUB x J)). exact J. }
  assert (ORIG : forall E x R, L = E ++ x :: R -> In x P -> x <> h -> exists e, In e E /\ In e P /\ r_id e = r_ref x).
  { intros E x R X IX NX. pose proof (REFS x IX NX) as RF. apply in_map_iff in RF. destruct RF as [e [EE IE]].
    destruct E as [|e0 E].
    - exfalso. cbn [app] in X. rewrite X in RT. apply RT. rewrite <- X, <- EE. apply (in_map r_id). apply SUB. exact IE.
    - destruct (D (e0 :: E) x R X) as [A _]. specialize (A ltac:(discriminate)).
      apply in_map_iff in A. destruct A as [y [EY IY]]. exists e. split; [|split; [exact IE|exact EE]].
      assert (y = e).
      { apply (ids_inj L); [exact ND| |apply SUB; exact IE|congruence].
        rewrite X. apply in_or_app. left. exact IY. }
      subst y. exact IY. }
  assert (HD : exists l', filter (inp P) L = h :: l').
  { destruct (filter (inp P) L) as [|x l'] eqn:FL; [apply Permutation_nil in PERM; discriminate|].
    destruct (filter_split (inp P) L [] x l' FL) as [E [R [X [FE [FR FX]]]]].
    exists l'. f_equal.
    assert (IX : In x P) by (apply (MEM x); [rewrite X; apply in_or_app; right; left; reflexivity|exact FX]).
    assert (DEC : {x = h} + {x <> h}).
    { destruct (uuid_eqb (r_id x) (r_id h)) eqn:B.
      - left. apply (ids_inj P); [exact NDP|exact IX|left; reflexivity|apply uuid_eqb_eq; exact B].
      - right. intros ->. rewrite (proj2 (uuid_eqb_eq _ _) eq_refl) in B. discriminate. }
    destruct DEC as [Y|N]; [exact Y|]. exfalso.
    destruct (ORIG E x R X IX N) as [e [I1 [I2 _]]].
    assert (Z : In e (filter (inp P) E)).
    { apply filter_In. split; [exact I1|]. apply inp_spec. apply (in_map r_id). exact I2. }
    rewrite FE in Z. destruct Z. }
  destruct HD as [l' FL]. rewrite FL. subst P. f_equal.
  apply (dfs_unique h).
  - rewrite <- FL. intros E' m R' X. destruct (filter_split _ _ _ _ _ X) as [E [R [XL [FE [FR FM]]]]]. split.
    + intro NE. assert (IM : In m (h :: l)) by (apply (MEM m); [rewrite XL; apply in_or_app; right; left; reflexivity|exact FM]).
      assert (NM : m <> h).
      { intros ->. rewrite FL in X. destruct E' as [|e E']; [congruence|]. cbn [app] in X. injection X as <- ->.
        assert (NDF : NoDup (h :: E' ++ h :: R')).
        { apply (Permutation_NoDup (l := h :: l)).
          - rewrite FL in PERM. apply Permutation_sym. exact PERM.
          - apply (NoDup_map_inv r_id). exact NDP. }
        inversion NDF as [|? ? N1 _]; subst. apply N1. apply in_or_app. right. left. reflexivity. }
      destruct (ORIG E m R XL IM NM) as [e [I1 [I2 I3]]]. rewrite <- I3. apply (in_map r_id). rewrite <- FE.
      apply filter_In. split; [exact I1|]. apply inp_spec. apply (in_map r_id). exact I2.
    + intros m' I J. destruct (D E m R XL) as [_ B]. apply B.
      * rewrite <- FR in I. apply filter_In in I. apply I.
      * rewrite <- FE in J. apply in_map_iff in J. destruct J as [y [EY IY]]. apply filter_In in IY.
        apply in_map_iff. exists y. split; [exact EY|apply IY].
  - exact DP.
  - apply (Permutation_NoDup (l := ids (h :: l))); [|exact NDP].
    apply Permutation_map. rewrite FL in PERM. apply Permutation_sym. exact PERM.
  - rewrite FL in PERM. apply Permutation_cons_inv in PERM. exact PERM.
Qed.

(* ---- the merge loop ---- *)
Section Rga.
Variable C : Type.
Variable cvalid : C -> bool.
Variable cnext : C -> option (bool * C).
Variable cop : C -> rop.
Notation cid := (fun c => r_id (cop c)).
Notation cref := (fun c => r_ref (cop c)).
Notation reads := (reads cvalid cnext cop).
Definition newer (a b : rop) : bool := uuid_ltb (r_id b) (r_id a).
Lemma nw_asym : forall a b, newer a b = true -> newer b a = false.
Proof. intros a b. unfold newer. apply uuid_ltb_asym. Qed.
Lemma nw_trans : forall a b c, newer a b = true -> newer b c = true -> newer a c = true.
Proof. intros a b c. unfold newer. intros H1 H2. eapply uuid_ltb_trans; eassumption. Qed.
Lemma nw_le : forall a b c, newer b a = false -> newer c b = false -> newer c a = false.
Proof. intros a b c. unfold newer. intros H1 H2. eapply uuid_le_trans; eassumption. Qed.
Notation lessR := (less_rga C cid).
Definition hok (h : list C) := heap_okC C cop newer h.
Notation hl := (holds_lists C cvalid cnext cop).

Definition ne (l : list rop) : bool := match l with [] => false | _ => true end.

(* lists of the inputs that get added *)
Lemma add_where_ok : forall cond (ins : list (C * bool)) ils h hs, hok h -> hl h hs ->
  Forall2 (fun x l => cvalid (fst x) = true /\ reads (fst x) l) ins ils ->
  exists h' hs', add_where C cvalid cid cond h ins = Done (h', map (fun x => (fst x, snd x || cond (fst x))) ins) /\
    hok h' /\ hl h' hs' /\
    Permutation (map snd (filter (fun y => negb (snd (fst y)) && cond (fst (fst y))) (combine ins ils)) ++ hs) hs'.
Proof.
  intros cond ins. induction ins as [|[c b] ins IH]; intros ils h hs H F R.
  - inversion R; subst. exists h, hs. split; [reflexivity|]. split; [exact H|]. split; [exact F|apply Permutation_refl].
  - inversion R as [|? l ? ils' [V RD] R']; subst. cbn [fst snd] in V, RD.
    cbn [add_where map fst snd combine filter]. destruct (negb b && cond c) eqn:B.
    + destruct (add_ok C (lessC C cop newer) (lc_asym C cop newer nw_asym) (lc_trans C cop newer nw_trans)
                  (lc_le C cop newer nw_le) cvalid h c H V) as [h1 [P [Q PM]]].
      change (lessC C cop newer) with lessR in P. rewrite P. cbn [rbind].
      destruct (holds_perm C cvalid cnext cop (c :: h) h1 (l :: hs) PM) as [hs1 [P1 P2]].
      { constructor; [split; assumption|exact F]. }
      destruct (IH ils' h1 hs1 Q P2 R') as [h' [hs' [I1 [I2 [I3 I4]]]]]. rewrite I1. cbn [rbind].
      exists h', hs'. split.
      { apply andb_true_iff in B. destruct B as [B1 B2]. rewrite B2, orb_true_r. reflexivity. }
      split; [exact I2|]. split; [exact I3|]. cbn [map snd app].
      eapply Permutation_trans; [|exact I4].
      eapply Permutation_trans; [apply Permutation_middle|]. apply Permutation_app_head. exact P1.
    + destruct (IH ils' h hs H F R') as [h' [hs' [I1 [I2 [I3 I4]]]]]. rewrite I1. cbn [rbind].
      exists h', hs'. split.
      { destruct b, (cond c); try discriminate B; reflexivity. }
      split; [exact I2|]. split; [exact I3|exact I4].
Qed.

Lemma heap_next_ok : forall fuel c t ls, hok (c :: t) -> hl (c :: t) ls -> (length (concat ls) <= fuel)%nat ->
  exists h' ls' l r, heap_next C cnext cid lessR fuel (c :: t) = Done h' /\ hok h' /\ hl h' ls' /\
    ls = (cop c :: l) :: r /\ pops (cid c) (tails l r) ls'.
Proof.
  intros fuel c t ls H F L.
  destruct (skip_same_ok C cvalid cnext cop newer nw_asym nw_trans nw_le fuel (cid c) c t ls H F eq_refl L)
    as [h' [ls' [l [r [P [Q [F' [X [PP _]]]]]]]]].
  exists h', ls', l, r. split; [exact P|]. split; [exact Q|]. split; [exact F'|]. split; assumption.
Qed.

(* the lists not yet added *)
Definition waiting (ins : list (C * bool)) (ils : list (list rop)) : list (list rop) :=
  map snd (filter (fun y => negb (snd (fst y))) (combine ins ils)).

Lemma waiting_split : forall cond ins ils, length ins = length ils ->
  Permutation (waiting ins ils)
    (map snd (filter (fun y => negb (snd (fst y)) && cond (fst (fst y))) (combine ins ils))
     ++ waiting (map (fun x => (fst x, snd x || cond (fst x))) ins) ils).
Proof.
  intros cond ins. induction ins as [|[c b] ins IH]; intros [|l ils] L; try discriminate L; [constructor|].
  cbn [length] in L. specialize (IH ils ltac:(lia)). unfold waiting in *.
  cbn [combine map filter fst snd]. destruct b; cbn [negb andb orb map snd app]; [exact IH|].
  destruct (cond c); cbn [negb map snd app].
  - apply perm_skip. exact IH.
  - apply Permutation_cons_app. exact IH.
Qed.

Definition after (cs : list C) (x : C * bool) : C * bool :=
  (fst x, snd x || existsb (fun e => uuid_eqb (cref (fst x)) (cid e)) cs).

(* whatever the inputs are, the loop ends; an input is added exactly when its
   first reference was listed *)
Lemma rga_loop_any : forall fuel h hs ins ils, hok h -> hl h hs ->
  Forall2 (fun x l => cvalid (fst x) = true /\ reads (fst x) l) ins ils ->
  (length (concat hs) + length (concat (waiting ins ils)) <= fuel)%nat ->
  exists cs, rga_loop C cvalid cnext cid cref fuel h ins = Done (map MAppend cs, map (after cs) ins) /\
    (forall o, In o (map cop cs) -> In o (concat hs) \/ In o (concat ils)).
Proof.
  induction fuel as [|f IH]; intros h hs ins ils H F R L.
  - destruct h as [|c t].
    + exists []. cbn [rga_loop map]. split; [|intros o []]. f_equal. f_equal.
      rewrite <- (map_id ins) at 1. apply map_ext. intros [c b]. unfold after. cbn [existsb fst snd]. rewrite orb_false_r. reflexivity.
    + destruct (step_ok C cvalid cnext cop newer nw_asym nw_trans nw_le c t hs H F) as [l [r [h1 [ls1 [-> _]]]]].
      cbn [concat app length] in L. lia.
  - destruct h as [|c t].
    + exists []. cbn [rga_loop map]. split; [|intros o []]. f_equal. f_equal.
      rewrite <- (map_id ins) at 1. apply map_ext. intros [c b]. unfold after. cbn [existsb fst snd]. rewrite orb_false_r. reflexivity.
    + cbn [rga_loop].
      destruct (heap_next_ok (S f) c t hs H F ltac:(lia)) as [h1 [hs1 [l [r [P [Q [F1 [X PP]]]]]]]].
      rewrite P. cbn [rbind].
      set (cond := fun x => uuid_eqb (r_ref (cop x)) (r_id (cop c))).
      destruct (add_where_ok cond ins ils h1 hs1 Q F1 R) as [h2 [hs2 [P2 [Q2 [F2 PM]]]]].
      rewrite P2. cbn [rbind].
      destruct (pops_concat _ _ _ PP) as [rm [PC _]]. rewrite concat_tails in PC.
      assert (LN : length ins = length ils) by (apply (F2_length _ _ _ _ _ R)).
      pose proof (Permutation_length (perm_concat _ _ _ PM)) as L1. rewrite concat_app, app_length in L1.
      pose proof (Permutation_length (perm_concat _ _ _ (waiting_split cond ins ils LN))) as L2. rewrite concat_app, app_length in L2.
      pose proof (Permutation_length PC) as L3. rewrite !app_length in L3.
      destruct (IH h2 hs2 (map (fun x => (fst x, snd x || cond (fst x))) ins) ils Q2 F2) as [cs [I1 I2]].
      { clear - R. induction R as [|x l0 a b0 H0 H1 IH0]; constructor; [exact H0|exact IH0]. }
      { subst hs. cbn [concat app length] in L. rewrite app_length in L. lia. }
      rewrite I1. cbn [rbind]. exists (c :: cs). split.
      * cbn [map]. f_equal. f_equal. rewrite map_map. apply map_ext. intros [d b].
        unfold after, cond. cbn [fst snd existsb]. rewrite orb_assoc. reflexivity.
      * intros o [<-|I]; [left; subst hs; left; reflexivity|].
        destruct (I2 o I) as [J|J]; [|right; exact J].
        apply (Permutation_in _ (Permutation_sym (perm_concat _ _ _ PM))) in J. rewrite concat_app in J.
        apply in_app_or in J. destruct J as [J|J].
        -- right. apply in_concat in J. destruct J as [x [J1 J2]]. apply in_map_iff in J1.
           destruct J1 as [[y z] [<- J1]]. apply filter_In in J1. destruct J1 as [J1 _].
           apply in_combine_r in J1. apply in_concat. exists z. split; assumption.
        -- left. subst hs. cbn [concat app]. right. apply (Permutation_in _ (Permutation_sym PC)).
           apply in_or_app. right. exact J.
Qed.

(* ---- pieces of one causal tree ---- *)
Definition active (ins : list (C * bool)) (ils : list (list rop)) : list (list rop) :=
  map snd (filter (fun y => snd (fst y)) (combine ins ils)).
Definition href (l : list rop) : uuid := match l with [] => NIL | o :: _ => r_ref o end.

Lemma active_waiting : forall ins ils, length ins = length ils -> Permutation (active ins ils ++ waiting ins ils) ils.
Proof.
  induction ins as [|[c b] ins IH]; intros [|l ils] L; try discriminate L; [constructor|].
  cbn [length] in L. specialize (IH ils ltac:(lia)). unfold active, waiting in *.
  cbn [combine filter fst snd]. destruct b; cbn [negb map snd app].
  - apply perm_skip. exact IH.
  - apply Permutation_sym, Permutation_cons_app, Permutation_sym. exact IH.
Qed.

Lemma active_add : forall cond ins ils, length ins = length ils ->
  Permutation (active (map (fun x => (fst x, snd x || cond (fst x))) ins) ils)
    (map snd (filter (fun y => negb (snd (fst y)) && cond (fst (fst y))) (combine ins ils)) ++ active ins ils).
Proof.
  intros cond ins. induction ins as [|[c b] ins IH]; intros [|l ils] L; try discriminate L; [constructor|].
  cbn [length] in L. specialize (IH ils ltac:(lia)). unfold active in *.
  cbn [combine map filter fst snd]. destruct b; cbn [negb andb orb map snd app].
  - apply Permutation_cons_app. exact IH.
  - destruct (cond c); cbn [map snd app]; [apply perm_skip; exact IH|exact IH].
Qed.

Lemma perm_filter : forall X (f : X -> bool) l l', Permutation l l' -> Permutation (filter f l) (filter f l').
Proof.
  intros X f l l' H. induction H as [|x l l' H IH|x y l|l l' l'' H1 IH1 H2 IH2]; cbn [filter].
  - constructor.
  - destruct (f x); [apply perm_skip; exact IH|exact IH].
  - destruct (f x), (f y); try apply Permutation_refl. apply perm_swap.
  - eapply Permutation_trans; eassumption.
Qed.

Lemma pops_none : forall id ls ls', (forall x, In x (concat ls) -> r_id x <> id) -> pops id ls ls' -> Permutation ls ls'.
Proof.
  intros id ls ls' H P. destruct P as [ls ls' Q|ls a l r ls' Q E P]; [exact Q|].
  exfalso. apply (H a); [|exact E]. apply (Permutation_in _ (Permutation_sym (perm_concat _ _ _ Q))). left. reflexivity.
Qed.

Definition parts (A : list (list rop)) (R : list rop) : list (list rop) :=
  filter ne (map (fun l => filter (inp l) R) A).

Lemma parts_cons : forall a A R, parts (a :: A) R = tails (filter (inp a) R) (parts A R).
Proof. intros a A R. unfold parts. cbn [map]. set (F := filter ne). unfold F at 1. cbn [filter]. destruct (filter (inp a) R); reflexivity. Qed.

Lemma parts_perm : forall A A' R, Permutation A A' -> Permutation (parts A R) (parts A' R).
Proof. intros A A' R P. apply perm_filter. apply Permutation_map. exact P. Qed.

Lemma parts_in : forall A R l, In l (parts A R) -> exists a, In a A /\ l = filter (inp a) R /\ l <> [].
Proof.
  intros A R l I. unfold parts in I. apply filter_In in I. destruct I as [I N].
  apply in_map_iff in I. destruct I as [a [<- I]]. exists a. split; [exact I|]. split; [reflexivity|].
  intro Z. rewrite Z in N. discriminate.
Qed.

Lemma parts_pop : forall A m R l r, NoDup (ids (concat A)) -> Permutation ((m :: l) :: r) (parts A (m :: R)) ->
  (forall a, In a A -> forall x, In x (filter (inp a) (m :: R)) -> x = m -> inp a m = true) ->
  Permutation (tails l r) (parts A R) /\ In (r_id m) (ids (concat A)).
Proof.
  intros A m R l r ND P _.
  assert (I : In (m :: l) (parts A (m :: R))) by (apply (Permutation_in _ P); left; reflexivity).
  destruct (parts_in _ _ _ I) as [a [IA [EA _]]].
  apply in_split in IA. destruct IA as [A1 [A2 ->]].
  assert (PA : Permutation (A1 ++ a :: A2) (a :: A1 ++ A2)) by (apply Permutation_sym, Permutation_middle).
  assert (FM : inp a m = true).
  { assert (J : In m (filter (inp a) (m :: R))) by (rewrite <- EA; left; reflexivity).
    apply filter_In in J. apply J. }
  cbn [filter] in EA. rewrite FM in EA. injection EA as EA.
  assert (NDa : NoDup (ids (concat (a :: A1 ++ A2)))).
  { apply (Permutation_NoDup (l := ids (concat (A1 ++ a :: A2)))); [|exact ND].
    apply Permutation_map. apply perm_concat. exact PA. }
  cbn [concat] in NDa. unfold ids in NDa. rewrite map_app in NDa. apply nodup_app in NDa.
  destruct NDa as [_ [_ DJ]].
  assert (SAME : parts (A1 ++ A2) (m :: R) = parts (A1 ++ A2) R).
  { unfold parts. f_equal. apply map_ext_in. intros b IB. cbn [filter].
    destruct (inp b m) eqn:FB; [|reflexivity]. exfalso. apply inp_spec in FM. apply inp_spec in FB.
    apply (DJ (r_id m) FM). apply in_map_iff in FB. destruct FB as [x [EX IX]]. rewrite <- EX. apply (in_map r_id).
    apply in_concat. exists b. split; assumption. }
  split.
  - assert (P2 : Permutation ((m :: l) :: r) ((m :: l) :: parts (A1 ++ A2) R)).
    { eapply Permutation_trans; [exact P|]. eapply Permutation_trans; [apply parts_perm; exact PA|].
      rewrite parts_cons, SAME. cbn [filter]. rewrite FM, <- EA. apply Permutation_refl. }
    apply Permutation_cons_inv in P2.
    eapply Permutation_trans; [|apply Permutation_sym; apply parts_perm; exact PA].
    rewrite parts_cons, <- EA.
    destruct l; cbn [tails ne]; [exact P2|apply perm_skip; exact P2].
  - apply inp_spec in FM. rewrite concat_app. unfold ids. rewrite map_app. apply in_or_app. right.
    cbn [concat]. rewrite map_app. apply in_or_app. left. exact FM.
Qed.

Section Tree.
Variable L : list rop.
Variable ils : list (list rop).
Hypothesis LD : dfs L.
Hypothesis LN : NoDup (ids L).
Hypothesis LR : match L with [] => True | r :: _ => ~ In (r_ref r) (ids L) end.
Hypothesis LP : Permutation (concat ils) L.
Hypothesis LF : Forall (fun l => l <> [] /\ filter (inp l) L = l) ils.
Hypothesis LREF : forall l, In l ils -> forall x, In x l -> (forall h t, l = h :: t -> x <> h) -> In (r_ref x) (ids l).

Definition is_root (o : rop) : Prop := match L with [] => False | r :: _ => o = r end.
Definition has_root (l : list rop) : Prop := match L with [] => False | r :: _ => inp l r = true end.

Record inv (E R : list rop) (hs A W : list (list rop)) : Prop := mkInv {
  iL : L = E ++ R;
  iP : Permutation (A ++ W) ils;
  iH : Permutation hs (parts A R);
  iA : forall l, In l A -> has_root l \/ In (href l) (ids E);
  iW : forall l, In l W -> ~ has_root l /\ ~ In (href l) (ids E) }.

Lemma ils_facts : forall l, In l ils -> exists h t, l = h :: t /\ filter (inp l) L = l.
Proof.
  intros l I. rewrite Forall_forall in LF. destruct (LF l I) as [N F].
  destruct l as [|h t]; [congruence|]. exists h, t. split; [reflexivity|exact F].
Qed.

Lemma nd_ils : NoDup (ids (concat ils)).
Proof.
  apply (Permutation_NoDup (l := ids L)); [|exact LN]. apply Permutation_map. apply Permutation_sym. exact LP.
Qed.

Lemma nd_piece : forall l, In l ils -> NoDup (ids l).
Proof.
  intros l I. apply in_split in I. destruct I as [a [b E]]. pose proof nd_ils as N. rewrite E in N.
  rewrite concat_app in N. cbn [concat] in N. unfold ids in *. rewrite !map_app in N.
  apply nodup_app in N. destruct N as [_ [N _]]. apply nodup_app in N. apply N.
Qed.

Lemma ref_before : forall E m R, L = E ++ m :: R -> E <> [] -> In (r_ref m) (ids E).
Proof. intros E m R X N. destruct (LD E m R X) as [A _]. exact (A N). Qed.

(* nothing of a waiting piece has been listed *)
Lemma waiting_fresh : forall E R hs A W l, inv E R hs A W -> In l W -> filter (inp l) E = [].
Proof.
  intros E R hs A W l I IW. destruct I as [IL IP IH IA IWW]. destruct (IWW l IW) as [NR NH].
  assert (II : In l ils) by (apply (Permutation_in _ IP); apply in_or_app; right; exact IW).
  destruct (ils_facts l II) as [h [t [EL FL]]].
  destruct (filter (inp l) E) as [|x r] eqn:FE; [reflexivity|]. exfalso.
  rewrite IL, filter_app, FE in FL. rewrite EL in FL at 1. cbn [app] in FL. 
  assert (x = h) by (rewrite EL in FL; congruence). subst x.
  destruct (filter_split (inp l) E [] h r FE) as [E1 [R1 [XE [F1 [_ FH]]]]].
  destruct E1 as [|e E1].
  - apply NR. unfold has_root. rewrite IL, XE. cbn [app]. exact FH.
  - apply NH. rewrite EL. cbn [href].
    assert (X : L = (e :: E1) ++ h :: (R1 ++ R)) by (rewrite IL, XE, <- app_assoc; reflexivity).
    pose proof (ref_before _ _ _ X ltac:(discriminate)) as Q.
    rewrite XE. unfold ids. rewrite map_app. apply in_or_app. left. exact Q.
Qed.

(* the next op of the listing is the front of an active piece *)
Lemma next_active : forall E m R hs A W, inv E (m :: R) hs A W ->
  exists l, In l A /\ inp l m = true.
Proof.
  intros E m R hs A W I. pose proof I as I0. destruct I as [IL IP IH IA IW].
  assert (IM : In m (concat ils)).
  { apply (Permutation_in _ (Permutation_sym LP)). rewrite IL. apply in_or_app. right. left. reflexivity. }
  apply in_concat in IM. destruct IM as [l [I1 I2]].
  assert (FM : inp l m = true) by (apply inp_spec; apply (in_map r_id); exact I2).
  pose proof (Permutation_in _ (Permutation_sym IP) I1) as I3. apply in_app_or in I3.
  destruct I3 as [I3|I3]; [exists l; split; assumption|]. exfalso.
  destruct (IW l I3) as [NR NH]. pose proof (waiting_fresh _ _ _ _ _ l I0 I3) as FE.
  destruct (ils_facts l I1) as [h [t [EL FL]]].
  rewrite IL, filter_app, FE in FL. cbn [filter app] in FL. rewrite FM in FL.
  assert (m = h) by (rewrite EL in FL; congruence). subst m.
  destruct E as [|e E].
  - apply NR. unfold has_root. rewrite IL. cbn [app]. exact FM.
  - apply NH. rewrite EL. cbn [href]. apply (ref_before (e :: E) h R IL). discriminate.
Qed.

(* the front of any active piece other than the next op is older *)
Lemma front_older : forall E m R hs A W l x r, inv E (m :: R) hs A W -> In l A ->
  filter (inp l) (m :: R) = x :: r -> x = m \/ uuid_ltb (r_id x) (r_id m) = true.
Proof.
  intros E m R hs A W l x r I IA FX. destruct I as [IL IP IH IAA IW].
  assert (II : In l ils) by (apply (Permutation_in _ IP); apply in_or_app; left; exact IA).
  destruct (ils_facts l II) as [h [t [EL FL]]].
  assert (FX0 := FX). cbn [filter] in FX. destruct (inp l m) eqn:FM; [left; congruence|right].
  assert (IX : In x R).
  { assert (J : In x (filter (inp l) R)) by (rewrite FX; left; reflexivity). apply filter_In in J. apply J. }
  destruct (LD E m R IL) as [_ D]. apply D; [exact IX|].
  destruct (filter (inp l) E) as [|y q] eqn:FE.
  - (* x is the first op of the piece *)
    rewrite IL, filter_app, FE in FL. cbn [app] in FL. rewrite FX0 in FL.
    assert (x = h) by (rewrite EL in FL; congruence). subst x.
    destruct (IAA l IA) as [HR|HR].
    + exfalso. unfold has_root in HR. rewrite IL in HR. destruct E as [|e E]; cbn [app] in HR.
      * congruence.
      * cbn [filter] in FE. rewrite HR in FE. discriminate.
    + rewrite EL in HR. exact HR.
  - (* its reference is in the piece and precedes it *)
    destruct (filter_split (inp l) (m :: R) [] x r FX0) as [E1 [R1 [X1 [F1 [_ FXX]]]]].
    assert (XL : L = (E ++ E1) ++ x :: R1) by (rewrite IL, X1, <- app_assoc; reflexivity).
    assert (NE : E <> []) by (intros ->; discriminate FE).
    pose proof (ref_before _ _ _ XL) as Q. specialize (Q ltac:(destruct E; [congruence|discriminate])).
    unfold ids in Q. rewrite map_app in Q. apply in_app_or in Q. destruct Q as [Q|Q]; [exact Q|].
    exfalso. (* the parent would be listed after the first ops of the piece but not in it *)
    apply in_map_iff in Q. destruct Q as [e [EE IE]].
    assert (XIN : In x l).
    { rewrite <- FL. apply filter_In. split; [rewrite XL; apply in_or_app; right; left; reflexivity|exact FXX]. }
    assert (FE1 : inp l e = false).
    { destruct (inp l e) eqn:Z; [|reflexivity].
      assert (J : In e (filter (inp l) E1)) by (apply filter_In; split; assumption). rewrite F1 in J. destruct J. }
    assert (RIN : In (r_ref x) (ids l)).
    { apply (LREF l II x XIN). intros h' t' EL'.
      assert (h' = h) by congruence. subst h'. intros ->.
      (* x would be the head, but the head was listed in E *)
      rewrite IL, filter_app, FE in FL. cbn [app] in FL. rewrite FX0 in FL.
      assert (Y : y = h) by (rewrite EL in FL; congruence). subst y.
      assert (N2 : NoDup (ids l)) by (apply nd_piece; exact II).
      rewrite <- FL in N2. cbn [ids map app] in N2. inversion N2 as [|? ? N3 _]; subst. apply N3.
      rewrite map_app. apply in_or_app. right. left. reflexivity. }
    rewrite <- EE in RIN. apply inp_spec in RIN. congruence.
Qed.
Lemma inv_front : forall E m R c t hs A W, hok (c :: t) -> hl (c :: t) hs -> inv E (m :: R) hs A W -> cop c = m.
Proof.
  intros E m R c t hs A W H F I. destruct (next_active _ _ _ _ _ _ I) as [l [IA FM]].
  pose proof I as I0. destruct I as [IL IP IH IAA IW].
  assert (IN : forall x q, In (x :: q) hs -> exists d, In d (c :: t) /\ cop d = x).
  { intros x q J. unfold holds_lists in F. clear - F J.
    induction F as [|d l0 h0 ls0 [V R0] F' IHF]; [destruct J|].
    destruct J as [->|J].
    - exists d. split; [left; reflexivity|]. inversion R0; reflexivity.
    - destruct (IHF J) as [e [E1 E2]]. exists e. split; [right; exact E1|exact E2]. }
  assert (TOP : forall d, In d (c :: t) -> newer (cop d) (cop c) = false).
  { intros d J. apply (heap_root C (lessC C cop newer) (lc_asym C cop newer nw_asym) (lc_trans C cop newer nw_trans)
      (lc_le C cop newer nw_le) (c :: t) c d H eq_refl J). }
  (* m is one of the fronts *)
  assert (PM : In (m :: filter (inp l) R) (parts A (m :: R))).
  { unfold parts. apply filter_In. split; [|reflexivity]. apply in_map_iff. exists l. cbn [filter]. rewrite FM. auto. }
  apply (Permutation_in _ (Permutation_sym IH)) in PM. destruct (IN _ _ PM) as [d [JD ED]].
  pose proof (TOP d JD) as T1. rewrite ED in T1.
  (* the front of the heap is the first op of an active part *)
  inversion F as [|? l0 ? r0 [V0 R0] F0]; subst.
  destruct (reads_valid C cvalid cnext cop c l0 V0 R0) as [c' [l' [-> _]]].
  assert (PC : In (cop c :: l') (parts A (cop d :: R))).
  { apply (Permutation_in _ IH). left. reflexivity. }
  destruct (parts_in _ _ _ PC) as [a [Ia [Ea _]]].
  destruct (front_older _ _ _ _ _ _ a (cop c) l' I0 Ia (eq_sym Ea)) as [X|X]; [exact X|].
  unfold newer in T1. rewrite X in T1. discriminate.
Qed.

Lemma rga_loop_tree : forall fuel E R h hs ins, hok h -> hl h hs ->
  Forall2 (fun x l => cvalid (fst x) = true /\ reads (fst x) l) ins ils ->
  inv E R hs (active ins ils) (waiting ins ils) ->
  (length (concat hs) + length (concat (waiting ins ils)) <= fuel)%nat ->
  exists cs, rga_loop C cvalid cnext cid cref fuel h ins = Done (map MAppend cs, map (after cs) ins) /\
    map cop cs = R.
Proof.
  induction fuel as [|f IH]; intros E R h hs ins H F RD I LE.
  - destruct R as [|m R].
    + destruct (rga_loop_any 0 h hs ins ils H F RD LE) as [cs [P Q]]. exists cs. split; [exact P|].
      assert (Z : hs = []).
      { apply Permutation_nil. apply Permutation_sym. destruct I as [_ _ X _ _]. eapply Permutation_trans; [exact X|].
        unfold parts. clear. induction (active ins ils) as [|a A IHA]; [constructor|]. cbn [map filter ne]. exact IHA. }
      subst hs. inversion F; subst h. cbn [rga_loop] in P. destruct cs; [reflexivity|discriminate P].
    + exfalso. destruct (next_active _ _ _ _ _ _ I) as [l [IA FM]].
      assert (PM : In (m :: filter (inp l) R) hs).
      { destruct I as [_ _ X _ _]. apply (Permutation_in _ (Permutation_sym X)). unfold parts.
        apply filter_In. split; [|reflexivity]. apply in_map_iff. exists l. cbn [filter]. rewrite FM. auto. }
      apply in_split in PM. destruct PM as [a [b EQ]]. rewrite EQ, concat_app, app_length in LE.
      cbn [concat app length] in LE. lia.
  - destruct h as [|c t].
    + inversion F; subst hs. exists []. split.
      { cbn [rga_loop map]. f_equal. f_equal.
        rewrite <- (map_id ins) at 1. apply map_ext. intros [c b]. unfold after. cbn [existsb fst snd]. rewrite orb_false_r. reflexivity. }
      destruct R as [|m R]; [reflexivity|]. exfalso.
      destruct (next_active _ _ _ _ _ _ I) as [l [IA FM]]. destruct I as [_ _ X _ _].
      assert (PM : In (m :: filter (inp l) R) []).
      { apply (Permutation_in _ (Permutation_sym X)). unfold parts.
        apply filter_In. split; [|reflexivity]. apply in_map_iff. exists l. cbn [filter]. rewrite FM. auto. }
      destruct PM.
    + destruct R as [|m R].
      { exfalso. destruct I as [_ _ X _ _].
        assert (Z : hs = []).
        { apply Permutation_nil. apply Permutation_sym. eapply Permutation_trans; [exact X|].
          unfold parts. clear. induction (active ins ils) as [|a A IHA]; [constructor|]. cbn [map filter ne]. exact IHA. }
        subst hs. inversion F. }
      pose proof (inv_front E m R c t hs _ _ H F I) as EM. cbn [rga_loop].
      destruct (heap_next_ok (S f) c t hs H F ltac:(lia)) as [h1 [hs1 [l [r [P [Q [F1 [X PP]]]]]]]].
      rewrite P. cbn [rbind].
      set (cond := fun x => uuid_eqb (r_ref (cop x)) (r_id (cop c))).
      destruct (add_where_ok cond ins ils h1 hs1 Q F1 RD) as [h2 [hs2 [P2 [Q2 [F2 PM]]]]].
      rewrite P2. cbn [rbind].
      set (ins2 := map (fun x => (fst x, snd x || cond (fst x))) ins) in *.
      set (newly := map snd (filter (fun y => negb (snd (fst y)) && cond (fst (fst y))) (combine ins ils))) in *.
      assert (LEN : length ins = length ils) by (apply (F2_length _ _ _ _ _ RD)).
      pose proof (active_add cond ins ils LEN) as PA. fold ins2 newly in PA.
      pose proof (waiting_split cond ins ils LEN) as PW. fold ins2 newly in PW.
      pose proof I as I0. destruct I as [IL IP IHH IA IW].
      assert (NDA : NoDup (ids (concat (active ins ils)))).
      { pose proof nd_ils as N. apply (Permutation_NoDup (l := ids (concat ils)) (l' := ids (concat (active ins ils ++ waiting ins ils)))) in N.
        - rewrite concat_app in N. unfold ids in N. rewrite map_app in N. apply nodup_app in N. apply N.
        - apply Permutation_map. apply perm_concat. apply Permutation_sym. exact IP. }
      rewrite X, EM in IHH.
      destruct (parts_pop (active ins ils) m R l r NDA IHH ltac:(intros a Ia x Jx Ex; apply filter_In in Jx; subst x; apply Jx)) as [POP INM].
      assert (DISJ : forall x, In (r_id x) (ids (concat (active ins ils))) -> ~ In (r_id x) (ids (concat (waiting ins ils)))).
      { pose proof nd_ils as N. apply (Permutation_NoDup (l := ids (concat ils)) (l' := ids (concat (active ins ils ++ waiting ins ils)))) in N.
        - rewrite concat_app in N. unfold ids in N. rewrite map_app in N. apply nodup_app in N. destruct N as [_ [_ N]].
          intros x. apply N.
        - apply Permutation_map. apply perm_concat. apply Permutation_sym. exact IP. }
      assert (H1 : Permutation hs1 (parts (active ins ils) R)).
      { eapply Permutation_trans; [|exact POP]. apply Permutation_sym. apply (pops_none (cid c)); [|exact PP].
        intros x J EX. rewrite EM in EX.
        assert (J2 : In x R).
        { apply (Permutation_in _ (perm_concat _ _ _ POP)) in J. apply in_concat in J. destruct J as [q [J1 J2]].
          apply parts_in in J1. destruct J1 as [a [_ [-> _]]]. apply filter_In in J2. apply J2. }
        pose proof LN as N. rewrite IL in N. unfold ids in N. rewrite map_app in N. apply nodup_app in N.
        destruct N as [_ [N _]]. cbn [map] in N. inversion N as [|? ? N1 _]; subst. apply N1. rewrite <- EX. apply (in_map r_id). exact J2. }
      assert (WIT : forall l0, In l0 (waiting ins ils) -> filter (inp l0) R = l0 /\ l0 <> []).
      { intros l0 J. pose proof (waiting_fresh _ _ _ _ _ l0 I0 J) as FE.
        assert (II : In l0 ils) by (apply (Permutation_in _ IP); apply in_or_app; right; exact J).
        destruct (ils_facts l0 II) as [h0 [t0 [EL FL]]].
        assert (FM : inp l0 m = false).
        { destruct (inp l0 m) eqn:Z; [|reflexivity]. exfalso. apply inp_spec in Z. apply (DISJ m INM).
          apply in_map_iff in Z. destruct Z as [y [EY IY]]. rewrite <- EY. apply (in_map r_id). apply in_concat. exists l0. split; assumption. }
        rewrite IL, filter_app, FE in FL. cbn [filter app] in FL. rewrite FM in FL. split; [exact FL|]. rewrite EL. discriminate. }
      assert (NEWLY : forall l0, In l0 newly -> In l0 (waiting ins ils)).
      { intros l0 J. apply (Permutation_in _ (Permutation_sym PW)). apply in_or_app. left. exact J. }
      assert (NEWREF : forall l0, In l0 newly -> href l0 = r_id m).
      { intros l0 J. unfold newly in J. apply in_map_iff in J. destruct J as [[[d b] z] [<- J]].
        apply filter_In in J. destruct J as [J1 J2]. cbn [fst snd] in *. apply andb_true_iff in J2. destruct J2 as [_ J2].
        unfold cond in J2. apply uuid_eqb_eq in J2. rewrite EM in J2. rewrite <- J2.
        assert (RDD : cvalid d = true /\ reads d z).
        { clear - RD J1. revert J1. induction RD as [|x y a b0 H0 H1 IH0]; cbn [combine]; [intros []|].
          intros [E|J]; [inversion E; subst; exact H0|apply IH0; exact J]. }
        destruct RDD as [V RR]. destruct (reads_valid C cvalid cnext cop d z V RR) as [d' [z' [-> _]]]. reflexivity. }
      assert (WREST : forall l0, In l0 (waiting ins2 ils) -> href l0 <> r_id m).
      { intros l0 J. unfold waiting in J. apply in_map_iff in J. destruct J as [[[d b] z] [<- J]].
        apply filter_In in J. destruct J as [J1 J2]. cbn [fst snd] in *.
        unfold ins2 in J1.
        assert (RDD : exists b0, b = b0 || cond d /\ cvalid d = true /\ reads d z).
        { clear - RD J1. revert J1. induction RD as [|x y a b0 H0 H1 IH0]; cbn [combine map]; [intros []|].
          intros [E|J]; [|apply IH0; exact J]. inversion E; subst. exists (snd x). split; [reflexivity|exact H0]. }
        destruct RDD as [b0 [Eb [V RR]]]. destruct (reads_valid C cvalid cnext cop d z V RR) as [d' [z' [-> _]]].
        cbn [href]. intro EQ. assert (CT : cond d = true) by (unfold cond; rewrite EM; apply uuid_eqb_eq; exact EQ).
        rewrite CT, orb_true_r in Eb. subst b. discriminate J2. }
      destruct (IH (E ++ [m]) R h2 hs2 ins2 Q2 F2) as [cs [I1 I2]].
      { unfold ins2. clear - RD. induction RD as [|x l0 a b0 H0 H1 IH0]; constructor; [exact H0|exact IH0]. }
      { constructor.
        - rewrite <- app_assoc. exact IL.
        - eapply Permutation_trans; [|exact IP]. eapply Permutation_trans; [apply Permutation_app_tail; exact PA|].
          eapply Permutation_trans; [|apply Permutation_app_head; apply Permutation_sym; exact PW].
          rewrite app_assoc. apply Permutation_app_tail. apply Permutation_app_comm.
        - eapply Permutation_trans; [apply Permutation_sym; exact PM|].
          eapply Permutation_trans; [|apply Permutation_sym; apply parts_perm; exact PA].
          assert (PN : parts newly R = newly).
          { clear - NEWLY WIT. induction newly as [|a N IHN]; [reflexivity|]. rewrite parts_cons.
            destruct (WIT a (NEWLY a (or_introl eq_refl))) as [W1 W2]. rewrite W1, IHN.
            - destruct a; [congruence|reflexivity].
            - intros l0 J. apply NEWLY. right. exact J. }
          unfold parts at 1. rewrite map_app, filter_app. fold (parts newly R) (parts (active ins ils) R).
          rewrite PN. apply Permutation_app_head. exact H1.
        - intros l0 J. apply (Permutation_in _ PA) in J. apply in_app_or in J. unfold ids. rewrite map_app. destruct J as [J|J].
          + right. apply in_or_app. right. left. symmetry. apply NEWREF. exact J.
          + destruct (IA l0 J) as [K|K]; [left; exact K|right; apply in_or_app; left; exact K].
        - intros l0 J. assert (J0 : In l0 (waiting ins ils)).
          { apply (Permutation_in _ (Permutation_sym PW)). apply in_or_app. right. exact J. }
          destruct (IW l0 J0) as [K1 K2]. split; [exact K1|]. unfold ids. rewrite map_app. intro K. apply in_app_or in K.
          destruct K as [K|[K|[]]]; [exact (K2 K)|]. apply (WREST l0 J). symmetry. exact K. }
      { pose proof (Permutation_length (perm_concat _ _ _ PM)) as L1. rewrite concat_app, app_length in L1.
        pose proof (Permutation_length (perm_concat _ _ _ PW)) as L2. rewrite concat_app, app_length in L2.
        destruct (pops_concat _ _ _ PP) as [rm [PC _]]. rewrite concat_tails in PC.
        pose proof (Permutation_length PC) as L3. rewrite !app_length in L3.
        rewrite X in LE. cbn [concat app length] in LE. rewrite app_length in LE. lia. }
      rewrite I1. cbn [rbind]. exists (c :: cs). split.
      * cbn [map]. f_equal. f_equal. unfold ins2. rewrite map_map. apply map_ext. intros [d b].
        unfold after, cond. cbn [fst snd existsb]. rewrite orb_assoc. reflexivity.
      * cbn [map]. rewrite EM, I2. reflexivity.
Qed.
End Tree.

Lemma min_id_spec : forall (cs : list C) m, let r := min_id C cid m cs in
  (r = m \/ exists c, In c cs /\ r = cid c) /\ uuid_ltb m r = false /\ forall c, In c cs -> uuid_ltb (cid c) r = false.
Proof.
  induction cs as [|c cs IH]; intros m r.
  - subst r. cbn [min_id]. split; [left; reflexivity|]. split; [apply uuid_ltb_irrefl|intros c []].
  - subst r. cbn [min_id]. set (m' := if uuid_ltb (r_id (cop c)) m then r_id (cop c) else m).
    destruct (IH m') as [A [B D]]. set (r := min_id C cid m' cs) in *. clearbody r.
    assert (M : uuid_ltb m m' = false /\ uuid_ltb (r_id (cop c)) m' = false).
    { unfold m'. destruct (uuid_ltb (r_id (cop c)) m) eqn:E.
      - split; [apply uuid_ltb_asym; exact E|apply uuid_ltb_irrefl].
      - split; [apply uuid_ltb_irrefl|exact E]. }
    split; [|split].
    + destruct A as [A|[d [I E]]].
      * rewrite A. unfold m'. destruct (uuid_ltb (r_id (cop c)) m); [right; exists c; split; [left; reflexivity|reflexivity]|left; reflexivity].
      * right. exists d. split; [right; exact I|exact E].
    + apply (uuid_le_trans _ m'); [exact B|apply M].
    + intros d [->|I]; [apply (uuid_le_trans _ m'); [exact B|apply M]|apply D; exact I].
Qed.

(* the first loop: inputs that start with the least id *)
Definition min_head (cs : list C) : uuid := match cs with [] => NIL | c :: r => min_id C cid (cid c) r end.
Definition started (cs : list C) : list (C * bool) := map (fun c => (c, uuid_eqb (cid c) (min_head cs))) cs.

Lemma waiting_started : forall f (cs : list C) (ls : list (list rop)), length cs = length ls ->
  Permutation (active (map (fun c => (c, f c)) cs) ls ++ waiting (map (fun c => (c, f c)) cs) ls) ls.
Proof. intros f cs ls L. apply active_waiting. rewrite map_length. exact L. Qed.

Lemma rga_start : forall cs ls, Forall2 (fun c l => cvalid c = true /\ reads c l) cs ls ->
  exists h hs, add_where C cvalid cid (fun x => uuid_eqb (cid x) (min_head cs)) [] (map (fun c => (c, false)) cs)
                 = Done (h, started cs) /\ hok h /\ hl h hs /\ Permutation hs (active (started cs) ls) /\
    Forall2 (fun x l => cvalid (fst x) = true /\ reads (fst x) l) (started cs) ls.
Proof.
  intros cs ls R. set (cond := fun x => uuid_eqb (r_id (cop x)) (min_head cs)).
  assert (R0 : Forall2 (fun x l => cvalid (fst x) = true /\ reads (fst x) l) (map (fun c => (c, false)) cs) ls).
  { clear - R. induction R; cbn [map]; constructor; assumption. }
  assert (R1 : Forall2 (fun x l => cvalid (fst x) = true /\ reads (fst x) l) (started cs) ls).
  { unfold started. generalize (min_head cs) as m. clear - R. intro m. induction R; cbn [map]; constructor; assumption. }
  destruct (add_where_ok cond (map (fun c => (c, false)) cs) ls [] []) as [h [hs [P [Q [F PM]]]]].
  - intros i I. unfold less_than. destruct i; reflexivity.
  - constructor.
  - exact R0.
  - exists h, hs. split; [|split; [exact Q|split; [exact F|split; [|exact R1]]]].
    + rewrite P. unfold started. rewrite map_map. cbn [fst snd orb]. reflexivity.
    + rewrite app_nil_r in PM. eapply Permutation_trans; [apply Permutation_sym; exact PM|].
      unfold active, started, cond. generalize (min_head cs) as m. clear. intro m. revert ls.
      induction cs as [|c cs IH]; intros [|l ls]; try constructor.
      cbn [map combine filter fst snd negb andb]. destruct (uuid_eqb (r_id (cop c)) m); cbn [map snd]; [apply perm_skip|]; apply IH.
Qed.

Lemma after_all : forall cs ins, forallb snd (map (after cs) ins) = true <->
  forall x, In x ins -> snd x = true \/ exists e, In e cs /\ r_ref (cop (fst x)) = r_id (cop e).
Proof.
  intros cs ins. rewrite forallb_forall. split.
  - intros H x I. specialize (H (after cs x)). rewrite in_map_iff in H. specialize (H (ex_intro _ x (conj eq_refl I))).
    unfold after in H. cbn [snd] in H. apply orb_true_iff in H. destruct H as [H|H]; [left; exact H|right].
    apply existsb_exists in H. destruct H as [e [IE EE]]. apply uuid_eqb_eq in EE. exists e. split; assumption.
  - intros H y I. apply in_map_iff in I. destruct I as [x [<- I]]. unfold after. cbn [snd].
    destruct (H x I) as [K|[e [IE EE]]]; [rewrite K; reflexivity|]. apply orb_true_iff. right.
    apply existsb_exists. exists e. split; [exact IE|]. apply uuid_eqb_eq. exact EE.
Qed.

Lemma rga_merge_any : forall fuel cs ls, Forall2 (fun c l => cvalid c = true /\ reads c l) cs ls ->
  (length cs <= 3)%nat -> (length (concat ls) <= fuel)%nat ->
  exists out st, rga_merge C cvalid cnext cid cref fuel cs = Done (map MAppend out ++ [MEnd RAW], st) /\
    (st = StOK \/ st = StCauseBreak) /\
    (st = StOK <-> forall c, In c cs -> (forall d, In d cs -> uuid_ltb (cid d) (cid c) = false) \/
                                     In (cref c) (ids (map cop out))) /\
    (forall o, In o (map cop out) -> In o (concat ls)).
Proof.
  intros fuel cs ls R N FU. unfold rga_merge. rewrite (proj2 (Nat.ltb_ge _ _) N). fold (min_head cs).
  destruct (rga_start cs ls R) as [h [hs [P [Q [F [PH R1]]]]]]. rewrite P. cbn [rbind].
  assert (LEN : length cs = length ls) by (apply (F2_length _ _ _ _ _ R)).
  pose proof (waiting_started (fun c => uuid_eqb (cid c) (min_head cs)) cs ls LEN) as PW. cbv beta in PW. change (map _ cs) with (started cs) in PW.
  pose proof (Permutation_length (perm_concat _ _ _ PW)) as LW. rewrite concat_app, app_length in LW.
  pose proof (Permutation_length (perm_concat _ _ _ PH)) as LH.
  destruct (rga_loop_any fuel h hs (started cs) ls Q F R1) as [out [I1 I2]]; [lia|].
  rewrite I1. cbn [rbind]. eexists out, _. split; [reflexivity|].
  assert (MH : forall c, In c cs -> (uuid_eqb (cid c) (min_head cs) = true <-> forall d, In d cs -> uuid_ltb (cid d) (cid c) = false)).
  { intros c I. destruct cs as [|c0 cs0]; [destruct I|]. unfold min_head.
    destruct (min_id_spec cs0 (cid c0)) as [A [B D]]. set (m := min_id C cid (cid c0) cs0) in *. clearbody m. cbv beta in *.
    split.
    - intro E. apply uuid_eqb_eq in E. rewrite E. intros d [<-|J]; [exact B|apply D; exact J].
    - intro H. apply uuid_eqb_eq. apply uuid_ltb_antisym.
      + destruct I as [<-|I]; [exact B|apply D; exact I].
      + destruct A as [A|[d [J A]]]; rewrite A; apply H; [left; reflexivity|right; exact J]. }
  split; [destruct (forallb _ _); [left; reflexivity|right; reflexivity]|]. split.
  - transitivity (forallb snd (map (after out) (started cs)) = true).
    { destruct (forallb _ _); split; congruence. }
    rewrite after_all. unfold started. split.
    + intros H c I. destruct (H (c, uuid_eqb (cid c) (min_head cs))) as [K|[e [K1 K2]]].
      * apply in_map_iff. exists c. split; [reflexivity|exact I].
      * left. apply (MH c I). exact K.
      * right. cbn [fst] in K2. rewrite K2. unfold ids. apply (in_map r_id). apply (in_map cop). exact K1.
    + intros H x I. apply in_map_iff in I. destruct I as [c [<- I]]. cbn [fst snd].
      destruct (H c I) as [K|K]; [left; apply (MH c I); exact K|right].
      apply in_map_iff in K. destruct K as [o [K1 K2]]. apply in_map_iff in K2. destruct K2 as [e [<- K3]].
      exists e. split; [exact K3|]. symmetry. exact K1.
  - intros o I. destruct (I2 o I) as [J|J]; [|exact J].
    apply (Permutation_in _ (perm_concat _ _ _ PH)) in J. apply in_concat in J. destruct J as [x [J1 J2]].
    apply in_concat. exists x. split; [|exact J2]. apply (Permutation_in _ PW). apply in_or_app. left. exact J1.
Qed.

(* pieces of one tree with listing L *)
Lemma rga_merge_tree : forall fuel cs ts T, Forall2 (fun c l => cvalid c = true /\ reads c l) cs (map listing ts) ->
  (length cs <= 3)%nat -> Forall causal ts -> causal T -> NoDup (ids (listing T)) ->
  ~ In (r_ref (root T)) (ids (listing T)) ->
  Permutation (flat_map listing ts) (listing T) -> (length (listing T) <= fuel)%nat ->
  exists out, rga_merge C cvalid cnext cid cref fuel cs = Done (map MAppend out ++ [MEnd RAW], StOK) /\
    map cop out = listing T.
Proof.
  intros fuel cs ts T R N CS CT ND RT PM FU. unfold rga_merge. rewrite (proj2 (Nat.ltb_ge _ _) N). fold (min_head cs).
  destruct (rga_start cs (map listing ts) R) as [h [hs [P [Q [F [PH R1]]]]]]. rewrite P. cbn [rbind].
  assert (LEN : length cs = length (map listing ts)) by (apply (F2_length _ _ _ _ _ R)).
  pose proof (waiting_started (fun c => uuid_eqb (cid c) (min_head cs)) cs _ LEN) as PW. cbv beta in PW. change (map _ cs) with (started cs) in PW.
  pose proof (Permutation_length (perm_concat _ _ _ PW)) as LW. rewrite concat_app, app_length in LW.
  pose proof (Permutation_length (perm_concat _ _ _ PH)) as LH.
  set (L := listing T) in *. set (ils := map listing ts) in *.
  assert (LP : Permutation (concat ils) L) by (unfold ils; rewrite <- flat_map_concat_map; exact PM).
  assert (LD : dfs L) by (apply tree_dfs; assumption).
  assert (EL : exists q, L = root T :: q) by (destruct T as [o k]; unfold L; cbn [listing root]; eexists; reflexivity).
  destruct EL as [q EL].
  assert (LR : match L with [] => True | r :: _ => ~ In (r_ref r) (ids L) end) by (rewrite EL in *; exact RT).
  assert (NDI : NoDup (ids (concat ils))).
  { apply (Permutation_NoDup (l := ids L)); [|exact ND]. apply Permutation_map, Permutation_sym. exact LP. }
  assert (PIECE : forall t, In t ts -> causal t /\ NoDup (ids (listing t)) /\ (forall x, In x (listing t) -> In x L)).
  { intros t I. rewrite Forall_forall in CS. split; [apply CS; exact I|]. split.
    - apply (in_map listing) in I. fold ils in I. apply in_split in I. destruct I as [a [b E]]. rewrite E in NDI.
      rewrite concat_app in NDI. cbn [concat] in NDI. unfold ids in *. rewrite !map_app in NDI.
      apply nodup_app in NDI. destruct NDI as [_ [NDI _]]. apply nodup_app in NDI. apply NDI.
    - intros x J. apply (Permutation_in _ LP). apply in_concat. exists (listing t). split; [|exact J]. apply (in_map listing). exact I. }
  assert (LF : Forall (fun l => l <> [] /\ filter (inp l) L = l) ils).
  { apply Forall_forall. intros l I. apply in_map_iff in I. destruct I as [t [<- I]].
    destruct (PIECE t I) as [P1 [P2 P3]]. destruct t as [o k]. split; [discriminate|].
    apply (piece_filter L o (flat_map listing k) LD ND LR); [|exact P2|exact P3|].
    - apply (tree_dfs (Node o k) P1 P2).
    - intros x J NE. apply (tree_refs (Node o k) x P1 P2 J NE). }
  assert (LREF : forall l, In l ils -> forall x, In x l -> (forall h0 t0, l = h0 :: t0 -> x <> h0) -> In (r_ref x) (ids l)).
  { intros l I x J NE. apply in_map_iff in I. destruct I as [t [<- I]]. destruct (PIECE t I) as [P1 [P2 P3]].
    apply tree_refs; [exact P1|exact P2|exact J|]. destruct t as [o k]. apply (NE o (flat_map listing k)). reflexivity. }
  (* the least head is the root *)
  assert (HEADS : forall c, In c cs -> In (cop c) L).
  { intros c I. assert (J : exists t, In t ts /\ In (cop c) (listing t)).
    { clear - R I. unfold ils in R. revert I. remember (map listing ts) as ls eqn:E. revert ts E.
      induction R as [|d l a b [V RD] H1 IH]; intros ts E I; [destruct I|]. destruct ts as [|t ts]; [discriminate E|].
      cbn [map] in E. injection E as -> ->. destruct I as [->|I].
      - exists t. split; [left; reflexivity|]. destruct (reads_valid C cvalid cnext cop c _ V RD) as [c' [l' [-> _]]]. left. reflexivity.
      - destruct (IH ts eq_refl I) as [t0 [A B]]. exists t0. split; [right; exact A|exact B]. }
    destruct J as [t [J1 J2]]. apply (PIECE t J1). exact J2. }
  assert (ROOTC : exists c, In c cs /\ cop c = root T).
  { assert (I : In (root T) (concat ils)) by (apply (Permutation_in _ (Permutation_sym LP)); rewrite EL; left; reflexivity).
    apply in_concat in I. destruct I as [l [I1 I2]].
    assert (FL : filter (inp l) L = l) by (rewrite Forall_forall in LF; apply LF; exact I1).
    assert (FR : inp l (root T) = true) by (apply inp_spec; apply (in_map r_id); exact I2).
    rewrite EL in FL. cbn [filter] in FL. rewrite FR in FL.
    assert (J : exists c, In c cs /\ cvalid c = true /\ reads c l).
    { clear - R I1. fold ils in R. revert I1. induction R as [|d l0 a b H0 H1 IH]; intro I1; [destruct I1|].
      destruct I1 as [->|I1]; [exists d; split; [left; reflexivity|exact H0]|].
      destruct (IH I1) as [e [A B]]. exists e. split; [right; exact A|exact B]. }
    destruct J as [c [J1 [V RD]]]. exists c. split; [exact J1|].
    destruct (reads_valid C cvalid cnext cop c l V RD) as [c' [l' [El _]]]. rewrite El in FL. congruence. }
  assert (MIN : min_head cs = r_id (root T)).
  { destruct ROOTC as [c0 [I0 E0]]. destruct cs as [|d cs0]; [destruct I0|]. unfold min_head.
    destruct (min_id_spec cs0 (cid d)) as [A [B D]]. set (m := min_id C cid (cid d) cs0) in *. clearbody m. cbv beta in *.
    apply uuid_ltb_antisym.
    - assert (G : exists e, In e (d :: cs0) /\ m = r_id (cop e)).
      { destruct A as [A|[e [J A]]]; [exists d; split; [left; reflexivity|exact A]|exists e; split; [right; exact J|exact A]]. }
      destruct G as [e [J ->]]. destruct (tree_min T (cop e) CT ND (HEADS e J)) as [X|X]; [rewrite X; apply uuid_ltb_irrefl|apply uuid_ltb_asym; exact X].
    - rewrite <- E0. destruct I0 as [<-|I0]; [exact B|apply D; exact I0]. }
  assert (IX : forall c b l, In ((c, b), l) (combine (started cs) ils) ->
            b = uuid_eqb (cid c) (min_head cs) /\ exists l', l = cop c :: l').
  { intros c b l I. unfold started in I. revert I. generalize (min_head cs) as m. intro m. clear - R. fold ils in R. 
    induction R as [|d l0 a b0 [V RD] H1 IH]; cbn [map combine]; [intros []|].
    intros [E|I]; [|apply IH; exact I]. inversion E; subst. split; [reflexivity|].
    destruct (reads_valid C cvalid cnext cop c l V RD) as [c' [l' [-> _]]]. exists l'. reflexivity. }
  destruct (rga_loop_tree L ils LD ND LP LF LREF fuel [] L h hs (started cs) Q F R1) as [out [I1 I2]].
  { constructor.
    - reflexivity.
    - exact PW.
    - eapply Permutation_trans; [exact PH|].
      assert (PP : parts (active (started cs) ils) L = active (started cs) ils).
      { assert (SUB : forall l, In l (active (started cs) ils) -> l <> [] /\ filter (inp l) L = l).
        { intros l I. rewrite Forall_forall in LF. apply LF. apply (Permutation_in _ PW). apply in_or_app. left. exact I. }
        clear - SUB. induction (active (started cs) ils) as [|a A IH]; [reflexivity|]. rewrite parts_cons.
        destruct (SUB a (or_introl eq_refl)) as [S1 S2]. rewrite S2, IH.
        - destruct a; [congruence|reflexivity].
        - intros l I. apply SUB. right. exact I. }
      rewrite PP. apply Permutation_refl.
    - intros l I. left. unfold active in I. apply in_map_iff in I. destruct I as [[[c b] l0] [E I]].
      cbn [snd] in E. subst l0. apply filter_In in I. destruct I as [I B]. cbn [fst snd] in B. subst b.
      destruct (IX _ _ _ I) as [B [l' El]]. symmetry in B. apply uuid_eqb_eq in B. rewrite MIN in B.
      unfold has_root. rewrite EL. apply inp_spec. rewrite El. left. exact B.
    - intros l I. split; [|intros []]. unfold waiting in I. apply in_map_iff in I. destruct I as [[[c b] l0] [E I]].
      cbn [snd] in E. subst l0. apply filter_In in I. destruct I as [I B]. cbn [fst snd] in B.
      apply negb_true_iff in B. subst b. destruct (IX _ _ _ I) as [B [l' El]].
      intro HR. unfold has_root in HR. rewrite EL in HR.
      assert (IL : In l ils) by (apply in_combine_r in I; exact I).
      assert (FL : filter (inp l) L = l) by (rewrite Forall_forall in LF; apply LF; exact IL).
      rewrite EL in FL. cbn [filter] in FL. rewrite HR in FL.
      assert (CR : cop c = root T) by (rewrite El in FL; congruence).
      rewrite MIN, CR in B. rewrite (proj2 (uuid_eqb_eq _ _) eq_refl) in B. discriminate. }
  { pose proof (Permutation_length LP) as LL. lia. }
  rewrite I1. cbn [rbind]. exists out. split; [|exact I2]. f_equal. f_equal.
  assert (AL : forallb snd (map (after out) (started cs)) = true).
  { apply after_all. intros x I. unfold started in I. apply in_map_iff in I. destruct I as [c [<- I]]. cbn [fst snd].
    destruct (uuid_eqb (cid c) (min_head cs)) eqn:B; [left; reflexivity|right].
    pose proof (HEADS c I) as J. rewrite EL in J. destruct J as [J|J].
    { rewrite MIN, <- J in B. rewrite (proj2 (uuid_eqb_eq _ _) eq_refl) in B. discriminate. }
    assert (NR : cop c <> root T).
    { intro Z. rewrite Z, MIN in B. rewrite (proj2 (uuid_eqb_eq _ _) eq_refl) in B. discriminate. }
    assert (K : In (r_ref (cop c)) (ids L)).
    { apply tree_refs; [exact CT|exact ND|apply HEADS; exact I|exact NR]. }
    rewrite <- I2 in K. apply in_map_iff in K. destruct K as [o [K1 K2]]. apply in_map_iff in K2. destruct K2 as [e [<- K3]].
    exists e. split; [exact K3|]. symmetry. exact K1. }
  rewrite AL. reflexivity.
Qed.
End Rga.
