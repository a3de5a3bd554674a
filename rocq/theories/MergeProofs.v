(* Merging by the heap: id-ordered rules. *)
From Coq Require Import Sorted Permutation.
From Verif Require Import Prelude UuidModel UuidSpec UuidProofs TextModel MergeModel MergeSpec HeapProofs.

Lemma Forall2_perm_l : forall X Y (P : X -> Y -> Prop) l l' m, Permutation l l' -> Forall2 P l m ->
  exists m', Permutation m m' /\ Forall2 P l' m'.
Proof.
  intros X Y P l l' m H. revert m. induction H as [|x l l' H IH|x y l|l l' l'' H1 IH1 H2 IH2]; intros m F.
  - inversion F; subst. exists []. split; constructor.
  - inversion F as [|? b ? m1 P1 F1]; subst. destruct (IH m1 F1) as [m' [A B]].
    exists (b :: m'). split; [apply perm_skip; exact A|constructor; assumption].
  - inversion F as [|? b ? m1 P1 F1]; subst. inversion F1 as [|? b' ? m2 P2 F2]; subst.
    exists (b' :: b :: m2). split; [apply perm_swap|constructor; [assumption|constructor; assumption]].
  - destruct (IH1 m F) as [m1 [A B]]. destruct (IH2 m1 B) as [m2 [A2 B2]].
    exists m2. split; [eapply Permutation_trans; eassumption|exact B2].
Qed.

Lemma perm_concat : forall X (l l' : list (list X)), Permutation l l' -> Permutation (concat l) (concat l').
Proof.
  intros X l l' H. induction H as [|x l l' H IH|x y l|l l' l'' H1 IH1 H2 IH2]; cbn [concat].
  - constructor.
  - apply Permutation_app_head. exact IH.
  - rewrite !app_assoc. apply Permutation_app_tail. apply Permutation_app_comm.
  - eapply Permutation_trans; eassumption.
Qed.

Lemma uuid_ltb_antisym : forall a b, uuid_ltb a b = false -> uuid_ltb b a = false -> a = b.
Proof. intros a b H1 H2. destruct (uuid_total a b) as [H|[H|H]]; congruence. Qed.
Lemma uuid_le_lt_trans : forall a b c, uuid_ltb b a = false -> uuid_ltb b c = true -> uuid_ltb a c = true.
Proof. intros a b c. unfold uuid_ltb. lia. Qed.
Lemma uuid_lt_le_trans : forall a b c, uuid_ltb a b = true -> uuid_ltb c b = false -> uuid_ltb a c = true.
Proof. intros a b c. unfold uuid_ltb. lia. Qed.
Lemma uuid_le_trans : forall a b c, uuid_ltb b a = false -> uuid_ltb c b = false -> uuid_ltb c a = false.
Proof. intros a b c. unfold uuid_ltb. lia. Qed.
Lemma uuid_ltb_asym : forall a b, uuid_ltb a b = true -> uuid_ltb b a = false.
Proof. intros a b. unfold uuid_ltb. lia. Qed.

Section MergeFacts.
Variable C : Type.
Variable cvalid : C -> bool.
Variable cnext : C -> option (bool * C).
Variable cop : C -> rop.
Variable lessA : rop -> rop -> bool.
Hypothesis less_asym : forall a b, lessA a b = true -> lessA b a = false.
Hypothesis less_trans : forall a b c, lessA a b = true -> lessA b c = true -> lessA a c = true.
Hypothesis le_trans : forall a b c, lessA b a = false -> lessA c b = false -> lessA c a = false.

Notation cid := (fun c => r_id (cop c)).
Definition lessC (a b : C) : bool := lessA (cop a) (cop b).
Notation reads := (reads cvalid cnext cop).

Definition heap_okC := heap_ok C lessC.
Lemma lc_asym : forall a b, lessC a b = true -> lessC b a = false.
Proof. intros a b. apply less_asym. Qed.
Lemma lc_trans : forall a b c, lessC a b = true -> lessC b c = true -> lessC a c = true.
Proof. intros a b c. apply less_trans. Qed.
Lemma lc_le : forall a b c, lessC b a = false -> lessC c b = false -> lessC c a = false.
Proof. intros a b c. apply le_trans. Qed.

(* the contents of a heap: valid cursors and what they read *)
Definition holds_lists (h : list C) (ls : list (list rop)) : Prop :=
  Forall2 (fun c l => cvalid c = true /\ reads c l) h ls.

Lemma holds_perm : forall h h' ls, Permutation h h' -> holds_lists h ls ->
  exists ls', Permutation ls ls' /\ holds_lists h' ls'.
Proof. intros h h' ls P F. apply (Forall2_perm_l _ _ _ h h' ls P F). Qed.

Lemma reads_valid : forall c l, cvalid c = true -> reads c l ->
  exists c' l', l = cop c :: l' /\ cnext c = Some (cvalid c', c') /\ reads c' l'.
Proof.
  intros c l V R. inversion R as [c0 E|c0 c' l' E N R']; subst; [congruence|].
  exists c', l'. split; [reflexivity|]. split; assumption.
Qed.

Definition tails (l : list rop) (ls : list (list rop)) : list (list rop) :=
  match l with [] => ls | _ => l :: ls end.
Lemma concat_tails : forall l ls, concat (tails l ls) = l ++ concat ls.
Proof. intros [|a l] ls; reflexivity. Qed.

Lemma step_ok : forall c t ls, heap_okC (c :: t) -> holds_lists (c :: t) ls ->
  exists l r h' ls', ls = (cop c :: l) :: r /\ step C cnext lessC (c :: t) = Done h' /\
    heap_okC h' /\ holds_lists h' ls' /\ Permutation (tails l r) ls'.
Proof.
  intros c t ls H F. unfold holds_lists in F. inversion F as [|c0 l0 t0 r [V R] F']; subst.
  destruct (reads_valid c l0 V R) as [c' [l [-> [N R']]]].
  cbn [step]. rewrite N. destruct (cvalid c') eqn:V'.
  - destruct (push_ok C lessC lc_asym lc_trans lc_le (S (length (c :: t))) (c' :: t) O)
      as [h' [P [Q PP]]].
    + cbn [length]. lia.
    + apply (heap_cons_down C lessC lc_asym lc_trans lc_le c). exact H.
    + left. cbn [length]. lia.
    + destruct (holds_perm (c' :: t) h' (l :: r) PP) as [ls' [P1 P2]].
      { constructor; [split; assumption|exact F']. }
      exists l, r, h', ls'. split; [reflexivity|]. split; [exact P|]. split; [exact Q|]. split; [exact P2|].
      destruct l; [|exact P1]. inversion R'; congruence.
  - destruct (eject_ok C lessC lc_asym lc_trans lc_le c t H) as [h' [P [Q PP]]].
    destruct (holds_perm t h' r PP F') as [ls' [P1 P2]].
    exists l, r, h', ls'. split; [reflexivity|]. split; [exact P|]. split; [exact Q|]. split; [exact P2|].
    inversion R'; subst; [exact P1|congruence].
Qed.

(* dropping heads with a given id *)
Inductive pops (id : uuid) : list (list rop) -> list (list rop) -> Prop :=
| pops_refl : forall ls ls', Permutation ls ls' -> pops id ls ls'
| pops_step : forall ls a l r ls', Permutation ls ((a :: l) :: r) -> r_id a = id ->
    pops id (tails l r) ls' -> pops id ls ls'.

Lemma pops_perm : forall id ls ls' ms, Permutation ls ls' -> pops id ls' ms -> pops id ls ms.
Proof.
  intros id ls ls' ms P H. destruct H as [ls' ms Q|ls' a l r ms Q E H].
  - apply pops_refl. eapply Permutation_trans; eassumption.
  - eapply pops_step; [eapply Permutation_trans; eassumption|exact E|exact H].
Qed.

Lemma pops_concat : forall id ls ls', pops id ls ls' ->
  exists removed, Permutation (concat ls) (removed ++ concat ls') /\ Forall (fun o => r_id o = id) removed.
Proof.
  intros id ls ls' H. induction H as [ls ls' P|ls a l r ls' P E H [rm [I1 I2]]].
  - exists []. split; [apply perm_concat; exact P|constructor].
  - exists (a :: rm). split; [|constructor; assumption].
    eapply Permutation_trans; [apply perm_concat; exact P|]. cbn [concat app].
    apply perm_skip. rewrite concat_tails in I1. exact I1.
Qed.

Lemma pops_forall : forall (P : list rop -> Prop) id ls ls', (forall a l, P (a :: l) -> P l) ->
  pops id ls ls' -> Forall P ls -> Forall P ls'.
Proof.
  intros P id ls ls' T H. induction H as [ls ls' Q|ls a l r ls' Q E H IH]; intro F.
  - apply (Permutation_Forall Q F).
  - apply IH. apply (Permutation_Forall Q) in F. inversion F as [|? ? F1 F2]; subst.
    apply T in F1. destruct l; [exact F2|constructor; assumption].
Qed.

Lemma skip_same_ok : forall fuel id c t ls, heap_okC (c :: t) -> holds_lists (c :: t) ls ->
  cid c = id -> (length (concat ls) <= fuel)%nat ->
  exists h' ls' l r, skip_same C cnext cid lessC fuel id (c :: t) = Done h' /\
    heap_okC h' /\ holds_lists h' ls' /\ ls = (cop c :: l) :: r /\ pops id (tails l r) ls' /\
    match h' with [] => True | d :: _ => cid d <> id end.
Proof.
  induction fuel as [|f IH]; intros id c t ls H F E L.
  - destruct (step_ok c t ls H F) as [l [r [h1 [ls1 [-> _]]]]]. cbn [concat app length] in L. lia.
  - destruct (step_ok c t ls H F) as [l [r [h1 [ls1 [X [P [Q [F1 PM]]]]]]]]. cbn [skip_same]. rewrite P.
    cbn [rbind]. subst ls. destruct h1 as [|d t1].
    + exists [], ls1, l, r. split; [reflexivity|]. split; [exact Q|]. split; [exact F1|].
      split; [reflexivity|]. split; [apply pops_refl; exact PM|exact I].
    + destruct (uuid_eqb (r_id (cop d)) id) eqn:B.
      * apply uuid_eqb_eq in B.
        destruct (IH id d t1 ls1 Q F1 B) as [h' [ls' [l1 [r1 [I1 [I2 [I3 [I4 [I5 I6]]]]]]]]].
        { pose proof (Permutation_length (perm_concat _ _ _ PM)) as PL. rewrite concat_tails in PL.
          cbn [concat app length] in L. rewrite app_length in *. lia. }
        exists h', ls', l, r. split; [exact I1|]. split; [exact I2|]. split; [exact I3|].
        split; [reflexivity|]. split; [|exact I6].
        apply (pops_perm id _ ls1 _ PM). subst ls1. eapply pops_step; [apply Permutation_refl|exact B|exact I5].
      * exists (d :: t1), ls1, l, r. split; [reflexivity|]. split; [exact Q|]. split; [exact F1|].
        split; [reflexivity|]. split; [apply pops_refl; exact PM|].
        intro Z. rewrite Z in B. rewrite (proj2 (uuid_eqb_eq id id) eq_refl) in B. discriminate.
Qed.

Lemma add_all_ok : forall cs ls h hs, heap_okC h -> holds_lists h hs -> Forall2 reads cs ls ->
  exists h' ls', add_all C cvalid lessC h cs = Done h' /\ heap_okC h' /\ holds_lists h' ls' /\
    Permutation (filter (fun l => match l with [] => false | _ => true end) ls ++ hs) ls'.
Proof.
  induction cs as [|c cs IH]; intros ls h hs H F R.
  - inversion R; subst. exists h, hs. split; [reflexivity|]. split; [exact H|]. split; [exact F|apply Permutation_refl].
  - inversion R as [|? l ? ls0 R1 R2]; subst. cbn [add_all]. destruct (cvalid c) eqn:V.
    + destruct (add_ok C lessC lc_asym lc_trans lc_le cvalid h c H V) as [h1 [P [Q PM]]].
      { rewrite P. cbn [rbind].
        destruct (holds_perm (c :: h) h1 (l :: hs) PM) as [hs1 [P1 P2]].
        { constructor; [split; assumption|exact F]. }
        destruct (IH ls0 h1 hs1 Q P2 R2) as [h' [ls' [I1 [I2 [I3 I4]]]]].
        exists h', ls'. split; [exact I1|]. split; [exact I2|]. split; [exact I3|].
        destruct (reads_valid c l V R1) as [c' [l' [-> _]]]. cbn [filter app].
        eapply Permutation_trans; [|exact I4].
        eapply Permutation_trans; [apply Permutation_middle|]. apply Permutation_app_head. exact P1. }
    + unfold add. rewrite V. cbn [rbind].
      destruct (IH ls0 h hs H F R2) as [h' [ls' [I1 [I2 [I3 I4]]]]].
      exists h', ls'. split; [exact I1|]. split; [exact I2|]. split; [exact I3|].
      inversion R1; subst; [|congruence]. exact I4.
Qed.

Lemma concat_filter : forall (ls : list (list rop)),
  concat (filter (fun l => match l with [] => false | _ => true end) ls) = concat ls.
Proof. induction ls as [|[|a l] ls IH]; cbn [filter concat app]; [reflexivity|exact IH|rewrite IH; reflexivity]. Qed.

(* ---- rules whose order refines the id order ---- *)
Hypothesis less_id1 : forall a b, uuid_ltb (r_id a) (r_id b) = true -> lessA a b = true.
Hypothesis less_id2 : forall a b, lessA a b = true -> uuid_ltb (r_id b) (r_id a) = false.

Definition leA (a b : rop) : Prop := lessA b a = false.

Lemma front_min : forall c t ls x, heap_okC (c :: t) -> holds_lists (c :: t) ls ->
  Forall (StronglySorted leA) ls -> In x (concat ls) -> lessA x (cop c) = false.
Proof.
  intros c t ls x H F S I. apply in_concat in I. destruct I as [l [IL IX]].
  assert (exists d, In d (c :: t) /\ cvalid d = true /\ reads d l) as [d [ID [V R]]].
  { clear H S IX. unfold holds_lists in F. revert IL. induction F as [|d l0 h0 ls0 [V R] F' IH]; intro IL; [destruct IL|].
    destruct IL as [->|IL]; [exists d; split; [left; reflexivity|split; assumption]|].
    destruct (IH IL) as [e [E1 E2]]. exists e. split; [right; exact E1|exact E2]. }
  destruct (reads_valid d l V R) as [d' [l' [-> _]]].
  assert (B : lessA (cop d) (cop c) = false).
  { apply (heap_root C lessC lc_asym lc_trans lc_le (c :: t) c d H eq_refl ID). }
  destruct IX as [<-|IX]; [exact B|].
  rewrite Forall_forall in S. specialize (S _ IL). inversion S as [|? ? S1 S2]; subst.
  rewrite Forall_forall in S2. specialize (S2 _ IX). eapply le_trans; [exact B|exact S2].
Qed.

Lemma merge_loop_ok : forall fuel c t ls, heap_okC (c :: t) -> holds_lists (c :: t) ls ->
  Forall (StronglySorted leA) ls -> (length (concat ls) <= fuel)%nat ->
  exists cs, merge_loop C cnext cid lessC fuel (c :: t) = Done (map MAppend (c :: cs) ++ [MEnd RAW]) /\
    StronglySorted id_lt (map cop (c :: cs)) /\
    (forall o, In o (map cop (c :: cs)) -> In o (concat ls) /\ forall o', In o' (concat ls) -> r_id o' = r_id o -> leA o o') /\
    (forall o, In o (concat ls) -> In (r_id o) (map r_id (map cop (c :: cs)))).
Proof.
  induction fuel as [|f IH]; intros c t ls H F S L.
  - destruct (step_ok c t ls H F) as [l [r [h1 [ls1 [-> _]]]]]. cbn [concat app length] in L. lia.
  - destruct (skip_same_ok (Datatypes.S f) (cid c) c t ls H F eq_refl L) as
      [h' [ls' [l [r [P [Q [F' [X [PP NX]]]]]]]]].
    cbn [merge_loop]. unfold heap_next. rewrite P. cbn [rbind].
    destruct (pops_concat _ _ _ PP) as [rm [PC RM]]. rewrite concat_tails in PC.
    assert (MIN : forall x, In x (concat ls) -> lessA x (cop c) = false).
    { intros x I. apply (front_min c t ls x H F S I). }
    assert (HD : In (cop c) (concat ls)) by (rewrite X; left; reflexivity).
    assert (SUB : forall x, In x (concat ls') -> In x (concat ls)).
    { intros x I. rewrite X. cbn [concat app]. right. apply (Permutation_in _ (Permutation_sym PC)).
      apply in_or_app. right. exact I. }
    assert (S' : Forall (StronglySorted leA) ls').
    { apply (pops_forall (StronglySorted leA) (cid c) (tails l r)); [|exact PP|].
      - intros a l0 B. inversion B; assumption.
      - rewrite X in S. inversion S as [|? ? S1 S2]; subst. inversion S1; subst.
        destruct l; [exact S2|constructor; assumption]. }
    assert (CASES : forall x, In x (concat ls) -> r_id x = cid c \/ In x (concat ls')).
    { intros x I. rewrite X in I. cbn [concat app] in I. destruct I as [<-|I]; [left; reflexivity|].
      apply (Permutation_in _ PC) in I. apply in_app_or in I. destruct I as [I|I]; [left|right; exact I].
      rewrite Forall_forall in RM. apply RM. exact I. }
    destruct h' as [|d t'].
    + inversion F'; subst ls'. exists []. split; [reflexivity|]. split; [repeat constructor|]. split.
      * intros o [<-|[]]. split; [exact HD|]. intros o' I _. apply MIN. exact I.
      * intros o I. destruct (CASES o I) as [E|[]]. left. symmetry. exact E.
    + destruct (IH d t' ls' Q F' S') as [cs [I1 [I2 [I3 I4]]]].
      { rewrite X in L. cbn [concat app length] in L.
        pose proof (Permutation_length PC) as PL. rewrite !app_length in *. lia. }
      assert (GT : forall x, In x (concat ls') -> id_lt (cop c) x).
      { intros x I. unfold id_lt.
        assert (D : lessA x (cop d) = false) by (apply (front_min d t' ls' x Q F' S' I)).
        assert (DC : uuid_ltb (cid c) (cid d) = true).
        { assert (B : lessA (cop d) (cop c) = false).
          { apply MIN. apply SUB. destruct (step_ok d t' ls' Q F') as [l2 [r2 [h2 [ls2 [-> _]]]]]. left. reflexivity. }
          destruct (uuid_ltb (cid c) (cid d)) eqn:Z; [reflexivity|]. exfalso. apply NX.
          apply uuid_ltb_antisym; [|exact Z].
          destruct (uuid_ltb (cid d) (cid c)) eqn:Z2; [|reflexivity]. rewrite (less_id1 _ _ Z2) in B. discriminate. }
        cbv beta in DC.
        destruct (uuid_ltb (r_id (cop c)) (r_id x)) eqn:Z; [reflexivity|].
        assert (W : uuid_ltb (r_id x) (r_id (cop d)) = true) by (apply (uuid_le_lt_trans _ (r_id (cop c))); assumption).
        rewrite (less_id1 _ _ W) in D. discriminate. }
      exists (d :: cs). rewrite I1. split; [reflexivity|]. split; [|split].
      * constructor; [exact I2|]. apply Forall_forall. intros x I. apply GT. apply I3. exact I.
      * intros o [<-|I].
        { split; [exact HD|]. intros o' I _. apply MIN. exact I. }
        destruct (I3 o I) as [A1 A2]. split; [apply SUB; exact A1|].
        intros o' I' E. destruct (CASES o' I') as [E'|I'']; [|apply A2; assumption].
        exfalso. specialize (GT o A1). unfold id_lt in GT. rewrite <- E, E' in GT.
        rewrite uuid_ltb_irrefl in GT. discriminate.
      * intros o I. destruct (CASES o I) as [E|I']; [left; symmetry; exact E|right; apply I4; exact I'].
Qed.

Lemma merge_all_ok : forall fuel cs ls, Forall2 reads cs ls -> Forall (StronglySorted leA) ls ->
  (length (concat ls) <= fuel)%nat ->
  exists out, merge_all C cvalid cnext cid lessC fuel cs
                = Done (map MAppend out ++ match out with [] => [] | _ => [MEnd RAW] end) /\
    StronglySorted id_lt (map cop out) /\
    (forall o, In o (map cop out) -> In o (concat ls) /\ forall o', In o' (concat ls) -> r_id o' = r_id o -> leA o o') /\
    (forall o, In o (concat ls) -> In (r_id o) (map r_id (map cop out))).
Proof.
  intros fuel cs ls R S L. unfold merge_all.
  destruct (add_all_ok cs ls [] [] ) as [h [hs [P [Q [F PM]]]]].
  - intros i I. unfold less_than. destruct i; reflexivity.
  - constructor.
  - exact R.
  - rewrite P. cbn [rbind]. rewrite app_nil_r in PM.
    assert (PC : Permutation (concat ls) (concat hs)).
    { rewrite <- (concat_filter ls). apply perm_concat. exact PM. }
    assert (SH : Forall (StronglySorted leA) hs).
    { apply (Permutation_Forall PM). apply Forall_forall. intros l I. apply filter_In in I.
      rewrite Forall_forall in S. apply S. apply I. }
    unfold heap_merge. destruct h as [|c t].
    + inversion F; subst hs. exists []. split; [reflexivity|]. split; [constructor|]. split; [intros o []|].
      intros o I. apply (Permutation_in _ PC) in I. destruct I.
    + destruct (merge_loop_ok fuel c t hs Q F SH) as [out [I1 [I2 [I3 I4]]]].
      { rewrite <- (Permutation_length PC). exact L. }
      exists (c :: out). split; [exact I1|]. split; [exact I2|]. split.
      * intros o I. destruct (I3 o I) as [A1 A2]. split.
        { apply (Permutation_in _ (Permutation_sym PC)). exact A1. }
        intros o' I'. apply A2. apply (Permutation_in _ PC). exact I'.
      * intros o I. apply I4. apply (Permutation_in _ PC). exact I.
Qed.
End MergeFacts.
