(* C83: a text in any number of pieces, merged in steps. *)
From Coq Require Import Sorted Permutation.
From Verif Require Import Prelude UuidModel UuidProofs KeyModel KeyProofs CodecModel TextModel TextSpec FrameProofs BuilderSpec MergeModel MergeSpec HeapProofs MergeProofs RgaProofs RgaTree MergeTheorems MergeTextModel
  TextMergeSpec TextCursors MergeKeeps TextMerge SizeProofs TextMergeTheorems RocksModel DurableSpec TextObjSpec TextObjProofs.

(* how pieces are put together: each step merges what some steps before it, or
   pieces, gave *)
Inductive plan : Type := Piece (f : bytes) | Step (ps : list plan).
Fixpoint pieces (p : plan) : list bytes := match p with Piece f => [f] | Step ps => flat_map pieces ps end.
Fixpoint no_empty (p : plan) : Prop :=
  match p with Piece _ => True | Step ps => ps <> [] /\ (fix all ps := match ps with [] => True | p :: r => no_empty p /\ all r end) ps end.

Section Steps.
Variable fbits : bytes -> N.
Variable fuel : nat.

(* the frames got, None if a merge is refused *)
Fixpoint carried (p : plan) : res (option bytes) :=
  match p with
  | Piece f => Done (Some f)
  | Step ps => rbind ((fix all ps := match ps with
                          | [] => Done (Some [])
                          | p :: r => rbind (carried p) (fun f => rbind (all r) (fun fs => Done (match f, fs with Some f, Some fs => Some (f :: fs) | _, _ => None end)))
                          end) ps)
                 (fun fs => match fs with Some fs => operator_merge fbits fuel RGA_RDT_FORM fs | None => Done None end)
  end.
Fixpoint carried_all (ps : list plan) : res (option (list bytes)) :=
  match ps with
  | [] => Done (Some [])
  | p :: r => rbind (carried p) (fun f => rbind (carried_all r) (fun fs => Done (match f, fs with Some f, Some fs => Some (f :: fs) | _, _ => None end)))
  end.
Lemma carried_step ps : carried (Step ps) = rbind (carried_all ps) (fun fs => match fs with Some fs => operator_merge fbits fuel RGA_RDT_FORM fs | None => Done None end).
Proof.
  cbn [carried]. match goal with |- rbind (?F ps) _ = _ => assert (E : forall l, F l = carried_all l) by (induction l as [|p l IH]; [reflexivity|]; cbn [carried_all]; rewrite <- IH; reflexivity) end.
  rewrite E. reflexivity.
Qed.
Fixpoint no_emptys (ps : list plan) : Prop := match ps with [] => True | p :: r => no_empty p /\ no_emptys r end.
Lemma no_empty_step ps : no_empty (Step ps) = (ps <> [] /\ no_emptys ps).
Proof. cbn [no_empty]. f_equal. Qed.

Fixpoint plan_ind2 (P : plan -> Prop) (HP : forall f, P (Piece f)) (HS : forall ps, Forall P ps -> P (Step ps)) (p : plan) : P p :=
  match p with
  | Piece f => HP f
  | Step ps => HS ps ((fix go ps : Forall P ps := match ps with [] => Forall_nil P | x :: r => Forall_cons x (plan_ind2 P HP HS x) (go r) end) ps)
  end.

(* Every plan that is carried out, whatever the number of pieces, gives the one
   tree of all their ops. *)
Theorem C83_steps p us g : no_empty p -> trees_in (pieces p) us -> apt fuel us -> carried p = Done (Some g) ->
  exists T, causal T /\ Permutation (map bare (listing T)) us /\ frame_says g (listing T).
Proof.
  revert us g. induction p as [f|ps IH] using plan_ind2; intros us g NE TI AP C.
  - injection C as <-. destruct TI as (ts & F & CS & P). inversion F as [|? t ? ? F1 F2]; subst. inversion F2; subst. cbn [flat_map] in P. rewrite app_nil_r in P.
    exists t. split; [exact (Forall_inv CS)|]. auto.
  - rewrite carried_step in C. apply rbind_done in C as (r & CA & C). destruct r as [fs|]; [|discriminate]. rewrite no_empty_step in NE. destruct NE as [NE NEs].
    assert (K : exists vs, Permutation vs us /\ trees_in fs vs /\ length fs = length ps).
    { clear C NE. cbn [pieces] in TI. revert us fs TI AP CA NEs. induction IH as [|p ps H F IH]; intros us fs TI AP CA NEs.
      - cbn [carried_all] in CA. injection CA as <-. exists us. auto.
      - cbn [carried_all] in CA. apply rbind_done in CA as (f & C1 & CA). apply rbind_done in CA as (r & C2 & CA). destruct f as [f|]; [|discriminate]. destruct r as [fs'|]; [|discriminate]. injection CA as <-.
        cbn [no_emptys] in NEs. destruct NEs as [N1 N2]. cbn [flat_map] in TI. apply trees_in_app in TI as (a & b & P & TA & TB).
        pose proof (apt_perm fuel _ _ (Permutation_sym P) AP) as AB. destruct (apt_app fuel _ _ AB) as [AA AB2].
        destruct (H a f N1 TA AA C1) as (T & CT & PT & FS). destruct (IH b fs' TB AB2 C2 N2) as (vs & PV & TV & LV).
        exists (map bare (listing T) ++ vs). split; [eapply Permutation_trans; [apply Permutation_app; eassumption|exact P]|]. split; [|cbn [length]; congruence].
        destruct TV as (ts & TF & TC & TP). exists (T :: ts). split; [constructor; assumption|]. split; [constructor; assumption|]. cbn [flat_map]. rewrite map_app. apply Permutation_app_head. exact TP. }
    destruct K as (vs & PV & TV & LV). assert (NF : fs <> []) by (intros ->; destruct ps; [congruence|discriminate]).
    destruct (merged fbits fuel fs vs g TV (apt_perm fuel _ _ (Permutation_sym PV) AP) NF C) as (T & CT & PT & _ & FS).
    exists T. split; [exact CT|]. split; [eapply Permutation_trans; eassumption|exact FS].
Qed.
(* Two plans over the same ops, however cut into pieces, give the same ops in the
   same order. *)
Theorem C83_agree p q us g h : no_empty p -> no_empty q -> trees_in (pieces p) us -> trees_in (pieces q) us -> apt fuel us ->
  carried p = Done (Some g) -> carried q = Done (Some h) ->
  exists a b, frame_says g a /\ frame_says h b /\ map bare a = map bare b /\ Permutation (map bare a) us.
Proof.
  intros NP NQ TP TQ AP CP CQ. destruct (C83_steps p us g NP TP AP CP) as (T & CT & PT & FT). destruct (C83_steps q us h NQ TQ AP CQ) as (V & CV & PV & FV).
  exists (listing T), (listing V). split; [exact FT|]. split; [exact FV|]. split; [|exact PT]. apply one_tree; try assumption.
  - rewrite ids_bare. destruct AP as (_ & ND & _). eapply Permutation_NoDup; [apply Permutation_map, Permutation_sym; exact PT|exact ND].
  - eapply Permutation_trans; [exact PT|apply Permutation_sym; exact PV].
Qed.

(* one after another *)
Definition in_turn (f : bytes) (fs : list bytes) : plan := fold_left (fun p f => Step [p; Piece f]) fs (Piece f).
Definition older (s t : tree) : Prop := uuid_ltb (r_id (root s)) (r_id (root t)) = true.

Lemma ids_app a b : ids (a ++ b) = ids a ++ ids b. Proof. unfold ids. apply map_app. Qed.
Lemma nodup_app2 {A} (a b : list A) : NoDup (a ++ b) -> NoDup a /\ NoDup b.
Proof.
  induction a as [|x a IH]; intro H; [split; [constructor|exact H]|]. cbn [app] in H. inversion H as [|? ? N ND]; subst. destruct (IH ND). split; [|assumption].
  constructor; [|assumption]. intro I. apply N. apply in_or_app. auto.
Qed.
Lemma min_or t x : causal t -> NoDup (ids (listing t)) -> In x (listing t) -> uuid_ltb (r_id x) (r_id (root t)) = false.
Proof.
  intros C ND I. destruct (tree_min t x C ND I) as [-> |L]; [apply uuid_ltb_irrefl|apply uuid_ltb_asym; exact L].
Qed.
Lemma add_pieces : forall ts fs p A g, Forall2 (fun f t => frame_says f (listing t)) fs ts -> Forall causal ts -> StronglySorted older ts ->
  carried p = Done (Some g) -> frame_says g (listing A) -> causal A -> apt fuel (map bare (listing A ++ flat_map listing ts)) ->
  Forall (older A) ts -> Forall (fun t => In (r_ref (root t)) (ids (listing A ++ flat_map listing ts))) ts ->
  exists h, carried (fold_left (fun p f => Step [p; Piece f]) fs p) = Done (Some h).
Proof.
  induction ts as [|t ts IH]; intros fs p A g F CS SS CP FA CA AP OL RF; inversion F as [|f ? fs' ? F1 F2]; subst; [exists g; exact CP|].
  cbn [fold_left]. inversion SS as [|? ? SS1 SS2]; subst. pose proof (Forall_inv CS) as Ct. pose proof (Forall_inv OL) as Ot. unfold older in Ot.
  cbn [flat_map] in AP, RF. rewrite app_assoc in AP. pose proof AP as AP0. rewrite map_app in AP. destruct (apt_app fuel _ _ AP) as [AA _].
  assert (TI : trees_in [g; f] (map bare (listing A ++ listing t))).
  { exists [A; t]. split; [repeat (constructor; [assumption|]); constructor|]. split; [repeat (constructor; [assumption|]); constructor|]. cbn [flat_map]. rewrite app_nil_r. apply Permutation_refl. }
  assert (NDall : NoDup (ids ((listing A ++ listing t) ++ flat_map listing ts))) by (rewrite ids_bare; apply AP0).
  pose proof NDall as ND2. rewrite ids_app in ND2. apply nodup_app2 in ND2 as [NDat NDts]. pose proof NDat as ND3. rewrite ids_app in ND3. apply nodup_app2 in ND3 as [NDA NDt].
  assert (BK : forall o o', In o ((listing A ++ listing t) ++ flat_map listing ts) -> In o' ((listing A ++ listing t) ++ flat_map listing ts) -> r_ref o = r_id o' -> uuid_ltb (r_id o') (r_id o) = true).
  { intros o o' I J. destruct AP0 as (_ & _ & B & _). apply (B (bare o) (bare o')); apply in_map; assumption. }
  (* the root of the piece hangs on what there is *)
  assert (HA : In (r_ref (root t)) (ids (listing A))).
  { pose proof (Forall_inv RF) as R. rewrite app_assoc in R. unfold ids in R. apply in_map_iff in R as (o & E & I). symmetry in E.
    assert (It : In (root t) ((listing A ++ listing t) ++ flat_map listing ts)) by (apply in_or_app; left; apply in_or_app; right; apply root_in).
    pose proof (BK _ _ It I E) as LT. apply in_app_iff in I as [I|I]; [apply in_app_iff in I as [I|I]|].
    - unfold ids. rewrite E. apply in_map. exact I.
    - rewrite (min_or t o Ct NDt I) in LT. discriminate.
    - apply in_flat_map in I as (t' & I' & I). rewrite Forall_forall in SS2. pose proof (SS2 t' I') as O2. unfold older in O2.
      assert (NDt' : NoDup (ids (listing t'))).
      { clear -NDts I'. induction ts as [|x ts IHt]; [destruct I'|]. cbn [flat_map] in NDts. rewrite ids_app in NDts. apply nodup_app2 in NDts as [N1 N2]. destruct I' as [->|I']; auto. }
      pose proof (Forall_inv_tail CS) as C2. rewrite Forall_forall in C2. pose proof (min_or t' o (C2 t' I') NDt' I) as Q.
      assert (LT2 : uuid_ltb (r_id o) (r_id (root t')) = true) by (eapply uuid_ltb_trans; eassumption). congruence. }
  destruct (few fbits fuel [g; f] _ (bare (root A)) TI AA) as (h & OM); [discriminate|cbn; lia| |].
  { intros u I. apply in_map_iff in I as (o & <- & I). apply in_app_iff in I as [I|I].
    - destruct (tree_min A o CA NDA I) as [-> |LT]; [left; reflexivity|right]. split; [exact LT|].
      assert (NR : o <> root A) by (intros ->; rewrite uuid_ltb_irrefl in LT; discriminate). pose proof (tree_refs A o CA NDA I NR) as R. unfold ids in R. apply in_map_iff in R as (v & E & J).
      exists (bare v). split; [apply in_map; apply in_or_app; auto|exact E].
    - right. destruct (tree_min t o Ct NDt I) as [-> |LT].
      + split; [exact Ot|]. unfold ids in HA. apply in_map_iff in HA as (v & E & J). exists (bare v). split; [apply in_map; apply in_or_app; auto|exact E].
      + split; [cbn [bare u_id]; eapply uuid_ltb_trans; eassumption|].
        assert (NR : o <> root t) by (intros ->; rewrite uuid_ltb_irrefl in LT; discriminate). pose proof (tree_refs t o Ct NDt I NR) as R. unfold ids in R. apply in_map_iff in R as (v & E & J).
        exists (bare v). split; [apply in_map; apply in_or_app; auto|exact E]. }
  assert (CS2 : carried (Step [p; Piece f]) = Done (Some h)) by (rewrite carried_step; cbn [carried_all carried]; rewrite CP; cbn [rbind]; exact OM).
  destruct (merged fbits fuel [g; f] _ h TI AA ltac:(discriminate) OM) as (T & CT & PT & _ & FT).
  assert (PI : forall x, In x (ids (listing T)) <-> In x (ids (listing A ++ listing t))).
  { intro x. rewrite !ids_bare. split; intro I; (eapply Permutation_in; [|exact I]); apply Permutation_map; [exact PT|apply Permutation_sym; exact PT]. }
  apply (IH fs' (Step [p; Piece f]) T h F2 (Forall_inv_tail CS) SS1 CS2 FT CT).
  - apply (apt_perm fuel (map bare ((listing A ++ listing t) ++ flat_map listing ts))); [|exact AP0]. rewrite !map_app. apply Permutation_app_tail. rewrite <- map_app. apply Permutation_sym. exact PT.
  - assert (RT : uuid_ltb (r_id (root A)) (r_id (root T)) = false).
    { assert (NDT : NoDup (ids (listing T))) by (rewrite ids_bare; eapply Permutation_NoDup; [apply Permutation_map, Permutation_sym; exact PT|rewrite <- ids_bare; exact NDat]).
      assert (I : In (r_id (root A)) (ids (listing T))) by (apply PI; rewrite ids_app; apply in_or_app; left; apply in_map; apply root_in).
      unfold ids in I. apply in_map_iff in I as (o & E & I). rewrite <- E. exact (min_or T o CT NDT I). }
    apply Forall_inv_tail in OL. eapply Forall_impl; [|exact OL]. cbn beta. intros t' L. unfold older in *.
    destruct (uuid_total (r_id (root A)) (r_id (root T))) as [Q|[Q|Q]]; [congruence|rewrite <- Q; exact L|eapply uuid_ltb_trans; eassumption].
  - apply Forall_inv_tail in RF. eapply Forall_impl; [|exact RF]. cbn beta. intros t' I. rewrite app_assoc, ids_app in I. rewrite ids_app. apply in_app_iff in I as [I|I]; apply in_or_app; [left; apply PI; exact I|auto].
Qed.
(* Any number of pieces of one text can be merged: one after another, in the order
   of their first ops, no merge is refused, and the tree of all ops comes out. *)
Theorem C83_in_turn f fs t ts : Forall2 (fun f t => frame_says f (listing t)) (f :: fs) (t :: ts) -> Forall causal (t :: ts) ->
  apt fuel (map bare (flat_map listing (t :: ts))) -> StronglySorted older (t :: ts) ->
  (* every piece but the first hangs on an op of some piece *)
  Forall (fun s => In (r_ref (root s)) (ids (flat_map listing (t :: ts)))) ts ->
  exists g T, carried (in_turn f fs) = Done (Some g) /\ causal T /\ Permutation (map bare (listing T)) (map bare (flat_map listing (t :: ts))) /\ frame_says g (listing T).
Proof.
  intros F CS AP SS RF. inversion F as [|? ? ? ? F1 F2]; subst. inversion SS as [|? ? SS1 SS2]; subst.
  destruct (add_pieces ts fs (Piece f) t f F2 (Forall_inv_tail CS) SS1 eq_refl F1 (Forall_inv CS) AP SS2 RF) as (g & C).
  assert (PE : pieces (in_turn f fs) = f :: fs).
  { unfold in_turn. assert (G : forall l p, pieces (fold_left (fun p f => Step [p; Piece f]) l p) = pieces p ++ l).
    { induction l as [|x l IHl]; intro p; cbn [fold_left]; [rewrite app_nil_r; reflexivity|]. rewrite IHl. cbn [pieces flat_map]. rewrite <- app_assoc. reflexivity. }
    rewrite G. reflexivity. }
  assert (NE : no_empty (in_turn f fs)).
  { unfold in_turn. assert (G : forall l p, no_empty p -> no_empty (fold_left (fun p f => Step [p; Piece f]) l p)).
    { induction l as [|x l IHl]; intros p H; cbn [fold_left]; [exact H|]. apply IHl. rewrite no_empty_step. split; [discriminate|]. cbn [no_emptys no_empty]. auto. }
    apply G. exact I. }
  destruct (C83_steps (in_turn f fs) (map bare (flat_map listing (t :: ts))) g NE) as (T & CT & PT & FT); [|exact AP|exact C|exists g, T; auto].
  rewrite PE. exists (t :: ts). split; [exact F|]. split; [exact CS|apply Permutation_refl].
Qed.
End Steps.
Print Assumptions C83_steps.
Print Assumptions C83_agree.
Print Assumptions C83_in_turn.
