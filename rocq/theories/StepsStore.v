(* C83 in the RocksDB store: a text in more pieces than can be read is read again
   after the pieces are compacted one at a time, in the order they came. *)
From Coq Require Import Sorted Permutation.
From Verif Require Import Prelude UuidModel UuidProofs KeyModel KeyProofs CodecModel TextModel TextSpec FrameProofs BuilderSpec MergeModel MergeSpec HeapProofs MergeProofs RgaProofs RgaTree MergeTheorems MergeTextModel
  TextMergeSpec TextCursors MergeKeeps TextMerge SizeProofs TextMergeTheorems StoreProofs RocksModel RocksSpec RocksProofs DurableSpec TextObjSpec TextObjProofs StepsTheorems.

Section Store.
Variable fbits : bytes -> N.
Variable fuel : nat.

(* each piece hangs on an op of a piece that came before it *)
Fixpoint follow (before : list rop) (ts : list tree) : Prop :=
  match ts with [] => True | t :: r => In (r_ref (root t)) (ids before) /\ follow (before ++ listing t) r end.
(* compactions of one key *)
Fixpoint compact_all (d : list (key * cell)) (k : key) (es : list compaction) : res (list (key * cell)) :=
  match es with [] => Done d | e :: r => rbind (compact fbits fuel d k e) (fun d1 => compact_all d1 k r) end.

Lemma hang_step A t g f : frame_says g (listing A) -> frame_says f (listing t) -> causal A -> causal t -> apt fuel (map bare (listing A ++ listing t)) ->
  In (r_ref (root t)) (ids (listing A)) ->
  exists h T, operator_merge fbits fuel RGA_RDT_FORM [g; f] = Done (Some h) /\ causal T /\ Permutation (map bare (listing T)) (map bare (listing A ++ listing t)) /\ frame_says h (listing T).
Proof.
  intros FA Ft CA Ct AA HA.
  assert (TI : trees_in [g; f] (map bare (listing A ++ listing t))).
  { exists [A; t]. split; [repeat (constructor; [assumption|]); constructor|]. split; [repeat (constructor; [assumption|]); constructor|]. cbn [flat_map]. rewrite app_nil_r. apply Permutation_refl. }
  assert (NDat : NoDup (ids (listing A ++ listing t))) by (rewrite ids_bare; apply AA).
  pose proof NDat as ND3. rewrite ids_app in ND3. apply nodup_app2 in ND3 as [NDA NDt].
  unfold ids in HA. apply in_map_iff in HA as (v & E & J).
  assert (Ot : uuid_ltb (r_id (root A)) (r_id (root t)) = true).
  { assert (LT : uuid_ltb (r_id v) (r_id (root t)) = true).
    { destruct AA as (_ & _ & B & _). apply (B (bare (root t)) (bare v)); [apply in_map, in_or_app; right; apply root_in|apply in_map, in_or_app; auto|exact (eq_sym E)]. }
    destruct (tree_min A v CA NDA J) as [-> |Q]; [exact LT|eapply uuid_ltb_trans; eassumption]. }
  destruct (few fbits fuel [g; f] _ (bare (root A)) TI AA) as (h & OM); [discriminate|cbn; lia| |].
  { intros u I. apply in_map_iff in I as (o & <- & I). apply in_app_iff in I as [I|I].
    - destruct (tree_min A o CA NDA I) as [-> |LT]; [left; reflexivity|right]. split; [exact LT|].
      assert (NR : o <> root A) by (intros ->; rewrite uuid_ltb_irrefl in LT; discriminate). pose proof (tree_refs A o CA NDA I NR) as R. unfold ids in R. apply in_map_iff in R as (w & E2 & J2).
      exists (bare w). split; [apply in_map; apply in_or_app; auto|exact E2].
    - right. destruct (tree_min t o Ct NDt I) as [-> |LT].
      + split; [exact Ot|]. exists (bare v). split; [apply in_map; apply in_or_app; auto|exact E].
      + split; [cbn [bare u_id]; eapply uuid_ltb_trans; eassumption|].
        assert (NR : o <> root t) by (intros ->; rewrite uuid_ltb_irrefl in LT; discriminate). pose proof (tree_refs t o Ct NDt I NR) as R. unfold ids in R. apply in_map_iff in R as (w & E2 & J2).
        exists (bare w). split; [apply in_map; apply in_or_app; auto|exact E2]. }
  destruct (merged fbits fuel [g; f] _ h TI AA ltac:(discriminate) OM) as (T & CT & PT & _ & FT). exists h, T. auto.
Qed.

Lemma one_step k A t g f fs : key_form k = RGA_RDT_FORM -> frame_says g (listing A) -> frame_says f (listing t) -> causal A -> causal t ->
  apt fuel (map bare (listing A ++ listing t)) -> In (r_ref (root t)) (ids (listing A)) ->
  exists h T, cell_compact fbits fuel k (CFull 1) (mkCell (Some g) (f :: fs)) = Done (mkCell (Some h) fs) /\ causal T /\
    Permutation (map bare (listing T)) (map bare (listing A ++ listing t)) /\ frame_says h (listing T).
Proof.
  intros FK FA Ft CA Ct AA HA. destruct (hang_step A t g f FA Ft CA Ct AA HA) as (h & T & OM & R). exists h, T. split; [|exact R].
  cbn [cell_compact ce_operands ce_value firstn skipn]. unfold full_merge. cbn [held app]. rewrite FK, OM. reflexivity.
Qed.
Lemma first_step k t f fs : key_form k = RGA_RDT_FORM -> frame_says f (listing t) -> causal t -> apt fuel (map bare (listing t)) ->
  exists h T, cell_compact fbits fuel k (CFull 1) (mkCell None (f :: fs)) = Done (mkCell (Some h) fs) /\ causal T /\
    Permutation (map bare (listing T)) (map bare (listing t)) /\ frame_says h (listing T).
Proof.
  intros FK Ft Ct AA.
  assert (TI : trees_in [f] (map bare (listing t))).
  { exists [t]. split; [constructor; [exact Ft|constructor]|]. split; [constructor; [exact Ct|constructor]|]. cbn [flat_map]. rewrite app_nil_r. apply Permutation_refl. }
  assert (NDt : NoDup (ids (listing t))) by (rewrite ids_bare; apply AA).
  destruct (few fbits fuel [f] _ (bare (root t)) TI AA) as (h & OM); [discriminate|cbn; lia| |].
  { intros u I. apply in_map_iff in I as (o & <- & I). destruct (tree_min t o Ct NDt I) as [-> |LT]; [left; reflexivity|right]. split; [exact LT|].
    assert (NR : o <> root t) by (intros ->; rewrite uuid_ltb_irrefl in LT; discriminate). pose proof (tree_refs t o Ct NDt I NR) as R. unfold ids in R. apply in_map_iff in R as (w & E2 & J2).
    exists (bare w). split; [apply in_map; exact J2|exact E2]. }
  destruct (merged fbits fuel [f] _ h TI AA ltac:(discriminate) OM) as (T & CT & PT & _ & FT). exists h, T. split; [|auto].
  cbn [cell_compact ce_operands ce_value firstn skipn]. unfold full_merge. cbn [held app]. rewrite FK, OM. reflexivity.
Qed.

Lemma follow_incl ts : forall a b, incl (ids a) (ids b) -> follow a ts -> follow b ts.
Proof.
  induction ts as [|t ts IH]; intros a b I; [exact (fun x => x)|]. cbn [follow]. intros [H F]. split; [apply I; exact H|]. apply (IH (a ++ listing t)); [|exact F].
  rewrite !ids_app. apply incl_app; [apply incl_appl; exact I|apply incl_appr, incl_refl].
Qed.
Lemma present d k (c : cell) : In k (map fst d) -> existsb (fun r : key * cell => key_eqb (fst r) k) d = true.
Proof. intro I. apply existsb_exists. apply in_map_iff in I as (r & <- & I). exists r. split; [exact I|apply key_eqb_refl]. Qed.
Lemma compact_put d k e c : In k (map fst d) -> cell_compact fbits fuel k e (cell_at d k) = Done c -> compact fbits fuel d k e = Done (put d k c).
Proof. intros I E. unfold compact. rewrite (present d k c I), E. reflexivity. Qed.

Lemma value_steps k : key_form k = RGA_RDT_FORM -> forall ts fs d A g, in_order d -> In k (map fst d) -> cell_at d k = mkCell (Some g) fs ->
  frame_says g (listing A) -> causal A -> Forall2 (fun f t => frame_says f (listing t)) fs ts -> Forall causal ts ->
  apt fuel (map bare (listing A ++ flat_map listing ts)) -> follow (listing A) ts ->
  exists d' h T, compact_all d k (repeat (CFull 1) (length fs)) = Done d' /\ in_order d' /\ cell_at d' k = mkCell (Some h) [] /\ (forall k', k' <> k -> cell_at d' k' = cell_at d k') /\
    causal T /\ Permutation (map bare (listing T)) (map bare (listing A ++ flat_map listing ts)) /\ frame_says h (listing T).
Proof.
  intro FK. induction ts as [|t ts IH]; intros fs d A g IO IK CE FA CA F CS AP FO; inversion F as [|f ? fs' ? F1 F2]; subst.
  - exists d, g, A. cbn [length repeat compact_all flat_map]. rewrite app_nil_r. split; [reflexivity|]. split; [exact IO|]. split; [exact CE|]. split; [auto|]. split; [exact CA|]. split; [apply Permutation_refl|exact FA].
  - cbn [follow] in FO. destruct FO as [HA FO]. cbn [flat_map] in AP. rewrite app_assoc in AP. pose proof AP as AP0. rewrite map_app in AP. destruct (apt_app fuel _ _ AP) as [AA _].
    destruct (one_step k A t g f fs' FK FA F1 CA (Forall_inv CS) AA HA) as (h & T & CC & CT & PT & FT).
    assert (IDS : forall x, In x (ids (listing T)) <-> In x (ids (listing A ++ listing t))).
    { intro x. rewrite !ids_bare. split; intro I; (eapply Permutation_in; [|exact I]); apply Permutation_map; [exact PT|apply Permutation_sym; exact PT]. }
    set (d1 := put d k (mkCell (Some h) fs')).
    destruct (IH fs' d1 T h) as (d' & h' & T' & C & O & CE' & OT & CT' & PT' & FT').
    + apply put_order. exact IO.
    + apply put_keys. auto.
    + unfold d1. rewrite (put_at d k _ k IO), key_eqb_refl. reflexivity.
    + exact FT.
    + exact CT.
    + exact F2.
    + exact (Forall_inv_tail CS).
    + apply (apt_perm fuel (map bare ((listing A ++ listing t) ++ flat_map listing ts))); [|exact AP0]. rewrite (map_app bare (listing T)), (map_app bare (listing A ++ listing t)). apply Permutation_app_tail, Permutation_sym. exact PT.
    + apply (follow_incl ts (listing A ++ listing t)); [|exact FO]. intros x I. apply IDS. exact I.
    + exists d', h', T'. split; [cbn [length repeat compact_all]; rewrite (compact_put d k (CFull 1) (mkCell (Some h) fs') IK) by (rewrite CE; exact CC); cbn [rbind]; exact C|].
      split; [exact O|]. split; [exact CE'|]. split.
      { intros k' NK. rewrite (OT k' NK). unfold d1. rewrite (put_at d k _ k' IO). rewrite (key_eqb_neq k k'); [reflexivity|congruence]. }
      split; [exact CT'|]. split; [|exact FT']. eapply Permutation_trans; [exact PT'|]. cbn [flat_map]. rewrite app_assoc, (map_app bare (listing T)), (map_app bare (listing A ++ listing t)). apply Permutation_app_tail. exact PT.
Qed.

(* However many pieces of a text are stored under a key: if each piece but the
   first hangs on one that came before it, then after compacting the oldest piece
   into the value, once for each piece, a read gives the tree of all the ops; the
   other keys are as they were. *)
Theorem C83_recovers : forall d k t ts f fs, in_order d -> In k (map fst d) -> key_form k = RGA_RDT_FORM ->
  held (ce_value (cell_at d k)) ++ ce_operands (cell_at d k) = f :: fs ->
  Forall2 (fun f t => frame_says f (listing t)) (f :: fs) (t :: ts) -> Forall causal (t :: ts) ->
  apt fuel (map bare (flat_map listing (t :: ts))) -> follow (listing t) ts ->
  exists d' g T, compact_all d k (repeat (CFull 1) (length (ce_operands (cell_at d k)))) = Done d' /\ rocks_read fbits fuel d' k = Done (g, KOk) /\
    causal T /\ Permutation (map bare (listing T)) (map bare (flat_map listing (t :: ts))) /\ frame_says g (listing T) /\
    (forall k', k' <> k -> cell_at d' k' = cell_at d k') /\ cell_at d' k = mkCell (Some g) [].
Proof.
  intros d k t ts f fs IO IK FK HE F CS AP FO. destruct (cell_at d k) as [v ops] eqn:CE. cbn [ce_value ce_operands] in *. inversion F as [|? ? ? ? F1 F2]; subst.
  assert (NE : k <> KEY_END) by (intros ->; vm_compute in FK; discriminate FK).
  assert (END : forall d' h, cell_at d' k = mkCell (Some h) [] -> rocks_read fbits fuel d' k = Done (h, KOk)).
  { intros d' h E. unfold rocks_read. rewrite (key_eqb_neq k KEY_END NE), E. reflexivity. }
  destruct v as [g|]; cbn [held app] in HE.
  - injection HE as -> ->. destruct (value_steps k FK ts fs d t f IO IK CE F1 (Forall_inv CS) F2 (Forall_inv_tail CS) AP FO) as (d' & h & T & C & O & CE' & OT & R).
    exists d', h, T. split; [exact C|]. split; [apply END; exact CE'|]. destruct R as (A & B & D). auto 6.
  - subst ops. pose proof AP as AP0. cbn [flat_map] in AP. rewrite map_app in AP. destruct (apt_app fuel _ _ AP) as [AA _].
    destruct (first_step k t f fs FK F1 (Forall_inv CS) AA) as (h & T & CC & CT & PT & FT).
    assert (IDS : incl (ids (listing t)) (ids (listing T))).
    { intros x I. rewrite ids_bare in *. eapply Permutation_in; [|exact I]. apply Permutation_map, Permutation_sym. exact PT. }
    set (d1 := put d k (mkCell (Some h) fs)).
    destruct (value_steps k FK ts fs d1 T h) as (d' & h' & T' & C & O & CE' & OT & CT' & PT' & FT').
    + apply put_order. exact IO.
    + apply put_keys. auto.
    + unfold d1. rewrite (put_at d k _ k IO), key_eqb_refl. reflexivity.
    + exact FT.
    + exact CT.
    + exact F2.
    + exact (Forall_inv_tail CS).
    + apply (apt_perm fuel (map bare (listing t ++ flat_map listing ts))); [|exact AP0]. rewrite (map_app bare (listing T)), (map_app bare (listing t)). apply Permutation_app_tail, Permutation_sym. exact PT.
    + apply (follow_incl ts (listing t)); [exact IDS|exact FO].
    + exists d', h', T'. split; [cbn [length repeat compact_all]; rewrite (compact_put d k (CFull 1) (mkCell (Some h) fs) IK) by (rewrite CE; exact CC); cbn [rbind]; exact C|].
      split; [apply END; exact CE'|]. split; [exact CT'|]. split.
      { eapply Permutation_trans; [exact PT'|]. cbn [flat_map]. rewrite (map_app bare (listing T)), (map_app bare (listing t)). apply Permutation_app_tail. exact PT. }
      split; [exact FT'|]. split; [|exact CE']. intros k' NK. rewrite (OT k' NK). unfold d1. rewrite (put_at d k _ k' IO), (key_eqb_neq k k'); [reflexivity|congruence].
Qed.

(* pieces in an order in which each hangs on one before it *)
Definition in_turns (ts : list tree) : Prop := match ts with [] => True | t :: r => follow (listing t) r end.
Definition pieces (fs : list bytes) (us : list uop) : Prop :=
  exists ts, Forall2 (fun f t => frame_says f (listing t)) fs ts /\ Forall causal ts /\ Permutation (map bare (flat_map listing ts)) us /\ in_turns ts.
Definition told_in_turns (W : list (list rop)) : Prop :=
  exists ts, W = map listing ts /\ Forall causal ts /\ apt fuel (map bare (concat W)) /\ in_turns ts.

Lemma follow_app a : forall l b, follow l (a ++ b) <-> follow l a /\ follow (l ++ flat_map listing a) b.
Proof.
  induction a as [|t a IH]; intros l b; cbn [app follow flat_map]; [rewrite app_nil_r; tauto|]. rewrite (IH (l ++ listing t) b), <- app_assoc. tauto.
Qed.
Lemma follow_refs ts : forall l, follow l ts -> Forall causal ts -> NoDup (ids (flat_map listing ts)) -> forall o, In o (flat_map listing ts) -> In (r_ref o) (ids (l ++ flat_map listing ts)).
Proof.
  induction ts as [|t ts IH]; intros l F C ND o I; [destruct I|]. cbn [flat_map follow] in *. destruct F as [H F]. rewrite ids_app in ND. apply nodup_app2 in ND as [N1 N2].
  apply in_app_iff in I as [I|I].
  - rewrite !ids_app. apply in_or_app. destruct (tree_min t o (Forall_inv C) N1 I) as [-> |LT]; [left; exact H|right]. apply in_or_app. left.
    apply (tree_refs t o (Forall_inv C) N1 I). intros ->. rewrite uuid_ltb_irrefl in LT. discriminate.
  - pose proof (IH (l ++ listing t) F (Forall_inv_tail C) N2 o I) as K. rewrite <- app_assoc in K. exact K.
Qed.
Lemma same_ids (T : tree) l : Permutation (map bare (listing T)) (map bare l) -> forall x, In x (ids (listing T)) <-> In x (ids l).
Proof. intros P x. rewrite !ids_bare. split; intro I; (eapply Permutation_in; [|exact I]); apply Permutation_map; [exact P|apply Permutation_sym; exact P]. Qed.
(* the merge of neighbouring pieces hangs on what the first of them hangs on *)
Lemma joint_hangs l G T : follow l G -> Forall causal G -> apt fuel (map bare (flat_map listing G)) -> causal T -> Permutation (map bare (listing T)) (map bare (flat_map listing G)) ->
  In (r_ref (root T)) (ids l).
Proof.
  intros F C AP CT P. assert (ND : NoDup (ids (flat_map listing G))) by (rewrite ids_bare; apply AP).
  assert (NT : NoDup (ids (listing T))) by (rewrite ids_bare; eapply Permutation_NoDup; [apply Permutation_map, Permutation_sym; exact P|rewrite <- ids_bare; exact ND]).
  assert (I : In (bare (root T)) (map bare (flat_map listing G))) by (eapply Permutation_in; [exact P|apply in_map, root_in]).
  apply in_map_iff in I as (o & E & I). assert (ER : r_ref o = r_ref (root T)) by exact (f_equal u_ref E).
  pose proof (follow_refs G l F C ND o I) as R. rewrite ER, ids_app in R. apply in_app_iff in R as [R|R]; [exact R|exfalso].
  apply (same_ids T _ P) in R. unfold ids in R. apply in_map_iff in R as (w & E2 & J).
  assert (AT : apt fuel (map bare (listing T))) by (eapply apt_perm; [apply Permutation_sym; exact P|exact AP]). destruct AT as (_ & _ & B & _).
  pose proof (B (bare (root T)) (bare w) (in_map bare _ _ (root_in T)) (in_map bare _ _ J) (eq_sym E2)) as LT. cbn [bare u_id] in LT.
  destruct (tree_min T w CT NT J) as [-> |L2]; [rewrite uuid_ltb_irrefl in LT; discriminate|]. pose proof (uuid_ltb_trans _ _ _ LT L2) as K. rewrite uuid_ltb_irrefl in K. discriminate.
Qed.
Lemma pieces_swap a b c us g : pieces (a ++ b ++ c) us -> apt fuel us -> b <> [] -> operator_merge fbits fuel RGA_RDT_FORM b = Done (Some g) -> pieces (a ++ g :: c) us.
Proof.
  intros (ts & F & C & P & IT) AP NE OM. apply Forall2_app_inv_l in F as (ta & tr & Fa & F & ->). apply Forall2_app_inv_l in F as (tb & tc & Fb & Fc & ->).
  apply Forall_app in C as [Ca C]. apply Forall_app in C as [Cb Cc].
  pose proof (apt_perm fuel _ _ (Permutation_sym P) AP) as AL. rewrite !flat_map_app, !map_app in AL. apply apt_app in AL as [_ AL]. apply apt_app in AL as [AB _].
  destruct (merged fbits fuel b (map bare (flat_map listing tb)) g) as (T & CT & PT & _ & FT); [exists tb; auto|exact AB|exact NE|exact OM|].
  exists (ta ++ T :: tc). split; [apply Forall2_app; [exact Fa|constructor; assumption]|]. split; [apply Forall_app; split; [exact Ca|constructor; assumption]|]. split.
  { eapply Permutation_trans; [|exact P]. rewrite !flat_map_app, !map_app. apply Permutation_app_head. cbn [flat_map]. rewrite map_app. apply Permutation_app_tail. exact PT. }
  destruct ta as [|t0 ta]; cbn [app in_turns] in *.
  - destruct tb as [|t1 tb]; [inversion Fb; subst; congruence|]. cbn [app in_turns] in IT. apply follow_app in IT as [_ IT].
    apply (follow_incl tc (listing t1 ++ flat_map listing tb)); [|exact IT]. intros x I. apply (same_ids T _ PT). exact I.
  - apply follow_app in IT as [I1 I2]. apply follow_app in I2 as [I2 I3]. apply follow_app. split; [exact I1|]. cbn [follow]. split.
    + apply (joint_hangs _ tb T I2 Cb AB CT PT).
    + eapply follow_incl; [|exact I3]. intros x I. rewrite ids_app in *. apply in_app_iff in I as [I|I]; apply in_or_app; [left; exact I|right; apply (same_ids T _ PT); exact I].
Qed.

Definition kept (v : option bytes) (ops : list bytes) (W : list (list rop)) : Prop := told_in_turns W -> pieces (held v ++ ops) (map bare (concat W)).
Lemma in_turns_app a b : in_turns (a ++ b) -> in_turns a.
Proof. destruct a as [|t a]; [intros _; exact I|]. cbn [app in_turns]. intro F. apply follow_app in F. apply F. Qed.
Lemma told_prefix a b : told_in_turns (a ++ b) -> told_in_turns a.
Proof.
  intros (ts & E & C & AP & IT). symmetry in E. apply map_eq_app in E as (t1 & t2 & -> & <- & <-). exists t1. split; [reflexivity|]. apply Forall_app in C as [C _]. split; [exact C|].
  rewrite concat_app, map_app in AP. apply apt_app in AP as [AP _]. split; [exact AP|exact (in_turns_app _ _ IT)].
Qed.
Lemma kept_write v ops W f d : kept v ops W -> frame_says f d -> kept v (ops ++ [f]) (W ++ [d]).
Proof.
  intros K FS TW. destruct (K (told_prefix _ _ TW)) as (ts & F & C & P & IT). destruct TW as (ws & E & CW & AP & IW).
  symmetry in E. apply map_eq_app in E as (w1 & w2 & -> & <- & E2). destruct w2 as [|tn [|? ?]]; try discriminate. cbn [map] in E2. injection E2 as <-.
  apply Forall_app in CW as [_ CN]. rewrite app_assoc. exists (ts ++ [tn]). split; [apply Forall2_app; [exact F|constructor; [exact FS|constructor]]|].
  split; [apply Forall_app; auto|]. split.
  { rewrite flat_map_app, concat_app, !map_app. apply Permutation_app; [exact P|]. cbn [flat_map concat]. apply Permutation_refl. }
  assert (IDS : incl (ids (concat (map listing w1))) (ids (flat_map listing ts))).
  { intros x I. rewrite ids_bare in *. eapply Permutation_in; [|exact I]. apply Permutation_map, Permutation_sym. exact P. }
  destruct ts as [|t ts]; [exact I|]. cbn [app in_turns] in *. apply follow_app. split; [exact IT|]. cbn [follow]. split; [|exact I].
  destruct w1 as [|x w1].
  - exfalso. cbn [map concat] in P. apply Permutation_length in P. rewrite map_length in P. destruct t. cbn in P. discriminate.
  - cbn [app in_turns] in IW. apply follow_app in IW as [_ IW]. cbn [follow] in IW. apply (IDS (r_ref (root tn))). cbn [map concat]. rewrite <- flat_map_concat_map. apply IW.
Qed.

Lemma compact_run d k es : rrun fbits fuel d (map (RCompact k) es) = compact_all d k es.
Proof. revert d. induction es as [|e es IH]; intro d; [reflexivity|]. cbn [map rrun rstep compact_all]. destruct (compact fbits fuel d k e); cbn [rbind]; [apply IH| |]; reflexivity. Qed.

(* A text whose pieces are written in causal order is never lost: after any
   history of writes, batches and compactions, whether or not the text can be
   read then, compacting its oldest piece into the value until no operand is left
   makes the read give the tree of all the ops written. *)
Theorem C83_never_lost : forall es d k ts, key_form k = RGA_RDT_FORM -> ts <> [] ->
  Forall2 (fun f t => frame_says f (listing t)) (put_under k es) ts -> Forall causal ts -> apt fuel (map bare (flat_map listing ts)) -> in_turns ts ->
  rrun fbits fuel [] es = Done d ->
  exists n d' g T, rrun fbits fuel d (repeat (RCompact k (CFull 1)) n) = Done d' /\ rocks_read fbits fuel d' k = Done (g, KOk) /\
    causal T /\ Permutation (map bare (listing T)) (map bare (flat_map listing ts)) /\ frame_says g (listing T) /\
    (forall k', k' <> k -> cell_at d' k' = cell_at d k').
Proof.
  intros es d k ts FK NE F C AP IT R.
  assert (H : in_order d /\ kept (ce_value (cell_at d k)) (ce_operands (cell_at d k)) ([] ++ map listing ts)).
  { apply (history_inv fbits fuel k frame_says told_in_turns kept told_prefix kept_write) with (es := es) (d := []).
    - intros v a b c W g K B NB OM TW. rewrite FK in OM. rewrite app_assoc. apply (pieces_swap (held v ++ a) b c); [rewrite <- app_assoc; exact (K TW)| |exact NB|exact OM]. destruct B as (? & _ & _ & AB & _). exact AB.
    - intros v b c W g K B NB OM TW. rewrite FK in OM. pose proof (K TW) as K2. rewrite app_assoc in K2. apply (pieces_swap [] (held v ++ b) c _ g K2); [destruct B as (? & _ & _ & AB & _); exact AB|destruct v; [discriminate|exact NB]|exact OM].
    - constructor.
    - unfold inv. intros _. exists []. cbn [cell_at ce_value ce_operands held app concat map flat_map in_turns cell0]. split; [constructor|]. split; [constructor|]. split; [constructor|exact I].
    - clear -F. induction F; cbn [map]; constructor; assumption.
    - exists ts. cbn [app]. rewrite <- flat_map_concat_map. auto.
    - exact R. }
  destruct H as [IO K]. cbn [app] in K. destruct K as (ss & FS & CS & PS & IS); [exists ts; rewrite <- flat_map_concat_map; auto|]. rewrite <- flat_map_concat_map in PS.
  destruct (held (ce_value (cell_at d k)) ++ ce_operands (cell_at d k)) as [|f fs] eqn:HE.
  { exfalso. inversion FS; subst. cbn in PS. destruct ts as [|[o cs] ts]; [congruence|]. apply Permutation_nil in PS. discriminate. }
  destruct ss as [|s ss]; [inversion FS|].
  assert (IK : In k (map fst d)).
  { destruct (existsb (fun r => key_eqb (fst r) k) d) eqn:EX.
    - apply existsb_exists in EX as (r & I & E). apply key_eqb_eq in E. rewrite <- E. apply in_map. exact I.
    - exfalso. rewrite cell_at_absent in HE; [discriminate|]. intro I. rewrite (present d k cell0 I) in EX. discriminate. }
  destruct (C83_recovers d k s ss f fs IO IK FK HE FS CS) as (d' & g & T & CA & RD & CT & PT & FT & OT & _); [apply (apt_perm fuel _ _ (Permutation_sym PS) AP)|exact IS|].
  exists (length (ce_operands (cell_at d k))), d', g, T. split.
  { assert (E : repeat (RCompact k (CFull 1)) (length (ce_operands (cell_at d k))) = map (RCompact k) (repeat (CFull 1) (length (ce_operands (cell_at d k))))).
    { generalize (length (ce_operands (cell_at d k))). induction n as [|n IHn]; [reflexivity|]. cbn [repeat map]. rewrite <- IHn. reflexivity. }
    rewrite E, compact_run. exact CA. }
  split; [exact RD|]. split; [exact CT|]. split; [eapply Permutation_trans; [exact PT|exact PS]|]. split; [exact FT|exact OT].
Qed.
End Store.
Print Assumptions C83_recovers.
Print Assumptions C83_never_lost.
