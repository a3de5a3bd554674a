(* ScanRGA on the listing of a tree: the scan computes a bottom-up evaluation
   of the tree (eval), and eval agrees with the specification. *)
From Verif Require Import Prelude UuidModel UuidProofs KeyModel TextModel MergeModel MergeSpec MergeProofs RgaTree IncStackModel ScanModel ScanSpec.

Definition lnum (l : layer) : nat :=
  match l with LRoot => 0 | LElement => 1 | LRemove => 2 | LUndo => 3 | LTrash => 4 end.
Definition knum (k : kind) : nat := match k with KElement => 1 | KRemove => 2 | KUndo => 3 end.

Lemma rm_code : rm = RM_UUID. Proof. vm_compute. reflexivity. Qed.
Lemma un_code : un = UN_UUID. Proof. vm_compute. reflexivity. Qed.
Lemma entry_kind o : entry_type o = knum (kind_of o).
Proof.
  unfold entry_type, kind_of. rewrite rm_code, un_code. destruct (r_vals o) as [|[u|z|s|s] [|v r]]; try reflexivity.
  destruct (uuid_eqb u RM_UUID); [reflexivity|]. destruct (uuid_eqb u UN_UUID); reflexivity.
Qed.
Lemma lnum_inj a b : lnum a = lnum b -> a = b.
Proof. destruct a, b; cbn; congruence. Qed.
Lemma layer_eqb_eq a b : layer_eqb a b = true <-> a = b.
Proof. destruct a, b; cbn; split; congruence. Qed.
Lemma below_mono l k : (lnum l <= lnum (below l k))%nat.
Proof. destruct l, k; cbn; lia. Qed.

(* how many ops of a chain are of a layer before number s *)
Fixpoint cnt (s : nat) (ch : chain) : nat :=
  match ch with [] => 0 | _ :: up => (if lnum (layer_of ch) <? s then 1 else 0) + cnt s up end%nat.
Lemma layer_cons o up : up <> [] -> layer_of (o :: up) = below (layer_of up) (kind_of o).
Proof. destruct up; [congruence|reflexivity]. Qed.
Lemma layer_mono o up : (lnum (layer_of up) <= lnum (layer_of (o :: up)))%nat.
Proof. destruct up as [|x up]; [cbn; lia|]. rewrite (layer_cons o) by discriminate. apply below_mono. Qed.
Lemma cnt_all s ch : (lnum (layer_of ch) < s)%nat -> cnt s ch = length ch.
Proof.
  induction ch as [|o up IH]; intro H; [reflexivity|]. cbn [cnt length]. pose proof (layer_mono o up).
  rewrite IH by lia. replace (lnum (layer_of (o :: up)) <? s)%nat with true by (symmetry; apply Nat.ltb_lt; lia). reflexivity.
Qed.
Lemma cnt_le s ch : (cnt s ch <= length ch)%nat.
Proof. induction ch as [|o up IH]; [reflexivity|]. cbn [cnt length]. destruct (_ <? s)%nat; lia. Qed.
Lemma cnt_up s o up : (s <= lnum (layer_of (o :: up)))%nat -> cnt s (o :: up) = cnt s up.
Proof. intro H. cbn [cnt]. replace (lnum (layer_of (o :: up)) <? s)%nat with false by (symmetry; apply Nat.ltb_ge; lia). reflexivity. Qed.
Lemma row_cnt L ch : (lnum (layer_of ch) <= lnum L)%nat -> (row L ch + cnt (lnum L) ch = length ch)%nat.
Proof.
  induction ch as [|o up IH]; intro H; [reflexivity|]. cbn [row length].
  destruct (layer_eqb (layer_of (o :: up)) L) eqn:E.
  - apply layer_eqb_eq in E. rewrite cnt_up by (rewrite E; lia). pose proof (layer_mono o up). rewrite E in H0. specialize (IH H0). lia.
  - assert (layer_of (o :: up) <> L) by (intro X; apply layer_eqb_eq in X; congruence).
    rewrite cnt_all; [reflexivity|]. assert (lnum (layer_of (o :: up)) <> lnum L) by (intro X; apply lnum_inj in X; congruence). lia.
Qed.
Lemma rank_cnt ch : (rank ch + cnt (lnum (layer_of ch)) ch = length ch)%nat.
Proof. unfold rank. apply row_cnt. lia. Qed.

Lemma rank_pos o up : (1 <= rank (o :: up))%nat.
Proof. unfold rank. cbn [row]. replace (layer_eqb (layer_of (o :: up)) (layer_of (o :: up))) with true by (symmetry; apply layer_eqb_eq; reflexivity). lia. Qed.

(* ---- evaluation of a tree, bottom up ---- *)
Record ev : Type := mkEv { e_flags : list bool; e_kills : list nat; e_oob : bool }.
(* the path index a removal or undo works on, when it acts *)
Definition self_oob (ch : chain) (me : bool) : bool :=
  match layer_of ch with
  | LRemove => negb me && (length ch <? 2 * rank ch)%nat
  | LUndo => (length ch <? 2 * rank ch)%nat
  | _ => false
  end.
Definition self_kills (ch : chain) (me : bool) : list nat :=
  let a := (length ch - 2 * rank ch)%nat in
  match layer_of ch with
  | LRemove => if negb me && (0 <? a)%nat then [a] else []
  | LUndo => if (cnt 2 ch <? a)%nat then [a] else []
  | _ => []
  end.
Definition is_element (l : layer) : bool := layer_eqb l LElement.
Definition hit (i : nat) (K : list nat) : bool := existsb (Nat.eqb i) K.
Fixpoint eval (up : chain) (t : tree) : ev :=
  match t with
  | Node o cs =>
      let ch := o :: up in
      let subs := map (eval ch) cs in
      let K := flat_map e_kills subs in
      let me := hit (length up) K in
      mkEv ((negb (is_element (layer_of ch)) || me) :: flat_map e_flags subs)
           (K ++ self_kills ch me)
           (existsb e_oob subs || self_oob ch me)
  end.

(* ---- the scan over a list of ops ---- *)
Fixpoint go (rt : uuid) (s : scan_st) (ops : list rop) : scan_out :=
  match ops with
  | [] => match scan_op (Time WORD_NEVER 0) rt META_ENTRY s with inl s' => scan_finish s' | inr x => x end
  | o :: r => match scan_op (r_id o) (r_ref o) (entry_type o) s with inl s' => go rt s' r | inr x => x end
  end.
Inductive steps : scan_st -> list rop -> scan_st -> Prop :=
| steps_nil : forall s, steps s [] s
| steps_cons : forall s o l s1 s2, scan_op (r_id o) (r_ref o) (entry_type o) s = inl s1 -> steps s1 l s2 -> steps s (o :: l) s2.
Lemma steps_go rt s l s' rest : steps s l s' -> go rt s (l ++ rest) = go rt s' rest.
Proof. induction 1 as [s|s o l s1 s2 E S1 IH]; [reflexivity|]. cbn [app go]. rewrite E. exact IH. Qed.
Lemma steps_app s l s1 m s2 : steps s l s1 -> steps s1 m s2 -> steps s (l ++ m) s2.
Proof. induction 1 as [s|s o l s1 s3 E S1 IH]; intro H; [exact H|]. cbn [app]. econstructor; [exact E|apply IH; exact H]. Qed.
Definition unr (ref : uuid) (s : scan_st) : pop_out := unroll (length (s_path s)) ref s.

Lemma pop_path s s' : pop_once s = PopOk s' -> exists top, s_path s = top :: s_path s' /\ s_pos s' = s_pos s.
Proof.
  unfold pop_once. destruct (s_path s) as [|top p]; [discriminate|]. destruct (s_kills s) as [|k ks]; [discriminate|]. destruct (s_poss s) as [|q qs]; [discriminate|].
  intro H. exists top. revert H. cbv zeta.
  repeat match goal with
         | |- context [if ?b then _ else _] => destruct b
         | |- context [match ?b with Some _ => _ | None => _ end] => destruct b
         end; intro H; try discriminate; injection H as <-; split; reflexivity.
Qed.
Lemma unr_eq ref s : unr ref s =
  match s_path s with
  | [] => PopUB
  | top :: _ => if uuid_eqb top ref then PopOk s else match pop_once s with PopOk s' => unr ref s' | x => x end
  end.
Proof.
  unfold unr. destruct (s_path s) as [|top p] eqn:P; [cbn [length unroll]; rewrite P; reflexivity|].
  cbn [length unroll]. rewrite P. destruct (uuid_eqb top ref); [reflexivity|]. destruct (pop_once s) as [s'| |] eqn:Q; try reflexivity.
  apply pop_path in Q. destruct Q as (t & Q & _). rewrite P in Q. injection Q as _ Q. rewrite Q. reflexivity.
Qed.

Record inv (s : scan_st) (ch : chain) : Prop := mkInv {
  i_ne : ch <> [];
  i_state : s_state s = lnum (layer_of ch);
  i_path : s_path s = map r_id ch;
  i_kills : length (s_kills s) = length ch;
  i_poss : length (s_poss s) = length ch;
  i_posb : Forall (fun p => p < N.of_nat (length (s_tombs s))) (s_poss s);
  i_depth : s_depth s = N.of_nat (length ch);
  i_pos : s_pos s + 1 = N.of_nat (length (s_tombs s));
  i_len : (length ch <= length (s_tombs s))%nat;
  i_c5 : length (s_ceil s) = 5%nat;
  i_ceil : forall j, (j <= lnum (layer_of ch))%nat -> nth j (s_ceil s) 0 = N.of_nat (cnt j ch) }.

(* marking path indices (the back of the path has the highest) *)
Fixpoint kl (K : list nat) (l : list bool) : list bool :=
  match l with [] => [] | k :: r => (k || hit (length r) K) :: kl K r end.
Lemma kl_length K l : length (kl K l) = length l.
Proof. induction l as [|k r IH]; [reflexivity|]. cbn [kl length]. rewrite IH. reflexivity. Qed.
Lemma hit_app i A B : hit i (A ++ B) = hit i A || hit i B.
Proof. unfold hit. apply existsb_app. Qed.
Lemma kl_app A B l : kl (A ++ B) l = kl B (kl A l).
Proof. induction l as [|k r IH]; [reflexivity|]. cbn [kl]. rewrite kl_length, hit_app, IH, orb_assoc. reflexivity. Qed.
Lemma kl_nil l : kl [] l = l.
Proof. induction l as [|k r IH]; [reflexivity|]. cbn [kl hit existsb]. rewrite orb_false_r, IH. reflexivity. Qed.
Lemma set_true_kl l a : (a < length l)%nat -> set_true l (N.of_nat a) = Some (kl [a] l).
Proof.
  intro H. unfold set_true. replace (N.of_nat a <? N.of_nat (length l)) with true by lia. f_equal. rewrite Nat2N.id.
  revert a H. induction l as [|k r IH]; intros a H; cbn [length] in *; [lia|].
  cbn [kl hit existsb]. rewrite orb_false_r. destruct (Nat.eq_dec a (length r)) as [->|NE].
  - rewrite Nat.eqb_refl, orb_true_r. replace (S (length r) - 1 - length r)%nat with 0%nat by lia. unfold set_at. cbn [firstn skipn app]. f_equal.
    clear. assert (G : forall l n, (length l <= n)%nat -> kl [n] l = l).
    { induction l as [|k l IH]; intros n H; [reflexivity|]. cbn [kl hit existsb length] in *. replace (length l =? n)%nat with false by (symmetry; apply Nat.eqb_neq; lia). rewrite IH by lia. destruct k; reflexivity. }
    symmetry. apply G. lia.
  - replace (length r =? a)%nat with false by (symmetry; apply Nat.eqb_neq; lia). rewrite orb_false_r.
    replace (S (length r) - 1 - a)%nat with (S (length r - 1 - a)) by lia. unfold set_at in *. cbn [firstn skipn app]. f_equal. apply IH. lia.
Qed.

Record rel (s s' : scan_st) (K : list nat) (F : list bool) : Prop := mkRel {
  r_tombs : s_tombs s' = s_tombs s ++ F;
  r_kills : s_kills s' = kl K (s_kills s);
  r_poss : s_poss s' = s_poss s }.
Lemma rel_refl s : rel s s [] [].
Proof. constructor; [rewrite app_nil_r| rewrite kl_nil|]; reflexivity. Qed.
Lemma rel_trans a b c K1 F1 K2 F2 : rel a b K1 F1 -> rel b c K2 F2 -> rel a c (K1 ++ K2) (F1 ++ F2).
Proof. intros [A1 A2 A3] [B1 B2 B3]. constructor; [rewrite B1, A1, app_assoc|rewrite B2, A2, kl_app|rewrite B3, A3]; reflexivity. Qed.

(* ---- the pop of a finished op ---- *)
Lemma sub32_le a b : b <= a -> a < 2 ^ 32 -> sub32 a b = a - b.
Proof.
  intros H B. unfold sub32. replace (a + (2 ^ 32 - b)) with ((a - b) + 1 * 2 ^ 32) by lia.
  rewrite N.mod_add by discriminate. apply N.mod_small. lia.
Qed.
Lemma sub32_gt a b : a < b -> b <= 2 ^ 32 -> sub32 a b = 2 ^ 32 - (b - a).
Proof. intros H B. unfold sub32. rewrite N.mod_small by lia. lia. Qed.

Lemma lower_inv s o up : inv s (o :: up) -> up <> [] -> lower (s_ceil s) (N.of_nat (length up)) (s_state s) = Some (lnum (layer_of up)).
Proof.
  intros I NE. destruct I as [_ IS _ _ _ _ _ _ _ _ IC]. rewrite IS. pose proof (layer_mono o up) as M.
  assert (G : forall j, (lnum (layer_of up) <= j <= lnum (layer_of (o :: up)))%nat -> lower (s_ceil s) (N.of_nat (length up)) j = Some (lnum (layer_of up))).
  { induction j as [|j IH]; intro H.
    - cbn [lower]. rewrite IC by lia. rewrite cnt_up by lia.
      assert (L0 : lnum (layer_of up) = 0%nat) by lia. replace (N.of_nat (length up) =? N.of_nat (cnt 0 up)) with false.
      + rewrite L0. reflexivity.
      + symmetry. apply N.eqb_neq. assert (C0 : forall c, cnt 0 c = 0%nat) by (induction c; [reflexivity|cbn [cnt]; rewrite IHc; reflexivity]).
        rewrite C0. destruct up; [congruence|cbn [length]; lia].
    - cbn [lower]. rewrite IC by lia. rewrite cnt_up by lia. destruct (Nat.eq_dec (lnum (layer_of up)) (S j)) as [E|E].
      + replace (N.of_nat (length up) =? N.of_nat (cnt (S j) up)) with false; [rewrite E; reflexivity|]. symmetry. apply N.eqb_neq.
        destruct up as [|x up]; [congruence|]. cbn [length]. rewrite cnt_up by lia. pose proof (cnt_le (S j) up). lia.
      + rewrite cnt_all by lia. rewrite N.eqb_refl. apply IH. lia. }
  apply G. lia.
Qed.

Definition tombs_after (s : scan_st) (ch : chain) (me : bool) : list bool :=
  if is_element (layer_of ch) && me then set_at (s_tombs s) (N.to_nat (hd 0 (s_poss s))) true else s_tombs s.
Lemma set_at_length {X} (l : list X) i x : (i < length l)%nat -> length (set_at l i x) = length l.
Proof.
  intro H. unfold set_at. rewrite app_length, firstn_length. pose proof (skipn_length i l) as K. destruct (skipn i l) as [|y r] eqn:E; cbn [length] in *; lia.
Qed.

Lemma pop_inv s o up : inv s (o :: up) -> up <> [] -> N.of_nat (length (s_tombs s)) < 2 ^ 31 ->
  let me := hd false (s_kills s) in
  if self_oob (o :: up) me then pop_once s = PopUB
  else exists s', pop_once s = PopOk s' /\ inv s' up /\ s_tombs s' = tombs_after s (o :: up) me /\
         s_kills s' = kl (self_kills (o :: up) me) (tl (s_kills s)) /\ s_poss s' = tl (s_poss s) /\ s_pos s' = s_pos s.
Proof.
  intros I NE B. cbv zeta. pose proof (lower_inv s o up I NE) as LW. destruct I as [_ IS IP IK IPS IPB ID IPO IL I5 IC].
  destruct (s_kills s) as [|k ks] eqn:EK; [discriminate IK|]. destruct (s_poss s) as [|p ps] eqn:EP; [discriminate IPS|].
  cbn [hd tl]. cbn [map] in IP. cbn [length] in IK, IPS, ID, IL. injection IK as IK. injection IPS as IPS.
  assert (D1 : sub32 (s_depth s) 1 = N.of_nat (length up)) by (rewrite ID, sub32_le; lia).
  assert (LC : forall j, (j <= lnum (layer_of (o :: up)))%nat -> nth j (s_ceil s) 0 <= N.of_nat (S (length up))).
  { intros j Hj. rewrite IC by exact Hj. pose proof (cnt_le j (o :: up)). cbn [length] in *. lia. }
  (* what a pop does once the marks are set *)
  assert (NEXT : forall tombs kl', length kl' = S (length up) -> length tombs = length (s_tombs s) ->
    match lower (s_ceil s) (N.of_nat (length up)) (s_state s) with
    | None => PopUB
    | Some state => PopOk (mkScan tombs state (map r_id up) (tl kl') ps (N.of_nat (length up)) (s_pos s) (s_ceil s))
    end = PopOk (mkScan tombs (lnum (layer_of up)) (map r_id up) (tl kl') ps (N.of_nat (length up)) (s_pos s) (s_ceil s)) /\
    inv (mkScan tombs (lnum (layer_of up)) (map r_id up) (tl kl') ps (N.of_nat (length up)) (s_pos s) (s_ceil s)) up).
  { intros tombs kl' L1 L2. rewrite LW. split; [reflexivity|].
    constructor; cbn [s_tombs s_state s_path s_kills s_poss s_depth s_pos s_ceil]; try assumption; try reflexivity.
    - destruct kl'; [discriminate|]. cbn [tl length] in *. lia.
    - inversion IPB as [|? ? ? IPB']; subst. rewrite L2. exact IPB'.
    - rewrite L2. exact IPO.
    - rewrite L2. cbn [length] in IL. lia.
    - intros j Hj. pose proof (layer_mono o up). rewrite IC by lia. rewrite cnt_up by lia. reflexivity. }
  assert (TL : forall K, tl (kl K (k :: ks)) = kl K ks) by reflexivity.
  assert (TS : forall j, (s_state s =? j)%nat = (lnum (layer_of (o :: up)) =? j)%nat) by (intro; rewrite IS; reflexivity).
  unfold pop_once. rewrite IP, EK, EP, !TS. cbv zeta beta. rewrite !D1. clear TS. unfold self_oob, self_kills, tombs_after, is_element. pose proof (rank_cnt (o :: up)) as RC. pose proof (rank_pos o up) as RP.
  rewrite EP. cbn [hd]. cbn [length] in RC |- *.
  destruct (layer_of (o :: up)) eqn:L; cbn [lnum layer_eqb Nat.eqb META_ENTRY ENTRY REMOVE UNDO andb negb] in *.
  - (* root: not on a chain with ancestors *)
    exfalso. rewrite layer_cons in L by exact NE. destruct (layer_of up), (kind_of o); discriminate.
  - (* element *)
    destruct k; cbn [negb].
    + inversion IPB as [|? ? PB _]; subst. unfold set_true_f. replace (p <? N.of_nat (length (s_tombs s))) with true by lia.
      destruct (NEXT (set_at (s_tombs s) (N.to_nat p) true) (true :: ks) ltac:(cbn [length]; lia) ltac:(apply set_at_length; lia)) as [N1 N2].
      rewrite N1. eexists. split; [reflexivity|]. split; [exact N2|]. cbn [s_tombs s_kills s_poss s_pos tl]. rewrite kl_nil. repeat split; reflexivity.
    + destruct (NEXT (s_tombs s) (false :: ks) ltac:(cbn [length]; lia) eq_refl) as [N1 N2].
      rewrite N1. eexists. split; [reflexivity|]. split; [exact N2|]. cbn [s_tombs s_kills s_poss s_pos tl]. rewrite kl_nil. repeat split; reflexivity.
  - (* removal *)
    destruct k; cbn [negb andb].
    + destruct (NEXT (s_tombs s) (true :: ks) ltac:(cbn [length]; lia) eq_refl) as [N1 N2].
      rewrite N1. eexists. split; [reflexivity|]. split; [exact N2|]. cbn [s_tombs s_kills s_poss s_pos tl]. rewrite kl_nil. repeat split; reflexivity.
    + unfold ceil, REMOVE. pose proof (LC 2%nat ltac:(lia)) as LC2. rewrite IC in LC2 |- * by lia. rewrite ID.
      rewrite (sub32_le (N.of_nat (S (length up)))) by lia.
      set (c := cnt 2 (o :: up)) in *. clearbody c. set (k := rank (o :: up)) in *. clearbody k. replace (N.of_nat (S (length up)) - N.of_nat c) with (N.of_nat k) by lia.
      destruct (S (length up) <? 2 * k)%nat eqn:Q.
      * rewrite sub32_gt by lia. set (a := 2 ^ 32 - (N.of_nat k - N.of_nat c)).
        replace (0 <? a) with true by lia. unfold set_true. replace (a <? N.of_nat (length (false :: ks))) with false by (cbn [length]; lia). reflexivity.
      * apply Nat.ltb_ge in Q. rewrite sub32_le by lia. replace (N.of_nat c - N.of_nat k) with (N.of_nat (S (length up) - 2 * k)) by lia.
        set (a := (S (length up) - 2 * k)%nat) in *. destruct (0 <? a)%nat eqn:Q2.
        -- replace (0 <? N.of_nat a) with true by lia. rewrite set_true_kl by (cbn [length]; lia).
           destruct (NEXT (s_tombs s) (kl [a] (false :: ks)) ltac:(rewrite kl_length; cbn [length]; lia) eq_refl) as [N1 N2].
           rewrite N1. eexists. split; [reflexivity|]. split; [exact N2|]. cbn [s_tombs s_kills s_poss s_pos]. rewrite TL. repeat split; reflexivity.
        -- replace (0 <? N.of_nat a) with false by lia.
           destruct (NEXT (s_tombs s) (false :: ks) ltac:(cbn [length]; lia) eq_refl) as [N1 N2].
           rewrite N1. eexists. split; [reflexivity|]. split; [exact N2|]. cbn [s_tombs s_kills s_poss s_pos tl]. rewrite kl_nil. repeat split; reflexivity.
  - (* undo *)
    unfold ceil, UNDO, REMOVE. pose proof (LC 3%nat ltac:(lia)) as LC3. pose proof (LC 2%nat ltac:(lia)) as LC2. rewrite IC in LC3, LC2 by lia. rewrite !IC by lia. rewrite ID.
    rewrite (sub32_le (N.of_nat (S (length up)))) by lia.
    set (c := cnt 3 (o :: up)) in *. clearbody c. set (c2 := cnt 2 (o :: up)) in *. clearbody c2. set (r := rank (o :: up)) in *. clearbody r.
    replace (N.of_nat (S (length up)) - N.of_nat c) with (N.of_nat r) by lia.
    destruct (S (length up) <? 2 * r)%nat eqn:Q.
    * rewrite sub32_gt by lia. set (a := 2 ^ 32 - (N.of_nat r - N.of_nat c)).
      replace (N.of_nat c2 <? a) with true by lia. unfold set_true. replace (a <? N.of_nat (length (k :: ks))) with false by (cbn [length]; lia). reflexivity.
    * apply Nat.ltb_ge in Q. rewrite sub32_le by lia. replace (N.of_nat c - N.of_nat r) with (N.of_nat (S (length up) - 2 * r)) by lia.
      set (a := (S (length up) - 2 * r)%nat) in *. destruct (c2 <? a)%nat eqn:Q2.
      -- replace (N.of_nat c2 <? N.of_nat a) with true by lia. rewrite set_true_kl by (cbn [length]; lia).
         destruct (NEXT (s_tombs s) (kl [a] (k :: ks)) ltac:(rewrite kl_length; cbn [length]; lia) eq_refl) as [N1 N2].
         rewrite N1. eexists. split; [reflexivity|]. split; [exact N2|]. cbn [s_tombs s_kills s_poss s_pos]. rewrite TL. repeat split; reflexivity.
      -- replace (N.of_nat c2 <? N.of_nat a) with false by lia.
         destruct (NEXT (s_tombs s) (k :: ks) ltac:(cbn [length]; lia) eq_refl) as [N1 N2].
         rewrite N1. eexists. split; [reflexivity|]. split; [exact N2|]. cbn [s_tombs s_kills s_poss s_pos tl]. rewrite kl_nil. repeat split; reflexivity.
  - destruct (NEXT (s_tombs s) (k :: ks) ltac:(cbn [length]; lia) eq_refl) as [N1 N2].
    rewrite N1. eexists. split; [reflexivity|]. split; [exact N2|]. cbn [s_tombs s_kills s_poss s_pos tl]. rewrite kl_nil. repeat split; reflexivity.
Qed.

(* ---- the push of a new op ---- *)
Definition pushed (s : scan_st) (o : rop) (up : chain) (cs : list N) : scan_st :=
  mkScan (s_tombs s ++ [negb (is_element (layer_of (o :: up)))]) (lnum (layer_of (o :: up))) (r_id o :: s_path s)
    (false :: s_kills s) ((s_pos s + 1) :: s_poss s) (s_depth s + 1) (s_pos s + 1) cs.

Lemma switch_inv s o up : inv s up -> exists cs,
  switch (entry_type o) s = (lnum (layer_of (o :: up)), cs) /\ length cs = 5%nat /\
  forall j, (j <= lnum (layer_of (o :: up)))%nat -> nth j cs 0 = N.of_nat (cnt j (o :: up)).
Proof.
  intros [NE IS _ _ _ _ ID _ _ I5 IC]. unfold switch. rewrite IS, ID, entry_kind.
  assert (G : forall j, (j <= lnum (layer_of (o :: up)))%nat ->
    N.of_nat (cnt j (o :: up)) = if (j <=? lnum (layer_of up))%nat then nth j (s_ceil s) 0 else N.of_nat (length up)).
  { intros j Hj. rewrite cnt_up by exact Hj. destruct (j <=? lnum (layer_of up))%nat eqn:Q.
    - apply Nat.leb_le in Q. rewrite IC by exact Q. reflexivity.
    - apply Nat.leb_gt in Q. rewrite cnt_all by exact Q. reflexivity. }
  destruct (s_ceil s) as [|c0 [|c1 [|c2 [|c3 [|c4 [|? ?]]]]]] eqn:EC; try discriminate I5.
  rewrite layer_cons in * by exact NE.
  destruct (layer_of up), (kind_of o); cbn [knum lnum below Nat.eqb Nat.ltb Nat.leb TRASH Nat.sub raise];
    (eexists; split; [reflexivity|]; split; [reflexivity|]);
    intros j Hj; rewrite (G j Hj); cbn [lnum below] in Hj;
    (destruct j as [|[|[|[|[|j]]]]]; try lia; reflexivity).
Qed.

Lemma push_inv s o up : inv s up -> r_ref o = r_id (hd o up) -> uuid_ltb (r_id o) (r_ref o) = false ->
  version (r_id o) = TIME -> version (r_ref o) = TIME -> N.of_nat (length (s_tombs s)) + 1 < 2 ^ 31 ->
  exists cs, scan_op (r_id o) (r_ref o) (entry_type o) s = inl (pushed s o up cs) /\ inv (pushed s o up cs) (o :: up).
Proof.
  intros I R L V1 V2 B. destruct (switch_inv s o up I) as (cs & SW & L5 & CC). exists cs.
  pose proof I as [NE IS IP IK IPS IPB ID IPO IL I5 IC].
  assert (U : unroll (length (s_path s)) (r_ref o) s = PopOk s).
  { fold (unr (r_ref o) s). rewrite unr_eq, IP. destruct up as [|x up]; [congruence|]. cbn [map hd] in *.
    rewrite R. replace (uuid_eqb (r_id x) (r_id x)) with true by (symmetry; apply uuid_eqb_eq; reflexivity). reflexivity. }
  assert (P : inv (pushed s o up cs) (o :: up)).
  { unfold pushed. constructor; cbn [s_tombs s_state s_path s_kills s_poss s_depth s_pos s_ceil]; try reflexivity; try assumption.
    - discriminate.
    - cbn [map]. rewrite IP. reflexivity.
    - cbn [length]. rewrite IK. reflexivity.
    - cbn [length]. rewrite IPS. reflexivity.
    - rewrite app_length. cbn [length]. constructor; [lia|]. eapply Forall_impl; [|exact IPB]. cbv beta. intros a H. lia.
    - cbn [length]. lia.
    - rewrite app_length. cbn [length]. lia.
    - rewrite app_length. cbn [length]. lia. }
  split; [|exact P]. unfold scan_op. rewrite L, V1, V2, U, SW, N.eqb_refl. cbn [andb negb]. cbv zeta.
  rewrite (N.mod_small (s_pos s + 1)) by lia. rewrite (N.mod_small (s_depth s + 1)) by lia.
  cbn [s_path s_kills length]. rewrite app_length. cbn [length].
  replace (S (length (s_path s)) =? S (length (s_kills s)))%nat with true.
  2:{ symmetry. apply Nat.eqb_eq. rewrite IP, map_length, IK. reflexivity. }
  replace (N.of_nat (length (s_tombs s) + 1) =? s_pos s + 1 + 1) with true by lia. cbn [andb]. f_equal. unfold pushed. f_equal.
  f_equal. f_equal. f_equal. unfold is_element, ENTRY. destruct (layer_of (o :: up)); reflexivity.
Qed.

(* a state that will look like s once the ops it is done with are popped *)
Definition settles (st s : scan_st) : Prop :=
  s_pos st = s_pos s /\ forall ref, In ref (s_path s) -> unr ref st = unr ref s.
Lemma settles_refl s : settles s s. Proof. split; reflexivity. Qed.

Lemma settles_op st s id ref et : settles st s -> In ref (s_path s) -> uuid_ltb id ref = false ->
  version id = TIME -> version ref = TIME -> scan_op id ref et st = scan_op id ref et s.
Proof.
  intros [P U] I L V1 V2. unfold scan_op. rewrite P, L, V1, V2, N.eqb_refl. cbn [andb negb].
  specialize (U ref I). unfold unr in U. rewrite U. reflexivity.
Qed.

(* the next op, or the end mark, goes to an op of the path *)
Definition head_ok (rt : uuid) (p : list uuid) (rest : list rop) : Prop :=
  match rest with
  | [] => In rt p /\ version rt = TIME /\ uuid_ltb (Time WORD_NEVER 0) rt = false
  | o :: _ => In (r_ref o) p /\ version (r_id o) = TIME /\ version (r_ref o) = TIME /\ uuid_ltb (r_id o) (r_ref o) = false
  end.
Lemma never_time : version (Time WORD_NEVER 0) = TIME. Proof. reflexivity. Qed.
Lemma go_doomed rt st p rest : (forall ref, In ref p -> unr ref st = PopUB) -> head_ok rt p rest -> go rt st rest = ScanUB.
Proof.
  intros D H. destruct rest as [|o r]; cbn [go head_ok] in *.
  - destruct H as (H1 & H2 & H3). unfold scan_op. rewrite H3, H2, never_time, N.eqb_refl. cbn [andb negb].
    specialize (D rt H1). unfold unr in D. rewrite D. reflexivity.
  - destruct H as (H1 & H2 & H3 & H4). unfold scan_op. rewrite H4, H2, H3, N.eqb_refl. cbn [andb negb].
    specialize (D _ H1). unfold unr in D. rewrite D. reflexivity.
Qed.
Lemma head_ok_incl rt p q rest : incl p q -> head_ok rt p rest -> head_ok rt q rest.
Proof. intros I H. destruct rest; cbn [head_ok] in *; destruct H as [H1 H2]; (split; [apply I; exact H1|exact H2]). Qed.

(* ids grow along a chain *)
Inductive newest_first : chain -> Prop :=
| nf_nil : newest_first []
| nf_cons : forall o up, Forall (fun x => uuid_ltb (r_id x) (r_id o) = true) up -> newest_first up -> newest_first (o :: up).

Definition tree_lemma (t : tree) : Prop :=
  forall rt up st s rest, inv s up -> settles st s -> newest_first up -> linked t ->
    r_ref (root t) = r_id (hd (root t) up) -> uuid_ltb (r_ref (root t)) (r_id (root t)) = true ->
    Forall (fun o => version (r_id o) = TIME) (up ++ listing t) ->
    N.of_nat (length (s_tombs s) + length (listing t)) < 2 ^ 31 -> head_ok rt (s_path s) rest ->
    if e_oob (eval up t) then go rt st (listing t ++ rest) = ScanUB
    else exists st' s', steps st (listing t) st' /\ settles st' s' /\ inv s' up /\
           rel s s' (e_kills (eval up t)) (e_flags (eval up t)).

Lemma forest_lemma cs : Forall tree_lemma cs ->
  forall rt o up st s rest, inv s (o :: up) -> settles st s -> newest_first (o :: up) ->
    Forall (fun c => linked c /\ r_ref (root c) = r_id o /\ uuid_ltb (r_id o) (r_id (root c)) = true) cs ->
    Forall (fun o => version (r_id o) = TIME) ((o :: up) ++ flat_map listing cs) ->
    N.of_nat (length (s_tombs s) + length (flat_map listing cs)) < 2 ^ 31 -> head_ok rt (s_path s) rest ->
    let subs := map (eval (o :: up)) cs in
    if existsb e_oob subs then go rt st (flat_map listing cs ++ rest) = ScanUB
    else exists st' s', steps st (flat_map listing cs) st' /\ settles st' s' /\ inv s' (o :: up) /\
           rel s s' (flat_map e_kills subs) (flat_map e_flags subs).
Proof.
  intro F. induction F as [|c cs T F IH]; intros rt o up st s rest I SE NF LK VS B HO.
  - cbn. exists st, s. split; [constructor|]. split; [exact SE|]. split; [exact I|apply rel_refl].
  - cbv zeta in *. inversion LK as [|? ? (LC & RC & NC) LK']; subst.
    cbn [flat_map map existsb] in *. rewrite <- app_assoc. rewrite app_length in B.
    apply Forall_app in VS. destruct VS as [VU VS]. apply Forall_app in VS. destruct VS as [VC VS].
    assert (HO2 : head_ok rt (s_path s) (flat_map listing cs ++ rest)).
    { destruct cs as [|c2 cs]; [exact HO|]. destruct c2 as [o2 k2]. cbn [flat_map listing app].
      inversion LK' as [|? ? (_ & R2 & N2) _]; subst. cbn [root] in *. split; [|split; [|split]].
      - rewrite R2, (i_path _ _ I). left. reflexivity.
      - cbn [flat_map listing app] in VS. inversion VS; assumption.
      - rewrite R2. inversion VU; assumption.
      - rewrite R2. apply uuid_ltb_asym. exact N2. }
    specialize (T rt (o :: up) st s (flat_map listing cs ++ rest) I SE NF LC RC ltac:(rewrite RC; exact NC)
      ltac:(apply Forall_app; split; assumption) ltac:(lia) HO2).
    destruct (e_oob (eval (o :: up) c)); [exact T|]. cbn [orb]. destruct T as (st1 & s1 & G1 & S1 & I1 & R1).
    pose proof R1 as [RT _ _].
    assert (FL : length (e_flags (eval (o :: up) c)) = length (listing c)).
    { clear. revert o up. generalize c. clear c. induction c as [p ks IH] using tree_ind2. intros o up. cbn [eval e_flags listing length]. f_equal.
      induction IH as [|k ks H _ IHk]; [reflexivity|]. cbn [map flat_map]. rewrite !app_length, IHk, H. reflexivity. }
    assert (PE : s_path s1 = s_path s) by (rewrite (i_path _ _ I), (i_path _ _ I1); reflexivity).
    specialize (IH rt o up st1 s1 rest I1 S1 NF LK' ltac:(apply Forall_app; split; assumption) ltac:(rewrite RT, app_length, FL; lia) ltac:(rewrite PE; exact HO)).
    destruct (existsb e_oob (map (eval (o :: up)) cs)); [rewrite (steps_go _ _ _ _ _ G1); exact IH|].
    destruct IH as (st2 & s2 & G2 & S2 & I2 & R2). exists st2, s2. split; [exact (steps_app _ _ _ _ _ G1 G2)|]. split; [exact S2|]. split; [exact I2|].
    exact (rel_trans _ _ _ _ _ _ _ R1 R2).
Qed.

Lemma tree_scan : forall t, tree_lemma t.
Proof.
  induction t as [o cs IH] using tree_ind2. intros rt up st s rest I SE NF LK RO NO VS B HO. cbn [root] in *.
  inversion LK as [? ? LKS]; subst. cbn [listing] in *. apply Forall_app in VS. destruct VS as [VU VS]. inversion VS as [|? ? VO VC]; subst.
  pose proof (i_ne _ _ I) as NE.
  assert (VR : version (r_ref o) = TIME).
  { rewrite RO. destruct up as [|x up]; [congruence|]. inversion VU; assumption. }
  assert (LR : uuid_ltb (r_id o) (r_ref o) = false) by (apply uuid_ltb_asym; exact NO).
  cbn [length] in B. destruct (push_inv s o up I RO LR VO VR ltac:(lia)) as (ceils & SO & I2).
  assert (INR : In (r_ref o) (s_path s)).
  { rewrite (i_path _ _ I), RO. destruct up as [|x up]; [congruence|]. left. reflexivity. }
  assert (G0 : go rt st ((o :: flat_map listing cs) ++ rest) = go rt (pushed s o up ceils) (flat_map listing cs ++ rest)).
  { cbn [app go]. rewrite (settles_op st s _ _ _ SE INR LR VO VR), SO. reflexivity. }
  assert (ST0 : forall r s', steps (pushed s o up ceils) r s' -> steps st (o :: r) s').
  { intros r s' H. econstructor; [rewrite (settles_op st s _ _ _ SE INR LR VO VR); exact SO|exact H]. }
  rewrite G0. clear G0 SO. set (s2 := pushed s o up ceils) in *.
  assert (NF2 : newest_first (o :: up)).
  { constructor; [|exact NF]. destruct up as [|x up]; [congruence|]. cbn [hd] in RO. rewrite RO in NO. inversion NF as [|? ? FX NX]; subst.
    constructor; [exact NO|]. eapply Forall_impl; [|exact FX]. cbv beta. intros y Hy. eapply uuid_ltb_trans; eassumption. }
  assert (PI : incl (s_path s) (s_path s2)) by (unfold s2, pushed; cbn [s_path]; apply incl_tl, incl_refl).
  pose proof (forest_lemma cs IH rt o up s2 s2 rest I2 (settles_refl s2) NF2 LKS
    ltac:(apply Forall_app; split; [constructor; assumption|exact VC])
    ltac:(unfold s2, pushed; cbn [s_tombs]; rewrite app_length; cbn [length]; lia) (head_ok_incl _ _ _ _ PI HO)) as FO.
  cbv zeta in FO. cbn [eval e_oob e_kills e_flags]. set (subs := map (eval (o :: up)) cs) in *.
  assert (FL : length (flat_map e_flags subs) = length (flat_map listing cs)).
  { unfold subs. clear. revert o up. assert (G : forall c o up, length (e_flags (eval (o :: up) c)) = length (listing c)).
    { induction c as [p ks IH] using tree_ind2. intros o up. cbn [eval e_flags listing length]. f_equal.
      induction IH as [|k ks H _ IHk]; [reflexivity|]. cbn [map flat_map]. rewrite !app_length, IHk, H. reflexivity. }
    intros o up. induction cs as [|c cs IH]; [reflexivity|]. cbn [map flat_map]. rewrite !app_length, IH, G. reflexivity. }
  destruct (existsb e_oob subs); [exact FO|]. cbn [orb]. destruct FO as (st1 & s1 & G1 & S1 & I1 & [RT RK RP]).
  assert (TB : N.of_nat (length (s_tombs s1)) < 2 ^ 31).
  { rewrite RT, app_length, FL. unfold s2, pushed. cbn [s_tombs]. rewrite app_length. cbn [length]. lia. }
  pose proof (pop_inv s1 o up I1 NE TB) as PO. cbv zeta in PO.
  assert (ME : hd false (s_kills s1) = hit (length up) (flat_map e_kills subs)).
  { rewrite RK. unfold s2, pushed. cbn [s_kills kl hd orb]. rewrite (i_kills _ _ I). reflexivity. }
  rewrite ME in PO. set (me := hit (length up) (flat_map e_kills subs)) in *.
  assert (US : forall ref, In ref (s_path s) -> unr ref st1 = match pop_once s1 with PopOk s' => unr ref s' | x => x end).
  { intros ref HR. rewrite (proj2 S1) by (rewrite (i_path _ _ I1); right; rewrite <- (i_path _ _ I); exact HR).
    rewrite unr_eq. rewrite (i_path _ _ I1). cbn [map]. destruct (uuid_eqb (r_id o) ref) eqn:Q; [|reflexivity].
    exfalso. apply uuid_eqb_eq in Q. subst ref. rewrite (i_path _ _ I) in HR. apply in_map_iff in HR. destruct HR as (x & X1 & X2).
    inversion NF2 as [|? ? FX _]; subst. rewrite Forall_forall in FX. specialize (FX x X2). rewrite X1, uuid_ltb_irrefl in FX. discriminate. }
  destruct (self_oob (o :: up) me).
  - rewrite (steps_go _ _ _ _ _ G1). apply (go_doomed rt st1 (s_path s)); [|exact HO]. intros ref HR. rewrite (US ref HR), PO. reflexivity.
  - destruct PO as (s3 & P1 & P2 & P3 & P4 & P5 & P6). exists st1, s3. split; [exact (ST0 _ _ G1)|]. split; [|split; [exact P2|]].
    + split; [rewrite P6; exact (proj1 S1)|]. intros ref HR. rewrite (i_path _ _ P2), <- (i_path _ _ I) in HR. rewrite (US ref HR), P1. reflexivity.
    + constructor.
      * rewrite P3. unfold tombs_after. rewrite RP, RT. unfold s2, pushed. cbn [s_tombs s_poss hd].
        replace (N.to_nat (s_pos s + 1)) with (length (s_tombs s)) by (pose proof (i_pos _ _ I); lia).
        destruct (is_element (layer_of (o :: up)) && me) eqn:Q.
        -- apply andb_prop in Q. destruct Q as [Q1 Q2]. rewrite Q1, Q2. cbn [negb orb]. rewrite <- app_assoc. unfold set_at.
           rewrite firstn_app, firstn_all, Nat.sub_diag. cbn [firstn]. rewrite app_nil_r. rewrite skipn_app, skipn_all, Nat.sub_diag. reflexivity.
        -- rewrite <- app_assoc. cbn [app]. f_equal. f_equal. destruct (is_element (layer_of (o :: up))); cbn [negb orb andb] in *; [symmetry; exact Q|reflexivity].
      * rewrite P4, RK. unfold s2, pushed. cbn [s_kills kl tl]. rewrite kl_app. reflexivity.
      * rewrite P5, RP. reflexivity.
Qed.

(* the whole frame *)
Lemma scan_tree o cs : rga_tree (Node o cs) -> N.of_nat (length (listing (Node o cs))) < 2 ^ 30 ->
  let subs := map (eval [o]) cs in
  go (r_id o) (scan_begin (r_id o)) (flat_map listing cs) =
  if existsb e_oob subs then ScanUB else ScanRet StOK (true :: flat_map e_flags subs).
Proof.
  intros (LK & RO & VS & NV) B. cbv zeta. inversion LK as [? ? LKS]; subst. cbn [root listing length] in *.
  assert (I0 : inv (scan_begin (r_id o)) [o]).
  { unfold scan_begin. constructor; cbn [s_tombs s_state s_path s_kills s_poss s_depth s_pos s_ceil length map]; try reflexivity; try discriminate; try lia.
    - constructor; [reflexivity|constructor].
    - cbn [layer_of lnum]. intros j Hj. assert (j = 0%nat) by lia. subst j. reflexivity. }
  assert (NF : newest_first [o]) by (constructor; constructor).
  assert (TR : Forall tree_lemma cs) by (apply Forall_forall; intros; apply tree_scan).
  assert (HO : head_ok (r_id o) (s_path (scan_begin (r_id o))) []).
  { cbn [head_ok scan_begin s_path]. split; [left; reflexivity|]. split; [inversion VS; assumption|exact NV]. }
  pose proof (forest_lemma cs TR (r_id o) o [] (scan_begin (r_id o)) (scan_begin (r_id o)) [] I0 (settles_refl _) NF LKS VS
    ltac:(cbn [scan_begin s_tombs length]; lia) HO) as FO. cbv zeta in FO. rewrite app_nil_r in FO.
  destruct (existsb e_oob (map (eval [o]) cs)); [exact FO|]. destruct FO as (st & s & G & SE & I & [RT _ _]).
  rewrite <- (app_nil_r (flat_map listing cs)), (steps_go _ _ _ _ _ G). cbn [go].
  rewrite (settles_op st s) by (try exact SE; try exact never_time; try exact NV; try (inversion VS; assumption); rewrite (i_path _ _ I); left; reflexivity).
  assert (TL : N.of_nat (length (s_tombs s)) < 2 ^ 31).
  { assert (X : length (flat_map e_flags (map (eval [o]) cs)) = length (flat_map listing cs)).
    { clear. assert (GG : forall c up, length (e_flags (eval up c)) = length (listing c)).
      { induction c as [p ks IH] using tree_ind2. intros up. cbn [eval e_flags listing length]. f_equal.
        induction IH as [|k ks H _ IHk]; [reflexivity|]. cbn [map flat_map]. rewrite !app_length, IHk, H. reflexivity. }
      induction cs as [|c cs IH]; [reflexivity|]. cbn [map flat_map]. rewrite !app_length, IH, GG. reflexivity. }
    rewrite RT, app_length, X. cbn [scan_begin s_tombs length]. lia. }
  pose proof I as [_ IS IP IK _ _ ID IPO _ _ _]. unfold scan_op. rewrite NV, never_time. replace (version (r_id o) =? TIME) with true by (symmetry; apply N.eqb_eq; inversion VS; assumption).
  rewrite N.eqb_refl. cbn [andb negb].
  assert (U : unroll (length (s_path s)) (r_id o) s = PopOk s).
  { fold (unr (r_id o) s). rewrite unr_eq, IP. cbn [map]. replace (uuid_eqb (r_id o) (r_id o)) with true by (symmetry; apply uuid_eqb_eq; reflexivity). reflexivity. }
  rewrite U. unfold switch. rewrite IS. cbn [layer_of lnum META_ENTRY Nat.eqb]. cbn [s_path s_kills s_tombs length].
  rewrite app_length, IP, IK. cbn [length map Nat.eqb]. rewrite N.mod_small by lia. replace (N.of_nat (length (s_tombs s) + 1) =? s_pos s + 1 + 1) with true by lia.
  cbn [andb]. unfold scan_finish. cbn [s_tombs]. rewrite removelast_last, RT. reflexivity.
Qed.
