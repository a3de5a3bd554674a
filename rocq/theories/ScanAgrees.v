(* The bottom-up evaluation agrees with the specification; scans of arbitrary
   op lists. *)
From Verif Require Import Prelude UuidModel UuidProofs KeyModel TextModel MergeModel MergeSpec MergeProofs RgaProofs RgaTree IncStackModel ScanModel ScanSpec ScanProofs.

Lemma hit_in i K : hit i K = true <-> In i K.
Proof.
  unfold hit. rewrite existsb_exists. split.
  - intros (x & H & E). apply Nat.eqb_eq in E. subst. exact H.
  - intro H. exists i. split; [exact H|apply Nat.eqb_refl].
Qed.
Lemma places_suffix : forall t up q, In q (places up t) -> exists pre, fst q = pre ++ up.
Proof.
  induction t as [o cs IH] using tree_ind2. intros up q H. cbn [places] in H. destruct H as [<-|H]; [exists []; reflexivity|].
  apply in_flat_map in H. destruct H as (c & C1 & C2). rewrite Forall_forall in IH. destruct (IH c C1 _ _ C2) as (pre & E).
  exists (pre ++ [o]). rewrite E, <- app_assoc. reflexivity.
Qed.
Lemma below_suffix o up cs q : In q (flat_map (places (o :: up)) cs) -> exists pre, pre <> [] /\ at_ q = pre ++ o :: up.
Proof.
  intro H. apply in_flat_map in H. destruct H as (c & _ & H). destruct (places_suffix _ _ _ H) as (pre & E).
  exists (root (snd q) :: pre). split; [discriminate|]. unfold at_. rewrite E. reflexivity.
Qed.
Lemma layer_app pre ch : (lnum (layer_of ch) <= lnum (layer_of (pre ++ ch)))%nat.
Proof. induction pre as [|x pre IH]; [cbn; lia|]. cbn [app]. pose proof (layer_mono x (pre ++ ch)). lia. Qed.
Lemma cnt_app_ge s pre ch : (s <= lnum (layer_of ch))%nat -> cnt s (pre ++ ch) = cnt s ch.
Proof.
  intro H. induction pre as [|x pre IH]; [reflexivity|]. cbn [app]. rewrite cnt_up; [exact IH|].
  pose proof (layer_app (x :: pre) ch) as L. cbn [app] in L. lia.
Qed.
Lemma cnt_app_le s pre ch : (cnt s ch <= cnt s (pre ++ ch))%nat.
Proof. induction pre as [|x pre IH]; [reflexivity|]. cbn [app]. cbn [cnt]. lia. Qed.
Lemma at_len p : (1 <= length (at_ p))%nat. Proof. unfold at_. cbn [length]. lia. Qed.
Lemma rank_at p : (1 <= rank (at_ p))%nat. Proof. apply rank_pos. Qed.

Definition index (ch : chain) : nat := (length ch - 2 * rank ch)%nat.
Lemma target_index ch pre low : (1 <= rank ch)%nat -> ch = pre ++ low -> low <> [] ->
  (target ch = low <-> (2 * rank ch <= length ch)%nat /\ S (index ch) = length low).
Proof.
  intros R E NE. unfold target, index. split.
  - intro T. assert (L : length (skipn (2 * rank ch - 1) ch) = length low) by (rewrite T; reflexivity). rewrite skipn_length in L.
    assert (length low <> 0%nat) by (destruct low; [congruence|discriminate]). lia.
  - intros [L1 L2]. assert (length ch = (length pre + length low)%nat) by (rewrite E, app_length; reflexivity).
    replace (2 * rank ch - 1)%nat with (length pre) by lia. rewrite E, skipn_app, skipn_all, Nat.sub_diag. reflexivity.
Qed.

Definition acts (q : chain * tree) : Prop :=
  (layer_of (at_ q) = LUndo /\ (cnt 2 (at_ q) < index (at_ q))%nat) \/
  (active_removal q /\ (0 < index (at_ q))%nat).

(* a removal below a removal, or an undo, never works on a later removal *)
Lemma me_cancelled o up cs : layer_of (o :: up) = LRemove ->
  ((exists q, In q (flat_map (places (o :: up)) cs) /\ acts q /\ index (at_ q) = length up) <-> cancelled (up, Node o cs)).
Proof.
  intro L. unfold cancelled. cbn [fst snd places]. change (at_ (up, Node o cs)) with (o :: up).
  pose proof (rank_cnt (o :: up)) as RC. rewrite L in RC. cbn [lnum length] in RC. split.
  - intros (q & H & A & E). destruct (below_suffix _ _ _ _ H) as (pre & NE & AT).
    assert (C2 : cnt 2 (at_ q) = cnt 2 (o :: up)) by (rewrite AT; apply cnt_app_ge; rewrite L; cbn; lia).
    destruct A as [(LQ & I)|((LQ & _) & I)].
    + split; [lia|]. exists q. split; [right; exact H|]. split; [exact LQ|].
      apply (target_index (at_ q) pre (o :: up) (rank_at q) AT ltac:(discriminate)). split; [unfold index in *; lia|]. cbn [length]. lia.
    + exfalso. pose proof (rank_cnt (at_ q)) as RQ. rewrite LQ in RQ. cbn [lnum] in RQ. unfold index in E, I. rewrite C2 in RQ. pose proof (rank_pos o up). pose proof (rank_at q). lia.
  - intros (R2 & q & [<-|H] & LQ & T).
    + change (at_ (up, Node o cs)) with (o :: up) in LQ. congruence.
    + exists q. split; [exact H|]. destruct (below_suffix _ _ _ _ H) as (pre & NE & AT).
      apply (target_index (at_ q) pre (o :: up) (rank_at q) AT ltac:(discriminate)) in T. destruct T as [T1 T2]. cbn [length] in T2.
      split; [|lia]. left. split; [exact LQ|].
      assert (C2 : cnt 2 (at_ q) = cnt 2 (o :: up)) by (rewrite AT; apply cnt_app_ge; rewrite L; cbn; lia). lia.
Qed.
Lemma me_hidden o up cs : layer_of (o :: up) = LElement ->
  ((exists q, In q (flat_map (places (o :: up)) cs) /\ acts q /\ index (at_ q) = length up) <-> hidden (up, Node o cs)).
Proof.
  intro L. unfold hidden. cbn [fst snd places]. change (at_ (up, Node o cs)) with (o :: up).
  assert (C2 : cnt 2 (o :: up) = S (length up)) by (apply cnt_all; rewrite L; cbn; lia). split.
  - intros (q & H & A & E). right. destruct (below_suffix _ _ _ _ H) as (pre & NE & AT).
    destruct A as [(LQ & I)|(LQ & I)].
    + exfalso. pose proof (cnt_app_le 2 pre (o :: up)) as Q. rewrite <- AT in Q. lia.
    + exists q. split; [right; exact H|]. split; [exact LQ|].
      apply (target_index (at_ q) pre (o :: up) (rank_at q) AT ltac:(discriminate)). split; [unfold index in *; lia|]. cbn [length]. lia.
  - intros [X|(q & [<-|H] & LQ & T)]; [congruence| |].
    + destruct LQ as [LQ _]. change (at_ (up, Node o cs)) with (o :: up) in LQ. congruence.
    + exists q. split; [exact H|]. destruct (below_suffix _ _ _ _ H) as (pre & NE & AT).
      apply (target_index (at_ q) pre (o :: up) (rank_at q) AT ltac:(discriminate)) in T. destruct T as [T1 T2]. cbn [length] in T2.
      split; [|lia]. right. split; [exact LQ|]. destruct up as [|x up]; [discriminate L|]. cbn [length] in *. lia.
Qed.

Lemma eval_kills : forall t up j, In j (e_kills (eval up t)) <-> exists q, In q (places up t) /\ acts q /\ index (at_ q) = j.
Proof.
  induction t as [o cs IH] using tree_ind2. intros up j. cbn [eval e_kills places].
  assert (SUB : forall i, In i (flat_map e_kills (map (eval (o :: up)) cs)) <-> exists q, In q (flat_map (places (o :: up)) cs) /\ acts q /\ index (at_ q) = i).
  { intro i. rewrite in_flat_map. split.
    - intros (e & E1 & E2). apply in_map_iff in E1. destruct E1 as (c & <- & E1). rewrite Forall_forall in IH. apply (IH c E1) in E2.
      destruct E2 as (q & Q1 & Q2). exists q. split; [apply in_flat_map; exists c; split; assumption|exact Q2].
    - intros (q & Q1 & Q2). apply in_flat_map in Q1. destruct Q1 as (c & C1 & C2). exists (eval (o :: up) c). split; [apply in_map; exact C1|].
      rewrite Forall_forall in IH. apply (IH c C1). exists q. split; assumption. }
  rewrite in_app_iff, SUB.
  set (me := hit (length up) (flat_map e_kills (map (eval (o :: up)) cs))).
  assert (ME : me = true <-> exists q, In q (flat_map (places (o :: up)) cs) /\ acts q /\ index (at_ q) = length up) by (unfold me; rewrite hit_in; apply SUB).
  clearbody me. assert (SELF : In j (self_kills (o :: up) me) <-> acts (up, Node o cs) /\ index (o :: up) = j).
  { unfold self_kills, acts, active_removal. change (at_ (up, Node o cs)) with (o :: up). fold (index (o :: up)).
    destruct (layer_of (o :: up)) eqn:L; cbn [In].
    - split; [tauto|]. intros [[[X _]|[[X _] _]] _]; discriminate.
    - split; [tauto|]. intros [[[X _]|[[X _] _]] _]; discriminate.
    - rewrite (me_cancelled o up cs L) in ME. destruct me; cbn [negb andb].
      + split; [intros []|]. intros [[[X _]|[[_ X] _]] _]; [discriminate|]. exfalso. apply X, ME. reflexivity.
      + destruct (0 <? index (o :: up))%nat eqn:Q; cbn [In].
        * apply Nat.ltb_lt in Q. split; [intros [<-|[]]; split; [|reflexivity]; right; split; [split; [reflexivity|]|exact Q]; rewrite <- ME; discriminate|].
          intros [_ <-]. left. reflexivity.
        * apply Nat.ltb_ge in Q. split; [intros []|]. intros [[[X _]|[_ X]] _]; [discriminate|lia].
    - destruct (cnt 2 (o :: up) <? index (o :: up))%nat eqn:Q; cbn [In].
      + apply Nat.ltb_lt in Q. split; [intros [<-|[]]; split; [left; split; [reflexivity|exact Q]|reflexivity]|]. intros [_ <-]. left. reflexivity.
      + apply Nat.ltb_ge in Q. split; [intros []|]. intros [[[_ X]|[[X _] _]] _]; [lia|discriminate].
    - split; [tauto|]. intros [[[X _]|[[X _] _]] _]; discriminate. }
  rewrite SELF. split.
  - intros [(q & Q1 & Q2)|[A E]]; [exists q; split; [right; exact Q1|exact Q2]|exists (up, Node o cs); split; [left; reflexivity|split; assumption]].
  - intros (q & [<-|Q1] & Q2 & Q3); [right; split; assumption|left; exists q; repeat split; assumption].
Qed.
Lemma eval_me o up cs : hit (length up) (flat_map e_kills (map (eval (o :: up)) cs)) = true <->
  exists q, In q (flat_map (places (o :: up)) cs) /\ acts q /\ index (at_ q) = length up.
Proof.
  rewrite hit_in, in_flat_map. split.
  - intros (e & E1 & E2). apply in_map_iff in E1. destruct E1 as (c & <- & E1). apply eval_kills in E2.
    destruct E2 as (q & Q1 & Q2). exists q. split; [apply in_flat_map; exists c; split; assumption|exact Q2].
  - intros (q & Q1 & Q2). apply in_flat_map in Q1. destruct Q1 as (c & C1 & C2). exists (eval (o :: up) c). split; [apply in_map; exact C1|].
    apply eval_kills. exists q. split; assumption.
Qed.

Lemma eval_flags : forall t up, Forall2 (fun p f => f = true <-> hidden p) (places up t) (e_flags (eval up t)).
Proof.
  induction t as [o cs IH] using tree_ind2. intro up. cbn [eval e_flags places]. constructor.
  - pose proof (eval_me o up cs) as ME. set (me := hit _ _) in *. clearbody me. unfold is_element.
    destruct (layer_of (o :: up)) eqn:L; cbn [layer_eqb negb orb];
      try (split; [intros _; left; change (at_ (up, Node o cs)) with (o :: up); rewrite L; discriminate|reflexivity]).
    rewrite ME. apply me_hidden. exact L.
  - induction IH as [|c cs H _ IHc]; [constructor|]. cbn [flat_map map]. apply Forall2_app; [apply H|exact IHc].
Qed.
Lemma eval_oob : forall t up, e_oob (eval up t) = true <-> exists p, In p (places up t) /\ stray p.
Proof.
  induction t as [o cs IH] using tree_ind2. intro up. cbn [eval e_oob places]. rewrite orb_true_iff.
  assert (SUB : existsb e_oob (map (eval (o :: up)) cs) = true <-> exists p, In p (flat_map (places (o :: up)) cs) /\ stray p).
  { rewrite existsb_exists. split.
    - intros (e & E1 & E2). apply in_map_iff in E1. destruct E1 as (c & <- & E1). rewrite Forall_forall in IH. apply (IH c E1) in E2.
      destruct E2 as (q & Q1 & Q2). exists q. split; [apply in_flat_map; exists c; split; assumption|exact Q2].
    - intros (q & Q1 & Q2). apply in_flat_map in Q1. destruct Q1 as (c & C1 & C2). exists (eval (o :: up) c). split; [apply in_map; exact C1|].
      rewrite Forall_forall in IH. apply (IH c C1). exists q. split; assumption. }
  rewrite SUB. clear SUB. pose proof (eval_me o up cs) as ME. set (me := hit _ _) in *. clearbody me.
  assert (SELF : self_oob (o :: up) me = true <-> stray (up, Node o cs)).
  { unfold stray, self_oob, active_removal. change (at_ (up, Node o cs)) with (o :: up).
    assert (T : (length (o :: up) <? 2 * rank (o :: up))%nat = true <-> target (o :: up) = []).
    { unfold target. rewrite Nat.ltb_lt. split.
      - intro H. apply skipn_all2. lia.
      - intro H. apply (f_equal (@length rop)) in H. rewrite skipn_length in H. cbn [length] in H. pose proof (rank_pos o up). cbn [length]. lia. }
    destruct (layer_of (o :: up)) eqn:L.
    - split; [discriminate|]. intros [_ [X|[X _]]]; discriminate.
    - split; [discriminate|]. intros [_ [X|[X _]]]; discriminate.
    - rewrite (me_cancelled o up cs L) in ME. rewrite andb_true_iff, T, negb_true_iff. split.
      + intros [M H]. split; [exact H|]. right. split; [reflexivity|]. rewrite <- ME. congruence.
      + intros [H [X|[_ X]]]; [discriminate|]. split; [|exact H]. destruct me; [exfalso; apply X, ME; reflexivity|reflexivity].
    - rewrite T. split; [intro H; split; [exact H|left; reflexivity]|tauto].
    - split; [discriminate|]. intros [_ [X|[X _]]]; discriminate. }
  rewrite SELF. split.
  - intros [(q & Q1 & Q2)|S0]; [exists q; split; [right; exact Q1|exact Q2]|exists (up, Node o cs); split; [left; reflexivity|exact S0]].
  - intros (q & [<-|Q1] & Q2); [right; exact Q2|left; exists q; split; assumption].
Qed.
Lemma places_ops : forall t up, map (fun p => root (snd p)) (places up t) = listing t.
Proof.
  induction t as [o cs IH] using tree_ind2. intro up. cbn [places map listing root snd]. f_equal.
  induction IH as [|c cs H _ IHc]; [reflexivity|]. cbn [flat_map]. rewrite map_app, IHc, H. reflexivity.
Qed.

(* ---- arbitrary op lists ---- *)
Lemma go_steps rt : forall l s, 
  (exists s', steps s l s' /\ go rt s l = go rt s' []) \/
  (exists a o b s' x, l = a ++ o :: b /\ steps s a s' /\ scan_op (r_id o) (r_ref o) (entry_type o) s' = inr x /\ go rt s l = x).
Proof.
  induction l as [|o l IH]; intro s; [left; exists s; split; [constructor|reflexivity]|].
  cbn [go]. destruct (scan_op (r_id o) (r_ref o) (entry_type o) s) as [s1|x] eqn:E.
  - destruct (IH s1) as [(s' & S1 & G)|(a & p & b & s' & x & L & S1 & E2 & G)].
    + left. exists s'. split; [econstructor; eassumption|exact G].
    + right. exists (o :: a), p, b, s', x. subst l. split; [reflexivity|]. split; [econstructor; eassumption|]. split; assumption.
  - right. exists [], o, l, s, x. split; [reflexivity|]. split; [constructor|]. split; [exact E|reflexivity].
Qed.

(* what every pop and every push preserves *)
Record weak (s : scan_st) : Prop := mkWeak {
  w_kills : length (s_kills s) = length (s_path s);
  w_poss : length (s_poss s) = length (s_path s);
  w_pos : s_pos s + 1 = N.of_nat (length (s_tombs s)) }.
Lemma pop_weak s s' : weak s -> pop_once s = PopOk s' -> weak s' /\ length (s_tombs s') = length (s_tombs s) /\ s_pos s' = s_pos s.
Proof.
  intros [W1 W2 W3]. unfold pop_once. destruct (s_path s) as [|top p]; [discriminate|]. destruct (s_kills s) as [|k ks]; [discriminate|]. destruct (s_poss s) as [|q qs]; [discriminate|].
  cbn [length] in W1, W2. injection W1 as W1. injection W2 as W2.
  assert (SF : forall l a m, set_true_f l a = Some m -> length m = length l).
  { intros l a m. unfold set_true_f. destruct (a <? N.of_nat (length l)) eqn:E; [|discriminate]. intro H. injection H as <-. apply set_at_length. lia. }
  assert (ST : forall l a m, set_true l a = Some m -> length m = length l).
  { intros l a m. unfold set_true. destruct (a <? N.of_nat (length l)) eqn:E; [|discriminate]. intro H. injection H as <-. apply set_at_length. lia. }
  cbv zeta.
  repeat match goal with
         | |- context [if ?b then _ else _] => destruct b
         | |- context [match ?b with Some _ => _ | None => _ end] => let E := fresh "E" in destruct b eqn:E
         end; intro H; try discriminate; injection H as <-; cbn [s_tombs s_pos];
    repeat match goal with
           | E : set_true_f _ _ = Some _ |- _ => apply SF in E
           | E : set_true _ _ = Some _ |- _ => apply ST in E; cbn [length] in E
           end;
    (split; [constructor; cbn [s_kills s_path s_poss s_pos s_tombs]; try (destruct kills || idtac); try lia|split; [try assumption; reflexivity || assumption|reflexivity]]).
  all: match goal with |- length (tl ?l) = _ => destruct l; cbn [tl length] in *; lia end.
Qed.
Lemma unr_weak ref : forall n s, (length (s_path s) <= n)%nat -> weak s -> forall s', unr ref s = PopOk s' ->
  weak s' /\ length (s_tombs s') = length (s_tombs s) /\ s_pos s' = s_pos s.
Proof.
  induction n as [|n IH]; intros s L W s' E; rewrite unr_eq in E; destruct (s_path s) as [|top p] eqn:P; try discriminate; cbn [length] in L; [lia|].
  destruct (uuid_eqb top ref); [injection E as <-; split; [exact W|split; reflexivity]|].
  destruct (pop_once s) as [s1|st t|] eqn:Q; try discriminate. destruct (pop_weak _ _ W Q) as (W1 & T1 & P1).
  apply pop_path in Q. destruct Q as (tp & Q & _). rewrite P in Q. injection Q as _ Q.
  destruct (IH s1 ltac:(rewrite <- Q; lia) W1 s' E) as (A & B & D). split; [exact A|]. split; congruence.
Qed.
Lemma op_weak s id ref et : weak s -> N.of_nat (length (s_tombs s)) + 1 < 2 ^ 32 ->
  match scan_op id ref et s with
  | inl s' => weak s' /\ length (s_tombs s') = S (length (s_tombs s))
  | inr ScanAbort | inr ScanFuel => False
  | inr (ScanRet StOK _) => False
  | inr _ => True
  end.
Proof.
  intros W B. unfold scan_op. destruct (uuid_ltb id ref); [exact I|]. destruct (negb _); [exact I|].
  fold (unr ref s). destruct (unr ref s) as [s1|st t|] eqn:U; [| |exact I].
  - destruct (unr_weak ref _ s (le_n _) W s1 U) as ([W1 W2 W3] & T1 & P1). destruct (switch et s1) as [state cs]. cbv zeta.
    cbn [s_path s_kills length]. rewrite app_length. cbn [length]. rewrite W1, Nat.eqb_refl, N.mod_small by (destruct W as [_ _ W0]; lia).
    replace (N.of_nat (length (s_tombs s1) + 1) =? s_pos s + 1 + 1) with true by lia. cbn [andb].
    split; [constructor; cbn [s_path s_kills s_poss s_pos s_tombs length]; rewrite ?app_length; cbn [length]; lia|].
    cbn [s_tombs]. rewrite app_length. cbn [length]. lia.
  - assert (G : forall n s, (length (s_path s) <= n)%nat -> unr ref s = PopRet st t -> st = StCauseBreak).
    { clear. induction n as [|n IH]; intros s L E; rewrite unr_eq in E; destruct (s_path s) as [|top p] eqn:P; try discriminate; cbn [length] in L; [lia|].
      destruct (uuid_eqb top ref); [discriminate|]. destruct (pop_once s) as [s1|st1 t1|] eqn:Q; try discriminate.
      - apply (IH s1); [|exact E]. apply pop_path in Q. destruct Q as (tp & Q & _). rewrite P in Q. injection Q as _ Q. rewrite <- Q. lia.
      - injection E as -> ->. revert Q. unfold pop_once. rewrite P. destruct (s_kills s); [discriminate|]. destruct (s_poss s); [discriminate|]. cbv zeta.
        repeat match goal with
         | |- context [if ?b then _ else _] => destruct b
         | |- context [match ?b with Some _ => _ | None => _ end] => destruct b
         end; intro H; try discriminate; injection H as <- <-; reflexivity. }
    rewrite (G _ s (le_n _) U). exact I.
Qed.
Lemma steps_weak s l s' : steps s l s' -> weak s -> N.of_nat (length (s_tombs s) + length l) < 2 ^ 32 ->
  weak s' /\ length (s_tombs s') = (length (s_tombs s) + length l)%nat.
Proof.
  induction 1 as [s|s o l s1 s2 E S1 IH]; intros W B; [split; [exact W|cbn [length]; lia]|].
  cbn [length] in *. pose proof (op_weak s (r_id o) (r_ref o) (entry_type o) W ltac:(lia)) as O. rewrite E in O. destruct O as [W1 T1].
  destruct (IH W1 ltac:(lia)) as [W2 T2]. split; [exact W2|lia].
Qed.
(* never an assertion; success gives a flag per op *)
Lemma go_total rt l s : weak s -> N.of_nat (length (s_tombs s) + length l) + 1 < 2 ^ 32 ->
  match go rt s l with
  | ScanAbort | ScanFuel => False
  | ScanRet StOK t => length t = (length (s_tombs s) + length l)%nat
  | _ => True
  end.
Proof.
  intros W B. destruct (go_steps rt l s) as [(s' & S1 & G)|(a & o & b & s' & x & L & S1 & E & G)].
  - rewrite G. destruct (steps_weak _ _ _ S1 W ltac:(lia)) as [W1 T1]. cbn [go].
    pose proof (op_weak s' (Time WORD_NEVER 0) rt META_ENTRY W1 ltac:(lia)) as O.
    destruct (scan_op (Time WORD_NEVER 0) rt META_ENTRY s') as [s2|y].
    + unfold scan_finish. destruct O as [_ O]. rewrite <- T1. destruct (s_tombs s2) as [|b r] eqn:Q using rev_ind; [cbn in O; lia|].
      rewrite removelast_last. rewrite app_length in O. cbn [length] in O. lia.
    + destruct y as [[| | | |] t| | |]; try exact I; destruct O.
  - rewrite G. subst l. rewrite app_length in B. cbn [length] in B. destruct (steps_weak _ _ _ S1 W ltac:(lia)) as [W1 T1].
    pose proof (op_weak s' (r_id o) (r_ref o) (entry_type o) W1 ltac:(lia)) as O. rewrite E in O.
    destruct x as [[| | | |] t| | |]; try exact I; destruct O.
Qed.

(* the ops read so far as a tree under construction: the path, each op with
   its finished children *)
Notation zipper := (list (rop * list tree)).
Fixpoint zlist (z : zipper) : list rop :=
  match z with [] => [] | (o, cs) :: r => zlist r ++ o :: flat_map listing cs end.
Inductive loose : tree -> Prop :=
| loose_node : forall o cs,
    Forall (fun c => loose c /\ r_ref (root c) = r_id o /\ uuid_ltb (r_id (root c)) (r_id o) = false) cs -> loose (Node o cs).
Fixpoint zok (z : zipper) : Prop :=
  match z with
  | [] => False
  | (o, cs) :: r =>
      loose (Node o cs) /\
      match r with [] => True | (p, _) :: _ => r_ref o = r_id p /\ uuid_ltb (r_id o) (r_id p) = false /\ zok r end
  end.
Definition zroot (z : zipper) : option rop := option_map fst (nth_error (rev z) 0).
Lemma zpop o cs p ds r : zok ((o, cs) :: (p, ds) :: r) -> zok ((p, ds ++ [Node o cs]) :: r) /\
  zlist ((p, ds ++ [Node o cs]) :: r) = zlist ((o, cs) :: (p, ds) :: r) /\ zroot ((p, ds ++ [Node o cs]) :: r) = zroot ((o, cs) :: (p, ds) :: r).
Proof.
  cbn [zok]. intros (L & R1 & R2 & LP & RS). split; [|split].
  - split; [|destruct r as [|[x xs] r]; [exact I|exact RS]]. inversion LP as [? ? F]; subst. constructor. apply Forall_app. split; [exact F|].
    constructor; [|constructor]. cbn [root]. split; [exact L|]. split; assumption.
  - cbn [zlist]. rewrite flat_map_app. cbn [flat_map listing]. rewrite app_nil_r, <- app_assoc. reflexivity.
  - unfold zroot. cbn [rev]. destruct (rev r); reflexivity.
Qed.
Lemma zunr ref : forall z s s', zok z -> s_path s = map (fun x => r_id (fst x)) z -> unr ref s = PopOk s' ->
  exists z', zok z' /\ s_path s' = map (fun x => r_id (fst x)) z' /\ zlist z' = zlist z /\ zroot z' = zroot z /\
    exists o cs r, z' = (o, cs) :: r /\ r_id o = ref.
Proof.
  intros z s. revert z. remember (length (s_path s)) as n eqn:N0. revert s N0.
  induction n as [|n IH]; intros s N0 z s' Z P U; rewrite unr_eq in U; destruct (s_path s) as [|top p] eqn:PS; try discriminate.
  destruct z as [|[o cs] r]; [destruct Z|]. cbn [map fst] in P. injection P as T P. destruct (uuid_eqb top ref) eqn:Q.
  - injection U as <-. exists ((o, cs) :: r). split; [exact Z|]. split; [rewrite PS; cbn [map fst]; congruence|]. split; [reflexivity|]. split; [reflexivity|].
    exists o, cs, r. split; [reflexivity|]. apply uuid_eqb_eq in Q. congruence.
  - destruct (pop_once s) as [s1|st t|] eqn:PO; try discriminate. apply pop_path in PO. destruct PO as (tp & PP & _). rewrite PS in PP. injection PP as _ PP.
    destruct r as [|[p0 ds] r].
    { cbn [map] in P. subst p. rewrite unr_eq, <- PP in U. discriminate. }
    destruct (zpop _ _ _ _ _ Z) as (Z1 & Z2 & Z3). cbn [length] in N0. injection N0 as N0.
    destruct (IH s1 ltac:(rewrite <- PP; exact N0) ((p0, ds ++ [Node o cs]) :: r) s' Z1 ltac:(rewrite <- PP, P; reflexivity) U) as (z' & A & B & D & E & F).
    exists z'. split; [exact A|]. split; [exact B|]. split; [congruence|]. split; [congruence|exact F].
Qed.
Lemma zstep s o s' z : zok z -> s_path s = map (fun x => r_id (fst x)) z -> scan_op (r_id o) (r_ref o) (entry_type o) s = inl s' ->
  version (r_id o) = TIME /\ exists z', zok z' /\ s_path s' = map (fun x => r_id (fst x)) z' /\ zlist z' = zlist z ++ [o] /\ zroot z' = zroot z.
Proof.
  intros Z P E. unfold scan_op in E. destruct (uuid_ltb (r_id o) (r_ref o)) eqn:L; [discriminate|]. destruct (_ && _) eqn:V; [|discriminate]. cbn [negb] in E.
  apply andb_prop in V. destruct V as [V _]. apply N.eqb_eq in V. split; [exact V|].
  fold (unr (r_ref o) s) in E. destruct (unr (r_ref o) s) as [s1|st t|] eqn:U; try discriminate.
  destruct (zunr _ _ _ _ Z P U) as (z' & A & B & D & E1 & p & cs & r & F1 & F2).
  destruct (switch (entry_type o) s1) as [state ceils]. cbv zeta in E. destruct (_ && _) in E; [|discriminate]. injection E as <-. cbn [s_path].
  exists ((o, []) :: z'). split; [|split; [|split]].
  - subst z'. cbn [zok]. split; [constructor; constructor|]. split; [congruence|]. split; [rewrite F2; exact L|exact A].
  - cbn [map fst]. rewrite B. reflexivity.
  - cbn [zlist flat_map]. rewrite D. reflexivity.
  - rewrite <- E1. subst z'. unfold zroot. cbn [rev]. destruct (rev r); reflexivity.
Qed.
Lemma zsteps s l s' : steps s l s' -> forall z, zok z -> s_path s = map (fun x => r_id (fst x)) z ->
  Forall (fun o => version (r_id o) = TIME) l /\
  exists z', zok z' /\ s_path s' = map (fun x => r_id (fst x)) z' /\ zlist z' = zlist z ++ l /\ zroot z' = zroot z.
Proof.
  induction 1 as [s|s o l s1 s2 E S1 IH]; intros z Z P; [split; [constructor|]; exists z; rewrite app_nil_r; repeat split; assumption|].
  destruct (zstep _ _ _ _ Z P E) as (V & z1 & Z1 & P1 & L1 & R1). destruct (IH z1 Z1 P1) as (VS & z2 & Z2 & P2 & L2 & R2).
  split; [constructor; assumption|]. exists z2. split; [exact Z2|]. split; [exact P2|]. split; [rewrite L2, L1, <- app_assoc; reflexivity|congruence].
Qed.
Lemma zclose : forall n z, length z = n -> zok z -> exists t, loose t /\ listing t = zlist z /\ Some (root t) = zroot z.
Proof.
  induction n as [|n IH]; intros z N0 Z; destruct z as [|[o cs] [|[p ds] r]]; try discriminate; try destruct Z as [].
  - exists (Node o cs). split; [assumption|]. cbn [zlist app listing]. split; reflexivity.
  - destruct (zpop _ _ _ _ _ (conj H H0)) as (Z1 & Z2 & Z3). cbn [length] in *. injection N0 as N0.
    destruct (IH ((p, ds ++ [Node o cs]) :: r) N0 Z1) as (t & T1 & T2 & T3). exists t. split; [exact T1|]. split; congruence.
Qed.
(* distinct ids: not older means newer *)
Lemma loose_linked : forall t, loose t -> NoDup (ids (listing t)) -> linked t.
Proof.
  induction t as [o cs IH] using tree_ind2. intros L ND. inversion L as [? ? F]; subst. constructor. cbn [listing ids map] in ND. inversion ND as [|? ? NI ND2]; subst.
  rewrite Forall_forall in *. intros c C1. destruct (F c C1) as (L1 & R1 & N1). split; [|split; [exact R1|]].
  - apply IH; [exact C1|exact L1|]. clear - ND2 C1. induction cs as [|d cs IHc]; [destruct C1|]. cbn [flat_map] in ND2. unfold ids in *. rewrite map_app in ND2.
    apply nodup_app in ND2. destruct ND2 as (A & B & _). destruct C1 as [->|C1]; [exact A|apply IHc; assumption].
  - destruct (uuid_ltb (r_id o) (r_id (root c))) eqn:Q; [reflexivity|]. exfalso. apply NI. rewrite (uuid_ltb_antisym _ _ Q N1).
    apply in_map. apply in_flat_map. exists c. split; [exact C1|]. destruct c. left. reflexivity.
Qed.
Lemma begin_zip o : zok [(o, [])] /\ s_path (scan_begin (r_id o)) = map (fun x => r_id (fst x)) [(o, @nil tree)] /\ weak (scan_begin (r_id o)).
Proof. split; [cbn [zok]; split; [constructor; constructor|exact I]|]. split; [reflexivity|]. constructor; reflexivity. Qed.
Lemma steps_tree o l s' : version (r_id o) = TIME -> steps (scan_begin (r_id o)) l s' ->
  exists t, loose t /\ listing t = o :: l /\ root t = o /\ Forall (fun x => version (r_id x) = TIME) (listing t).
Proof.
  intros V H. destruct (begin_zip o) as (Z & P & _). destruct (zsteps _ _ _ H _ Z P) as (VS & z & Z1 & _ & L1 & R1).
  destruct (zclose _ z eq_refl Z1) as (t & T1 & T2 & T3). exists t. split; [exact T1|]. split; [rewrite T2, L1; reflexivity|].
  split; [rewrite R1 in T3; injection T3 as T3; exact T3|]. rewrite T2, L1. constructor; assumption.
Qed.
(* when the way to the root is clear, so is the way to anywhere else *)
Lemma unr_clear ref rt st t : forall n s s0, length (s_path s) = n -> unr rt s = PopOk s0 -> pop_once s0 = PopRet st t -> unr ref s <> PopUB.
Proof.
  induction n as [|n IH]; intros s s0 N0 U ST; rewrite unr_eq in U |- *; destruct (s_path s) as [|top p] eqn:P; try discriminate.
  cbn [length] in N0. injection N0 as N0. destruct (uuid_eqb top ref); [discriminate|]. destruct (uuid_eqb top rt) eqn:Q.
  - injection U as <-. rewrite ST. discriminate.
  - destruct (pop_once s) as [s1|st1 t1|] eqn:PO; try discriminate. apply (IH s1 s0); [|exact U|exact ST].
    apply pop_path in PO. destruct PO as (tp & PP & _). rewrite P in PP. injection PP as _ PP. rewrite <- PP. exact N0.
Qed.
Lemma steps_det s l a b : steps s l a -> steps s l b -> a = b.
Proof.
  intro H. revert b. induction H as [s|s o l s1 s2 E S1 IH]; intros b H2; inversion H2; subst; [reflexivity|]. apply IH. congruence.
Qed.
Lemma scan_clear o cs : rga_tree (Node o cs) -> N.of_nat (length (listing (Node o cs))) < 2 ^ 30 ->
  existsb e_oob (map (eval [o]) cs) = false ->
  exists st s tr, steps (scan_begin (r_id o)) (flat_map listing cs) st /\ unr (r_id o) st = PopOk s /\ pop_once s = PopRet StCauseBreak tr.
Proof.
  intros (LK & RO & VS & NV) B OO. inversion LK as [? ? LKS]; subst. cbn [root listing length] in *.
  assert (I0 : inv (scan_begin (r_id o)) [o]).
  { unfold scan_begin. constructor; cbn [s_tombs s_state s_path s_kills s_poss s_depth s_pos s_ceil length map]; try reflexivity; try discriminate; try lia.
    - constructor; [reflexivity|constructor].
    - cbn [layer_of lnum]. intros j Hj. assert (j = 0%nat) by lia. subst j. reflexivity. }
  assert (NF : newest_first [o]) by (constructor; constructor).
  assert (TR : Forall tree_lemma cs) by (apply Forall_forall; intros; apply tree_scan).
  assert (HO : head_ok (r_id o) (s_path (scan_begin (r_id o))) []).
  { cbn [head_ok scan_begin s_path]. split; [left; reflexivity|]. split; [inversion VS; assumption|exact NV]. }
  pose proof (forest_lemma cs TR (r_id o) o [] (scan_begin (r_id o)) (scan_begin (r_id o)) [] I0 (settles_refl _) NF LKS VS
    ltac:(cbn [scan_begin s_tombs length]; lia) HO) as FO. cbv zeta in FO. rewrite OO in FO.
  destruct FO as (st & s & G & SE & I & _). pose proof I as [_ IS IP IK IPS _ _ _ _ _ _]. exists st, s, (s_tombs s). split; [exact G|].
  split; [|unfold pop_once; rewrite IP; destruct (s_kills s); [discriminate IK|]; destruct (s_poss s); [discriminate IPS|]; rewrite IS; reflexivity].
  rewrite (proj2 SE) by (rewrite IP; left; reflexivity). rewrite unr_eq, IP. cbn [map].
  replace (uuid_eqb (r_id o) (r_id o)) with true by (symmetry; apply uuid_eqb_eq; reflexivity). reflexivity.
Qed.
Lemma scan_decides o cs : rga_tree (Node o cs) -> N.of_nat (length (listing (Node o cs))) < 2 ^ 30 ->
  let T := Node o cs in
  ((exists p, In p (places [] T) /\ stray p) /\ existsb e_oob (map (eval [o]) cs) = true /\ go (r_id o) (scan_begin (r_id o)) (flat_map listing cs) = ScanUB) \/
  (~ (exists p, In p (places [] T) /\ stray p) /\ existsb e_oob (map (eval [o]) cs) = false /\
   exists flags, go (r_id o) (scan_begin (r_id o)) (flat_map listing cs) = ScanRet StOK flags /\ Forall2 (fun p f => f = true <-> hidden p) (places [] T) flags).
Proof.
  intros H B. cbv zeta. pose proof (scan_tree o cs H B) as G. cbv zeta in G. pose proof (eval_oob (Node o cs) []) as O. pose proof (eval_flags (Node o cs) []) as F.
  cbn [eval e_oob e_flags self_oob layer_of] in O, F. rewrite orb_false_r in O. cbn [is_element layer_eqb negb orb] in F.
  destruct (existsb e_oob (map (eval [o]) cs)).
  - left. split; [apply O; reflexivity|]. split; [reflexivity|exact G].
  - right. split; [rewrite <- O; discriminate|]. split; [reflexivity|]. exists (true :: flat_map e_flags (map (eval [o]) cs)). split; assumption.
Qed.
Lemma ub_prefix o l : r_ref o = RGA_FORM_UUID -> version (r_id o) = TIME -> uuid_ltb (Time WORD_NEVER 0) (r_id o) = false ->
  NoDup (ids (o :: l)) -> N.of_nat (length (o :: l)) < 2 ^ 30 -> go (r_id o) (scan_begin (r_id o)) l = ScanUB ->
  exists T rest, o :: l = listing T ++ rest /\ rga_tree T /\ exists p, In p (places [] T) /\ stray p.
Proof.
  intros RO V NV ND B U.
  assert (PRE : forall a b s', l = a ++ b -> steps (scan_begin (r_id o)) a s' ->
    (exists T rest, o :: l = listing T ++ rest /\ rga_tree T /\ exists p, In p (places [] T) /\ stray p) \/
    (exists s tr, unr (r_id o) s' = PopOk s /\ pop_once s = PopRet StCauseBreak tr /\
       exists fl, go (r_id o) (scan_begin (r_id o)) a = ScanRet StOK fl)).
  { intros a b s' E S1. destruct (steps_tree o a s' V S1) as (t & T1 & T2 & T3 & T4).
    assert (ND2 : NoDup (ids (o :: a))).
    { subst l. unfold ids in *. change (o :: a ++ b) with ((o :: a) ++ b) in ND. rewrite map_app in ND. apply nodup_app in ND. apply ND. }
    assert (RT : rga_tree t).
    { split; [apply loose_linked; [exact T1|rewrite T2; exact ND2]|]. rewrite T3. split; [exact RO|]. split; [exact T4|exact NV]. }
    destruct t as [x cs]. cbn [root] in T3. subst x. cbn [listing] in T2. injection T2 as T2.
    assert (B2 : N.of_nat (length (listing (Node o cs))) < 2 ^ 30).
    { cbn [listing length]. rewrite T2. subst l. cbn [length] in B. rewrite app_length in B. lia. }
    destruct (scan_decides o cs RT B2) as [(ST & _ & _)|(_ & OO & fl & G & _)].
    - left. exists (Node o cs), b. split; [cbn [listing]; rewrite T2, E; reflexivity|]. split; assumption.
    - right. destruct (scan_clear o cs RT B2 OO) as (st & s & tr & S2 & U2 & P2). rewrite T2 in S2, G.
      rewrite (steps_det _ _ _ _ S1 S2). exists s, tr. split; [exact U2|]. split; [exact P2|]. exists fl. exact G. }
  destruct (go_steps (r_id o) l (scan_begin (r_id o))) as [(s' & S1 & G)|(a & x & b & s' & y & L & S1 & E & G)].
  - destruct (PRE l [] s' ltac:(rewrite app_nil_r; reflexivity) S1) as [R|(s & tr & U1 & P1 & fl & G2)]; [exact R|]. congruence.
  - destruct (PRE a (x :: b) s' L S1) as [R|(s & tr & U1 & P1 & _)]; [exact R|]. exfalso. rewrite U in G. subst y.
    unfold scan_op in E. destruct (uuid_ltb (r_id x) (r_ref x)); [discriminate|]. destruct (negb _); [discriminate|].
    fold (unr (r_ref x) s') in E. destruct (unr (r_ref x) s') as [s1|st1 t1|] eqn:U2; try discriminate.
    + destruct (switch (entry_type x) s1). cbv zeta in E. destruct (_ && _) in E; discriminate.
    + exact (unr_clear (r_ref x) (r_id o) _ _ _ s' s eq_refl U1 P1 U2).
Qed.
