(* C39: comparison of frames. *)
From Verif Require Import Prelude UuidModel UuidProofs KeyModel CodecModel CodecProofs TextTable TextModel TextSpec TextSafety TextTheorems
  MergeModel HashModel HashSpec HashProofs ReplicaModel ReplicaSpec ReplicaProofs CompareModel CompareSpec.

(* ---- words of doubles ---- *)
Lemma nan_ok w : w < 2 ^ 64 -> nan w = true <-> is_nan w.
Proof.
  intro L. unfold nan, is_nan. change (2 ^ 64) with 18446744073709551616 in L.
  change (2 ^ 63) with 9223372036854775808. change (2 ^ 52) with 4503599627370496. change (2 ^ 11) with 2048.
  change (2047 * 4503599627370496) with 9218868437227405312. rewrite N.ltb_lt.
  assert (E : w mod 9223372036854775808 = 4503599627370496 * ((w / 4503599627370496) mod 2048) + w mod 4503599627370496).
  { change 9223372036854775808 with (4503599627370496 * 2048) at 1. rewrite N.mod_mul_r by discriminate. lia. }
  rewrite E. pose proof (N.mod_lt (w / 4503599627370496) 2048 ltac:(discriminate)).
  pose proof (N.mod_lt w 4503599627370496 ltac:(discriminate)). nia.
Qed.
Lemma float_eq_ok a b : a < 2 ^ 64 -> b < 2 ^ 64 ->
  float_eq a b = true <-> ~ is_nan a /\ ~ is_nan b /\ (a = b \/ is_zero a /\ is_zero b).
Proof.
  intros A B. unfold float_eq, is_zero. rewrite !andb_true_iff, orb_true_iff, andb_true_iff, !negb_true_iff, !N.eqb_eq.
  rewrite <- (nan_ok a A), <- (nan_ok b B), !not_true_iff_false. tauto.
Qed.
Lemma bytes_eqb_eq a : forall b, bytes_eqb a b = true <-> a = b.
Proof.
  induction a as [|x a IH]; intros [|y b]; cbn; try (split; intro; congruence).
  rewrite andb_true_iff, N.eqb_eq, IH. split; [intros [-> ->]; reflexivity|intro H; injection H; auto].
Qed.
Lemma utf8_all_inj l : forall m, Forall (fun cp => cp < 2 ^ 21) l -> Forall (fun cp => cp < 2 ^ 21) m ->
  flat_map utf8append l = flat_map utf8append m -> l = m.
Proof.
  intros m Fl Fm E. pose proof (utf8_roundtrip l Fl) as A. rewrite E, (utf8_roundtrip m Fm) in A. congruence.
Qed.

Lemma Forall2_len {X Y} (R : X -> Y -> Prop) l m : Forall2 R l m -> length l = length m.
Proof. induction 1; cbn; congruence. Qed.

(* ---- float literals are short ---- *)
Lemma Forall_firstn {X} (P : X -> Prop) n l : Forall P l -> Forall P (firstn n l).
Proof. intro H. rewrite <- (firstn_skipn n l) in H. apply Forall_app in H. tauto. Qed.
Lemma Forall_skipn {X} (P : X -> Prop) n l : Forall P l -> Forall P (skipn n l).
Proof. intro H. rewrite <- (firstn_skipn n l) in H. apply Forall_app in H. tauto. Qed.
Definition short (a : atom) : Prop := match a with AFloat b e => e - b <= 24 | _ => True end.
Notation shorts := (Forall short).
Lemma shorts_set_nth op i a : shorts op -> short a -> shorts (set_nth op i a).
Proof.
  intros H A. unfold set_nth. apply Forall_app. split; [apply Forall_firstn; exact H|].
  pose proof (Forall_skipn short i op H) as K. destruct (skipn i op); [constructor|]. inversion K; subst. constructor; assumption.
Qed.
Lemma shorts_set_last op a : shorts op -> short a -> shorts (set_last op a).
Proof.
  intros H A. unfold set_last. apply Forall_rev in H. destruct (rev op) as [|x r]; [constructor|]. inversion H; subst.
  apply Forall_app. split; [apply Forall_rev; assumption|constructor; auto].
Qed.
Lemma shorts_push op a : shorts op -> short a -> shorts (op ++ [a]).
Proof. intros H A. apply Forall_app. split; [exact H|constructor; auto]. Qed.
Lemma short_next_cp buf cp n b e : short (next_cp buf (AStr cp n b e)).
Proof. cbn. destruct (next_codepoint (sub buf b e) n); exact I. Qed.
Lemma exec_short buf pe a c p l : shorts (l_op l) ->
  match exec buf pe a c p l with ECont l' | EBreak l' => shorts (l_op l') | EAbort => True end.
Proof.
  intro H. destruct a; cbn [exec]; try exact H;
    repeat match goal with |- context [if ?b then _ else _] => destruct b eqn:? end; cbn [l_op set_op push]; try exact I; try exact H.
  all: try (apply shorts_set_nth; [exact H|exact I]).
  all: try (apply shorts_push; [exact H|exact I]).
  all: try (destruct (last_atom (l_op l)) as [[]|]; try exact I; match goal with |- context [if ?b then _ else _] => destruct b end;
            cbn [l_op]; [exact H|apply shorts_set_last; [exact H|apply short_next_cp]]).
  apply shorts_push; [exact H|]. cbn. apply N.ltb_ge. assumption.
Qed.
Lemma exec_all_short buf pe acts c p : forall l, shorts (l_op l) ->
  match exec_all buf pe acts c p l with ECont l' | EBreak l' => shorts (l_op l') | EAbort => True end.
Proof.
  induction acts as [|a acts IH]; intros l H; cbn [exec_all]; [exact H|].
  pose proof (exec_short buf pe a c p l H) as K. destruct (exec buf pe a c p l); auto. apply IH. exact K.
Qed.
Lemma run_short buf pe s : forall st l p, shorts (l_op l) ->
  match run buf pe st l p s with Some (_, l', _) => shorts (l_op l') | None => True end.
Proof.
  induction s as [|c s IH]; intros st l p H; cbn [run]; [exact H|].
  destruct (look (text_row st) c) as [[acts tgt]|]; [|exact H].
  pose proof (exec_all_short buf pe acts c p l H) as K. destruct (exec_all buf pe acts c p l); [apply IH; exact K|exact K|exact I].
Qed.
Lemma next_short c : shorts (c_op c) ->
  match next c with NOk c' | NEnd c' | NBad c' => shorts (c_op c') | NAbort => True end.
Proof.
  intro H. unfold next. destruct (negb (c_span c =? 0)).
  { cbn [c_op]. assert (K : shorts (set_nth (set_nth (c_op c) 1 (AUuid (op_id (c_op c)))) 0 (AUuid (inc (op_id (c_op c)))))).
    { apply shorts_set_nth; [apply shorts_set_nth; [exact H|exact I]|exact I]. }
    destruct (last_atom _) as [[|?|cp n b e|]|]; try exact K. destruct (cp =? 0); [exact K|].
    apply shorts_set_last; [exact K|apply short_next_cp]. }
  destruct ((c_state c =? 0) && negb (c_pos c =? 0)); [exact H|]. destruct (c_state c =? RON_FULL_STOP); [exact H|].
  destruct (c_pos c =? N.of_nat (length (c_buf c))); [exact H|].
  match goal with |- context [run ?a ?b ?d ?e ?f ?g] => pose proof (run_short a b g d e f) as K; destruct (run a b d e f g) as [[[st l] p]|] end; [|exact I].
  assert (Q : shorts (l_op l)). { apply K. cbn. repeat constructor. }
  destruct (negb (l_term l =? 0) && negb (st =? 0)); [exact Q|]. destruct (RON_START <=? st); exact Q.
Qed.
(* ParseFloat's buffer of 32 bytes is large enough for every float the parser
   delivers *)
Theorem C14_float_fits : forall buf c, reachable buf c -> Forall (fun a => atom_reads (c_buf c) a = true) (c_op c).
Proof.
  intros buf c R. assert (H : shorts (c_op c)).
  { induction R as [|c c' R IH E|c c' R IH E|c c' R IH E]; [constructor| | |]; pose proof (next_short c IH) as K; rewrite E in K; exact K. }
  eapply Forall_impl; [|exact H]. intros a A. destruct a; try reflexivity. cbn [short] in A. cbn [atom_reads]. apply Nat.ltb_lt.
  unfold sub. rewrite firstn_length. lia.
Qed.

Section Compare.
Variable fbits : bytes -> N.
Notation readable_value := (readable_value fbits).
Notation same_value := (same_value fbits).
Notation same_op := (same_op fbits).
Notation readable_ops := (readable_ops fbits).

Lemma read_string_ok buf cp n b e l : value_of buf (AStr cp n b e) = VStr (Some l) -> read_string buf cp n b e = flat_map utf8append l.
Proof.
  unfold value_of, read_string. destruct (cp =? 0).
  - intro H. injection H as H. destruct (read_prefix_all _ _ _ H) as [-> _]. reflexivity.
  - intro H. injection H as <-. cbn. rewrite app_nil_r. reflexivity.
Qed.
Lemma same_atom_ok bufa bufb x y : readable_value (value_of bufa x) -> readable_value (value_of bufb y) ->
  same_atom fbits bufa bufb x y = true <-> same_value (value_of bufa x) (value_of bufb y).
Proof.
  intros A B. destruct x as [u|b e|cp n b e|b e], y as [u'|b' e'|cp' n' b' e'|b' e'].
  1: cbn; rewrite uuid_eqb_eq; split; intro H; congruence.
  5: cbn; rewrite Z.eqb_eq; split; intro H; congruence.
  9:{ destruct (value_of bufa (AStr cp n b e)) as [| |[l|]|] eqn:E1; try discriminate E1; [|destruct A].
      destruct (value_of bufb (AStr cp' n' b' e')) as [| |[m|]|] eqn:E2; try discriminate E2; [|destruct B].
      unfold same_atom. rewrite (read_string_ok _ _ _ _ _ _ E1), (read_string_ok _ _ _ _ _ _ E2), bytes_eqb_eq. cbn [CompareSpec.same_value].
      cbn in A, B. split; [intro H; rewrite (utf8_all_inj l m A B H); reflexivity|intro H; injection H as ->; reflexivity]. }
  13:{ cbn in A, B |- *. apply float_eq_ok; assumption. }
  all: cbn [same_atom value_of CompareSpec.same_value]; split; intro H; try discriminate; try destruct H.
Qed.
Lemma compare_atoms_ok bufa bufb l : forall m, Forall readable_value (map (value_of bufa) l) -> Forall readable_value (map (value_of bufb) m) ->
  Forall (fun x => atom_reads bufa x = true) l -> Forall (fun x => atom_reads bufb x = true) m -> length l = length m -> exists s, compare_atoms fbits bufa bufb l m = Done s /\
  (s = COk <-> Forall2 same_value (map (value_of bufa) l) (map (value_of bufb) m)).
Proof.
  induction l as [|x l IH]; intros [|y m] A B FA FB L; try discriminate L.
  - exists COk. split; [reflexivity|]. split; [constructor|reflexivity].
  - cbn [map] in A, B. apply Forall_cons_iff in A as [A1 A2]. apply Forall_cons_iff in B as [B1 B2]. injection L as L.
    apply Forall_cons_iff in FA as [FA1 FA2]. apply Forall_cons_iff in FB as [FB1 FB2].
    cbn [compare_atoms map]. rewrite FA1, FB1. cbn [negb orb].
    pose proof (same_atom_ok bufa bufb x y A1 B1) as SA. destruct (same_atom fbits bufa bufb x y).
    + destruct (IH m A2 B2 FA2 FB2 L) as (s & E & K). exists s. split; [exact E|]. rewrite K. split; intro H.
      * constructor; [apply SA; reflexivity|exact H].
      * inversion H; assumption.
    + exists CBadValue. split; [reflexivity|]. split; [discriminate|]. intro H. inversion H as [|? ? ? ? H1 _]; subst.
      apply SA in H1. discriminate H1.
Qed.
Lemma compare_ops_ok a b : (2 <= length (c_op a))%nat -> (2 <= length (c_op b))%nat ->
  Forall (fun x => atom_reads (c_buf a) x = true) (c_op a) -> Forall (fun x => atom_reads (c_buf b) x = true) (c_op b) ->
  Forall readable_value (r_vals (rop_of a)) -> Forall readable_value (r_vals (rop_of b)) ->
  exists s, compare_ops fbits a b = Done s /\ (s = COk <-> same_op (rop_of a) (rop_of b)).
Proof.
  intros La Lb FA FB A B. unfold compare_ops, CompareSpec.same_op. cbn [rop_of r_id r_ref r_vals] in *.
  destruct (uuid_eqb (op_id (c_op a)) (op_id (c_op b))) eqn:E1; cbn [negb].
  2:{ exists CBadId. split; [reflexivity|]. split; [discriminate|]. intros (H & _). apply uuid_eqb_eq in H. congruence. }
  apply uuid_eqb_eq in E1. destruct (uuid_eqb (op_ref (c_op a)) (op_ref (c_op b))) eqn:E2; cbn [negb].
  2:{ exists CBadRef. split; [reflexivity|]. split; [discriminate|]. intros (_ & H & _). apply uuid_eqb_eq in H. congruence. }
  apply uuid_eqb_eq in E2. destruct (length (c_op a) =? length (c_op b))%nat eqn:E3; cbn [negb].
  - apply Nat.eqb_eq in E3. destruct (compare_atoms_ok (c_buf a) (c_buf b) _ _ A B) as (s & E & K).
    { apply Forall_skipn; exact FA. } { apply Forall_skipn; exact FB. } { rewrite !skipn_length. lia. }
    exists s. split; [exact E|]. rewrite K. tauto.
  - apply Nat.eqb_neq in E3. exists CBadValue. split; [reflexivity|]. split; [discriminate|]. intros (_ & _ & H).
    apply Forall2_len in H. rewrite !map_length, !skipn_length in H. lia.
Qed.

(* ---- a cursor in the ops that are left ---- *)
Inductive stands : cursor -> list rop -> Prop :=
| stands_end c : valid c = false -> stands c []
| stands_op c c' l : valid c = true -> (2 <= length (c_op c))%nat ->
    Forall (fun x => atom_reads (c_buf c) x = true) (c_op c) -> next_on c = Done c' -> stands c' l -> stands c (rop_of c :: l).
Lemma scan_stands buf n : forall c l bad, reachable buf c -> c_span c = 0 \/ valid c = true ->
  scan n c = (l, if bad : bool then SBad else SEnd) ->
  exists c', (next c = match l with [] => if bad then NBad c' else NEnd c' | _ => NOk c' end) /\ stands c' l.
Proof.
  induction n as [|n IH]; intros c l bad R V; cbn [scan]; [destruct bad; discriminate|].
  destruct (next c) as [c'|c'|c'|] eqn:N.
  - destruct (scan n c') as [r e] eqn:SC. intro H. injection H as <- ->. exists c'. split; [reflexivity|].
    assert (R' : reachable buf c') by (eapply reach_ok; eassumption).
    pose proof (next_valid _ _ N V) as V'. destruct (IH c' r bad R' (or_intror V') SC) as (c'' & N' & K).
    destruct (proj2 (proj1 (C14_parser_safety buf) c R) c' N) as (_ & _ & (i & rr & vs & E) & _).
    econstructor; [exact V'|rewrite E; cbn; lia|exact (C14_float_fits _ _ R')| |exact K].
    unfold next_on. rewrite N'. destruct r; [destruct bad|]; reflexivity.
  - intro H. destruct bad; injection H as <-; try discriminate. exists c'. split; [reflexivity|]. constructor. eapply next_stop. left. exact N.
  - intro H. destruct bad; injection H as <-; try discriminate. exists c'. split; [reflexivity|]. constructor. eapply next_stop. right. exact N.
  - destruct bad; discriminate.
Qed.
Fixpoint after_comments (l : list rop) : list rop :=
  match l with [] => [] | o :: r => if uuid_eqb (r_id o) COMMENT then after_comments r else l end.
Lemma after_content l : content (after_comments l) = content l.
Proof. induction l as [|o r IH]; cbn; [reflexivity|]. destruct (uuid_eqb (r_id o) COMMENT) eqn:E; [exact IH|cbn; rewrite E; reflexivity]. Qed.
Lemma after_length l : (length (after_comments l) <= length l)%nat.
Proof. induction l as [|o r IH]; cbn; [lia|]. destruct (uuid_eqb (r_id o) COMMENT); cbn; lia. Qed.
Lemma after_head l o r : after_comments l = o :: r -> uuid_eqb (r_id o) COMMENT = false.
Proof. induction l as [|x l IH]; cbn; [discriminate|]. destruct (uuid_eqb (r_id x) COMMENT) eqn:E; [exact IH|]. intro H. injection H as <- _. exact E. Qed.
Lemma skip_ok l : forall n c, stands c l -> (length l < n)%nat -> exists c', skip_comments n c = Done c' /\ stands c' (after_comments l).
Proof.
  induction l as [|o l IH]; intros [|n] c H L; cbn [length] in L; try lia.
  - inversion H as [? V|]; subst. exists c. cbn. rewrite V. split; [reflexivity|constructor; exact V].
  - inversion H as [|? c' ? V Lo Fo N K]; subst. cbn [skip_comments after_comments]. rewrite V. cbn [andb rop_of r_id].
    destruct (uuid_eqb (op_id (c_op c)) COMMENT) eqn:E.
    + rewrite N. cbn [rbind]. apply IH; [exact K|lia].
    + exists c. split; [reflexivity|exact H].
Qed.
Lemma stands_valid c l : stands c l -> valid c = match l with [] => false | _ => true end.
Proof. inversion 1; assumption. Qed.
Lemma readable_after l : readable_ops l -> readable_ops (after_comments l).
Proof. unfold CompareSpec.readable_ops. induction 1 as [|o l A B IH]; cbn; [constructor|]. destruct (uuid_eqb (r_id o) COMMENT); [exact IH|constructor; assumption]. Qed.

Definition agrees (x y : list rop) (s : cstatus) : Prop := s = COk <-> Forall2 same_op (content x) (content y).
Lemma rest_ok fuel a b la lb : stands a la -> stands b lb -> (length la < fuel)%nat -> (length lb < fuel)%nat ->
  content la = [] \/ content lb = [] ->
  exists s, compare_rest fuel a b = Done s /\ agrees la lb s.
Proof.
  intros A B La Lb C. destruct (skip_ok _ fuel _ A La) as (a' & EA & SA). destruct (skip_ok _ fuel _ B Lb) as (b' & EB & SB).
  unfold compare_rest. rewrite EA. cbn [rbind]. rewrite EB. cbn [rbind]. eexists. split; [reflexivity|].
  rewrite (stands_valid _ _ SA), (stands_valid _ _ SB). unfold agrees. rewrite <- (after_content la), <- (after_content lb).
  rewrite <- (after_content la), <- (after_content lb) in C.
  destruct (after_comments la) as [|x l] eqn:EL, (after_comments lb) as [|y m] eqn:EM; cbn [orb].
  - split; [constructor|reflexivity].
  - split; [discriminate|]. cbn [content filter]. rewrite (after_head _ _ _ EM). cbn [negb]. intro H. inversion H.
  - split; [discriminate|]. cbn [content filter]. rewrite (after_head _ _ _ EL). cbn [negb]. intro H. inversion H.
  - exfalso. cbn [content filter] in C. rewrite (after_head _ _ _ EL), (after_head _ _ _ EM) in C. cbn [negb] in C. destruct C; discriminate.
Qed.
Lemma loop_ok fuel n : forall a b la lb, stands a la -> stands b lb -> (length la < fuel)%nat -> (length lb < fuel)%nat ->
  (length la < n)%nat -> readable_ops la -> readable_ops lb ->
  exists s, compare_loop fbits fuel n a b = Done s /\ agrees la lb s.
Proof.
  induction n as [|n IH]; intros a b la lb A B La Lb Ln RA RB; [lia|]. cbn [compare_loop].
  rewrite (stands_valid _ _ A), (stands_valid _ _ B).
  destruct la as [|xa la0]; [apply rest_ok; auto|]. destruct lb as [|xb lb0]; [apply rest_ok; auto|]. cbn [andb].
  set (la := xa :: la0) in *. set (lb := xb :: lb0) in *.
  destruct (skip_ok _ fuel _ A La) as (a' & EA & SA). destruct (skip_ok _ fuel _ B Lb) as (b' & EB & SB).
  rewrite EA. cbn [rbind]. rewrite EB. cbn [rbind].
  rewrite (stands_valid _ _ SA), (stands_valid _ _ SB).
  assert (TO : forall s, agrees (after_comments la) (after_comments lb) s -> agrees la lb s).
  { intros s. unfold agrees. rewrite !after_content. tauto. }
  pose proof (after_length la) as L1. pose proof (after_length lb) as L2.
  pose proof (readable_after _ RA) as RA'. pose proof (readable_after _ RB) as RB'.
  destruct (after_comments la) as [|x l] eqn:EL.
  { cbn [negb orb]. destruct (rest_ok fuel a' b' _ _ SA SB ltac:(lia) ltac:(lia) (or_introl eq_refl)) as (s & E & K). exists s. auto. }
  destruct (after_comments lb) as [|y m] eqn:EM.
  { cbn [negb orb]. destruct (rest_ok fuel a' b' _ _ SA SB ltac:(lia) ltac:(lia) (or_intror eq_refl)) as (s & E & K). exists s. auto. }
  cbn [negb orb]. inversion SA as [|? a'' ? VA OA FA NA KA]; subst. inversion SB as [|? b'' ? VB OB FB NB KB]; subst.
  inversion RA' as [|? ? RA1 RA2]; subst. inversion RB' as [|? ? RB1 RB2]; subst.
  destruct (compare_ops_ok a' b' OA OB FA FB RA1 RB1) as (s & E & K). rewrite E. cbn [rbind].
  assert (HEAD : Forall2 same_op (content (rop_of a' :: l)) (content (rop_of b' :: m)) <->
                 same_op (rop_of a') (rop_of b') /\ Forall2 same_op (content l) (content m)).
  { cbn [content filter]. rewrite (after_head _ _ _ EL), (after_head _ _ _ EM). cbn [negb].
    split; [intro H; inversion H; auto|intros [H1 H2]; constructor; auto]. }
  destruct s.
  - rewrite NA. cbn [rbind]. rewrite NB. cbn [rbind]. cbn [length] in L1, L2.
    destruct (IH a'' b'' l m KA KB ltac:(lia) ltac:(lia) ltac:(lia) RA2 RB2) as (s' & E' & K'). exists s'. split; [exact E'|].
    apply TO. unfold agrees in *. rewrite K', HEAD. split; [intro H; split; [apply K; reflexivity|exact H]|tauto].
  - eexists. split; [reflexivity|]. apply TO. unfold agrees. rewrite HEAD, <- K. split; [discriminate|tauto].
  - eexists. split; [reflexivity|]. apply TO. unfold agrees. rewrite HEAD, <- K. split; [discriminate|tauto].
  - eexists. split; [reflexivity|]. apply TO. unfold agrees. rewrite HEAD, <- K. split; [discriminate|tauto].
  - eexists. split; [reflexivity|]. apply TO. unfold agrees. rewrite HEAD, <- K. split; [discriminate|tauto].
Qed.

(* C39: two frames compare as equal exactly if they have the same ops, comments
   and terminators aside. What comes after a syntax error does not count; but a
   frame without any op only equals another one that ends in the same way. *)
Theorem C39_compare : forall f g lf lg bf bg, reads_as f lf bf -> reads_as g lg bg -> readable_ops lf -> readable_ops lg ->
  forall fuel, (length lf < fuel)%nat -> (length lg < fuel)%nat ->
  exists s, compare_frames fbits fuel f g = Done s /\
    (s = COk <-> Forall2 same_op (content lf) (content lg) /\ (lf = [] <-> lg = []) /\ (lf = [] -> bf = bg)).
Proof.
  intros f g lf lg bf bg (n & SF) (m & SG) RF RG fuel Lf Lg.
  destruct (scan_stands f n (cursor_of f) lf bf (reach0 f) (or_introl eq_refl) SF) as (a & NA & A).
  destruct (scan_stands g m (cursor_of g) lg bg (reach0 g) (or_introl eq_refl) SG) as (b & NB & B).
  unfold compare_frames, compare_with_cursors. rewrite NA, NB.
  destruct (loop_ok fuel fuel a b lf lg A B Lf Lg Lf RF RG) as (s & E & K). unfold agrees in K.
  destruct lf as [|x lf], lg as [|y lg].
  - destruct bf, bg; try (exists s; split; [exact E|]; rewrite K; tauto);
      (exists CBadValue; split; [reflexivity|]; split; [discriminate|]; intros (_ & _ & H); specialize (H eq_refl); discriminate).
  - destruct bf; (exists CBadValue; split; [reflexivity|]; split; [discriminate|]; intros (_ & H & _); destruct H as [H _]; specialize (H eq_refl); discriminate).
  - destruct bg; (exists CBadValue; split; [reflexivity|]; split; [discriminate|]; intros (_ & H & _); destruct H as [_ H]; specialize (H eq_refl); discriminate).
  - exists s. split; [exact E|]. rewrite K. split; [intro H; split; [exact H|split; [split; discriminate|discriminate]]|tauto].
Qed.

(* C39: so it is an equivalence, but for NaN *)
Definition equal_frames (fuel : nat) (f g : bytes) : Prop := compare_frames fbits fuel f g = Done COk.
Lemma same_value_sym x y : same_value x y -> same_value y x.
Proof.
  destruct x, y; cbn; try tauto; try congruence. intros (A & B & C). repeat split; auto. destruct C as [C|C]; [left; congruence|right; tauto].
Qed.
Lemma same_value_trans x y z : same_value x y -> same_value y z -> same_value x z.
Proof.
  destruct x, y, z; cbn; try tauto; try congruence. intros (A & B & C) (D & E & F). split; [exact A|]. split; [exact E|].
  destruct C as [C|C], F as [F|F]; [left; congruence|rewrite C; auto|rewrite <- F; auto|right; tauto].
Qed.
Lemma Forall2_sym' {X} (R : X -> X -> Prop) l m : (forall x y, R x y -> R y x) -> Forall2 R l m -> Forall2 R m l.
Proof. intro H. induction 1; constructor; auto. Qed.
Lemma Forall2_trans' {X} (R : X -> X -> Prop) : (forall x y z, R x y -> R y z -> R x z) ->
  forall l m k, Forall2 R l m -> Forall2 R m k -> Forall2 R l k.
Proof.
  intros H l m k A. revert k. induction A as [|x y l m B A IH]; intros k D; inversion D; subst; constructor; eauto.
Qed.
Lemma same_op_sym x y : same_op x y -> same_op y x.
Proof. intros (A & B & C). repeat split; auto. apply Forall2_sym'; [exact same_value_sym|exact C]. Qed.
Lemma same_op_trans x y z : same_op x y -> same_op y z -> same_op x z.
Proof. intros (A & B & C) (D & E & F). repeat split; try congruence. eapply Forall2_trans'; [exact same_value_trans|eassumption|eassumption]. Qed.
Theorem C39_equivalence : forall f g h lf lg lh bf bg bh fuel,
  reads_as f lf bf -> reads_as g lg bg -> reads_as h lh bh -> readable_ops lf -> readable_ops lg -> readable_ops lh ->
  (length lf < fuel)%nat -> (length lg < fuel)%nat -> (length lh < fuel)%nat ->
  (Forall (fun o => Forall (fun v => match v with VFloat s => ~ is_nan (fbits s) | _ => True end) (r_vals o)) (content lf) -> equal_frames fuel f f) /\
  (equal_frames fuel f g -> equal_frames fuel g f) /\
  (equal_frames fuel f g -> equal_frames fuel g h -> equal_frames fuel f h).
Proof.
  intros f g h lf lg lh bf bg bh fuel SF SG SH RF RG RH LF LG LH.
  assert (EQ : forall x y lx ly bx bY, reads_as x lx bx -> reads_as y ly bY -> readable_ops lx -> readable_ops ly ->
    (length lx < fuel)%nat -> (length ly < fuel)%nat ->
    equal_frames fuel x y <-> Forall2 same_op (content lx) (content ly) /\ (lx = [] <-> ly = []) /\ (lx = [] -> bx = bY)).
  { intros x y lx ly bx bY A B C D E F. destruct (C39_compare _ _ _ _ _ _ A B C D fuel E F) as (s & Q & K).
    unfold equal_frames. rewrite Q, <- K. split; [intro H; injection H; auto|intros ->; reflexivity]. }
  rewrite (EQ f f _ _ _ _ SF SF RF RF LF LF), (EQ f g _ _ _ _ SF SG RF RG LF LG), (EQ g f _ _ _ _ SG SF RG RF LG LF),
    (EQ g h _ _ _ _ SG SH RG RH LG LH), (EQ f h _ _ _ _ SF SH RF RH LF LH).
  split; [|split].
  - intro NN. split; [|tauto]. induction NN as [|o l A NN IH]; constructor; [|exact IH]. split; [reflexivity|]. split; [reflexivity|].
    induction A as [|v vs B A IHv]; constructor; [|exact IHv]. destruct v; cbn; auto.
  - intros (A & B & C). split; [apply Forall2_sym'; [exact same_op_sym|exact A]|]. split; [tauto|]. intro H. symmetry. apply C. tauto.
  - intros (A & B & C) (A' & B' & C'). split; [eapply Forall2_trans'; [exact same_op_trans|eassumption|eassumption]|]. split; [tauto|].
    intro H. rewrite (C H). apply C'. tauto.
Qed.
End Compare.
Print Assumptions C14_float_fits.
Print Assumptions C39_compare.
Print Assumptions C39_equivalence.
