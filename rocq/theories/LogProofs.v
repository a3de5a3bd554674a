(* Splitting a log into chains: a chain cut out of the log reads as the ops it
   was cut from. *)
From Verif Require Import Prelude UuidModel UuidSpec UuidProofs KeyModel CodecModel TextTable TextModel TextSpec TextSafety
  MergeModel MergeSpec MergeTextModel TextCursors LogModel LogSpec.

(* ---- reading depends only on the text before the end of the op ---- *)

Lemma sub_firstn buf b e n : e <= N.of_nat n -> sub (firstn n buf) b e = sub buf b e.
Proof.
  intro H. unfold sub. destruct (N.leb_spec b e) as [L|L].
  - rewrite skipn_firstn_comm, firstn_firstn. f_equal. lia.
  - replace (e - b) with 0 by lia. reflexivity.
Qed.

Definition ends_by (p : N) (a : atom) : Prop :=
  match a with AUuid _ => True | AInt _ e | AStr _ _ _ e | AFloat _ e => e <= p end.
Lemma ends_by_mono p q a : p <= q -> ends_by p a -> ends_by q a.
Proof. destruct a; cbn [ends_by]; lia || trivial. Qed.
Lemma within_ends p a : atom_within p a -> ends_by p a.
Proof. destruct a; cbn [atom_within ends_by]; [trivial|lia|lia|lia]. Qed.
Lemma op_ends p op : op_ok p op -> Forall (ends_by p) op.
Proof. intros [F _]. revert F. apply Forall_impl. apply within_ends. Qed.

Lemma next_cp_firstn buf n a : ends_by (N.of_nat n) a -> next_cp (firstn n buf) a = next_cp buf a.
Proof. destruct a as [u|b e|cp k b e|b e]; cbn [next_cp ends_by]; try reflexivity. intro H. rewrite sub_firstn by exact H. reflexivity. Qed.
Lemma next_cp_ends buf p a : ends_by p a -> ends_by p (next_cp buf a).
Proof.
  destruct a as [u|b e|cp k b e|b e]; try (intro; assumption). intro H.
  destruct (next_cp_str buf cp k b e) as (x & y & z & ->). exact H.
Qed.
Lemma set_nth_ends p op i a : Forall (ends_by p) op -> ends_by p a -> Forall (ends_by p) (set_nth op i a).
Proof.
  intros F H. unfold set_nth. rewrite <- (firstn_skipn i op) in F. apply Forall_app in F as [F1 F2]. apply Forall_app. split; [exact F1|].
  destruct (skipn i op); [constructor|]. inversion F2; subst. constructor; assumption.
Qed.
Lemma set_last_ends p op a : Forall (ends_by p) op -> ends_by p a -> Forall (ends_by p) (set_last op a).
Proof.
  intros F H. unfold set_last. apply Forall_rev in F. destruct (rev op) as [|x r]; [constructor|]. inversion F; subst.
  apply Forall_app. split; [apply Forall_rev; assumption|constructor; [exact H|constructor]].
Qed.
Lemma last_ends p op a : Forall (ends_by p) op -> last_atom op = Some a -> ends_by p a.
Proof. intros F E. apply last_atom_some in E as (r & ->). apply Forall_app in F as [_ F]. inversion F; assumption. Qed.

(* an action other than op_term *)
Lemma exec_local buf n pe pe' a c p l : p < N.of_nat n -> Forall (ends_by p) (l_op l) -> is_op_term a = false ->
  exec (firstn n buf) pe' a c p l = exec buf pe a c p l /\
  match exec buf pe a c p l with ECont l' => Forall (ends_by p) (l_op l') | _ => True end.
Proof.
  intros P F T.
  assert (PS : forall x, ends_by p x -> Forall (ends_by p) (l_op l ++ [x])).
  { intros x H. apply Forall_app. split; [exact F|constructor; [exact H|constructor]]. }
  destruct a; try discriminate T; cbn [exec]; rewrite ?sub_firstn by lia;
    try (split; [reflexivity|cbn [l_op]; exact F]).
  - destruct (words_ok l); (split; [reflexivity|]); [|trivial]. cbn [set_op l_op]. apply set_nth_ends; [exact F|exact Logic.I].
  - destruct (words_ok l); (split; [reflexivity|]); [|trivial]. cbn [set_op l_op]. apply set_nth_ends; [exact F|exact Logic.I].
  - split; [reflexivity|]. destruct (p <? l_int l); [trivial|]. destruct (_ && _); [trivial|]. cbn [l_op]. apply PS. cbn. lia.
  - split; [reflexivity|]. destruct (p <? l_str l); [trivial|]. cbn [push set_op l_op]. apply PS. cbn. lia.
  - split; [reflexivity|]. destruct (p <? l_float l); [trivial|]. destruct (24 <? _); [trivial|]. cbn [push set_op l_op]. apply PS. cbn. lia.
  - split; [reflexivity|]. destruct (words_ok l); [|trivial]. cbn [push set_op l_op]. apply PS. exact Logic.I.
  - split; [reflexivity|]. destruct (l_uuid l); [|exact F]. destruct (words_ok l); [|trivial]. cbn [push set_op l_op]. apply PS. exact Logic.I.
  - destruct (last_atom (l_op l)) as [[u|b e|cp k b e|b e]|] eqn:E; try (split; [reflexivity|trivial]).
    pose proof (last_ends _ _ _ F E) as H. rewrite next_cp_firstn by (revert H; apply ends_by_mono; lia).
    split; [reflexivity|]. cbn [l_op]. destruct (k =? 0); [exact F|]. apply set_last_ends; [exact F|]. apply next_cp_ends. exact H.
  - split; [|exact F]. f_equal. f_equal. rewrite <- (firstn_skipn n buf) at 2. destruct (le_lt_dec n (length buf)) as [L|L].
    + rewrite app_nth1 by (rewrite firstn_length; lia). reflexivity.
    + rewrite (skipn_all2 (n := n)) by lia. rewrite app_nil_r. reflexivity.
  - split; [reflexivity|]. destruct (p <? l_word l); [trivial|exact F].
  - split; [reflexivity|]. destruct (p <? l_word l); [trivial|exact F].
Qed.
Lemma exec_all_local buf n pe pe' c p acts : p < N.of_nat n -> forall l, Forall (ends_by p) (l_op l) -> existsb is_op_term acts = false ->
  exec_all (firstn n buf) pe' acts c p l = exec_all buf pe acts c p l /\
  match exec_all buf pe acts c p l with ECont l' => Forall (ends_by p) (l_op l') | _ => True end.
Proof.
  intro P. induction acts as [|a acts IH]; intros l F T; cbn [exec_all]; [auto|]. cbn [existsb] in T. apply orb_false_iff in T as [T1 T2].
  destruct (exec_local buf n pe pe' a c p l P F T1) as [-> H]. destruct (exec buf pe a c p l) as [l'|l'|]; [|auto|auto].
  apply IH; assumption.
Qed.
Lemma exec_all_app buf pe c p a b : forall l, exec_all buf pe (a ++ b) c p l =
  match exec_all buf pe a c p l with ECont l' => exec_all buf pe b c p l' | r => r end.
Proof. induction a as [|x a IH]; intro l; cbn [app exec_all]; [reflexivity|]. destruct (exec buf pe x c p l); auto. Qed.

(* op_term comes last *)
Definition term_last (acts : list action) : bool :=
  match rev acts with a :: r => negb (existsb is_op_term r) | [] => true end.
Lemma table_last : forall_below 76 (fun st => forallb (fun e => let '(lo, hi, acts, tgt) := e in term_last acts) (text_row st)) = true.
Proof. vm_compute. reflexivity. Qed.
Lemma existsb_rev {X} (f : X -> bool) l : existsb f (rev l) = existsb f l.
Proof.
  apply eq_true_iff_eq. rewrite !existsb_exists. split; intros (x & I & H); exists x; (split; [|exact H]); [apply in_rev|apply -> in_rev]; exact I.
Qed.
Lemma look_last st c acts tgt : st < 76 -> look (text_row st) c = Some (acts, tgt) ->
  existsb is_op_term acts = false \/ exists pre, acts = pre ++ [a_op_term] /\ existsb is_op_term pre = false.
Proof.
  intros Hst H. destruct (look_in _ _ _ _ H) as (lo & hi & I & _).
  pose proof (forall_below_spec 76 _ table_last st Hst) as T. cbv beta in T. rewrite forallb_forall in T. specialize (T _ I). cbv beta iota in T.
  clear -T. unfold term_last in T. destruct (existsb is_op_term acts) eqn:E; [right|left; reflexivity].
  rewrite <- existsb_rev in E. destruct (rev acts) as [|a r] eqn:R; [discriminate|]. cbn [existsb] in E.
  apply negb_true_iff in T. rewrite T, orb_false_r in E. destruct a; try discriminate E.
  exists (rev r). split; [rewrite <- (rev_involutive acts), R; reflexivity|rewrite existsb_rev; exact T].
Qed.

Lemma run_pos buf pe s : forall st l p st' l' p', run buf pe st l p s = Some (st', l', p') -> p <= p'.
Proof.
  induction s as [|c t IH]; intros st l p st' l' p' R; cbn [run] in R; [injection R as <- <- <-; lia|].
  destruct (look (text_row st) c) as [[acts tgt]|]; [|injection R as <- <- <-; lia].
  destruct (exec_all buf pe acts c p l) as [l1|l1|]; [|injection R as <- <- <-; lia|discriminate].
  apply IH in R. lia.
Qed.
Lemma exec_all_quiet buf pe acts c p l : existsb is_op_term acts = false -> l_term l = 0 ->
  match exec_all buf pe acts c p l with ECont l' | EBreak l' => l_term l' = 0 | EAbort => True end.
Proof.
  intros E T. pose proof (exec_all_term buf pe acts c p l T) as H. rewrite E in H.
  destruct (exec_all buf pe acts c p l); [|destruct H; [assumption|discriminate]|exact Logic.I].
  destruct H as [H|[_ H]]; [exact H|discriminate].
Qed.
Lemma op_term_exec buf pe c p l : exec_all buf pe [a_op_term] c p l =
  let l' := mkLoc (l_int l) (l_float l) (l_str l) (l_word l) (l_uuid l) (l_val l) (l_org l)
        (l_var l) (l_vsn l) (l_cpn l) (l_span l) c (l_op l) in
  if p + 1 <? pe then EBreak l' else ECont l'.
Proof. cbn [exec_all exec]. destruct (p + 1 <? pe); reflexivity. Qed.

Lemma run_local buf n s : (n <= length buf)%nat -> forall st l p st' l' p', st < 76 ->
  p + N.of_nat (length s) = N.of_nat (length buf) -> Forall (ends_by p) (l_op l) -> l_term l = 0 \/ s = [] ->
  run buf (N.of_nat (length buf)) st l p s = Some (st', l', p') -> l_term l' <> 0 -> st' <> 0 -> p' <= N.of_nat n ->
  run (firstn n buf) (N.of_nat n) st l p (firstn (n - N.to_nat p) s) = Some (st', l', p').
Proof.
  intro LN. induction s as [|c t IH]; intros st l p st' l' p' Hst Hp F TL R T Z LE.
  - rewrite firstn_nil. exact R.
  - destruct TL as [TL|TL]; [|discriminate]. cbn [run] in R. cbn [length] in Hp.
    destruct (look (text_row st) c) as [[acts tgt]|] eqn:L; [|injection R as <- <- <-; congruence].
    assert (Htgt : tgt < 76).
    { destruct (look_ok st c acts tgt Hst L) as (lo & hi & K & _). unfold entry_ok in K. clear -K.
      apply andb_prop in K as [K _]. lia. }
    assert (PL : p + 1 <= N.of_nat n).
    { clear -R LE. destruct (exec_all _ _ _ _ _ _) as [l1|l1|]; [apply run_pos in R; lia|injection R as <- <- <-; lia|discriminate]. }
    replace (n - N.to_nat p)%nat with (S (n - N.to_nat (p + 1))) by lia. cbn [firstn run]. rewrite L.
    destruct (look_last st c acts tgt Hst L) as [NT|(pre & -> & NT)].
    + destruct (exec_all_local buf n (N.of_nat (length buf)) (N.of_nat n) c p acts ltac:(lia) l F NT) as [-> K].
      pose proof (exec_all_quiet buf (N.of_nat (length buf)) acts c p l NT TL) as Q.
      destruct (exec_all buf (N.of_nat (length buf)) acts c p l) as [l1|l1|]; [|injection R as <- <- <-; congruence|discriminate].
      apply IH; auto; [lia|revert K; apply Forall_impl; intro a; apply ends_by_mono; lia].
    + rewrite !exec_all_app in *. clear L.
      destruct (exec_all_local buf n (N.of_nat (length buf)) (N.of_nat n) c p pre ltac:(lia) l F NT) as [-> K].
      pose proof (exec_all_quiet buf (N.of_nat (length buf)) pre c p l NT TL) as Q.
      destruct (exec_all buf (N.of_nat (length buf)) pre c p l) as [l1|l1|]; [|injection R as <- <- <-; congruence|discriminate].
      rewrite op_term_exec in R |- *. cbv zeta in *.
      destruct (p + 1 <? N.of_nat (length buf)) eqn:B.
      * injection R as <- <- <-. destruct (p + 1 <? N.of_nat n) eqn:B'; [reflexivity|].
        replace (n - N.to_nat (p + 1))%nat with O by lia. reflexivity.
      * assert (t = []) as -> by (destruct t; [reflexivity|cbn [length] in Hp; lia]).
        rewrite firstn_nil. cbn [run] in R |- *.
        destruct (p + 1 <? N.of_nat n) eqn:B'; [lia|exact R].
Qed.

(* ---- a cursor on the cut text ---- *)

Definition cut (n : nat) (c : cursor) : cursor :=
  mkCursor (firstn n (c_buf c)) (c_pos c) (c_op c) (c_term c) (c_state c) (c_span c).

Lemma next_cut buf n c c' : C buf c -> st_ok c -> (n <= length buf)%nat -> next c = NOk c' -> c_pos c' <= N.of_nat n ->
  next (cut n c) = NOk (cut n c').
Proof.
  intros HC So LN NX LE. pose proof (next_safe buf c HC So) as NS. unfold next_ok in NS. rewrite NX in NS.
  destruct NS as (C1 & _ & _ & POS). destruct HC as [Hb Hp Hst Ho Hs]. subst buf.
  unfold next in *. cbn [cut c_buf c_pos c_op c_term c_state c_span].
  destruct (c_span c =? 0) eqn:Es; cbn [negb] in *.
  - destruct ((c_state c =? 0) && negb (c_pos c =? 0)); [discriminate|].
    destruct (c_state c =? RON_FULL_STOP); [discriminate|].
    destruct (c_pos c =? N.of_nat (length (c_buf c))) eqn:E3; [discriminate|].
    rewrite firstn_length, Nat.min_l by exact LN.
    assert (PL : c_pos c < c_pos c') by (destruct POS as [[P _]|[_ [_ P]]]; [exact P|lia]).
    replace (c_pos c =? N.of_nat n) with false by lia.
    set (st := if c_state c =? 0 then RON_START else c_state c) in *.
    assert (Hst' : st < 76) by (unfold st, RON_START; destruct (c_state c =? 0); lia).
    set (prev := match c_op c with [] => NIL | a :: _ => a2u a end) in *.
    destruct (run (c_buf c) (N.of_nat (length (c_buf c))) st (loc0 (c_pos c) prev) (c_pos c) (skipn (N.to_nat (c_pos c)) (c_buf c)))
      as [[[st' l] p]|] eqn:R; [|discriminate].
    destruct (negb (l_term l =? 0) && negb (st' =? 0)) eqn:OKT; [|destruct (RON_START <=? st'); discriminate].
    apply andb_prop in OKT as [O1 O2]. injection NX as <-. cbn [c_pos] in *.
    rewrite skipn_firstn_comm.
    rewrite (run_local (c_buf c) n _ LN st (loc0 (c_pos c) prev) (c_pos c) st' l p Hst'); cbn [cut c_buf c_pos c_op c_term c_state c_span].
    + rewrite O1, O2. reflexivity.
    + rewrite skipn_length. lia.
    + cbn. repeat constructor.
    + left. reflexivity.
    + exact R.
    + lia.
    + lia.
    + exact LE.
  - destruct Ho as [(_ & Z & _)|Ho]; [lia|]. injection NX as <-. cbn [c_pos] in LE.
    unfold cut. cbn [c_buf c_pos c_op c_term c_state c_span]. f_equal. f_equal.
    pose proof (op_ends _ _ Ho) as F.
    set (op1 := set_nth (set_nth (c_op c) 1 (AUuid (op_id (c_op c)))) 0 (AUuid (inc (op_id (c_op c))))).
    assert (F1 : Forall (ends_by (c_pos c)) op1) by (apply set_nth_ends; [apply set_nth_ends; [exact F|exact Logic.I]|exact Logic.I]).
    destruct (last_atom op1) as [[u|b e|cp k b e|b e]|] eqn:E; try reflexivity.
    pose proof (last_ends _ _ _ F1 E) as H. destruct (cp =? 0); [reflexivity|].
    rewrite next_cp_firstn; [reflexivity|]. revert H. apply ends_by_mono. lia.
Qed.

Lemma value_firstn buf n a : ends_by (N.of_nat n) a -> value_of (firstn n buf) a = value_of buf a.
Proof. destruct a as [u|b e|cp k b e|b e]; cbn [value_of ends_by]; intro H; rewrite ?sub_firstn by exact H; reflexivity. Qed.
Lemma rop_cut n c : Forall (ends_by (N.of_nat n)) (c_op c) -> rop_of (cut n c) = rop_of c.
Proof.
  intro F. unfold rop_of, cut. cbn [c_buf c_op c_term]. f_equal. apply map_ext_in. intros a I. apply value_firstn.
  rewrite Forall_forall in F. apply F. rewrite <- (firstn_skipn 2 (c_op c)). apply in_or_app. right. exact I.
Qed.
Lemma cut_all c : cut (length (c_buf c)) c = c.
Proof. destruct c as [b p o t s n]. unfold cut. cbn [c_buf c_pos c_op c_term c_state c_span]. rewrite firstn_all. reflexivity. Qed.

(* at the end of the cut text, outside a span, there is nothing left *)
Lemma next_cut_end c n : n = N.to_nat (c_pos c) -> (n <= length (c_buf c))%nat -> c_span c = 0 -> c_state c = 74 ->
  exists c', next (cut n c) = NEnd c' /\ valid c' = false.
Proof.
  intros -> LN SP ST. unfold next, cut. cbn [c_buf c_pos c_op c_term c_state c_span]. rewrite SP, ST.
  change (negb (0 =? 0)) with false. cbn iota. change ((74 =? 0) && negb (c_pos c =? 0)) with false. cbn iota.
  change (74 =? RON_FULL_STOP) with false. cbn iota. rewrite firstn_length, Nat.min_l by exact LN. rewrite N2Nat.id, N.eqb_refl.
  eexists. split; reflexivity.
Qed.

(* ---- walking over the log ---- *)

Record live (buf : bytes) (c : cursor) : Prop := mkLive {
  v_C : C buf c; v_op : op_ok (c_pos c) (c_op c); v_st : c_state c = 74 }.
Lemma live_valid buf c : live buf c -> valid c = true.
Proof. intros [_ _ H]. unfold valid. rewrite H. reflexivity. Qed.
Lemma live_next buf c c' : live buf c -> next c = NOk c' ->
  live buf c' /\ c_pos c <= c_pos c' /\
  (c_span c <> 0 -> c_pos c' = c_pos c /\ c_span c = c_span c' + 1 /\ spans_on (rop_of c) (rop_of c')).
Proof.
  intros [HC HO HS] NX. assert (So : st_ok c) by (right; exact HS).
  pose proof (next_safe buf c HC So) as NS. unfold next_ok in NS. rewrite NX in NS. destruct NS as (C1 & O1 & _ & POS).
  split; [|split].
  - constructor; [exact C1|exact O1|]. destruct POS as [(_ & _ & E)|(_ & E & _)]; congruence.
  - destruct POS as [(P & _)|(P & _)]; lia.
  - intro SP. destruct POS as [(_ & Z & _)|(P & _ & K)]; [contradiction|]. split; [exact P|]. split; [exact K|].
    destruct HO as [F (u & v & r & E)]. unfold next in NX. replace (c_span c =? 0) with false in NX by lia. cbn [negb] in NX.
    injection NX as <-. unfold spans_on, rop_of. cbn [c_buf c_op c_term r_id r_ref r_vals r_term]. rewrite E. unfold set_nth. cbn [firstn skipn app op_id op_ref nth a2u].
    set (op1 := AUuid (inc u) :: AUuid u :: r). 
    assert (SAME : op_id op1 = inc u /\ op_ref op1 = u /\ c_term c = c_term c /\ alike (map (value_of (c_buf c)) r) (map (value_of (c_buf c)) (skipn 2 op1)))
      by (do 3 (split; [reflexivity|]); left; reflexivity).
    destruct (last_atom op1) as [[x|b e|cp k b e|b e]|] eqn:L; try exact SAME.
    destruct (cp =? 0) eqn:Z; [exact SAME|]. clear SAME. apply last_atom_some in L as (q & Q). rewrite Q, set_last_snoc.
    unfold op1 in Q. destruct q as [|q0 [|q1 q]]; [discriminate Q|discriminate Q|]. cbn [app] in Q. injection Q as <- <- ->.
    destruct (next_cp_str (c_buf c) cp k b e) as (x & y & z & NS). cbn [next_cp] in NS. rewrite NS.
    do 3 (split; [reflexivity|]). right. exists (map (value_of (c_buf c)) q), cp. eexists. cbn [app skipn]. rewrite !map_app. cbn [map value_of]. rewrite Z. split; reflexivity.
Qed.
Lemma live_first buf c : next (cursor_of buf) = NOk c -> live buf c.
Proof.
  intro NX. destruct (C_start buf) as [HC So]. pose proof (next_safe buf _ HC So) as NS. unfold next_ok in NS. rewrite NX in NS.
  destruct NS as (C1 & O1 & _ & POS). constructor; [exact C1|exact O1|].
  destruct POS as [(_ & _ & E)|(_ & _ & E)]; [exact E|]. cbn in E. lia.
Qed.

(* the cursors Next goes through from c, and how it ends *)
Inductive walk : cursor -> list cursor -> scan_end -> Prop :=
| walk_end : forall c c', next c = NEnd c' -> walk c [] SEnd
| walk_bad : forall c c', next c = NBad c' -> walk c [] SBad
| walk_step : forall c c' l e, next c = NOk c' -> walk c' l e -> walk c (c' :: l) e.

Lemma scan_walk fuel : forall c ops e, scan fuel c = (ops, e) -> e = SEnd \/ e = SBad -> exists cs, walk c cs e /\ map rop_of cs = ops.
Proof.
  induction fuel as [|k IH]; intros c ops e H E; cbn [scan] in H; [injection H as <- <-; destruct E; discriminate|].
  destruct (next c) as [c'|c'|c'|] eqn:NX.
  - destruct (scan k c') as [r e'] eqn:S1. injection H as <- <-. destruct (IH c' r e' S1 E) as (cs & W & M).
    exists (c' :: cs). split; [econstructor; eassumption|cbn [map]; congruence].
  - injection H as <- <-. exists []. split; [econstructor; eassumption|reflexivity].
  - injection H as <- <-. exists []. split; [eapply walk_bad; eassumption|reflexivity].
  - injection H as <- <-. destruct E; discriminate.
Qed.
Lemma live_walk buf c l e : walk c l e -> live buf c -> Forall (live buf) l /\ Forall (fun x => c_pos c <= c_pos x) l.
Proof.
  induction 1 as [c c' NX|c c' NX|c c' l e NX W IH]; intro V; [split; constructor|split; constructor|].
  destruct (live_next buf c c' V NX) as (V' & P & _). destruct (IH V') as [F1 F2]. split; constructor; auto.
  revert F2. apply Forall_impl. intro x. lia.
Qed.

(* a path of Next calls, carried over to the cut text *)
Definition ends_at (n : nat) (c : cursor) (l : list cursor) : Prop := c_pos (last l c) = N.of_nat n.

Lemma visits_cut_end buf c n e : live buf c -> N.of_nat n = c_pos c -> c_span c = 0 -> forall l, walk c l e ->
  visits valid text_next (cut n c) [cut n c].
Proof.
  intros V P SP l W. pose proof (v_C _ _ V) as HC. assert (LN : (n <= length (c_buf c))%nat) by (destruct HC as [Hb Hp _ _ _]; rewrite Hb; lia).
  destruct (next_cut_end c n ltac:(lia) LN SP (v_st _ _ V)) as (c' & NX & VC).
  apply (visits_cons valid text_next (cut n c) c'); [exact (live_valid buf c V)|unfold text_next; rewrite NX, VC; reflexivity|].
  constructor. exact VC.
Qed.

(* the rest of a span is visited in the cut text as well *)
Lemma visits_span buf n e : forall l c, walk c l e -> live buf c -> N.of_nat n = c_pos c ->
  exists tail rest, l = tail ++ rest /\ visits valid text_next (cut n c) (map (cut n) (c :: tail)) /\
    runs_on (rop_of c) (map rop_of tail) /\ Forall (fun x => c_pos x = N.of_nat n) tail /\
    (c_span c = 0 -> tail = []).
Proof.
  induction l as [|x l IH]; intros c W V P.
  - exists [], []. split; [reflexivity|].
    assert (SP : c_span c = 0).
    { destruct (N.eq_dec (c_span c) 0) as [Z|NZ]; [exact Z|exfalso]. clear -W NZ.
      assert (B : c_span c =? 0 = false) by lia. inversion W as [? ? NX|? ? NX|]; subst; unfold next in NX; rewrite B in NX; discriminate. }
    split; [exact (visits_cut_end buf c n e V P SP [] W)|]. split; [exact Logic.I|]. split; [constructor|auto].
  - destruct (N.eq_dec (c_span c) 0) as [SP|NSP].
    + exists [], (x :: l). split; [reflexivity|]. split; [exact (visits_cut_end buf c n e V P SP _ W)|].
      split; [exact Logic.I|]. split; [constructor|auto].
    + inversion W as [| |? ? ? ? NX W']; subst. destruct (live_next buf c x V NX) as (V' & _ & K). destruct (K NSP) as (PX & _ & SO).
      destruct (IH x W' V' ltac:(lia)) as (tail & rest & -> & VI & RO & FP & _).
      exists (x :: tail), rest. split; [reflexivity|]. split; [|split; [|split; [|contradiction]]].
      * cbn [map]. apply (visits_cons valid text_next (cut n c) (cut n x)); [exact (live_valid buf c V)| |exact VI].
        pose proof (v_C _ _ V) as HC. assert (LN : (n <= length buf)%nat) by (destruct HC as [Hb Hp _ _ _]; lia).
        unfold text_next. rewrite (next_cut buf n c x HC (or_intror (v_st _ _ V)) LN NX ltac:(lia)).
        replace (valid (cut n x)) with true by (symmetry; exact (live_valid buf x V')). reflexivity.
      * cbn [map runs_on]. split; [exact SO|exact RO].
      * constructor; [lia|exact FP].
Qed.

(* a path followed by a span *)
Lemma visits_path buf n e : forall g c rest, walk c (g ++ rest) e -> live buf c -> c_pos (last g c) = N.of_nat n ->
  exists tail rest', rest = tail ++ rest' /\ visits valid text_next (cut n c) (map (cut n) (c :: g ++ tail)) /\
    runs_on (rop_of (last g c)) (map rop_of tail) /\ Forall (fun x => c_pos x <= N.of_nat n) (c :: g ++ tail) /\
    (c_span (last g c) = 0 -> tail = []).
Proof.
  induction g as [|x g IH]; intros c rest W V P.
  - cbn [app last] in *. destruct (visits_span buf n e rest c W V (eq_sym P)) as (tail & rest' & -> & VI & RO & FP & SP).
    exists tail, rest'. split; [reflexivity|]. split; [exact VI|]. split; [exact RO|]. split; [|exact SP].
    constructor; [lia|]. revert FP. apply Forall_impl. intro; lia.
  - inversion W as [| |? ? ? ? NX W']; subst. destruct (live_next buf c x V NX) as (V' & PX & _).
    assert (EL : last (x :: g) c = last g x).
    { clear. cbn [last]. destruct g as [|y g]; [reflexivity|]. revert y. induction g as [|z g IHg]; intro y; [reflexivity|]. cbn [last]. cbn [last] in IHg. apply IHg. }
    rewrite EL in *. destruct (IH x rest W' V' P) as (tail & rest' & -> & VI & RO & FP & SP).
    exists tail, rest'. split; [reflexivity|]. split; [|split; [exact RO|split; [|exact SP]]].
    + cbn [app map]. apply (visits_cons valid text_next (cut n c) (cut n x)); [exact (live_valid buf c V)| |exact VI].
      pose proof (v_C _ _ V) as HC.
      assert (PX2 : c_pos x <= N.of_nat n) by (inversion FP; assumption).
      assert (LN : (n <= length buf)%nat).
      { assert (VL : live buf (last g x)).
        { destruct (live_walk buf x _ e W' V') as [FL _]. clear -FL V'. destruct g as [|y g]; [exact V'|].
          rewrite Forall_forall in FL. apply FL. apply in_or_app. left. destruct (exists_last (l := y :: g)) as (q & z & Q); [discriminate|].
          rewrite Q, last_last. apply in_or_app. right. left. reflexivity. }
        destruct (v_C _ _ VL) as [_ Hp _ _ _]. lia. }
      unfold text_next. rewrite (next_cut buf n c x HC (or_intror (v_st _ _ V)) LN NX PX2).
      replace (valid (cut n x)) with true by (symmetry; exact (live_valid buf x V')). reflexivity.
    + cbn [app]. constructor; [inversion FP; lia|exact FP].
Qed.

(* ---- the inner loop ---- *)
Lemma last_cons {X} (x : X) g c : last (x :: g) c = last g x.
Proof. cbn [last]. destruct g as [|y g]; [reflexivity|]. revert y. induction g as [|z g IH]; intro y; [reflexivity|]. cbn [last] in *. apply IH. Qed.

Definition op_ids (l : list cursor) : list rop := map rop_of l.
Lemma upto_cons v o l : upto v (o :: l) = o :: (if uuid_eqb (r_id o) v then [] else upto v l).
Proof. cbn [upto]. destruct (uuid_eqb (r_id o) v); reflexivity. Qed.

Lemma chain_end_ok cutoff : forall fuel c cs e, walk c cs e -> (length cs < fuel)%nat ->
  exists g rest r, cs = g ++ rest /\ chain_end fuel cutoff c = Done (text_id (last g c), c_pos (last g c), r) /\
    linked (text_id c) (map rop_of g) /\
    (forall l, upto cutoff (map rop_of (c :: g) ++ l) = map rop_of (c :: g) ++ (if uuid_eqb (text_id (last g c)) cutoff then [] else upto cutoff l)) /\
    walk (last g c) rest e /\
    match rest with
    | [] => (e = SEnd /\ exists x, r = NEnd x) \/ (e = SBad /\ exists x, r = NBad x)
    | y :: _ => r = NOk y /\ (text_ref y <> text_id (last g c) \/ text_id (last g c) = cutoff)
    end.
Proof.
  induction fuel as [|k IH]; intros c cs e W L; [lia|]. cbn [chain_end].
  assert (ONE : forall l, upto cutoff (map rop_of [c] ++ l) = map rop_of [c] ++ (if uuid_eqb (text_id c) cutoff then [] else upto cutoff l)).
  { intro l. cbn [map app]. apply upto_cons. }
  pose proof W as W0. destruct W as [c c' NX|c c' NX|c c' l e NX W]; rewrite NX.
  - exists [], [], (NEnd c'). cbn [app last map linked]. do 5 (split; [solve [auto]|]). left. eauto.
  - exists [], [], (NBad c'). cbn [app last map linked]. do 5 (split; [solve [auto]|]). right. eauto.
  - destruct (uuid_eqb (text_ref c') (text_id c) && negb (uuid_eqb (text_id c) cutoff)) eqn:B.
    + apply andb_prop in B as [B1 B2]. apply uuid_eqb_eq in B1. apply negb_true_iff in B2.
      destruct (IH c' l e W ltac:(cbn [length] in L; lia)) as (g & rest & r & -> & E & LK & UP & W' & R).
      exists (c' :: g), rest, r. rewrite last_cons. split; [reflexivity|]. split; [exact E|]. split; [|split; [|split; [exact W'|exact R]]].
      * cbn [map linked]. split; [exact B1|exact LK].
      * intro q. specialize (UP q). cbn [map app] in *. rewrite upto_cons. cbn [rop_of r_id]. fold (text_id c). rewrite B2, UP. reflexivity.
    + exists [], (c' :: l), (NOk c'). cbn [app last map linked]. do 5 (split; [solve [auto]|]). split; [reflexivity|].
      apply andb_false_iff in B as [B|B].
      * left. intro Q. rewrite Q, (proj2 (uuid_eqb_eq _ _) eq_refl) in B. discriminate.
      * right. apply negb_false_iff in B. apply uuid_eqb_eq in B. exact B.
Qed.

(* ---- the outer loop ---- *)
Definition piece (buf : bytes) (ch : cursor) (g : list cursor) : Prop :=
  exists n, visits valid text_next ch (map (cut n) g) /\ Forall (fun x => c_pos x <= N.of_nat n) g /\ Forall (live buf) g /\ (n <= length buf)%nat /\
    exists c r, g = c :: r /\ ch = cut n c.

Lemma linked_app l : forall prev m, linked prev l -> linked (r_id (last l (mkRop prev NIL [] 0))) m -> linked prev (l ++ m).
Proof.
  induction l as [|o l IH]; intros prev m H1 H2; [exact H2|]. cbn [app linked] in *. destruct H1 as [E H1]. split; [exact E|].
  apply IH; [exact H1|]. rewrite last_cons in H2. destruct l as [|o' l]; [exact H2|]. rewrite last_cons in *. exact H2.
Qed.
Lemma runs_linked l : forall o, runs_on o l -> linked (r_id o) l.
Proof. induction l as [|p l IH]; intros o H; [exact Logic.I|]. destruct H as ((_ & E & _) & H). split; [exact E|apply IH; exact H]. Qed.
Lemma last_id c g : r_id (last (map rop_of g) (mkRop (text_id c) NIL [] 0)) = text_id (last g c).
Proof.
  revert c. induction g as [|x g IH]; intro c; [reflexivity|]. cbn [map]. rewrite !last_cons. rewrite <- IH.
  destruct g as [|y g]; [reflexivity|]. cbn [map]. rewrite !last_cons. reflexivity.
Qed.
Lemma ends_last c g id : ends_with (map rop_of (c :: g)) id -> id = text_id (last g c).
Proof.
  intros (l & o & E & <-). rewrite <- (last_id c g). cbn [map] in E.
  assert (Q : last (map rop_of g) (rop_of c) = o) by (rewrite <- last_cons with (c := o), E, last_last; reflexivity).
  rewrite <- Q. destruct g as [|y g]; [reflexivity|]. cbn [map]. rewrite !last_cons. reflexivity.
Qed.
Lemma last_snoc (g : list cursor) : forall c, exists l, c :: g = l ++ [last g c].
Proof. induction g as [|x g IH]; intro c; [exists []; reflexivity|]. rewrite last_cons. destruct (IH x) as (l & E). exists (c :: l). cbn [app]. rewrite <- E. reflexivity. Qed.
Lemma last_live buf c g : live buf c -> Forall (live buf) g -> live buf (last g c).
Proof. intros V F. revert c V. induction F as [|x g H F IH]; intros c V; [exact V|]. rewrite last_cons. apply IH. exact H. Qed.
Lemma walk_visits buf e : forall l c, walk c l e -> live buf c -> visits valid text_next c (c :: l).
Proof.
  intros l c W. induction W as [c c' NX|c c' NX|c c' l e NX W IH]; intro V.
  - pose proof (next_end _ _ NX) as VE. apply (visits_cons valid text_next c c'); [exact (live_valid _ _ V)|unfold text_next; rewrite NX, VE; reflexivity|constructor; exact VE].
  - assert (VE : valid c' = false).
    { pose proof (next_safe buf c (v_C _ _ V) (or_intror (v_st _ _ V))) as NS. unfold next_ok in NS. rewrite NX in NS.
      destruct NS as (_ & Z & _). unfold valid. rewrite Z. reflexivity. }
    apply (visits_cons valid text_next c c'); [exact (live_valid _ _ V)|unfold text_next; rewrite NX, VE; reflexivity|constructor; exact VE].
  - destruct (live_next buf c c' V NX) as (V' & _).
    apply (visits_cons valid text_next c c'); [exact (live_valid _ _ V)|unfold text_next; rewrite NX, (live_valid _ _ V'); reflexivity|].
    apply IH. exact V'.
Qed.

Lemma split_loop_ok buf cutoff : forall fuel c cs e prev, walk c cs e -> live buf c -> (length cs < fuel)%nat -> prev <> cutoff ->
  exists chains ok gs tail g gs', split_loop fuel cutoff prev c = Done (chains, ok) /\
    Forall2 (piece buf) chains gs /\ Forall is_chain (map (map rop_of) gs) /\ apart (map (map rop_of) gs) /\ gs = (c :: g) :: gs' /\
    map rop_of (concat gs) = upto cutoff (map rop_of (c :: cs)) ++ tail /\
    (tail = [] \/ exists l o, upto cutoff (map rop_of (c :: cs)) = l ++ [o] /\ r_id o = cutoff /\ runs_on o tail) /\
    (exists rest, map rop_of (c :: cs) = upto cutoff (map rop_of (c :: cs)) ++ tail ++ rest) /\
    incl (concat gs) (c :: cs) /\
    (ok = false <-> e = SBad /\ upto cutoff (map rop_of (c :: cs)) = map rop_of (c :: cs)).
Proof.
  induction fuel as [|k IH]; intros c cs e prev W V L NP; [lia|]. cbn [split_loop].
  replace (negb (valid c) || uuid_eqb prev cutoff) with false.
  2:{ rewrite (live_valid _ _ V). destruct (uuid_eqb prev cutoff) eqn:E; [apply uuid_eqb_eq in E; contradiction|reflexivity]. }
  destruct (chain_end_ok cutoff (S k) c cs e W L) as (g & rest & r & -> & -> & LK & UP & W' & R). cbn [rbind].
  destruct (live_walk buf c _ e W V) as [FL PL]. apply Forall_app in FL as [FL1 FL2]. apply Forall_app in PL as [PL1 PL2].
  pose proof (last_live buf c g V FL1) as VL.
  assert (CH : is_chain (map rop_of (c :: g))) by (cbn [map is_chain]; exact LK).
  destruct rest as [|y rest].
  - (* the log ends here *)
    rewrite app_nil_r in *. specialize (UP []). rewrite app_nil_r in UP.
    assert (UA : upto cutoff (map rop_of (c :: g)) = map rop_of (c :: g)).
    { rewrite UP. destruct (uuid_eqb _ _); cbn [upto]; apply app_nil_r. }
    assert (PC : piece buf c (c :: g)).
    { exists (length buf). destruct (v_C _ _ V) as [Hb Hp _ _ _].
      assert (CU : forall x, live buf x -> cut (length buf) x = x).
      { intros x VX. destruct (v_C _ _ VX) as [Hx _ _ _ _]. rewrite <- Hx. apply cut_all. }
      replace (map (cut (length buf)) (c :: g)) with (c :: g).
      2:{ symmetry. rewrite <- map_id. apply map_ext_in. intros x [<-|I]; apply CU; [exact V|]. rewrite Forall_forall in FL1. auto. }
      split; [exact (walk_visits buf e g c W V)|]. split; [|split; [constructor; assumption|]].
      - apply Forall_forall. intros x I. assert (VX : live buf x) by (destruct I as [<-|I]; [exact V|rewrite Forall_forall in FL1; auto]).
        destruct (v_C _ _ VX) as [_ Hx _ _ _]. exact Hx.
      - split; [lia|]. exists c, g. split; [reflexivity|]. symmetry. apply CU. exact V. }
    destruct R as [(-> & x & ->)|(-> & x & ->)].
    + exists [c], true, [c :: g], [], g, []. cbn [concat app]. rewrite UA, !app_nil_r.
      split; [reflexivity|]. split; [constructor; [exact PC|constructor]|]. split; [constructor; [exact CH|constructor]|]. split; [exact Logic.I|].
      split; [reflexivity|]. split; [reflexivity|]. split; [left; reflexivity|]. split; [exists []; rewrite !app_nil_r; reflexivity|].
      split; [apply incl_refl|]. split; [discriminate|intros [? _]; discriminate].
    + exists [c], false, [c :: g], [], g, []. cbn [concat app]. rewrite UA, !app_nil_r.
      split; [reflexivity|]. split; [constructor; [exact PC|constructor]|]. split; [constructor; [exact CH|constructor]|]. split; [exact Logic.I|].
      split; [reflexivity|]. split; [reflexivity|]. split; [left; reflexivity|]. split; [exists []; rewrite !app_nil_r; reflexivity|].
      split; [apply incl_refl|]. split; [auto|reflexivity].
  - destruct R as [-> BR].
    assert (PC : c_pos c <= c_pos (last g c)).
    { clear -PL1. destruct g as [|z g]; [cbn; lia|]. rewrite Forall_forall in PL1. apply PL1.
      destruct (exists_last (l := z :: g)) as (q & w & Q); [discriminate|]. rewrite Q, last_last. apply in_or_app. right. left. reflexivity. }
    unfold end_at at 1. replace (c_pos (last g c) <? c_pos c) with false by lia. cbn [rbind]. fold (cut (N.to_nat (c_pos (last g c))) c).
    set (n := N.to_nat (c_pos (last g c))) in *.
    assert (PN : c_pos (last g c) = N.of_nat n) by (unfold n; lia).
    assert (LN : (n <= length buf)%nat) by (destruct (v_C _ _ VL) as [_ Hp _ _ _]; lia).
    destruct (visits_path buf n e g c (y :: rest) W V PN) as (tail & rest' & ER & VI & RO & FP & SP).
    inversion W' as [| |? ? ? ? NXL WY]; subst. destruct (live_next buf _ y VL NXL) as (VY & _ & KY).
    destruct (uuid_eqb (text_id (last g c)) cutoff) eqn:CO.
    + (* the cutoff *)
      apply uuid_eqb_eq in CO. specialize (UP (map rop_of (y :: rest))). rewrite app_nil_r in UP.
      replace (map rop_of (c :: g ++ y :: rest)) with (map rop_of (c :: g) ++ map rop_of (y :: rest)) by (rewrite <- map_app; reflexivity).
      rewrite UP.
      assert (LOOP : split_loop k cutoff (text_id (last g c)) y = Done ([], true)).
      { destruct k as [|k]; [rewrite app_length in L; cbn [length] in L; lia|]. cbn [split_loop].
        replace (uuid_eqb (text_id (last g c)) cutoff) with true by (symmetry; apply uuid_eqb_eq; exact CO). rewrite orb_true_r. reflexivity. }
      rewrite LOOP. cbn [rbind]. exists [cut n c], true, [c :: g ++ tail], (map rop_of tail), (g ++ tail), [].
      split; [reflexivity|]. split; [|split; [|split; [exact Logic.I|split; [reflexivity|]]]].
      * constructor; [|constructor]. exists n. split; [exact VI|]. split; [exact FP|]. split; [|split; [exact LN|eauto]].
        constructor; [exact V|]. apply Forall_app. split; [exact FL1|]. rewrite ER in FL2. apply Forall_app in FL2 as [FT _]. exact FT.
      * constructor; [|constructor]. cbn [map is_chain]. rewrite map_app. apply linked_app; [exact LK|].
        change (r_id (rop_of c)) with (text_id c). rewrite last_id. apply (runs_linked _ (rop_of (last g c))). exact RO.
      * cbn [concat]. rewrite app_nil_r. split; [cbn [map app]; rewrite map_app; reflexivity|]. split.
        { right. destruct (last_snoc g c) as (l & Q). exists (map rop_of l), (rop_of (last g c)). split; [rewrite Q at 1; rewrite map_app; reflexivity|]. split; [exact CO|exact RO]. }
        split; [exists (map rop_of rest'); f_equal; rewrite ER, map_app; reflexivity|].
        split.
        -- intros x [<-|I]; [left; reflexivity|right]. rewrite ER, app_assoc. apply in_or_app. left. exact I.
        -- split; [discriminate|]. intros [_ Q]. exfalso. rewrite <- (app_nil_r (map rop_of (c :: g))) in Q at 1. apply app_inv_head in Q. discriminate.
    + (* the link is broken *)
      assert (NC : text_id (last g c) <> cutoff) by (intro Q; rewrite Q, (proj2 (uuid_eqb_eq _ _) eq_refl) in CO; discriminate).
      destruct BR as [BR|BR]; [|contradiction].
      assert (SZ : c_span (last g c) = 0).
      { destruct (N.eq_dec (c_span (last g c)) 0) as [Z|NZ]; [exact Z|]. destruct (KY NZ) as (_ & _ & _ & Q & _). contradiction. }
      rewrite (SP SZ) in *. cbn [app map] in ER. rewrite app_nil_r in *. clear SP RO ER rest'.
      destruct (IH y rest e (text_id (last g c)) WY VY ltac:(rewrite app_length in L; cbn [length] in L; lia) NC)
        as (chains & ok & gs & tl & gy & gs' & -> & F2 & FC & AP & EG & CC & RT & (rs & RS) & IC & OK).
      cbn [rbind]. specialize (UP (map rop_of (y :: rest))).
      replace (map rop_of (c :: g ++ y :: rest)) with (map rop_of (c :: g) ++ map rop_of (y :: rest)) by (rewrite <- map_app; reflexivity).
      rewrite UP. exists (cut n c :: chains), ok, ((c :: g) :: gs), tl, g, gs.
      split; [reflexivity|]. split; [|split; [|split; [|split; [reflexivity|]]]].
      * constructor; [|exact F2]. exists n. split; [exact VI|]. split; [exact FP|]. split; [constructor; assumption|]. split; [exact LN|eauto].
      * cbn [map]. constructor; [exact CH|exact FC].
      * rewrite EG in *. cbn [map]. cbn [apart]. split; [|exact AP]. intro Q.
        change (rop_of c :: map rop_of g) with (map rop_of (c :: g)) in Q. apply ends_last in Q. apply BR. exact Q.
      * change (concat ((c :: g) :: gs)) with ((c :: g) ++ concat gs). rewrite map_app, CC, <- app_assoc.
        split; [reflexivity|]. split.
        { destruct RT as [->|(l & o & -> & EO & RT)]; [left; reflexivity|]. right. exists (map rop_of (c :: g) ++ l), o. rewrite app_assoc. auto. }
        split; [exists rs; rewrite <- app_assoc; f_equal; exact RS|].
        split.
        -- intros x I. change (c :: g ++ y :: rest) with ((c :: g) ++ y :: rest). apply in_or_app.
           change (concat ((c :: g) :: gs)) with ((c :: g) ++ concat gs) in I. apply in_app_or in I as [I|I]; [left; exact I|right; apply IC; exact I].
        -- rewrite OK. split; intros [A B]; (split; [exact A|]); [rewrite B; reflexivity|apply app_inv_head in B; exact B].
Qed.
