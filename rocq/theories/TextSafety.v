(* The parser automaton keeps its invariants on every input. *)
From Verif Require Import Prelude UuidModel UuidSpec UuidProofs CodecModel TextTable TextModel TextSpec.

(* ---- sub ---- *)

Lemma sub_length buf b e : b <= e -> e <= N.of_nat (length buf) -> length (sub buf b e) = N.to_nat (e - b).
Proof.
  intros H1 H2. unfold sub. rewrite firstn_length, skipn_length. lia.
Qed.

Lemma sub_nil buf p : sub buf p p = [].
Proof. unfold sub. rewrite N.sub_diag. reflexivity. Qed.

Lemma skipn_skipn {T} (l : list T) : forall n m, skipn n (skipn m l) = skipn (n + m) l.
Proof.
  intros n m. revert l. induction m as [|m IH]; intro l.
  - rewrite Nat.add_0_r. reflexivity.
  - replace (n + S m)%nat with (S (n + m)) by lia. destruct l; cbn [skipn]; [apply skipn_nil|apply IH].
Qed.

Lemma sub_snoc buf b p c t : b <= p -> skipn (N.to_nat p) buf = c :: t -> sub buf b (p + 1) = sub buf b p ++ [c].
Proof.
  intros H E. unfold sub.
  replace (N.to_nat (p + 1 - b)) with (N.to_nat (p - b) + 1)%nat by lia.
  rewrite <- (firstn_skipn (N.to_nat (p - b)) (skipn (N.to_nat b) buf)) at 1.
  rewrite skipn_skipn. replace (N.to_nat (p - b) + N.to_nat b)%nat with (N.to_nat p) by lia. rewrite E.
  assert (L : length (firstn (N.to_nat (p - b)) (skipn (N.to_nat b) buf)) = N.to_nat (p - b)).
  { rewrite firstn_length, skipn_length.
    assert (length (skipn (N.to_nat p) buf) <> O) by (rewrite E; discriminate).
    rewrite skipn_length in H0. lia. }
  rewrite firstn_app, L. replace (N.to_nat (p - b) + 1 - N.to_nat (p - b))%nat with 1%nat by lia.
  rewrite (firstn_all2 (n := N.to_nat (p - b) + 1)) by (rewrite L; lia). reflexivity.
Qed.

Lemma skipn_next (buf : bytes) p c t : skipn (N.to_nat p) buf = c :: t -> skipn (N.to_nat (p + 1)) buf = t.
Proof.
  intro E. replace (N.to_nat (p + 1)) with (1 + N.to_nat p)%nat by lia.
  rewrite <- skipn_skipn, E. reflexivity.
Qed.

Lemma sub_decomp buf b e : buf = firstn (N.to_nat b) buf ++ sub buf b e ++ skipn (N.to_nat (e - b)) (skipn (N.to_nat b) buf).
Proof. unfold sub. rewrite firstn_skipn, firstn_skipn. reflexivity. Qed.

(* ---- the table, checked by computation ---- *)

(* what is known about the locals: aU the version is a version character; aW
   the word begun is made of digits; aS the last atom is a string; aI an integer
   begun is not empty; aZ there is no span, or the op is complete *)
Record av : Set := mkAv { aU : bool; aW : bool; aS : bool; aI : bool; aZ : bool }.

Definition inN (x : N) (l : list N) : bool := existsb (N.eqb x) l.
Definition Wst : list N := [29;31;39;40;42;44;45;46;48;49;50;62;65;67;69;71;73].
Definition Ust : list N := Wst ++ [30;38;41;43;47;66;68;70;72].
(* states within or after a span size *)
Definition Sst : list N := [5;6;7;8;9;10;11;12;13;14;15;16;17;18;19;20].
Definition inv_st (s : N) : av := mkAv (inN s Ust) (inN s Wst) (s =? 8) (negb (s =? 74)) (negb (inN s Sst)).

Definition all_chars (f : N -> bool) (lo hi : N) : bool :=
  forall_below 256 (fun c => negb ((lo <=? c) && (c <=? hi)) || f c) && (hi <? 256).

Definition tr (lo hi : N) (a : action) (v : av) : option av :=
  match a with
  | a_end_id | a_end_ref =>
      if aU v then Some (mkAv (aU v) (aW v) false (aI v) (aZ v)) else None
  | a_end_quoted_uuid | a_end_bare_uuid =>
      if aU v && aZ v then Some (mkAv (aU v) (aW v) false (aI v) (aZ v)) else None
  | a_begin_int => Some (mkAv (aU v) (aW v) (aS v) false (aZ v))
  | a_end_int => if aI v && aZ v then Some (mkAv (aU v) (aW v) false (aI v) (aZ v)) else None
  | a_end_string => Some (mkAv (aU v) (aW v) true (aI v) (aZ v))
  | a_end_float => if aZ v then Some (mkAv (aU v) (aW v) false (aI v) (aZ v)) else None
  | a_span_size_digit | a_end_span_size => Some (mkAv (aU v) (aW v) (aS v) (aI v) false)
  | a_end_spread => if aS v then Some (mkAv (aU v) (aW v) (aS v) (aI v) false) else None
  | a_begin_uuid => Some (mkAv true (aW v) (aS v) (aI v) (aZ v))
  | a_version => if all_chars is_vsn lo hi then Some (mkAv true (aW v) (aS v) (aI v) (aZ v)) else None
  | a_begin_word => Some (mkAv (aU v) true (aS v) (aI v) (aZ v))
  | a_end_value | a_end_origin => if aW v then Some v else None
  | a_op_term => if 0 <? lo then Some (mkAv (aU v) (aW v) (aS v) (aI v) true) else None
  | _ => Some v
  end.
Fixpoint tr_all (lo hi : N) (l : list action) (v : av) : option av :=
  match l with [] => Some v | a :: t => match tr lo hi a v with Some v' => tr_all lo hi t v' | None => None end end.

Definition av_le (a b : av) : bool :=
  implb (aU b) (aU a) && implb (aW b) (aW a) && implb (aS b) (aS a) && implb (aI b) (aI a) && implb (aZ b) (aZ a).

Definition entry_ok (st : N) (e : N * N * list action * N) : bool :=
  let '(lo, hi, acts, tgt) := e in
  (0 <? tgt) && (tgt <? 76) &&
  match tr_all lo hi acts (inv_st st) with
  | Some v => av_le (mkAv (aU v) (aW v && all_chars is_dgt lo hi) (aS v) true (aZ v)) (inv_st tgt)
  | None => false
  end.

Lemma table_ok : forall_below 76 (fun st => forallb (entry_ok st) (text_row st)) = true.
Proof. vm_compute. reflexivity. Qed.

Lemma look_in row c acts tgt : look row c = Some (acts, tgt) ->
  exists lo hi, In (lo, hi, acts, tgt) row /\ lo <= c <= hi.
Proof.
  induction row as [|[[[lo hi] a] t] row IH]; cbn [look]; [discriminate|].
  destruct ((lo <=? c) && (c <=? hi)) eqn:E.
  - intro H. injection H as -> ->. exists lo, hi. split; [left; reflexivity|lia].
  - intro H. destruct (IH H) as (lo' & hi' & I & B). exists lo', hi'. split; [right; exact I|exact B].
Qed.

Lemma look_ok st c acts tgt : st < 76 -> look (text_row st) c = Some (acts, tgt) ->
  exists lo hi, entry_ok st (lo, hi, acts, tgt) = true /\ lo <= c <= hi.
Proof.
  intros Hst H. destruct (look_in _ _ _ _ H) as (lo & hi & I & B).
  pose proof (forall_below_spec 76 _ table_ok st Hst) as T. cbv beta in T.
  rewrite forallb_forall in T. exists lo, hi. split; [apply T; exact I|exact B].
Qed.

Lemma all_chars_spec f lo hi c : all_chars f lo hi = true -> lo <= c <= hi -> f c = true.
Proof.
  unfold all_chars. intros H B. apply andb_prop in H as [H Hh].
  pose proof (forall_below_spec 256 _ H c ltac:(change (N.of_nat 256) with 256; lia)) as T. cbv beta in T.
  replace ((lo <=? c) && (c <=? hi)) with true in T by lia. exact T.
Qed.

(* ---- invariants of the locals ---- *)

Definition digits (s : bytes) : Prop := Forall (fun c => is_dgt c = true) s.
(* a word: digits that occur in the buffer *)
Definition word_in (buf w : bytes) : Prop := digits w /\ exists x y, buf = x ++ w ++ y.

Definition op_ok (hi : N) (op : list atom) : Prop :=
  Forall (atom_within hi) op /\ exists u v r, op = AUuid u :: AUuid v :: r.

Record G (buf : bytes) (p : N) (l : loc) : Prop := mkG {
  g_int : l_int l <= p; g_float : l_float l <= p; g_str : l_str l <= p; g_word : l_word l <= p;
  g_val : word_in buf (l_val l); g_org : word_in buf (l_org l);
  g_cpn : l_cpn l < 2 ^ 32; g_span : l_span l < 2 ^ 32;
  g_op : op_ok p (l_op l) }.

Record A (buf : bytes) (p : N) (l : loc) (v : av) : Prop := mkA {
  A_U : aU v = true -> is_vsn (l_vsn l) = true;
  A_W : aW v = true -> digits (sub buf (l_word l) p);
  A_S : aS v = true -> exists cp n b e, last_atom (l_op l) = Some (AStr cp n b e);
  A_I : aI v = true -> l_int l < p;
  A_Z : aZ v = true -> l_span l = 0 \/ l_term l <> 0 }.

Lemma word_in_sub buf b e : digits (sub buf b e) -> word_in buf (sub buf b e).
Proof. intro H. split; [exact H|]. do 2 eexists. apply sub_decomp. Qed.

Lemma word_in_nil buf : word_in buf [].
Proof. split; [constructor|]. exists [], buf. reflexivity. Qed.

Lemma atom_within_mono p q a : p <= q -> atom_within p a -> atom_within q a.
Proof. destruct a; cbn [atom_within]; intros; try assumption; lia. Qed.
Lemma op_ok_mono p q op : p <= q -> op_ok p op -> op_ok q op.
Proof.
  intros H [F E]. split; [|exact E]. revert F. apply Forall_impl. intros a. apply atom_within_mono. exact H.
Qed.

Lemma op_ok_push p op a : op_ok p op -> atom_within p a -> op_ok p (op ++ [a]).
Proof.
  intros [F (u & v & r & E)] H. split; [apply Forall_app; split; [exact F|constructor; [exact H|constructor]]|].
  exists u, v, (r ++ [a]). rewrite E. reflexivity.
Qed.

Lemma op_ok_set0 p op u : op_ok p op -> atom_within p (AUuid u) -> op_ok p (set_nth op 0 (AUuid u)).
Proof.
  intros [F (u' & v & r & E)] H. subst. inversion F; subst. unfold set_nth. cbn [firstn skipn app].
  split; [constructor; assumption|]. eauto.
Qed.
Lemma op_ok_set1 p op u : op_ok p op -> atom_within p (AUuid u) -> op_ok p (set_nth op 1 (AUuid u)).
Proof.
  intros [F (u' & v & r & E)] H. subst. inversion F; subst. inversion H3; subst. unfold set_nth. cbn [firstn skipn app].
  split; [constructor; [assumption|constructor; assumption]|]. eauto.
Qed.

Lemma last_atom_snoc op a : last_atom (op ++ [a]) = Some a.
Proof. unfold last_atom. rewrite rev_app_distr. reflexivity. Qed.

Lemma last_atom_some op a : last_atom op = Some a -> exists r, op = r ++ [a].
Proof.
  unfold last_atom. destruct (rev op) as [|x r] eqn:E; [discriminate|]. intro H. injection H as ->.
  exists (rev r). rewrite <- (rev_involutive op), E. reflexivity.
Qed.
Lemma set_last_snoc r a b : set_last (r ++ [a]) b = r ++ [b].
Proof. unfold set_last. rewrite rev_app_distr. cbn [rev app]. rewrite rev_involutive. reflexivity. Qed.

(* NextCodepoint consumes within the atom's range *)
Lemma cp_run_bound s : forall st cp hex n r, cp_run st cp hex n s = Some r -> snd r <= n + N.of_nat (length s).
Proof.
  induction s as [|b t IH]; intros st cp hex n r; cbn [cp_run].
  - intro H. injection H as <-. cbn [snd length]. lia.
  - cbn [length]. intro H.
    assert (K : forall st' cp' hex', cp_run st' cp' hex' (n + 1) t = Some r -> snd r <= n + N.of_nat (S (length t))).
    { intros st' cp' hex' E. specialize (IH _ _ _ _ _ E). lia. }
    repeat match type of H with
           | (if ?x then _ else _) = Some _ => destruct x
           | None = Some _ => discriminate
           | Some _ = Some _ => injection H as <-; cbn [snd]; lia
           | _ => eapply K; exact H
           end.
Qed.

Lemma next_cp_within buf hi cp n b e : hi <= N.of_nat (length buf) ->
  atom_within hi (AStr cp n b e) -> atom_within hi (next_cp buf (AStr cp n b e)).
Proof.
  intros Hh (H1 & H2 & H3). cbn [next_cp]. unfold next_codepoint.
  destruct (n =? 0) eqn:En; [cbn [atom_within]; lia|].
  destruct (cp_run 9 0 [] 0 (sub buf b e)) as [[cp' k]|] eqn:E; [|cbn [atom_within]; lia].
  apply cp_run_bound in E. cbn [snd] in E. rewrite sub_length in E by lia. cbn [atom_within]. lia.
Qed.
Lemma next_cp_str buf cp n b e : exists cp' n' b' , next_cp buf (AStr cp n b e) = AStr cp' n' b' e.
Proof.
  cbn [next_cp]. unfold next_codepoint. destruct (n =? 0); [eauto|].
  destruct (cp_run 9 0 [] 0 (sub buf b e)) as [[cp' k]|]; eauto.
Qed.

Lemma set_last_op_ok p r cp n b e x : op_ok p (r ++ [AStr cp n b e]) -> atom_within p x ->
  (exists c m b' e', x = AStr c m b' e') -> op_ok p (r ++ [x]).
Proof.
  intros [F (u & v & q & E)] H (c & m & b' & e' & X). split.
  - apply Forall_app in F as [F _]. apply Forall_app. split; [exact F|constructor; [exact H|constructor]].
  - destruct r as [|r0 r]; [discriminate|]. destruct r as [|r1 r].
    + cbn in E. injection E as -> E2. discriminate E2.
    + cbn in E. injection E as -> -> _. cbn. eauto.
Qed.

(* UUIDs made by the parser *)
Lemma loc_uuid_ok buf p l : G buf p l -> is_vsn (l_vsn l) = true -> words_ok l = true ->
  atom_within p (AUuid (loc_uuid l)).
Proof.
  intros g V W. unfold words_ok, word_too_big in W. apply andb_prop in W as [W1 W2].
  destruct (g_val _ _ _ g) as [D1 _]. destruct (g_org _ _ _ g) as [D2 _].
  assert (B1 : forallb is_dgt (l_val l) = true) by (apply forallb_forall; rewrite <- Forall_forall; exact D1).
  assert (B2 : forallb is_dgt (l_org l) = true) by (apply forallb_forall; rewrite <- Forall_forall; exact D2).
  unfold loc_uuid, uuid_of_parts. cbn [atom_within]. unfold uuid_wf. cbn [uvalue uorigin].
  rewrite !word_parse_eq by (try assumption; lia).
  assert (LB : forall s, forallb is_dgt s = true -> (length s <= 10)%nat -> lval 10 (map abc s) < 2 ^ 60).
  { intros s Hs Ls. eapply N.lt_le_trans; [apply (lval_bound 10)|apply N.le_refl].
    - rewrite Forall_map. rewrite forallb_forall in Hs. apply Forall_forall. intros x Hx.
      apply (proj1 (dgt_ok x (Hs x Hx))).
    - rewrite map_length. exact Ls. }
  pose proof (LB _ B1 ltac:(lia)) as L1. pose proof (LB _ B2 ltac:(lia)) as L2.
  apply vsn_chars in V. destruct V as (v & V). apply vsn_abc in V as [V Hv].
  rewrite V. rewrite (N.mod_small v 16) by lia.
  assert (M : abc (l_var l) mod 16 < 16) by (apply N.mod_lt; lia).
  change (2 ^ 60) with 1152921504606846976 in *. change (2 ^ 64) with 18446744073709551616.
  change (2 ^ 62) with 4611686018427387904. lia.
Qed.

(* ---- one action ---- *)

Definition spanless (l : loc) : Prop := l_span l = 0 \/ l_term l <> 0.

Lemma exec_ok buf pe lo hi a c p l v v' :
  N.of_nat (length buf) = pe -> p < pe -> lo <= c <= hi ->
  G buf p l -> A buf p l v -> tr lo hi a v = Some v' ->
  match exec buf pe a c p l with
  | ECont l' => G buf p l' /\ A buf p l' v'
  | EBreak l' => G buf p l' /\ spanless l'
  | EAbort => (length (l_val l) > 10 \/ length (l_org l) > 10)%nat
  end.
Proof.
  intros Hpe Hp Hc g a0 T.
  assert (WA : words_ok l = false -> (length (l_val l) > 10 \/ length (l_org l) > 10)%nat).
  { unfold words_ok, word_too_big. lia. }
  pose proof (fun H => loc_uuid_ok buf p l g H) as UO.
  destruct a; cbn [exec tr] in *.
  - (* end_id *) destruct (aU v) eqn:U; [|discriminate]. injection T as <-.
    destruct (words_ok l) eqn:W; [|auto]. pose proof (UO (A_U _ _ _ _ a0 U) eq_refl) as O.
    destruct g, a0. split; constructor; cbn; auto; try discriminate. apply op_ok_set0; assumption.
  - destruct (aU v) eqn:U; [|discriminate]. injection T as <-.
    destruct (words_ok l) eqn:W; [|auto]. pose proof (UO (A_U _ _ _ _ a0 U) eq_refl) as O.
    destruct g, a0. split; constructor; cbn; auto; try discriminate. apply op_ok_set1; assumption.
  - (* begin_int *) injection T as <-. destruct g, a0. split; constructor; cbn; auto; try discriminate; lia.
  - (* end_int *) destruct (aI v && aZ v) eqn:I; [|discriminate]. apply andb_prop in I as [I Z]. injection T as <-.
    pose proof (A_I _ _ _ _ a0 I) as L. replace (p <? l_int l) with false by lia.
    destruct ((19 <=? p - l_int l) && int_too_big (sub buf (l_int l) p)); [split; [exact g|exact (A_Z _ _ _ _ a0 Z)]|].
    destruct g, a0. split; constructor; cbn; auto; try discriminate.
    apply op_ok_push; [assumption|]. cbn [atom_within]. lia.
  - (* begin_string *) injection T as <-. destruct g, a0. split; constructor; cbn; auto; try discriminate; try lia.
  - (* end_string *) injection T as <-. replace (p <? l_str l) with false by (pose proof (g_str _ _ _ g); lia).
    destruct g, a0. split; constructor; cbn; auto; try discriminate.
    + apply op_ok_push; [assumption|]. cbn [atom_within]. change (2 ^ 32) with 4294967296 in *. lia.
    + intros _. rewrite last_atom_snoc. eauto.
  - (* begin_float *) injection T as <-. destruct g, a0. split; constructor; cbn; auto; try discriminate; lia.
  - (* end_float *) destruct (aZ v) eqn:Z; [|discriminate]. injection T as <-.
    replace (p <? l_float l) with false by (pose proof (g_float _ _ _ g); lia).
    destruct (24 <? p - l_float l) eqn:E; [split; [exact g|exact (A_Z _ _ _ _ a0 Z)]|].
    destruct g, a0. split; constructor; cbn; auto; try discriminate.
    apply op_ok_push; [assumption|]. cbn [atom_within]. lia.
  - (* quoted uuid *) destruct (aU v && aZ v) eqn:I; [|discriminate]. apply andb_prop in I as [U Z]. injection T as <-.
    destruct (words_ok l) eqn:W; [|split; [exact g|exact (A_Z _ _ _ _ a0 Z)]]. pose proof (UO (A_U _ _ _ _ a0 U) eq_refl) as O.
    destruct g, a0. split; constructor; cbn; auto; try discriminate. apply op_ok_push; assumption.
  - (* bare uuid *) destruct (aU v && aZ v) eqn:I; [|discriminate]. apply andb_prop in I as [U Z]. injection T as <-.
    destruct (l_uuid l).
    + destruct (words_ok l) eqn:W; [|split; [exact g|exact (A_Z _ _ _ _ a0 Z)]]. pose proof (UO (A_U _ _ _ _ a0 U) eq_refl) as O.
      destruct g, a0. split; constructor; cbn; auto; try discriminate. apply op_ok_push; assumption.
    + split; [exact g|]. destruct a0. constructor; cbn; auto. discriminate.
  - (* end_cp *) injection T as <-. destruct g, a0. split; constructor; cbn; auto.
    apply N.mod_lt. unfold two32. discriminate.
  - (* op_term *) destruct (0 <? lo) eqn:L; [|discriminate]. injection T as <-.
    destruct (p + 1 <? pe).
    + destruct g. split; [constructor; cbn; auto|]. right. cbn. lia.
    + destruct g, a0. split; constructor; cbn; auto. intros _. right. lia.
  - injection T as <-. split; assumption.
  - injection T as <-. split; assumption.
  - injection T as <-. split; assumption.
  - (* span digit *) injection T as <-. destruct g, a0. split; constructor; cbn; auto; try discriminate.
    apply N.mod_lt. unfold two32. discriminate.
  - injection T as <-. destruct g, a0. split; constructor; cbn; auto; try discriminate.
    apply N.mod_lt. unfold two32. discriminate.
  - (* end_spread *) destruct (aS v) eqn:S; [|discriminate]. injection T as <-.
    destruct (A_S _ _ _ _ a0 S) as (cp & n & b & e & E). rewrite E.
    destruct (last_atom_some _ _ E) as (r & Er).
    assert (O : op_ok p (if n =? 0 then l_op l else set_last (l_op l) (next_cp buf (AStr cp n b e))) /\
      exists cp' n' b' e', last_atom (if n =? 0 then l_op l else set_last (l_op l) (next_cp buf (AStr cp n b e))) = Some (AStr cp' n' b' e')).
    { pose proof (g_op _ _ _ g) as O. rewrite Er in *.
      destruct (n =? 0); [split; [exact O|eauto]|]. rewrite set_last_snoc, last_atom_snoc.
      destruct (next_cp_str buf cp n b e) as (cp' & n' & b' & Ex). split.
      - eapply set_last_op_ok; [exact O| |rewrite Ex; eauto].
        apply next_cp_within; [lia|]. destruct O as [F _]. apply Forall_app in F as [_ F]. inversion F; assumption.
      - rewrite Ex. eauto. }
    destruct O as [O1 O2].
    destruct g, a0. split; constructor; cbn; auto; try discriminate.
    apply N.mod_lt. unfold two32. discriminate.
  - (* begin_uuid *) injection T as <-. destruct g, a0. split; constructor; cbn; auto. apply word_in_nil.
  - injection T as <-. destruct g, a0. split; constructor; cbn; auto.
  - (* begin_word *) injection T as <-. destruct g, a0. split; constructor; cbn; auto; [lia|].
    intros _. rewrite sub_nil. constructor.
  - (* end_value *) destruct (aW v) eqn:W; [|discriminate]. injection T as <-.
    replace (p <? l_word l) with false by (pose proof (g_word _ _ _ g); lia).
    pose proof (word_in_sub buf _ _ (A_W _ _ _ _ a0 W)) as WI.
    destruct g, a0. split; constructor; cbn; auto.
  - (* version *) destruct (all_chars is_vsn lo hi) eqn:V; [|discriminate]. injection T as <-.
    destruct g, a0. split; constructor; cbn; auto. intros _. eapply all_chars_spec; eassumption.
  - destruct (aW v) eqn:W; [|discriminate]. injection T as <-.
    replace (p <? l_word l) with false by (pose proof (g_word _ _ _ g); lia).
    pose proof (word_in_sub buf _ _ (A_W _ _ _ _ a0 W)) as WI.
    destruct g, a0. split; constructor; cbn; auto.
Qed.

(* an over-long word in the buffer *)
Definition long_word (buf : bytes) : Prop :=
  exists x w y, buf = x ++ w ++ y /\ Forall (fun c => is_dgt c = true) w /\ (10 < length w)%nat.

Lemma G_long buf p l : G buf p l -> (length (l_val l) > 10 \/ length (l_org l) > 10)%nat -> long_word buf.
Proof.
  intros g [H|H]; [destruct (g_val _ _ _ g) as [D (x & y & E)]|destruct (g_org _ _ _ g) as [D (x & y & E)]];
    (exists x; eexists; exists y; split; [exact E|split; [exact D|lia]]).
Qed.

Lemma exec_all_ok buf pe lo hi c p acts : N.of_nat (length buf) = pe -> p < pe -> lo <= c <= hi ->
  forall l v v', G buf p l -> A buf p l v -> tr_all lo hi acts v = Some v' ->
  match exec_all buf pe acts c p l with
  | ECont l' => G buf p l' /\ A buf p l' v'
  | EBreak l' => G buf p l' /\ spanless l'
  | EAbort => long_word buf
  end.
Proof.
  intros Hpe Hp Hc. induction acts as [|a acts IH]; intros l v v' g a0 T; cbn [exec_all tr_all] in *.
  - injection T as <-. split; assumption.
  - destruct (tr lo hi a v) as [v1|] eqn:T1; [|discriminate].
    pose proof (exec_ok buf pe lo hi a c p l v v1 Hpe Hp Hc g a0 T1) as E.
    destruct (exec buf pe a c p l) as [l'|l'|].
    + destruct E as [g' a']. eapply IH; eassumption.
    + exact E.
    + eapply G_long; eassumption.
Qed.

Lemma G_mono buf p q l : p <= q -> G buf p l -> G buf q l.
Proof.
  intros H g. destruct g. constructor; auto; try lia. eapply op_ok_mono; eassumption.
Qed.

Lemma run_ok buf pe s : N.of_nat (length buf) = pe -> forall st l p,
  st < 76 -> p <= pe -> skipn (N.to_nat p) buf = s -> G buf p l -> A buf p l (inv_st st) ->
  match run buf pe st l p s with
  | Some (st', l', p') => st' < 76 /\ p <= p' <= pe /\ G buf p' l' /\ (p = p' -> s = [] \/ (st' = 0 /\ l' = l)) /\ (74 <= st' -> spanless l')
  | None => long_word buf
  end.
Proof.
  intro Hpe. induction s as [|c t IH]; intros st l p Hst Hp Hs g a0; cbn [run].
  - split; [exact Hst|]. split; [lia|]. split; [exact g|]. split; [intros _; left; reflexivity|].
    intro H. destruct a0 as [_ _ _ _ Z]. apply Z. cbn [inv_st aZ].
    assert (st = 74 \/ st = 75) as [->| ->] by lia; reflexivity.
  - assert (Hlt : p < pe).
    { assert (length (skipn (N.to_nat p) buf) <> O) by (rewrite Hs; discriminate). rewrite skipn_length in H. lia. }
    destruct (look (text_row st) c) as [[acts tgt]|] eqn:L.
    2:{ split; [lia|]. split; [lia|]. split; [exact g|]. split; [intros _; right; split; reflexivity|lia]. }
    destruct (look_ok st c acts tgt Hst L) as (lo & hi & EO & Hc). unfold entry_ok in EO.
    destruct (tr_all lo hi acts (inv_st st)) as [v|] eqn:T; [|rewrite andb_false_r in EO; discriminate].
    apply andb_prop in EO as [EO LE]. apply andb_prop in EO as [EO1 EO2].
    pose proof (exec_all_ok buf pe lo hi c p acts Hpe Hlt Hc l _ v g a0 T) as E.
    destruct (exec_all buf pe acts c p l) as [l'|l'|]; [|split; [lia|split; [lia|split; [apply (G_mono buf p); [lia|exact (proj1 E)]|split; [lia|intros _; exact (proj2 E)]]]]|exact E].
    destruct E as [g' a'].
    assert (g2 : G buf (p + 1) l') by (apply (G_mono buf p); [lia|exact g']).
    assert (a2 : A buf (p + 1) l' (inv_st tgt)).
    { unfold av_le in LE. cbn [aU aW aS aI aZ] in LE.
      assert (LE' : (aU (inv_st tgt) = true -> aU v = true) /\ (aW (inv_st tgt) = true -> (aW v && all_chars is_dgt lo hi) = true) /\ (aS (inv_st tgt) = true -> aS v = true) /\ (aZ (inv_st tgt) = true -> aZ v = true)).
      { destruct (aU (inv_st tgt)), (aW (inv_st tgt)), (aS (inv_st tgt)), (aI (inv_st tgt)), (aU v), (aW v && all_chars is_dgt lo hi), (aS v), (aZ (inv_st tgt)), (aZ v);
          cbn in LE; try discriminate; repeat split; intros; congruence. }
      destruct LE' as (LU & LW & LS & LZ). destruct a'. constructor; auto.
      - intro Q. apply LW in Q. apply andb_prop in Q as [Q1 Q2].
        rewrite (sub_snoc buf _ p c t) by (try exact Hs; exact (g_word _ _ _ g')).
        apply Forall_app. split; [exact (A_W0 Q1)|]. constructor; [|constructor]. eapply all_chars_spec; eassumption.
      - intros _. rewrite N.add_1_r. apply N.lt_succ_r. exact (g_int _ _ _ g'). }
    specialize (IH tgt l' (p + 1) ltac:(lia) ltac:(lia) (skipn_next _ _ _ _ Hs) g2 a2).
    destruct (run buf pe tgt l' (p + 1) t) as [[[st' l''] p']|]; [|exact IH].
    destruct IH as (I1 & I2 & I3 & I4 & I5). split; [exact I1|]. split; [lia|]. split; [exact I3|]. split; [lia|exact I5].
Qed.

(* ---- the cursor ---- *)

Record C (buf : bytes) (c : cursor) : Prop := mkC {
  C_buf : c_buf c = buf; C_pos : c_pos c <= N.of_nat (length buf);
  C_st : c_state c < 76;
  C_op : (c_op c = [] /\ c_span c = 0 /\ c_state c = 0) \/ op_ok (c_pos c) (c_op c);
  C_span : c_span c < 2 ^ 32 }.

Lemma inc_ok p u : atom_within p (AUuid u) -> atom_within p (AUuid (inc u)).
Proof.
  cbn [atom_within]. intros [[H1 H2] H3]. unfold uuid_wf, inc, inc_by. cbn [uvalue uorigin].
  split; [split; [apply N.mod_lt; discriminate|exact H2]|exact H3].
Qed.

Lemma A_start buf p prev : A buf p (loc0 p prev) (inv_st 74).
Proof. constructor; cbn; try discriminate. intros _. left. reflexivity. Qed.

(* a complete op leaves the machine in its start state *)
Definition is_op_term (a : action) : bool := match a with a_op_term => true | _ => false end.

Lemma table_term : forall_below 76 (fun st => forallb (fun e => let '(lo, hi, acts, tgt) := e in
  implb (existsb is_op_term acts) (tgt =? 74)) (text_row st)) = true.
Proof. vm_compute. reflexivity. Qed.

Lemma exec_term buf pe a c p l : l_term l = 0 ->
  match exec buf pe a c p l with
  | ECont l' => l_term l' = 0 \/ (pe <= p + 1 /\ is_op_term a = true)
  | EBreak l' => l_term l' = 0 \/ is_op_term a = true
  | EAbort => True
  end.
Proof.
  intro H. destruct a; cbn [exec is_op_term];
    try (repeat match goal with |- context [if ?x then _ else _] => destruct x end; cbn; auto; fail).
  - destruct (p + 1 <? pe) eqn:E; cbn; right; [reflexivity|split; [lia|reflexivity]].
  - destruct (last_atom (l_op l)) as [[]|]; cbn; auto.
Qed.

Lemma exec_all_term buf pe acts c p : forall l, l_term l = 0 ->
  match exec_all buf pe acts c p l with
  | ECont l' => l_term l' = 0 \/ (pe <= p + 1 /\ existsb is_op_term acts = true)
  | EBreak l' => l_term l' = 0 \/ existsb is_op_term acts = true
  | EAbort => True
  end.
Proof.
  induction acts as [|a acts IH]; intros l H; cbn [exec_all existsb]; [left; exact H|].
  pose proof (exec_term buf pe a c p l H) as E.
  destruct (exec buf pe a c p l) as [l'|l'|]; [| |exact I].
  - destruct E as [E|[E1 E2]].
    + specialize (IH l' E). destruct (exec_all buf pe acts c p l'); [| |exact I];
        (destruct IH as [IH|IH]; [left; exact IH|right]).
      * destruct IH as [I1 I2]. split; [exact I1|]. rewrite I2. apply orb_true_r.
      * rewrite IH. apply orb_true_r.
    + rewrite E2. cbn [orb]. destruct (exec_all buf pe acts c p l'); auto.
  - destruct E as [E|E]; [left; exact E|right; rewrite E; reflexivity].
Qed.

Lemma run_term buf pe s : forall st l p st' l' p', st < 76 -> p + N.of_nat (length s) = pe ->
  l_term l = 0 \/ (s = [] /\ st = 74) ->
  run buf pe st l p s = Some (st', l', p') -> l_term l' <> 0 -> st' <> 0 -> st' = 74.
Proof.
  induction s as [|c t IH]; intros st l p st' l' p' Hst Hp Hl R T Z; cbn [run] in R.
  - injection R as <- <- <-. destruct Hl as [Hl|[_ Hl]]; [contradiction|exact Hl].
  - destruct Hl as [Hl|[Hl _]]; [|discriminate].
    destruct (look (text_row st) c) as [[acts tgt]|] eqn:L.
    2:{ injection R as <- <- <-. contradiction. }
    destruct (look_in _ _ _ _ L) as (lo & hi & I & B).
    pose proof (forall_below_spec 76 _ table_term st Hst) as TT. cbv beta in TT.
    rewrite forallb_forall in TT. specialize (TT _ I). cbv beta iota in TT.
    destruct (look_ok st c acts tgt Hst L) as (lo' & hi' & EO & _). unfold entry_ok in EO.
    apply andb_prop in EO as [EO _].
    pose proof (exec_all_term buf pe acts c p l Hl) as E.
    destruct (exec_all buf pe acts c p l) as [l1|l1|]; [| |discriminate].
    + eapply IH; [| | |exact R|exact T|exact Z]; [lia|cbn [length] in Hp; lia|].
      destruct E as [E|[E1 E2]]; [left; exact E|right]. rewrite E2 in TT. cbn [implb] in TT.
      cbn [length] in Hp. split; [|lia]. destruct t; [reflexivity|]. cbn [length] in Hp. lia.
    + injection R as <- <- <-. destruct E as [E|E]; [contradiction|]. rewrite E in TT. cbn [implb] in TT. lia.
Qed.

(* ---- Next ---- *)

Lemma G_loc0 buf p prev : op_ok p [AUuid (inc prev); AUuid prev] -> G buf p (loc0 p prev).
Proof.
  intro H. constructor; cbn; try lia; try apply word_in_nil. exact H.
Qed.

Definition st_ok (c : cursor) : Prop := c_state c = 0 \/ c_state c = 74.

Lemma op_ok_prev p op : op_ok p op -> atom_within p (AUuid (op_id op)).
Proof. intros [F (u & v & r & ->)]. inversion F. assumption. Qed.

Lemma op_ok_span p buf op : p <= N.of_nat (length buf) -> op_ok p op ->
  let op1 := set_nth (set_nth op 1 (AUuid (op_id op))) 0 (AUuid (inc (op_id op))) in
  op_ok p (match last_atom op1 with
           | Some (AStr cp n b e) => if cp =? 0 then op1 else set_last op1 (next_cp buf (AStr cp n b e))
           | _ => op1
           end).
Proof.
  intros Hp H op1. pose proof (op_ok_prev p op H) as U.
  assert (O : op_ok p op1) by (apply op_ok_set0; [apply op_ok_set1; assumption|apply inc_ok; exact U]).
  clearbody op1. destruct (last_atom op1) as [[| |cp n b e|]|] eqn:E; try exact O.
  destruct (cp =? 0); [exact O|]. destruct (last_atom_some _ _ E) as (r & ->). rewrite set_last_snoc.
  destruct (next_cp_str buf cp n b e) as (cp' & n' & b' & Ex).
  eapply set_last_op_ok; [exact O| |rewrite Ex; eauto].
  apply next_cp_within; [exact Hp|]. destruct O as [F _]. apply Forall_app in F as [_ F]. inversion F; assumption.
Qed.

Definition next_ok (buf : bytes) (c : cursor) : Prop :=
  match next c with
  | NOk c' => C buf c' /\ op_ok (c_pos c') (c_op c') /\ st_ok c' /\
              ((c_pos c < c_pos c' /\ c_span c = 0 /\ c_state c' = 74) \/
               (c_pos c' = c_pos c /\ c_state c' = c_state c /\ c_span c = c_span c' + 1))
  | NEnd c' => C buf c' /\ c_state c' = 0 /\ c_span c' = 0 /\ c_pos c <= c_pos c'
  | NBad c' => C buf c' /\ c_state c' = 0 /\ c_pos c <= c_pos c' /\ (c_pos c' = 0 -> c_span c' = 0)
  | NAbort => long_word buf
  end.

Lemma next_safe buf c : C buf c -> st_ok c -> next_ok buf c.
Proof.
  intros [Hb Hp Hst Ho Hs] So. unfold next_ok, next. subst buf.
  destruct (c_span c =? 0) eqn:Es; cbn [negb].
  2:{ (* span *)
    destruct Ho as [(_ & Z & _)|Ho]; [lia|].
    pose proof (op_ok_span (c_pos c) (c_buf c) (c_op c) Hp Ho) as O. cbv zeta in O.
    split; [|split; [exact O|split; [exact So|right; cbn [c_pos c_state c_span]; split; [reflexivity|split; [reflexivity|lia]]]]].
    constructor; cbn [c_buf c_pos c_state c_op c_span]; auto; try lia. }
  destruct ((c_state c =? 0) && negb (c_pos c =? 0)) eqn:E1.
  { split; [constructor; auto|]. split; [lia|]. split; [lia|]. lia. }
  assert (E2 : c_state c =? RON_FULL_STOP = false) by (unfold RON_FULL_STOP; destruct So; lia). rewrite E2.
  destruct (c_pos c =? N.of_nat (length (c_buf c))) eqn:E3.
  { split; [|cbn; split; [reflexivity|split; [reflexivity|lia]]].
    constructor; cbn [c_buf c_pos c_state c_op c_span]; try lia; [reflexivity|].
    destruct Ho as [(O1 & O2 & O3)|O]; [left; auto|right; exact O]. }
  set (prev := match c_op c with [] => NIL | a :: _ => a2u a end).
  assert (O0 : op_ok (c_pos c) [AUuid (inc prev); AUuid prev]).
  { assert (U : atom_within (c_pos c) (AUuid prev)).
    { destruct Ho as [(O1 & _)|O].
      - unfold prev. rewrite O1. cbn. unfold uuid_wf. cbn. change (2 ^ 62) with 4611686018427387904.
        change (2 ^ 64) with 18446744073709551616. lia.
      - destruct O as [F (u & v & r & E)]. unfold prev. rewrite E in *. inversion F. assumption. }
    split; [constructor; [apply inc_ok; exact U|constructor; [exact U|constructor]]|eauto]. }
  set (st := if c_state c =? 0 then RON_START else c_state c).
  assert (Est : st = 74) by (unfold st, RON_START; destruct So as [->| ->]; reflexivity).
  rewrite Est. clear st Est.
  pose proof (run_ok (c_buf c) _ (skipn (N.to_nat (c_pos c)) (c_buf c)) eq_refl 74 (loc0 (c_pos c) prev) (c_pos c)
                ltac:(lia) Hp eq_refl (G_loc0 _ _ _ O0) (A_start _ _ _)) as R.
  pose proof (run_term (c_buf c) (N.of_nat (length (c_buf c))) (skipn (N.to_nat (c_pos c)) (c_buf c)) 74 (loc0 (c_pos c) prev) (c_pos c)) as T.
  destruct (run (c_buf c) (N.of_nat (length (c_buf c))) 74 (loc0 (c_pos c) prev) (c_pos c) (skipn (N.to_nat (c_pos c)) (c_buf c)))
    as [[[st' l'] p']|]; [|exact R].
  destruct R as (R1 & R2 & R3 & R4 & R5).
  specialize (T st' l' p' ltac:(lia)). rewrite skipn_length in T. specialize (T ltac:(lia) (or_introl eq_refl) eq_refl).
  assert (NE : skipn (N.to_nat (c_pos c)) (c_buf c) <> []).
  { intro E. apply (f_equal (@length N)) in E. rewrite skipn_length in E. cbn in E. lia. }
  assert (CC : C (c_buf c) (mkCursor (c_buf c) p' (l_op l') (c_term c) 0 (l_span l'))).
  { constructor; cbn [c_buf c_pos c_state c_op c_span]; auto; try lia; [right; exact (g_op _ _ _ R3)|exact (g_span _ _ _ R3)]. }
  destruct (negb (l_term l' =? 0) && negb (st' =? 0)) eqn:E4.
  - assert (st' = 74) by (apply T; lia). subst st'.
    split; [constructor; cbn [c_buf c_pos c_state c_op c_span]; auto; try lia; [right; exact (g_op _ _ _ R3)|exact (g_span _ _ _ R3)]|].
    cbn [c_pos c_op]. split; [exact (g_op _ _ _ R3)|]. split; [right; reflexivity|]. left. cbn [c_pos c_state].
    split; [|split; [lia|reflexivity]].
    destruct (N.eq_dec (c_pos c) p') as [E|E]; [|lia]. destruct (R4 E) as [Q|[Q _]]; [contradiction|discriminate].
  - destruct (RON_START <=? st') eqn:E5.
    + split; [exact CC|]. cbn [c_state c_span c_pos]. split; [reflexivity|]. split; [|lia].
      unfold RON_START in E5. destruct (R5 ltac:(lia)) as [Q|Q]; [exact Q|]. exfalso. lia.
    + split; [exact CC|]. cbn [c_state c_span c_pos]. split; [reflexivity|]. split; [lia|].
      (* an error at offset 0 executes no action *)
      intro E. destruct (R4 ltac:(lia)) as [Q|[_ Q]]; [contradiction|]. rewrite Q. reflexivity.
Qed.

Lemma C_start buf : C buf (cursor_of buf) /\ st_ok (cursor_of buf).
Proof.
  split; [|left; reflexivity]. constructor; cbn; auto; try lia.
Qed.

Lemma reachable_ok buf c : reachable buf c -> C buf c /\ st_ok c.
Proof.
  induction 1 as [|c c' H IH E|c c' H IH E|c c' H IH E]; [apply C_start| | |];
    destruct IH as [I1 I2]; pose proof (next_safe buf c I1 I2) as N; unfold next_ok in N; rewrite E in N.
  - tauto.
  - split; [tauto|]. left. tauto.
  - split; [tauto|]. left. tauto.
Qed.

Lemma no_long buf : no_long_word buf -> ~ long_word buf.
Proof. intros H (x & w & y & E & D & L). specialize (H x w y E D). lia. Qed.

(* ---- the scan terminates ---- *)
Definition left_over (c : cursor) : N := (N.of_nat (length (c_buf c)) - c_pos c) * 2 ^ 32 + c_span c.

Lemma scan_fuel fuel : forall buf c, C buf c -> st_ok c -> left_over c < N.of_nat fuel -> snd (scan fuel c) <> SFuel.
Proof.
  induction fuel as [|f IH]; intros buf c HC Hs L; [lia|]. cbn [scan].
  pose proof (next_safe buf c HC Hs) as N. unfold next_ok in N.
  destruct (next c) as [c'| | |]; [|discriminate|discriminate|discriminate].
  destruct N as (N1 & N2 & N3 & N4). specialize (IH buf c' N1 N3).
  destruct (scan f c') as [r e] eqn:E. cbn [snd] in *. apply IH.
  destruct HC as [B1 B2 B3 B4 B5], N1 as [D1 D2 D3 D4 D5]. unfold left_over in *. rewrite B1 in L. rewrite D1.
  change (2 ^ 32) with 4294967296 in *. lia.
Qed.

(* ---- dead cursors ---- *)
Record dead (buf : bytes) (c : cursor) : Prop := mkDead {
  d_C : C buf c; d_st : c_state c = 0;
  d_pos : c_pos c <> 0 \/ (c_span c = 0 /\ (buf = [] \/ exists b t, buf = b :: t /\ look (text_row 74) b = None)) }.

Lemma dead_next buf c : dead buf c ->
  match next c with
  | NOk c' => dead buf c' /\ c_span c = c_span c' + 1
  | NEnd c' => dead buf c' /\ c_span c' = 0
  | NBad c' => dead buf c' /\ c_span c' = 0
  | NAbort => False
  end.
Proof.
  intros [HC Hst Hd]. pose proof (next_safe buf c HC (or_introl Hst)) as N. unfold next_ok in N.
  unfold next in *. destruct (c_span c =? 0) eqn:Es; cbn [negb] in *.
  2:{ destruct N as (N1 & N2 & N3 & N4). cbn [c_span c_pos c_state] in *. split; [|lia].
      constructor; [exact N1|exact Hst|]. cbn [c_pos c_span]. destruct Hd as [Hd|[Hd _]]; [left; exact Hd|lia]. }
  rewrite Hst in *. destruct HC as [HB HP HS HO HSp]. rewrite HB in *.
  destruct (c_pos c =? 0) eqn:Ep; cbn [negb andb N.eqb] in *.
  2:{ change (0 =? 0) with true in *. cbn [andb] in *. split; [|lia]. constructor; [constructor; auto|exact Hst|left; lia]. }
  change (0 =? 0) with true in *. change (0 =? RON_FULL_STOP) with false in *. cbn [andb] in *.
  destruct Hd as [Hd|[_ Hd]]; [lia|]. destruct Hd as [->|(b & t & -> & Hl)].
  - cbn [length] in *. change (N.of_nat 0) with 0 in *. rewrite Ep in *. split; [|reflexivity].
    destruct N as (N1 & _). constructor; [exact N1|reflexivity|]. right. split; [reflexivity|left; reflexivity].
  - destruct (c_pos c =? N.of_nat (length (b :: t))) eqn:E; [cbn [length] in E; lia|].
    assert (P0 : c_pos c = 0) by lia. rewrite P0 in *. change RON_START with 74 in *. cbn [N.to_nat skipn run] in *.
    rewrite Hl in *. cbn [l_term loc0 negb andb] in *. change (0 =? 0) with true in *. cbn [negb andb] in *.
    change (74 <=? 0) with false in *. cbv iota in *. split; [|reflexivity].
    destruct N as (N1 & _). constructor; [exact N1|reflexivity|]. right. split; [reflexivity|]. right. eauto.
Qed.

Lemma next_dead buf c : C buf c -> st_ok c ->
  match next c with
  | NEnd c' => dead buf c' /\ c_span c' = 0
  | NBad c' => dead buf c'
  | _ => True
  end.
Proof.
  intros HC Hs. pose proof (next_safe buf c HC Hs) as N. unfold next_ok in N.
  destruct (next c) as [c'|c'|c'|] eqn:E; auto.
  - destruct N as (N1 & N2 & N3 & N4). split; [|exact N3]. constructor; [exact N1|exact N2|].
    destruct (N.eq_dec (c_pos c') 0) as [P|P]; [|left; exact P]. right. split; [exact N3|]. left.
    assert (P0 : c_pos c = 0) by lia.
    unfold next in E. destruct (negb (c_span c =? 0)); [discriminate|].
    destruct ((c_state c =? 0) && negb (c_pos c =? 0)); [discriminate|].
    destruct (c_state c =? RON_FULL_STOP) eqn:Q; [unfold RON_FULL_STOP in Q; destruct Hs; lia|].
    destruct (c_pos c =? N.of_nat (length (c_buf c))) eqn:L.
    { rewrite <- (C_buf _ _ HC). apply length_zero_iff_nil. lia. }
    set (st := if c_state c =? 0 then RON_START else c_state c) in E.
    assert (Est : st = 74) by (unfold st, RON_START; destruct Hs as [->| ->]; reflexivity).
    set (prev := match c_op c with [] => NIL | a :: _ => a2u a end) in E. clearbody prev. rewrite Est in E. clear st Est.
    rewrite P0 in E. cbn [N.to_nat skipn] in E. destruct (c_buf c) as [|b t] eqn:B; [cbn in L; lia|].
    exfalso. cbn [run] in E.
    destruct (look (text_row 74) b) as [[acts tgt]|] eqn:Lk.
    2:{ cbn [l_term loc0] in E. change (0 =? 0) with true in E. discriminate E. }
    destruct (exec_all (b :: t) (N.of_nat (length (b :: t))) acts b 0 (loc0 0 prev)) as [l1|l1|] eqn:X; [| |discriminate].
    + (* the machine only moves forward *)
      assert (M : forall s st l p st' l' p', run (b :: t) (N.of_nat (length (b :: t))) st l p s = Some (st', l', p') -> p <= p').
      { induction s as [|c0 s IH]; intros st l p st' l' p' R; cbn [run] in R; [injection R; lia|].
        destruct (look (text_row st) c0) as [[a0 t0]|]; [|injection R; lia].
        destruct (exec_all _ _ a0 c0 p l); [apply IH in R; lia|injection R; lia|discriminate]. }
      destruct (run (b :: t) (N.of_nat (length (b :: t))) tgt l1 (0 + 1) t) as [[[st' l'] p']|] eqn:R; [|discriminate].
      apply M in R. destruct (negb (l_term l' =? 0) && negb (st' =? 0)); [discriminate|].
      destruct (RON_START <=? st'); [|discriminate]. injection E as <-. cbn [c_pos] in P. lia.
    + destruct (negb (l_term l1 =? 0) && negb (tgt =? 0)); [discriminate|].
      destruct (RON_START <=? tgt); [|discriminate]. injection E as <-. cbn [c_pos] in P. lia.
  - destruct N as (N1 & N2 & N3 & N4). constructor; [exact N1|exact N2|].
    destruct (N.eq_dec (c_pos c') 0) as [P|P]; [|left; exact P]. right. split; [exact (N4 P)|].
    assert (P0 : c_pos c = 0) by lia.
    unfold next in E. destruct (negb (c_span c =? 0)); [discriminate|].
    destruct ((c_state c =? 0) && negb (c_pos c =? 0)) eqn:Q0; [lia|].
    destruct (c_state c =? RON_FULL_STOP) eqn:Q; [discriminate|].
    destruct (c_pos c =? N.of_nat (length (c_buf c))) eqn:L; [discriminate|].
    set (st := if c_state c =? 0 then RON_START else c_state c) in E.
    assert (Est : st = 74) by (unfold st, RON_START; destruct Hs as [->| ->]; reflexivity).
    set (prev := match c_op c with [] => NIL | a :: _ => a2u a end) in E. clearbody prev. rewrite Est in E. clear st Est.
    rewrite P0 in E. cbn [N.to_nat skipn] in E. rewrite <- (C_buf _ _ HC).
    destruct (c_buf c) as [|b t] eqn:B; [left; reflexivity|]. right. exists b, t. split; [reflexivity|].
    cbn [run] in E.
    destruct (look (text_row 74) b) as [[acts tgt]|] eqn:Lk; [exfalso|reflexivity].
    destruct (exec_all (b :: t) (N.of_nat (length (b :: t))) acts b 0 (loc0 0 prev)) as [l1|l1|] eqn:X; [| |discriminate].
    + assert (M : forall s st l p st' l' p', run (b :: t) (N.of_nat (length (b :: t))) st l p s = Some (st', l', p') -> p <= p').
      { induction s as [|c0 s IH]; intros st l p st' l' p' R; cbn [run] in R; [injection R; lia|].
        destruct (look (text_row st) c0) as [[a0 t0]|]; [|injection R; lia].
        destruct (exec_all _ _ a0 c0 p l); [apply IH in R; lia|injection R; lia|discriminate]. }
      destruct (run (b :: t) (N.of_nat (length (b :: t))) tgt l1 (0 + 1) t) as [[[st' l'] p']|] eqn:R; [|discriminate].
      apply M in R. destruct (negb (l_term l' =? 0) && negb (st' =? 0)); [discriminate|].
      destruct (RON_START <=? st'); [discriminate|]. injection E as <-. cbn [c_pos] in P. lia.
    + destruct (negb (l_term l1 =? 0) && negb (tgt =? 0)); [discriminate|].
      destruct (RON_START <=? tgt); [discriminate|]. injection E as <-. cbn [c_pos] in P. lia.
Qed.
