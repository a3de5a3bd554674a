From Verif Require Import Prelude UuidModel UuidSpec UuidProofs KeyModel CodecModel CodecSpec TextModel TextSpec FrameProofs BuilderSpec BuilderProofs
  MergeModel MergeSpec MergeTextModel MergeProofs RgaProofs TextMergeSpec TextCursors MergeKeeps TextMerge SliceModel SliceProofs SliceTheorems GcModel GcSpec.

Lemma keq_spec a b : all_eqb a b = true <-> a = b.
Proof. apply all_eqb_eq. Qed.

Lemma km_put_get k u m k' : km_get k' (km_put k u m) = if list_eq_dec N.eq_dec k k' then u else km_get k' m.
Proof.
  induction m as [|[k1 u1] m IH]; cbn [km_put km_get].
  - destruct (all_eqb k k') eqn:E; destruct (list_eq_dec N.eq_dec k k') as [Q|Q]; try reflexivity.
    + apply keq_spec in E. contradiction.
    + apply keq_spec in Q. congruence.
  - destruct (all_eqb k1 k) eqn:E; cbn [km_get].
    + apply keq_spec in E. subst k1. destruct (all_eqb k k') eqn:E2; destruct (list_eq_dec N.eq_dec k k') as [Q|Q]; try reflexivity.
      * apply keq_spec in E2. contradiction.
      * apply keq_spec in Q. congruence.
    + destruct (all_eqb k1 k') eqn:E2; [|exact IH].
      destruct (list_eq_dec N.eq_dec k k') as [Q|Q]; [|reflexivity].
      apply keq_spec in E2. subst. rewrite (proj2 (keq_spec _ _) eq_refl) in E. discriminate.
Qed.

(* ---- the key of an op, read from the frame ---- *)
Definition on_frame (f : bytes) (c : cursor) (o : rop) : Prop := c_buf c = f /\ lit_cursor canon c o.

Lemma loads_part f b e : b <= e -> e <= N.of_nat (length f) -> loads f b (N.to_nat (e - b)) = Done (firstn (N.to_nat (e - b)) (skipn (N.to_nat b) f)).
Proof.
  intros H1 H2. set (bs := firstn (N.to_nat (e - b)) (skipn (N.to_nat b) f)).
  assert (L : length bs = N.to_nat (e - b)). { unfold bs. rewrite firstn_length, skipn_length. lia. }
  rewrite <- L. rewrite <- (firstn_skipn (N.to_nat b) f) at 1. rewrite <- (firstn_skipn (N.to_nat (e - b)) (skipn (N.to_nat b) f)).
  apply loads_in. rewrite firstn_length. lia.
Qed.

Lemma short_sets f c o : on_frame f c o -> Nat.ltb (length (c_op c)) 3 = negb (sets o).
Proof.
  intros (_ & [E F]). apply F2_length in F. rewrite skipn_length in F. unfold sets.
  destruct (r_vals o); cbn [length] in F; cbn [negb].
  - apply Nat.ltb_lt. lia.
  - apply Nat.ltb_ge. lia.
Qed.

Lemma part_key fbits f c o : N.of_nat (length f) < 2 ^ 30 -> on_frame f c o -> sets o = true ->
  gc_key fbits c = match key_part f o with Some k => Done k | None => Aborted end.
Proof.
  intros B (CB & [E F]) ST. unfold gc_key, key_part, sets in *. rewrite CB.
  destruct (c_op c) as [|a0 [|a1 rest]]; cbn [length skipn] in *; destruct (r_vals o) as [|v vs]; try discriminate; try (inversion F; fail).
  inversion F as [|a v' rest' vs' H1 H2]; subst. cbn [nth_error].
  change (2 ^ 30) with 1073741824 in B.
  assert (FAR : forall x y, 1 <= x -> s_part 0 (N.of_nat (length (c_buf c))) (origin_range (x * 2 ^ 62 + y)) = Aborted).
  { intros x y X. unfold s_part, origin_range. cbn [r_hi]. replace (_ <=? _) with false; [reflexivity|]. symmetry. apply N.leb_gt.
    apply (N.lt_le_trans _ 1073741824); [exact B|]. unfold W32. apply N.div_le_lower_bound; [discriminate|].
    change (2 ^ 62) with 4611686018427387904. lia. }
  destruct a as [u|b e|cp n b e|b e], v as [u'|z|[cps|]|t]; cbn [lit_atom] in H1; try contradiction; cbn [atom_words snd].
  - subst u'. unfold s_part, origin_range, s_size, r_size, r_valid, s_begin. cbn [r_hi r_lo]. change W32 with (2 ^ 32).
    destruct (N.leb_spec (uorigin u / 2 ^ 32) (N.of_nat (length (c_buf c)))) as [Q|Q]; cbn [rbind r_hi r_lo s_range s_buf].
    + destruct (N.leb_spec (uorigin u mod 2 ^ 32) (uorigin u / 2 ^ 32)) as [Q2|Q2]; cbn [rbind andb]; [|reflexivity].
      rewrite N.add_0_l. apply loads_part; assumption.
    + rewrite Bool.andb_false_r. reflexivity.
  - rewrite FAR; [reflexivity|lia].
  - destruct (cp =? 0); cbn [snd]; [rewrite FAR; [reflexivity|lia]|].
    replace (2 * 2 ^ 62) with (2 * 2 ^ 62 + 0) by apply N.add_0_r. rewrite FAR; [reflexivity|lia].
  - rewrite FAR; [reflexivity|lia].
Qed.

(* ---- the two loops over the cursors of a frame ---- *)
Definition keyed (f : bytes) (o : rop) : Prop := sets o = true -> key_part f o <> None.

Lemma part_sets f o k : key_part f o = Some k -> sets o = true.
Proof. unfold key_part, sets. destruct (r_vals o); [discriminate|reflexivity]. Qed.

Fixpoint marks (f : bytes) (ops : list rop) (m : keymap) : keymap :=
  match ops with
  | [] => m
  | o :: r => marks f r (match key_part f o with Some k => km_put k (r_id o) m | None => m end)
  end.
Lemma marks_get f ops : forall m k found, (forall u, found = Some u -> km_get k m = u) -> (found = None -> km_get k m = NIL) ->
  km_get k (marks f ops m) = match last_write f k ops found with Some u => u | None => NIL end.
Proof.
  induction ops as [|o ops IH]; intros m k found H1 H2; cbn [marks last_write].
  - destruct found as [u|]; auto.
  - destruct (key_part f o) as [k1|]; [|apply IH; assumption].
    apply IH; intros; rewrite km_put_get; destruct (list_eq_dec N.eq_dec k1 k); auto; congruence.
Qed.

Section Loops.
Variable fbits : bytes -> N.
Variable f : bytes.
Hypothesis B : N.of_nat (length f) < 2 ^ 30.

Lemma id_at c o : on_frame f c o -> text_id c = r_id o.
Proof. intros (_ & [E _]). rewrite <- E. reflexivity. Qed.

Lemma scan_visits c l : visits valid text_next c l -> valid c = true ->
  forall ops, Forall2 (on_frame f) l ops -> Forall (keyed f) ops -> forall fuel m, (length ops <= fuel)%nat ->
  gc_scan fbits fuel c m = Done (marks f ops m).
Proof.
  induction 1 as [c V|c c' l V NX VI IH]; intros V1 ops F K fuel m L; [congruence|].
  inversion F as [|x o y ops' F1 F2]; subst. inversion K as [|? ? K1 K2]; subst. cbn [length] in L.
  destruct fuel as [|fuel]; [lia|]. cbn [gc_scan marks].
  rewrite (short_sets f c o F1), NX.
  assert (ST : (if negb (sets o) then Done m else rbind (gc_key fbits c) (fun k => Done (km_put k (text_id c) m))) =
               Done (match key_part f o with Some k => km_put k (r_id o) m | None => m end)).
  { destruct (sets o) eqn:ES; cbn [negb].
    - rewrite (part_key fbits f c o B F1 ES), (id_at c o F1). specialize (K1 ES). destruct (key_part f o); [reflexivity|contradiction].
    - destruct (key_part f o) eqn:EK; [|reflexivity]. apply part_sets in EK. congruence. }
  rewrite ST. cbn [rbind]. destruct (valid c') eqn:V'.
  - apply IH; [reflexivity|exact F2|exact K2|lia].
  - destruct VI as [c2 W|c2 c3 l2 W]; [|congruence]. inversion F2; subst. reflexivity.
Qed.

Lemma filter_visits c l : visits valid text_next c l -> valid c = true ->
  forall all ops, Forall2 (on_frame f) l ops -> Forall (keyed f) ops -> incl ops all -> forall fuel, (length ops <= fuel)%nat ->
  exists calls, gc_filter fbits fuel c (marks f all []) = Done calls /\ ucalls calls = map UAppend (map bare (filter (kept f all) ops)) /\
    (forall x, In (MAppend x) calls -> In x l).
Proof.
  induction 1 as [c V|c c' l V NX VI IH]; intros V1 all ops F K IN fuel L; [congruence|].
  inversion F as [|x o y ops' F1 F2]; subst. inversion K as [|? ? K1 K2]; subst. cbn [length] in L.
  destruct fuel as [|fuel]; [lia|]. cbn [gc_filter filter].
  rewrite (short_sets f c o F1), NX.
  assert (ST : (if negb (sets o) then Done [] else rbind (gc_key fbits c) (fun k => Done (if uuid_eqb (km_get k (marks f all [])) (text_id c) then [MAppend c] else []))) =
               Done (if kept f all o then [MAppend c] else [])).
  { unfold kept. destruct (sets o) eqn:ES; cbn [negb].
    - rewrite (part_key fbits f c o B F1 ES), (id_at c o F1). specialize (K1 ES). destruct (key_part f o) as [k|] eqn:EK; [|contradiction].
      cbn [rbind]. rewrite (marks_get f all [] k None ltac:(discriminate) ltac:(reflexivity)).
      assert (SOME : last_write f k all None <> None).
      { assert (I : In o all) by (apply IN; left; reflexivity). clear -I EK.
        assert (KEEP : forall l u, exists w, last_write f k l (Some u) = Some w).
        { induction l as [|o1 l IHl]; intro u; cbn [last_write]; [eauto|]. destruct (key_part f o1); [destruct (list_eq_dec N.eq_dec _ _)|]; apply IHl. }
        assert (G : forall l found, In o l -> last_write f k l found <> None).
        { induction l as [|o1 l IHl]; intros found J; [contradiction|]. cbn [last_write]. destruct J as [-> | J]; [|apply IHl; exact J].
          rewrite EK. destruct (list_eq_dec N.eq_dec k k); [|contradiction]. destruct (KEEP l (r_id o)) as [w W]. congruence. }
        apply G. exact I. }
      destruct (last_write f k all None) as [u|]; [reflexivity|contradiction].
    - destruct (key_part f o) eqn:EK; [|reflexivity]. apply part_sets in EK. congruence. }
  rewrite ST. cbn [rbind]. destruct (valid c') eqn:V'.
  - destruct (IH eq_refl all ops' F2 K2 (fun z I => IN z (or_intror I)) fuel ltac:(lia)) as (calls & E & U & I).
    rewrite E. cbn [rbind]. eexists. split; [reflexivity|]. assert (EO : rop_of c = o) by apply F1. split.
    + unfold ucalls in *. rewrite map_app, U. destruct (kept f all o); cbn [map app]; [rewrite EO|]; reflexivity.
    + intros x J. apply in_app_or in J as [J|J]; [|right; apply I, J]. destruct (kept f all o); [|contradiction]. destruct J as [J|[]]. injection J as ->. left. reflexivity.
  - destruct VI as [c2 W|c2 c3 l2 W]; [|congruence]. inversion F2; subst. eexists. split; [reflexivity|]. assert (EO : rop_of c = o) by apply F1. split.
    + cbn [filter map]. destruct (kept f all o); cbn; [rewrite EO|]; reflexivity.
    + intros x J. destruct (kept f all o); [|contradiction]. destruct J as [J|[]]. injection J as ->. left. reflexivity.
Qed.

(* some op has a key outside of the frame *)
Lemma scan_caught c l : visits valid text_next c l -> valid c = true ->
  forall ops, Forall2 (on_frame f) l ops -> (exists o, In o ops /\ ~ keyed f o) -> forall fuel m, (length ops <= fuel)%nat ->
  gc_scan fbits fuel c m = Aborted.
Proof.
  induction 1 as [c V|c c' l V NX VI IH]; intros V1 ops F K fuel m L; [congruence|].
  inversion F as [|x o y ops' F1 F2]; subst. cbn [length] in L.
  destruct fuel as [|fuel]; [lia|]. cbn [gc_scan]. rewrite (short_sets f c o F1), NX.
  assert (GO : (exists o1, In o1 ops' /\ ~ keyed f o1) -> forall m', (if valid c' then gc_scan fbits fuel c' m' else Done m') = Aborted).
  { intros (o1 & I & K1) m'. destruct (valid c') eqn:V'; [apply (IH eq_refl ops' F2); [eauto|lia]|].
    destruct VI as [c2 W|c2 c3 l2 W]; [|congruence]. inversion F2; subst. contradiction. }
  destruct (sets o) eqn:ES; cbn [negb].
  - rewrite (part_key fbits f c o B F1 ES). destruct (key_part f o) as [k|] eqn:EK; [|reflexivity]. cbn [rbind]. refine (GO _ _).
    destruct K as (o1 & [-> | I] & K1); [|eauto]. exfalso. apply K1. intros _. congruence.
  - cbn [rbind]. refine (GO _ _). destruct K as (o1 & [-> | I] & K1); [|eauto]. exfalso. apply K1. intro Z. congruence.
Qed.
End Loops.

(* ---- the cursors of a frame ---- *)
Lemma next_buf c b c' : text_next c = Some (b, c') -> c_buf c' = c_buf c.
Proof.
  unfold text_next, next. intro H. repeat match type of H with
  | context [if ?x then _ else _] => destruct x
  | context [match run ?a ?b ?d ?e ?g ?h with _ => _ end] => destruct (run a b d e g h) as [[[? ?] ?]|]
  end; try discriminate; injection H as <- <-; reflexivity.
Qed.
Lemma visits_buf c l : visits valid text_next c l -> Forall (fun x => c_buf x = c_buf c) l.
Proof.
  induction 1 as [c V|c c' l V NX VI IH]; constructor; [reflexivity|]. rewrite <- (next_buf _ _ _ NX). exact IH.
Qed.
