(* The parser delivers the ops the frame's text denotes. *)
From Verif Require Import Prelude UuidModel UuidSpec UuidProofs CodecModel CodecSpec CodecProofs StringProofs
  TextTable TextModel TextSpec TextSafety TextTokens TokenValues TokenStrings.

Set Default Proof Using "Type".
Section FrameProofs.
Context {CW : bytes -> N -> Prop}.
Local Notation chars_lit := (chars_lit CW).
Local Notation value_lit := (value_lit CW).
Local Notation values_lit := (values_lit CW).
Local Notation span_lit := (span_lit CW).
Local Notation op_lit := (op_lit CW).
Local Notation ops_lit := (ops_lit CW).
Local Notation frame_lit := (frame_lit CW).
Local Notation op_marked := (op_marked CW).
Local Notation ops_marked := (ops_marked CW).
Local Notation frame_marked := (frame_marked CW).

Lemma int_fits_ok t v : int_literal t v -> (int_fits t <-> int_too_big t = false).
Proof. clear CW.
  intros [s Hn F|s Hn F|s Hn F].
  - rewrite int_too_big_unsigned by assumption. destruct s as [|c s]; [contradiction|]. cbn [int_fits].
    inversion F as [|c' s' F1 F2]; subst. unfold is_dec in F1. replace ((c =? 43) || (c =? 45)) with false by lia. tauto.
  - rewrite int_too_big_signed by auto. cbn [int_fits]. tauto.
  - rewrite int_too_big_signed by auto. cbn [int_fits]. tauto.
Qed.

Lemma chars_lit_uni cs : chars_lit cs -> ~ is_uni (last (map fst cs) []).
Proof.
  intros [F [L _]]. destruct cs as [|c0 cs0]; [intros []|]. destruct (exists_last (l := c0 :: cs0) ltac:(discriminate)) as (r & [bs cp] & E). rewrite E in *. clear E.
  rewrite map_app. cbn [map fst]. rewrite last_last.
  apply Forall_app in F as [_ F]. inversion F as [|x y F1 F2]; subst. cbn [fst snd] in F1.
  specialize (L bs cp r eq_refl). intro U. destruct F1 as [bs cp C P|c cp H|a b c d va vb vc vd Ha Hb Hc Hd].
  - destruct C; cbn [is_uni] in U.
    + destruct a as [|[p|p|]]; try tauto. repeat (destruct p; try tauto).
    + remember (192 + a) as x. destruct x as [|x]; [tauto|]. assert (N.pos x <> 92) by lia. clear Heqx.
      repeat (destruct x as [x|x|]; try tauto); try congruence.
    + remember (224 + a) as x. destruct x as [|x]; [tauto|]. assert (N.pos x <> 92) by lia. clear Heqx.
      repeat (destruct x as [x|x|]; try tauto); try congruence.
    + remember (240 + a) as x. destruct x as [|x]; [tauto|]. assert (N.pos x <> 92) by lia. clear Heqx.
      repeat (destruct x as [x|x|]; try tauto); try congruence.
  - cbn [In] in H. repeat destruct H as [H|H]; try contradiction; inversion H; subst; exact U.
  - apply L. reflexivity.
Qed.

Lemma run_step buf pe st l p c t acts tgt l1 :
  look (text_row st) c = Some (acts, tgt) -> exec_all buf pe acts c p l = ECont l1 ->
  run buf pe st l p (c :: t) = run buf pe tgt l1 (p + 1) t.
Proof. intros H1 H2. cbn [run]. rewrite H1, H2. reflexivity. Qed.

Lemma esc_text_length cs : esc_text cs -> (length cs <= length (concat (map fst cs)))%nat.
Proof. clear CW.
  induction 1 as [|[bs cp] cs C F IH]; [cbn; lia|]. cbn [fst snd] in C. cbn [map fst concat length]. rewrite app_length.
  destruct (esc_char_start bs cp [] C) as [_ N]. destruct bs; [contradiction|]. cbn [length]. lia.
Qed.

Lemma skipn_length_le {A} n (l x : list A) : skipn n l = x -> (length x <= length l)%nat.
Proof. intros <-. rewrite skipn_length. lia. Qed.

Lemma skipn_cons_next (buf : bytes) p c r : skipn (N.to_nat p) buf = c :: r -> skipn (N.to_nat (p + 1)) buf = r.
Proof. intro H. exact (skipn_text buf p [c] r H). Qed.

(* a value atom, not a position inside an unwound span *)
Definition at_start (a : atom) : Prop := match a with AStr cp _ _ _ => cp = 0 | _ => True end.

(* the text an atom was read from denotes its value; a character taken from a
   span is held in the atom itself *)
Definition lit_atom (buf : bytes) (a : atom) (v : value) : Prop :=
  match a, v with
  | AUuid u, VUuid u' => u = u'
  | AInt b e, VInt _ => value_lit (sub buf b e) v
  | AFloat b e, VFloat _ => value_lit (sub buf b e) v
  | AStr cp n b e, VStr (Some cps) =>
      if cp =? 0
      then exists cs, chars_lit cs /\ sub buf b e = chars_text cs /\ cps = chars_cps cs /\ n = N.of_nat (length cs)
      else cps = [cp]
  | _, _ => False
  end.
Definition parsed (buf : bytes) (a : atom) (v : value) : Prop := value_of buf a = v /\ lit_atom buf a v.
Lemma parsed_values buf atoms vs : Forall2 (parsed buf) atoms vs -> map (value_of buf) atoms = vs.
Proof. induction 1 as [|a v atoms vs [H _] F IH]; [reflexivity|]. cbn [map]. rewrite H, IH. reflexivity. Qed.

Lemma value_token buf pe st l p t v d rest :
  In st [4; 63; 74] -> N.of_nat (length buf) < two32 -> skipn (N.to_nat p) buf = t ++ d :: rest ->
  value_lit t v -> is_delim d = true ->
  exists l2 a, same l l2 /\ l_op l2 = l_op l ++ [a] /\ parsed buf a v /\ at_start a /\
    run buf pe st l p (t ++ d :: rest) = run buf pe 4 l2 (p + N.of_nat (length t)) (d :: rest).
Proof.
  intros I HB HS HV HD. destruct HV as [t u HL NN NF|t u HL|t v HL HF|t HL HN|cs HC].
  - destruct (bare_token buf pe st l p t u d rest I HS HL NN NF HD) as (l2 & S & O & R).
    exists l2, (AUuid u). split; [exact S|]. split; [exact O|]. split; [split; reflexivity|]. split; [exact Logic.I|exact R].
  - assert (L : look (text_row st) 62 = Some ([], 28)) by (destruct I as [<-|[<-|[<-|[]]]]; reflexivity).
    destruct (quoted_token buf pe l (p + 1) t u d rest (skipn_cons_next buf p 62 _ HS) HL HD) as (l2 & S & O & R).
    exists l2, (AUuid u). split; [exact S|]. split; [exact O|]. split; [split; reflexivity|]. split; [exact Logic.I|].
    cbn [app]. rewrite (run_step _ _ _ _ _ _ _ _ _ _ L eq_refl). rewrite R. f_equal. cbn [length]. lia.
  - pose proof (vl_int (P := CW) t v HL HF) as HV. apply (int_fits_ok t v HL) in HF.
    destruct (int_token buf pe st l p t v d rest I HS HL HF HD) as (l2 & S & O & R).
    exists l2, (AInt p (p + N.of_nat (length t))). split; [exact S|]. split; [exact O|].
    split; [|split; [exact Logic.I|exact R]]. split; cbn [value_of lit_atom]; rewrite (sub_text _ _ _ _ HS); [|exact HV]. f_equal.
    apply (int_accept_sound t v HL HF).
  - destruct (float_token buf pe st l p t d rest I HL HN HD) as (l2 & S & O & R).
    exists l2, (AFloat p (p + N.of_nat (length t))). split; [exact S|]. split; [exact O|].
    split; [|split; [exact Logic.I|exact R]]. split; cbn [value_of lit_atom]; rewrite (sub_text _ _ _ _ HS); [reflexivity|].
    apply vl_float; assumption.
  - unfold chars_text, chars_cps in *.
    assert (HE : esc_text cs) by apply HC.
    assert (B : N.of_nat (length cs) < two32).
    { pose proof (esc_text_length cs HE). apply skipn_length_le in HS. rewrite !app_length in HS. cbn [length] in HS.
      rewrite !app_length in HS. lia. }
    destruct (string_token buf pe st l p cs d rest I HE B HD) as (l2 & S & O & R).
    eexists l2, _. split; [exact S|]. split; [exact O|].
    split; [|split; [reflexivity|exact R]].
    assert (SB : sub buf (p + 1) (p + 1 + N.of_nat (length (concat (map fst cs)))) = concat (map fst cs)).
    { apply (sub_text buf (p + 1) (concat (map fst cs)) (39 :: d :: rest)).
      apply (skipn_cons_next buf p 39). rewrite HS. cbn [app]. rewrite <- app_assoc. reflexivity. }
    split; cbn [value_of lit_atom]; change (0 =? 0) with true; cbn iota; rewrite SB.
    + rewrite Nnat.Nat2N.id. rewrite (read_codepoints_esc cs HE (chars_lit_uni cs HC)). reflexivity.
    + exists cs. split; [exact HC|]. split; [reflexivity|]. split; reflexivity.
Qed.

Lemma ws_delim c : ws_char c -> is_delim c = true.
Proof. unfold ws_char. intros [->|[->|[->| ->]]]; reflexivity. Qed.

Lemma blank_run buf pe st l p w : In st [4; 63; 74; 5; 9; 10] -> blank w -> runs buf pe st l p w = Some (st, l).
Proof.
  intros I W. revert p. induction W as [|c w Hc W IH]; intro p; [reflexivity|].
  erewrite runs_cons with (acts := [a_newline]) (tgt := st); [apply IH| |reflexivity].
  destruct Hc as [->|[->|[->| ->]]]; cbn [In] in I; repeat destruct I as [<-|I]; try contradiction; reflexivity.
Qed.

(* a text that begins with a delimiter *)
Definition delimited (s : bytes) : Prop := exists d r, s = d :: r /\ is_delim d = true.
Lemma blank_delimited w s : blank w -> delimited s -> delimited (w ++ s).
Proof.
  intros W (d & r & -> & D). destruct W as [|c w Hc W]; [exists d, r; split; [reflexivity|exact D]|].
  eexists c, _. split; [reflexivity|apply ws_delim; exact Hc].
Qed.
Lemma values_delimited s vs r : values_lit false s vs -> delimited r -> delimited (s ++ r).
Proof.
  intros H D. inversion H as [|f w t v r' vs' W N V VS]; subst; [exact D|].
  destruct W as [|c w Hc W]; [specialize (N eq_refl); contradiction|].
  eexists c, _. split; [reflexivity|apply ws_delim; exact Hc].
Qed.

Lemma values_run buf pe f s vs : values_lit f s vs -> N.of_nat (length buf) < two32 ->
  forall st l p tail, In st [4; 63; 74] -> skipn (N.to_nat p) buf = s ++ tail -> delimited tail ->
  exists st' l2 atoms, In st' [4; 63; 74] /\ same l l2 /\ l_op l2 = l_op l ++ atoms /\ Forall2 (parsed buf) atoms vs /\
    Forall at_start atoms /\
    run buf pe st l p (s ++ tail) = run buf pe st' l2 (p + N.of_nat (length s)) tail.
Proof.
  intros H HB. induction H as [f|f w t v r vs W N V VS IH]; intros st l p tail I HS D.
  - exists st, l, []. split; [exact I|]. split; [apply same_refl|]. split; [symmetry; apply app_nil_r|].
    split; [constructor|]. split; [constructor|]. cbn [app length]. rewrite N.add_0_r. reflexivity.
  - rewrite <- !app_assoc in HS.
    assert (I' : In st [4; 63; 74; 5; 9; 10]) by (cbn in I |- *; tauto).
    pose proof (skipn_text _ _ _ _ HS) as HS1.
    destruct (values_delimited r vs tail VS D) as (d & rest & E & DD).
    rewrite E in HS1.
    destruct (value_token buf pe st l (p + N.of_nat (length w)) t v d rest I HB HS1 V DD) as (l2 & a & S2 & O2 & V2 & A2 & R2).
    rewrite <- E in HS1, R2. pose proof (skipn_text _ _ _ _ HS1) as HS2.
    destruct (IH 4 l2 (p + N.of_nat (length w) + N.of_nat (length t)) tail (or_introl eq_refl) HS2 D)
      as (st' & l3 & atoms & I3 & S3 & O3 & V3 & A3 & R3).
    exists st', l3, (a :: atoms). split; [exact I3|]. split; [exact (same_trans _ _ _ S2 S3)|].
    split; [rewrite O3, O2, <- app_assoc; reflexivity|]. split; [constructor; assumption|].
    split; [constructor; assumption|].
    rewrite <- !app_assoc. rewrite (run_runs _ _ _ _ _ _ _ _ _ (blank_run buf pe st l p w I' W)).
    rewrite R2, R3. f_equal. rewrite !app_length. lia.
Qed.

Lemma spec_run buf pe prev sp id ref l p tail :
  spec_lit prev sp id ref -> skipn (N.to_nat p) buf = sp ++ tail -> delimited tail \/ sp = [] ->
  (exists x y, l_op l = [x; y]) -> l_op l = [AUuid (inc prev); AUuid prev] ->
  exists st' l2, In st' [4; 63; 74] /\ (sp = [] -> st' = 74) /\ same l l2 /\ l_op l2 = [AUuid id; AUuid ref] /\
    run buf pe 74 l p (sp ++ tail) = run buf pe st' l2 (p + N.of_nat (length sp)) tail.
Proof. clear CW.
  intros H HS D _ O. destruct H as [|t id HL|t id w s ref HL W NW HR].
  - exists 74, l. split; [cbn; tauto|]. split; [reflexivity|]. split; [apply same_refl|]. split; [exact O|].
    cbn [app length]. rewrite N.add_0_r. reflexivity.
  - destruct D as [(d & rest & -> & D)|D]; [|discriminate].
    cbn [app] in HS. destruct (id_token buf pe l (p + 1) t id d rest (skipn_cons_next _ _ _ _ HS) HL D) as (l2 & S & O2 & R).
    exists 63, l2. split; [cbn; tauto|]. split; [discriminate|]. split; [exact S|]. split; [rewrite O2, O; reflexivity|].
    cbn [app]. rewrite (run_step buf pe 74 l p 64 _ [] 61 l eq_refl eq_refl). rewrite R.
    f_equal. cbn [length]. lia.
  - destruct D as [(d & rest & -> & D)|D]; [|discriminate].
    destruct W as [|c w Hc W]; [contradiction|].
    cbn [app] in HS. pose proof (skipn_cons_next _ _ _ _ HS) as HS1.
    assert (E : (t ++ c :: w ++ 58 :: s) ++ d :: rest = t ++ c :: (w ++ 58 :: s ++ d :: rest)).
    { rewrite <- !app_assoc. cbn [app]. rewrite <- app_assoc. reflexivity. }
    rewrite E in HS1.
    destruct (id_token buf pe l (p + 1) t id c _ HS1 HL (ws_delim c Hc)) as (l2 & S & O2 & R).
    pose proof (skipn_text _ _ _ _ HS1) as HS2.
    change (c :: (w ++ 58 :: s ++ d :: rest)) with ((c :: w) ++ 58 :: s ++ d :: rest) in HS2.
    pose proof (skipn_text _ _ _ _ HS2) as HS3. apply skipn_cons_next in HS3.
    destruct (ref_token buf pe l2 _ s ref d rest HS3 HR D) as (l3 & S3 & O3 & R3).
    exists 4, l3. split; [cbn; tauto|]. split; [discriminate|]. split; [exact (same_trans _ _ _ S S3)|].
    split; [rewrite O3, O2, O; reflexivity|].
    cbn [app]. rewrite (run_step buf pe 74 l p 64 _ [] 61 l eq_refl eq_refl). rewrite E, R. change (c :: (w ++ 58 :: s ++ d :: rest)) with ((c :: w) ++ 58 :: s ++ d :: rest).
    assert (I' : In 63 [4; 63; 74; 5; 9; 10]) by (cbn; tauto).
    rewrite (run_runs _ _ _ _ _ _ _ _ _ (blank_run buf pe 63 l2 _ (c :: w) I' ltac:(constructor; assumption))).
    rewrite (run_step buf pe 63 l2 _ 58 _ [] 64 l2 eq_refl eq_refl). rewrite R3.
    f_equal. cbn [length app]. rewrite !app_length. cbn [length]. rewrite !app_length. cbn [length]. lia.
Qed.

(* ---- spans and terminators ---- *)

Definition set_term (l : loc) (c : N) : loc :=
  mkLoc (l_int l) (l_float l) (l_str l) (l_word l) (l_uuid l) (l_val l) (l_org l)
        (l_var l) (l_vsn l) (l_cpn l) (l_span l) c (l_op l).
Definition set_span (l : loc) (n : N) : loc :=
  mkLoc (l_int l) (l_float l) (l_str l) (l_word l) (l_uuid l) (l_val l) (l_org l)
        (l_var l) (l_vsn l) (l_cpn l) n (l_term l) (l_op l).

Lemma term_run buf pe st l p tc t rest : pe = N.of_nat (length buf) -> In st [4; 63; 74; 10] -> term_lit tc t ->
  skipn (N.to_nat p) buf = tc :: rest ->
  run buf pe st l p (tc :: rest) = Some (74, set_term l tc, p + 1).
Proof. clear CW.
  intros -> I T HS.
  assert (L : look (text_row st) tc = Some ([a_op_term], 74)).
  { cbn [In] in I. destruct T; repeat destruct I as [<-|I]; try contradiction; reflexivity. }
  cbn [run]. rewrite L. cbn [exec_all exec].
  destruct (p + 1 <? N.of_nat (length buf)) eqn:E; [reflexivity|].
  assert (R : rest = []).
  { assert (length (skipn (N.to_nat p) buf) = S (length rest)) by (rewrite HS; reflexivity).
    rewrite skipn_length in H. destruct rest; [reflexivity|]. cbn [length] in H. lia. }
  subst rest. reflexivity.
Qed.

Lemma span_digits buf pe ds : Forall is_dec ds -> forall l p, l_span l < two32 ->
  fold_left (fun a c => a * 10 + (c - 48)) ds (l_span l) < two32 ->
  runs buf pe 20 l p ds = Some (20, set_span l (fold_left (fun a c => a * 10 + (c - 48)) ds (l_span l))).
Proof. clear CW.
  induction 1 as [|c ds Hc F IH]; intros l p B0 B; [destruct l; reflexivity|].
  cbn [fold_left] in *.
  assert (G : forall ds' a, a <= fold_left (fun a c => a * 10 + (c - 48)) ds' a).
  { induction ds' as [|c' ds' IH']; intro a; [cbn; lia|]. cbn [fold_left].
    eapply N.le_trans; [|apply IH']. lia. }
  assert (B1 : l_span l * 10 + (c - 48) < two32) by (eapply N.le_lt_trans; [apply (G ds)|exact B]).
  assert (L : look (text_row 20) c = Some ([a_span_size_digit], 20)).
  { unfold is_dec in Hc. apply (for_class_goes [20] is_decimal [a_span_size_digit] 20); [vm_compute; reflexivity|one| |lia].
    unfold is_decimal. lia. }
  erewrite runs_cons; [|exact L|reflexivity]. rewrite (N.mod_small _ two32) by exact B1.
  change (mkLoc (l_int l) (l_float l) (l_str l) (l_word l) (l_uuid l) (l_val l) (l_org l)
        (l_var l) (l_vsn l) (l_cpn l) (l_span l * 10 + (c - 48)) (l_term l) (l_op l)) with (set_span l (l_span l * 10 + (c - 48))).
  rewrite IH; [reflexivity|exact B1|exact B].
Qed.

Lemma first_digit buf pe ds l p : Forall is_dec ds -> ds <> [] -> l_span l = 0 -> dec_value ds < two32 ->
  runs buf pe 5 l p ds = Some (20, set_span l (dec_value ds)).
Proof. clear CW.
  intros F N Z B. destruct ds as [|c ds]; [contradiction|]. inversion F as [|c' ds' F1 F2]; subst.
  assert (L : look (text_row 5) c = Some ([a_span_size_digit], 20)).
  { unfold is_dec in F1. apply (for_class_goes [5] is_decimal [a_span_size_digit] 20); [vm_compute; reflexivity|one| |lia].
    unfold is_decimal. lia. }
  erewrite runs_cons; [|exact L|reflexivity]. unfold dec_value in *. cbn [fold_left] in *. rewrite Z.
  assert (E : (0 * 10 + (c - 48)) mod two32 = 0 * 10 + (c - 48)).
  { apply N.mod_small. unfold is_dec in F1. change two32 with 4294967296. lia. }
  rewrite E.
  change (mkLoc (l_int l) (l_float l) (l_str l) (l_word l) (l_uuid l) (l_val l) (l_org l)
        (l_var l) (l_vsn l) (l_cpn l) (0 * 10 + (c - 48)) (l_term l) (l_op l)) with (set_span l (0 * 10 + (c - 48))).
  rewrite (span_digits buf pe ds F2 (set_span l (0 * 10 + (c - 48)))); [reflexivity| |exact B].
  cbn [set_span l_span]. unfold is_dec in F1. change two32 with 4294967296. lia.
Qed.

Lemma close_span buf pe st A l l1 p w : In (st, A) [(20, a_end_span_size); (8, a_end_spread)] ->
  (forall c p, exec buf pe A c p l = ECont l1) -> blank w ->
  runs buf pe st l p (w ++ [41]) = Some (10, l1).
Proof. clear CW.
  intros I E W. destruct W as [|c w Hc W].
  - cbn [app]. erewrite runs_cons with (acts := [A]) (tgt := 10) (l1 := l1); [reflexivity| |].
    + cbn [In] in I. repeat destruct I as [[= <- <-]|I]; try contradiction; reflexivity.
    + cbn [exec_all]. rewrite E. reflexivity.
  - cbn [app]. erewrite runs_cons with (acts := [A; a_newline]) (tgt := 9) (l1 := l1).
    + rewrite (runs_app _ _ _ _ _ _ _ _ _ (blank_run buf pe 9 l1 _ w ltac:(cbn; tauto) W)). reflexivity.
    + cbn [In] in I. destruct Hc as [->|[->|[->| ->]]]; repeat destruct I as [[= <- <-]|I]; try contradiction; reflexivity.
    + cbn [exec_all]. rewrite E. reflexivity.
Qed.

(* what later calls of Next make of the values of a span *)
Definition step_atoms (buf : bytes) (op : list atom) : list atom :=
  match last_atom op with
  | Some (AStr cp n b e) => if cp =? 0 then op else set_last op (next_cp buf (AStr cp n b e))
  | _ => op
  end.
(* the atoms of an op inside a span of characters, of another op *)
Definition marked (m : bool) (atoms : list atom) : Prop :=
  if m then exists r cp n b e, atoms = r ++ [AStr cp n b e] /\ cp <> 0 else Forall at_start atoms.
Fixpoint unwinds (m : bool) (buf : bytes) (atoms : list atom) (vss : list (list value)) : Prop :=
  match vss with
  | [] => False
  | vs :: r => Forall2 (parsed buf) atoms vs /\ marked m atoms /\ (r <> [] -> unwinds m buf (step_atoms buf atoms) r)
  end.

Lemma step_start buf atoms : Forall at_start atoms -> step_atoms buf atoms = atoms.
Proof.
  intro F. unfold step_atoms. destruct (last_atom atoms) as [a|] eqn:E; [|reflexivity].
  destruct a as [u|b e|cp n b e|b e]; try reflexivity.
  apply last_atom_some in E as (r & E). subst atoms. apply Forall_app in F as [_ F]. inversion F as [|x y F1 F2]; subst.
  cbn in F1. subst cp. reflexivity.
Qed.

Lemma unwinds_const buf atoms vs n : Forall at_start atoms -> Forall2 (parsed buf) atoms vs ->
  unwinds false buf atoms (repeat vs (S n)).
Proof.
  intros F E. induction n as [|n IH]; cbn [repeat unwinds]; (split; [exact E|split; [exact F|]]); [congruence|].
  intros _. rewrite step_start by exact F. exact IH.
Qed.

Lemma unwinds_chars buf atoms vs cs : Forall2 (parsed buf) atoms vs -> forall cp b e,
  esc_text cs -> ~ is_uni (last (map fst cs) []) -> ~ In 0 (cp :: map snd cs) ->
  sub buf b e = concat (map fst cs) ->
  unwinds true buf (atoms ++ [AStr cp (N.of_nat (length cs)) b e]) (map (fun c => vs ++ [VStr (Some [c])]) (cp :: map snd cs)).
Proof.
  intros EV. induction cs as [|[bs cp'] cs IH]; intros cp b e T U Z S.
  - cbn [map unwinds]. split; [|split; [|congruence]].
    { apply Forall2_app; [exact EV|]. constructor; [|constructor]. unfold parsed. cbn [value_of lit_atom].
      replace (cp =? 0) with false; [split; reflexivity|]. cbn [In] in Z. lia. }
    do 5 eexists. split; [reflexivity|]. cbn [In] in Z. lia.
  - assert (C0 : cp =? 0 = false) by (cbn [In] in Z; lia).
    cbn [map unwinds]. split; [|split].
    { apply Forall2_app; [exact EV|]. constructor; [|constructor]. unfold parsed. cbn [value_of lit_atom]. rewrite C0. split; reflexivity. }
    { do 5 eexists. split; [reflexivity|]. lia. }
    intros _. inversion T as [|x y T1 T2]; subst. cbn [fst snd] in T1.
    unfold step_atoms. rewrite last_atom_snoc, C0, set_last_snoc. cbn [next_cp]. rewrite S.
    cbn [map fst concat length]. unfold next_codepoint.
    replace (N.of_nat (Datatypes.S (length cs)) =? 0) with false by lia.
    rewrite (cp_run_esc bs cp').
    + replace (N.of_nat (Datatypes.S (length cs)) - 1) with (N.of_nat (length cs)) by lia.
      change (map (fun c => vs ++ [VStr (Some [c])]) (map snd ((bs, cp') :: cs)))
        with (map (fun c => vs ++ [VStr (Some [c])]) (cp' :: map snd cs)).
      apply IH; [exact T2| | |].
      * destruct cs; [intros []|exact U].
      * intro K. apply Z. right. exact K.
      * cbn [map fst concat] in S. unfold sub in *.
        replace (N.to_nat (b + N.of_nat (length bs))) with (length bs + N.to_nat b)%nat by lia.
        rewrite <- skipn_skipn. rewrite <- (firstn_skipn (N.to_nat (e - b)) (skipn (N.to_nat b) buf)), S.
        rewrite <- app_assoc, skipn_app, skipn_all, Nat.sub_diag. cbn [app skipn].
        assert (LL : (length bs + length (concat (map fst cs)) <= N.to_nat (e - b))%nat).
        { rewrite <- app_length, <- S. rewrite firstn_length. lia. }
        destruct (Nat.le_gt_cases (N.to_nat (e - b)) (length (skipn (N.to_nat b) buf))) as [LE|GT].
        -- assert (LQ : (length bs + length (concat (map fst cs)) = N.to_nat (e - b))%nat).
           { rewrite <- app_length, <- S. rewrite firstn_length. lia. }
           replace (N.to_nat (e - (b + N.of_nat (length bs)))) with (length (concat (map fst cs))) by lia.
           rewrite firstn_app, Nat.sub_diag, firstn_all. cbn [firstn]. apply app_nil_r.
        -- rewrite (skipn_all2 (skipn (N.to_nat b) buf)) by lia. rewrite app_nil_r.
           apply firstn_all2. lia.
    + exact T1.
    + destruct cs as [|[bs2 cp2] cs]; [cbn; exact Logic.I|]. cbn [map fst concat].
      inversion T2 as [|x y T3 T4]; subst. apply (esc_char_start bs2 cp2 _ T3).
    + intros V. destruct cs as [|[bs2 cp2] cs]; [exfalso; apply U; exact V|]. cbn [map fst concat].
      inversion T2 as [|x y T3 T4]; subst. destruct (esc_char_start bs2 cp2 [] T3) as [_ NE].
      destruct bs2; [contradiction|discriminate].
Qed.

Lemma count_spread v1 ds v2 : blank v1 -> blank v2 -> Forall is_dec ds -> spread (40 :: v1 ++ ds ++ v2 ++ [41]) = false.
Proof. clear CW.
  intros B1 B2 D. assert (W : forall w, blank w -> existsb (N.eqb 39) w = false).
  { induction 1 as [|c w K F IH]; [reflexivity|]. cbn [existsb]. rewrite IH, orb_false_r. unfold ws_char in K. lia. }
  unfold spread. cbn [existsb]. rewrite !existsb_app, (W _ B1), (W _ B2). replace (existsb (N.eqb 39) ds) with false; [reflexivity|].
  symmetry. induction D as [|c w K F IH]; [reflexivity|]. cbn [existsb]. rewrite IH, orb_false_r. unfold is_dec in K. lia.
Qed.
Lemma chars_spread v1 r : spread (40 :: v1 ++ 39 :: r) = true.
Proof. clear CW. unfold spread. cbn [existsb]. rewrite existsb_app. cbn [existsb]. change (39 =? 39) with true. cbn [orb]. rewrite orb_true_r. apply orb_true_r. Qed.

(* from the end of the values to the terminator *)
Lemma tail_run buf st l p atoms pre vs w1 sp vss w2 tc t rest :
  In st [4; 63; 74] -> N.of_nat (length buf) < two32 ->
  skipn (N.to_nat p) buf = (w1 ++ sp ++ w2 ++ [tc]) ++ rest ->
  l_span l = 0 -> l_op l = pre ++ atoms -> Forall2 (parsed buf) atoms vs -> Forall at_start atoms ->
  blank w1 -> span_lit vs sp vss -> blank w2 -> term_lit tc t ->
  exists l2 atoms', run buf (N.of_nat (length buf)) st l p ((w1 ++ sp ++ w2 ++ [tc]) ++ rest) =
      Some (74, l2, p + N.of_nat (length (w1 ++ sp ++ w2 ++ [tc]))) /\
    l_term l2 = tc /\ l_span l2 + 1 = N.of_nat (length vss) /\ l_op l2 = pre ++ atoms' /\ unwinds (spread sp) buf atoms' vss.
Proof.
  intros I HB HS HZ HO HV HA W1 SP W2 T. set (pe := N.of_nat (length buf)) in *.
  assert (I' : In st [4; 63; 74; 5; 9; 10]) by (cbn in I |- *; tauto).
  rewrite <- !app_assoc in HS. pose proof (skipn_text _ _ _ _ HS) as HS1.
  rewrite <- !app_assoc. rewrite (run_runs _ _ _ _ _ _ _ _ _ (blank_run buf pe st l p w1 I' W1)).
  set (p1 := p + N.of_nat (length w1)) in *.
  destruct SP as [|v1 ds v2 V1 V2 ND FD D1 D2|v1 cs v2 V1 V2 HC NC ZC].
  - cbn [app] in *. pose proof (skipn_text _ _ _ _ HS1) as HS2.
    rewrite (run_runs _ _ _ _ _ _ _ _ _ (blank_run buf pe st l p1 w2 I' W2)).
    rewrite (term_run buf pe st l _ tc t rest eq_refl ltac:(cbn in I |- *; tauto) T HS2).
    exists (set_term l tc), atoms. split; [apply (f_equal Some); apply f_equal2; [reflexivity|]; unfold p1; rewrite !app_length; cbn [length]; lia|].
    split; [reflexivity|]. cbn [set_term l_span l_op length]. split; [lia|]. split; [exact HO|].
    apply (unwinds_const buf atoms vs 0 HA HV).
  - set (n := dec_value ds) in *.
    assert (Q : runs buf pe st l p1 (40 :: v1 ++ ds ++ v2 ++ [41]) = Some (10, set_span l (n - 1))).
    { assert (L : look (text_row st) 40 = Some ([], 5)) by (destruct I as [<-|[<-|[<-|[]]]]; reflexivity).
      erewrite runs_cons; [|exact L|reflexivity].
      rewrite (runs_app _ _ _ _ _ _ _ _ _ (blank_run buf pe 5 l _ v1 ltac:(cbn; tauto) V1)).
      rewrite (runs_app _ _ _ _ _ _ _ _ _ (first_digit buf pe ds l _ FD ND HZ D2)).
      rewrite (close_span buf pe 20 a_end_span_size _ (set_span l (n - 1)) _ v2 ltac:(cbn; tauto)); [reflexivity| |exact V2].
      intros c q. cbn [exec set_span l_span l_int l_float l_str l_word l_uuid l_val l_org l_var l_vsn l_cpn l_term l_op].
      assert (E : (dec_value ds + (two32 - 1)) mod two32 = n - 1).
      { fold n. unfold two32 in *. change (2 ^ 32) with 4294967296 in *.
        replace (n + (4294967296 - 1)) with (n - 1 + 1 * 4294967296) by lia. rewrite N.mod_add by lia. apply N.mod_small. lia. }
      rewrite E. reflexivity. }
    pose proof (skipn_text _ _ _ _ HS1) as HS2. pose proof (skipn_text _ _ _ _ HS2) as HS3.
    change ((40 :: v1 ++ ds ++ v2 ++ [41]) ++ w2 ++ [tc] ++ rest) with ((40 :: v1 ++ ds ++ v2 ++ [41]) ++ (w2 ++ [tc] ++ rest)).
    rewrite (run_runs _ _ _ _ _ _ _ _ _ Q).
    rewrite (run_runs _ _ _ _ _ _ _ _ _ (blank_run buf pe 10 _ _ w2 ltac:(cbn; tauto) W2)).
    cbn [app] in HS3 |- *. rewrite (term_run buf pe 10 _ _ tc t rest eq_refl ltac:(cbn; tauto) T HS3).
    exists (set_term (set_span l (n - 1)) tc), atoms.
    split. { apply (f_equal Some). apply f_equal2; [reflexivity|]. unfold p1. rewrite !app_length. cbn [length]. rewrite !app_length. cbn [length]. lia. }
    split; [reflexivity|]. cbn [set_term set_span l_span l_op]. split; [rewrite repeat_length; lia|]. split; [exact HO|].
    replace (N.to_nat n) with (S (N.to_nat (n - 1))) by lia. rewrite count_spread by assumption. apply (unwinds_const buf atoms vs _ HA HV).
  - unfold chars_text, chars_cps in *. pose proof (proj1 HC) as HE.
    assert (LC : N.of_nat (length cs) < two32).
    { pose proof (esc_text_length cs HE) as X. apply skipn_length_le in HS1. rewrite !app_length in HS1. cbn [length] in HS1.
      rewrite !app_length in HS1. cbn [length] in HS1. rewrite !app_length in HS1. unfold pe in HB. lia. }
    set (b := p1 + 1 + N.of_nat (length v1) + 1).
    set (e := b + N.of_nat (length (concat (map fst cs)))).
    destruct cs as [|[bs cp] cs]; [contradiction|].
    set (n := N.of_nat (length ((bs, cp) :: cs))) in *.
    pose proof (skipn_text _ _ _ _ HS1) as HS2. pose proof (skipn_text _ _ _ _ HS2) as HS3.
    assert (SB : sub buf b e = concat (map fst ((bs, cp) :: cs))).
    { unfold e. apply (sub_text buf b _ (39 :: v2 ++ [41] ++ w2 ++ [tc] ++ rest)).
      unfold b. replace (p1 + 1 + N.of_nat (length v1) + 1) with (p1 + N.of_nat (length (40 :: v1 ++ [39]))).
      2:{ cbn [length]. rewrite app_length. cbn [length]. lia. }
      apply (skipn_text buf p1). rewrite HS1. cbn [app]. rewrite <- !app_assoc. cbn [app]. rewrite <- !app_assoc. cbn [app]. rewrite <- !app_assoc. reflexivity. }
    set (a0 := AStr 0 n b e).
    set (a1 := AStr cp (N.of_nat (length cs)) (b + N.of_nat (length bs)) e).
    assert (NX : next_cp buf a0 = a1).
    { unfold a0, a1. cbn [next_cp]. rewrite SB. unfold next_codepoint. unfold n.
      replace (N.of_nat (length ((bs, cp) :: cs)) =? 0) with false by (cbn [length]; lia).
      cbn [map fst concat]. inversion HE as [|x y H1 H2]; subst. cbn [fst snd] in H1.
      pose proof (chars_lit_uni _ HC) as U.
      rewrite (cp_run_esc bs cp); [|exact H1| |].
      - f_equal. cbn [length]. lia.
      - destruct cs as [|[bs2 cp2] cs]; [exact Logic.I|]. cbn [map fst concat].
        inversion H2 as [|x y H3 H4]; subst. apply (esc_char_start bs2 cp2 _ H3).
      - intro V. destruct cs as [|[bs2 cp2] cs]; [exfalso; apply U; exact V|]. cbn [map fst concat].
        inversion H2 as [|x y H3 H4]; subst. destruct (esc_char_start bs2 cp2 [] H3) as [_ NE].
        destruct bs2; [contradiction|discriminate]. }
    pose proof sm_ok_true as SM. apply andb_prop in SM as [_ SM].
    set (l1 := push (in_str l b n) a0).
    set (l2 := mkLoc (l_int l1) (l_float l1) (l_str l1) (l_word l1) (l_uuid l1) (l_val l1) (l_org l1)
            (l_var l1) (l_vsn l1) (l_cpn l1) (n - 1) (l_term l1) (l_op l ++ [a1])).
    assert (Q : runs buf pe st l p1 (40 :: v1 ++ 39 :: concat (map fst ((bs, cp) :: cs)) ++ 39 :: v2 ++ [41]) = Some (10, l2)).
    { assert (L : look (text_row st) 40 = Some ([], 5)) by (destruct I as [<-|[<-|[<-|[]]]]; reflexivity).
      erewrite runs_cons; [|exact L|reflexivity].
      rewrite (runs_app _ _ _ _ _ _ _ _ _ (blank_run buf pe 5 l _ v1 ltac:(cbn; tauto) V1)).
      erewrite (runs_cons buf pe 5 l _ 39 _ [] 6 l eq_refl eq_refl).
      replace (concat (map fst ((bs, cp) :: cs)) ++ 39 :: v2 ++ [41]) with ((concat (map fst ((bs, cp) :: cs)) ++ [39]) ++ v2 ++ [41])
        by (rewrite <- app_assoc; reflexivity).
      pose proof (string_run sm_span buf pe _ l b SM HE LC) as SR. change (m_open sm_span) with 6 in SR. change (m_close sm_span) with 8 in SR.
      fold n e a0 l1 in SR. fold b. rewrite (runs_app _ _ _ _ _ _ _ _ _ SR).
      apply (close_span buf pe 8 a_end_spread l1 l2 _ v2); [cbn; tauto| |exact V2].
      intros c q. cbn [exec]. replace (last_atom (l_op l1)) with (Some a0) by (symmetry; apply last_atom_snoc).
      unfold a0 at 1. cbn iota. replace (n =? 0) with false by (unfold n; cbn [length]; lia).
      fold a0. rewrite NX. replace (set_last (l_op l1) a1) with (l_op l ++ [a1]) by (symmetry; apply set_last_snoc).
      replace ((l_cpn l1 + (two32 - 1)) mod two32) with (n - 1); [reflexivity|].
      change (l_cpn l1) with n. assert (N1 : 1 <= n) by (unfold n; cbn [length]; lia). unfold two32 in *. change (2 ^ 32) with 4294967296 in *.
      replace (n + (4294967296 - 1)) with (n - 1 + 1 * 4294967296) by lia. rewrite N.mod_add by lia. symmetry. apply N.mod_small. lia. }
    rewrite (run_runs _ _ _ _ _ _ _ _ _ Q).
    rewrite (run_runs _ _ _ _ _ _ _ _ _ (blank_run buf pe 10 _ _ w2 ltac:(cbn; tauto) W2)).
    cbn [app] in HS3 |- *. rewrite (term_run buf pe 10 _ _ tc t rest eq_refl ltac:(cbn; tauto) T HS3).
    exists (set_term l2 tc), (atoms ++ [a1]).
    split. { apply (f_equal Some). apply f_equal2; [reflexivity|]. unfold p1. cbn [map concat fst]. rewrite !app_length. cbn [length]. rewrite !app_length. cbn [length]. rewrite !app_length. cbn [length]. rewrite !app_length. cbn [length]. lia. }
    split; [reflexivity|]. cbn [set_term l_span l_op l2]. split; [rewrite !map_length; unfold n; cbn [length]; lia|].
    split; [rewrite HO, app_assoc; reflexivity|].
    unfold a1. rewrite chars_spread. apply (unwinds_chars buf atoms vs cs HV cp (b + N.of_nat (length bs)) e).
    + inversion HE; assumption.
    + pose proof (chars_lit_uni _ HC) as U. destruct cs; [intros []|exact U].
    + exact ZC.
    + (* the rest of the string *)
      cbn [map fst concat] in SB. unfold e. cbn [map fst concat].
      replace (b + N.of_nat (length (bs ++ concat (map fst cs)))) with (b + N.of_nat (length bs) + N.of_nat (length (concat (map fst cs))))
        by (rewrite app_length; lia).
      apply (sub_text buf _ _ (39 :: v2 ++ [41] ++ w2 ++ [tc] ++ rest)).
      apply (skipn_text buf b).
      unfold b. replace (p1 + 1 + N.of_nat (length v1) + 1) with (p1 + N.of_nat (length (40 :: v1 ++ [39]))).
      2:{ cbn [length]. rewrite app_length. cbn [length]. lia. }
      apply (skipn_text buf p1). rewrite HS1. cbn [app map concat fst]. rewrite <- !app_assoc. cbn [app]. rewrite <- !app_assoc. cbn [app]. rewrite <- !app_assoc. reflexivity.
Qed.

(* ---- whole ops ---- *)

(* a cursor about to parse at offset p, with the id of the last op *)
Definition ready (buf : bytes) (c : cursor) (p : N) (prev : uuid) : Prop :=
  c_buf c = buf /\ c_pos c = p /\ c_span c = 0 /\ (c_state c = 74 \/ (c_state c = 0 /\ p = 0)) /\
  match c_op c with [] => NIL | a :: _ => a2u a end = prev.

(* a cursor on the first op of a span *)
Definition on_group (m : bool) (buf : bytes) (c : cursor) (p : N) (id ref : uuid) (vss : list (list value)) (t : N) : Prop :=
  c_buf c = buf /\ c_pos c = p /\ c_state c = 74 /\ c_term c = t /\
  c_span c + 1 = N.of_nat (length vss) /\
  exists atoms, c_op c = AUuid id :: AUuid ref :: atoms /\ unwinds m buf atoms vss.

Lemma term_code tc t : term_lit tc t -> chr2term tc = t /\ tc <> 0.
Proof. destruct 1; split; reflexivity || discriminate. Qed.

Lemma next_marked buf c p prev s ops m rest :
  ready buf c p prev -> N.of_nat (length buf) < two32 ->
  skipn (N.to_nat p) buf = s ++ rest -> op_marked prev s ops m ->
  exists c' id ref vss t, next c = NOk c' /\ on_group m buf c' (p + N.of_nat (length s)) id ref vss t /\
    ops = chain id ref vss t.
Proof.
  intros (EB & EP & ES & EST & EPR) HB HS H.
  destruct H as [w0 sp id ref vt vs w1 st vss w2 tc t W0 SP VL W1 SPL W2 T].
  set (tail := w1 ++ st ++ w2 ++ [tc]) in *.
  assert (DT : delimited (tail ++ rest)).
  { unfold tail. rewrite <- !app_assoc. apply blank_delimited; [exact W1|].
    assert (D2 : delimited (w2 ++ [tc] ++ rest)).
    { apply blank_delimited; [exact W2|]. eexists tc, _. split; [reflexivity|]. destruct T; reflexivity. }
    destruct SPL; [exact D2| |]; (eexists 40, _; split; [reflexivity|reflexivity]). }
  rewrite <- !app_assoc in HS. fold tail in HS.
  pose proof (skipn_text _ _ _ _ HS) as HS1.
  set (l0 := loc0 p prev) in *. set (pe := N.of_nat (length buf)) in *.
  destruct (spec_run buf pe prev sp id ref l0 (p + N.of_nat (length w0)) (vt ++ tail ++ rest) SP HS1) as (st1 & l1 & I1 & E1 & S1 & O1 & R1).
  { destruct sp as [|x sp]; [right; reflexivity|]. left. apply (values_delimited vt vs); [exact VL|exact DT]. }
  { eexists _, _. reflexivity. }
  { reflexivity. }
  pose proof (skipn_text _ _ _ _ HS1) as HS2.
  destruct (values_run buf pe _ vt vs VL HB st1 l1 _ (tail ++ rest) I1 HS2 DT) as (st2 & l2 & atoms & I2 & S2 & O2 & V2 & A2 & R2).
  pose proof (skipn_text _ _ _ _ HS2) as HS3. unfold tail in HS3.
  assert (Z2 : l_span l2 = 0).
  { destruct (same_trans _ _ _ S1 S2) as [Z _]. rewrite Z. reflexivity. }
  destruct (tail_run buf st2 l2 _ atoms [AUuid id; AUuid ref] vs w1 st vss w2 tc t rest I2 HB HS3 Z2) as (l3 & atoms' & R3 & T3 & N3 & O3 & U3);
    [rewrite O2, O1; reflexivity|exact V2|exact A2|exact W1|exact SPL|exact W2|exact T|].
  fold tail pe in R3.
  assert (NE : c_pos c =? N.of_nat (length (c_buf c)) = false).
  { rewrite EB, EP. apply N.eqb_neq. intro K. assert (length (skipn (N.to_nat p) buf) = 0%nat) by (rewrite skipn_length; lia).
    rewrite HS in H. rewrite !app_length in H. unfold tail in H. rewrite !app_length in H. cbn [length] in H. lia. }
  assert (RUN : run buf pe 74 l0 p (skipn (N.to_nat p) buf) = Some (74, l3, p + N.of_nat (length (w0 ++ sp ++ vt ++ tail)))).
  { rewrite HS. rewrite (run_runs _ _ _ _ _ _ _ _ _ (blank_run buf pe 74 l0 p w0 ltac:(cbn; tauto) W0)).
    rewrite R1, R2, R3. apply (f_equal Some). apply f_equal2; [reflexivity|]. rewrite !app_length. lia. }
  destruct (term_code tc t T) as [TC TZ].
  eexists _, id, ref, vss, t. split; [|split; [|reflexivity]].
  - unfold next. rewrite ES. cbn [N.eqb negb]. rewrite N.eqb_refl. cbn [negb].
    replace ((c_state c =? 0) && negb (c_pos c =? 0)) with false by (destruct EST as [->|[-> E0]]; [reflexivity|rewrite EP, E0; reflexivity]).
    replace (c_state c =? RON_FULL_STOP) with false by (destruct EST as [->|[-> _]]; reflexivity).
    rewrite NE. replace (if c_state c =? 0 then RON_START else c_state c) with 74 by (destruct EST as [->|[-> _]]; reflexivity).
    rewrite EB, EP, EPR. fold l0 pe. rewrite RUN. rewrite T3.
    replace (tc =? 0) with false by (symmetry; apply N.eqb_neq; exact TZ). cbn [negb andb]. reflexivity.
  - split; [reflexivity|]. split; [reflexivity|]. split; [reflexivity|]. split; [exact TC|]. split; [exact N3|].
    exists atoms'. split; [exact O3|exact U3].
Qed.

Lemma step_whole buf id' ref' atoms :
  step_atoms buf (AUuid id' :: AUuid ref' :: atoms) = AUuid id' :: AUuid ref' :: step_atoms buf atoms.
Proof.
  unfold step_atoms. destruct atoms as [|a0 atoms0]; [reflexivity|].
  destruct (exists_last (l := a0 :: atoms0) ltac:(discriminate)) as (r & a & E). rewrite E. clear E.
  change (AUuid id' :: AUuid ref' :: r ++ [a]) with ((AUuid id' :: AUuid ref' :: r) ++ [a]).
  rewrite !last_atom_snoc. destruct a as [u|b e|cp n b e|b e]; try reflexivity.
  destruct (cp =? 0); [reflexivity|]. rewrite !set_last_snoc. reflexivity.
Qed.

Lemma op_erase prev s ops m : op_marked prev s ops m -> op_lit prev s ops.
Proof. destruct 1. apply (ol prev w0 sp id ref vt vs w1 st vss w2 tc t); assumption. Qed.
Lemma op_mark prev s ops : op_lit prev s ops -> exists m, op_marked prev s ops m.
Proof. destruct 1. exists (spread st). apply (om prev w0 sp id ref vt vs w1 st vss w2 tc t); assumption. Qed.
Lemma ops_erase prev s ops ms : ops_marked prev s ops ms -> ops_lit prev s ops.
Proof. induction 1; [constructor|]. apply os_cons; [eapply op_erase; eassumption|assumption]. Qed.
Lemma ops_mark prev s ops : ops_lit prev s ops -> exists ms, ops_marked prev s ops ms.
Proof. induction 1 as [prev|prev s ops r ops' H1 H2 [ms IH]]; [eexists; constructor|]. destruct (op_mark _ _ _ H1) as [m M]. eexists. apply oms_cons; eassumption. Qed.
Lemma frame_erase f ops ms : frame_marked f ops ms -> frame_lit f ops.
Proof. destruct 1. apply fl; [eapply ops_erase; eassumption|assumption|assumption]. Qed.
Lemma frame_mark f ops : frame_lit f ops -> exists ms, frame_marked f ops ms.
Proof. destruct 1 as [s ops w e H W E]. destruct (ops_mark _ _ _ H) as [ms M]. exists ms. apply fm; assumption. Qed.
Lemma next_op buf c p prev s ops rest :
  ready buf c p prev -> N.of_nat (length buf) < two32 ->
  skipn (N.to_nat p) buf = s ++ rest -> op_lit prev s ops ->
  exists c' id ref vss t m, next c = NOk c' /\ on_group m buf c' (p + N.of_nat (length s)) id ref vss t /\
    ops = chain id ref vss t.
Proof.
  intros R B S O. destruct (op_mark _ _ _ O) as [m M]. destruct (next_marked _ _ _ _ _ _ _ _ R B S M) as (c' & id & ref & vss & t & H).
  exists c', id, ref, vss, t, m. exact H.
Qed.

(* reading a span to its end *)
Lemma scan_group m buf vss : forall c p id ref t, on_group m buf c p id ref vss t ->
  exists c', ready buf c' p (inc_times (length vss - 1) id) /\
    forall f, scan (length vss - 1 + f) c =
      (chain (inc id) id (tl vss) t ++ fst (scan f c'), snd (scan f c')) /\ rop_of c = mkRop id ref (hd [] vss) t.
Proof.
  induction vss as [|vs vss IH]; intros c p id ref t (EB & EP & ES & ET & EN & atoms & EO & U); [contradiction|].
  destruct U as (EV & _ & U).
  assert (RO : rop_of c = mkRop id ref vs t).
  { unfold rop_of. rewrite EB, EO, ET. cbn [op_id op_ref nth a2u skipn]. rewrite (parsed_values _ _ _ EV). reflexivity. }
  destruct vss as [|vs2 vss].
  - exists c. split.
    + cbn [length] in EN. split; [exact EB|]. split; [exact EP|]. split; [lia|]. split; [left; exact ES|]. rewrite EO. reflexivity.
    + intro f. cbn [length Nat.sub Nat.add tl chain app hd]. split; [destruct (scan f c); reflexivity|exact RO].
  - specialize (U ltac:(discriminate)).
    set (c1 := mkCursor buf p (AUuid (inc id) :: AUuid id :: step_atoms buf atoms) t 74 (c_span c - 1)).
    assert (NX : next c = NOk c1).
    { unfold next. cbn [length] in EN. replace (c_span c =? 0) with false by lia. cbn [negb]. rewrite EO, EB, EP, ES, ET.
      cbn [op_id op_ref nth a2u]. unfold set_nth. cbn [firstn skipn app].
      pose proof (step_whole buf (inc id) id atoms) as SW. unfold step_atoms at 1 in SW.
      unfold c1. rewrite <- SW. reflexivity. }
    assert (G1 : on_group m buf c1 p (inc id) id (vs2 :: vss) t).
    { split; [reflexivity|]. split; [reflexivity|]. split; [reflexivity|]. split; [reflexivity|].
      split; [cbn [c1 c_span length] in *; lia|]. exists (step_atoms buf atoms). split; [reflexivity|exact U]. }
    destruct (IH c1 p (inc id) id t G1) as (c' & RD & SC).
    exists c'. split.
    + replace (length (vs :: vs2 :: vss) - 1)%nat with (S (length (vs2 :: vss) - 1)) by (cbn [length]; lia). exact RD.
    + intro f. split; [|exact RO].
      replace (length (vs :: vs2 :: vss) - 1 + f)%nat with (S (length (vs2 :: vss) - 1 + f)) by (cbn [length]; lia).
      cbn [scan]. rewrite NX. destruct (SC f) as [SC1 SC2]. rewrite SC1, SC2. reflexivity.
Qed.

Lemma chain_length id ref vss t : length (chain id ref vss t) = length vss.
Proof. revert id ref. induction vss as [|vs vss IH]; intros; [reflexivity|]. cbn [chain length]. rewrite IH. reflexivity. Qed.

Lemma chain_last vss : forall prev id ref t, vss <> [] -> last_id prev (chain id ref vss t) = inc_times (length vss - 1) id.
Proof. clear CW.
  unfold last_id. induction vss as [|vs vss IH]; intros prev id ref t N; [contradiction|].
  destruct vss as [|v2 vss]; [reflexivity|].
  replace (length (vs :: v2 :: vss) - 1)%nat with (S (length (v2 :: vss) - 1)) by (cbn [length]; lia).
  cbn [inc_times]. rewrite <- (IH prev (inc id) id t ltac:(discriminate)). reflexivity.
Qed.

Lemma scan_ops buf prev s ops : ops_lit prev s ops -> N.of_nat (length buf) < two32 ->
  forall c p rest, ready buf c p prev -> skipn (N.to_nat p) buf = s ++ rest ->
  exists c', ready buf c' (p + N.of_nat (length s)) (last_id prev ops) /\
    forall f, scan (length ops + f) c = (ops ++ fst (scan f c'), snd (scan f c')).
Proof.
  intros H HB. induction H as [prev|prev s ops r ops' H1 H2 IH]; intros c p rest RD HS.
  - exists c. cbn [length N.of_nat]. rewrite N.add_0_r. split; [exact RD|]. intro f. cbn [Nat.add app]. destruct (scan f c); reflexivity.
  - rewrite <- app_assoc in HS.
    destruct (next_op buf c p prev s ops _ RD HB HS H1) as (c1 & id & ref & vss & t & m & NX & G & EO).
    assert (NV : vss <> []).
    { destruct G as (_ & _ & _ & _ & E & _). intros ->. cbn [length] in E. lia. }
    destruct (scan_group m buf vss c1 _ id ref t G) as (c2 & RD2 & SC).
    pose proof (skipn_text _ _ _ _ HS) as HS1.
    rewrite <- (chain_last vss prev id ref t NV), <- EO in RD2.
    destruct (IH c2 _ rest RD2 HS1) as (c3 & RD3 & SC3).
    exists c3. split.
    + replace (last_id prev (ops ++ ops')) with (last_id (last_id prev ops) ops').
      * replace (p + N.of_nat (length (s ++ r))) with (p + N.of_nat (length s) + N.of_nat (length r)) by (rewrite app_length; lia). exact RD3.
      * unfold last_id. rewrite map_app. destruct ops' as [|o ops']; [cbn [map]; rewrite app_nil_r; reflexivity|].
        destruct (exists_last (l := o :: ops') ltac:(discriminate)) as (q & z & E). rewrite E, map_app. cbn [map].
        rewrite app_assoc, !last_last. reflexivity.
    + intro f. specialize (SC3 f). destruct (SC (length ops' + f)%nat) as [SC1 SC2].
      rewrite EO at 1. rewrite app_length, chain_length.
      replace (length vss + length ops' + f)%nat with (S (length vss - 1 + (length ops' + f))) by (destruct vss; [contradiction|cbn [length]; lia]).
      cbn [scan]. rewrite NX, SC1, SC2, SC3. cbn [fst snd].
      rewrite EO. destruct vss as [|vs vss]; [contradiction|]. cbn [chain hd tl app]. rewrite <- app_assoc. reflexivity.
Qed.

(* what is left after the last op *)
Lemma scan_tail buf c p prev w e f : ready buf c p prev -> skipn (N.to_nat p) buf = w ++ e -> (N.to_nat p <= length buf)%nat ->
  blank w -> e = [] \/ e = [46; 10] -> scan (S f) c = ([], SEnd).
Proof. clear CW.
  intros (EB & EP & ES & EST & EPR) HS LE W HE. cbn [scan].
  assert (X : exists c', next c = NEnd c'); [|destruct X as (c' & ->); reflexivity].
  unfold next. rewrite ES. cbn [N.eqb negb]. rewrite N.eqb_refl. cbn [negb].
  replace ((c_state c =? 0) && negb (c_pos c =? 0)) with false by (destruct EST as [->|[-> E0]]; [reflexivity|rewrite EP, E0; reflexivity]).
  replace (c_state c =? RON_FULL_STOP) with false by (destruct EST as [->|[-> _]]; reflexivity).
  replace (if c_state c =? 0 then RON_START else c_state c) with 74 by (destruct EST as [->|[-> _]]; reflexivity).
  rewrite EB, EP, EPR. destruct (p =? N.of_nat (length buf)) eqn:E; [eexists; reflexivity|].
  rewrite HS. set (l0 := loc0 p prev). set (pe := N.of_nat (length buf)).
  rewrite (run_runs _ _ _ _ _ _ _ _ _ (blank_run buf pe 74 l0 p w ltac:(cbn; tauto) W)).
  destruct HE as [->| ->].
  - cbn [run l0 loc0 l_term]. cbn [N.eqb negb andb]. eexists. reflexivity.
  - rewrite (run_step buf pe 74 l0 _ 46 _ [] 60 l0 eq_refl eq_refl).
    rewrite (run_step buf pe 60 l0 _ 10 _ [] 75 l0 eq_refl eq_refl).
    cbn [run l0 loc0 l_term]. cbn [N.eqb negb andb]. eexists. reflexivity.
Qed.

Theorem scan_frame buf ops f : frame_lit buf ops -> N.of_nat (length buf) < 2 ^ 32 ->
  scan (S (length ops + f)) (cursor_of buf) = (ops, SEnd).
Proof.
  intros H HB. destruct H as [s ops w e H W HE].
  set (buf := s ++ w ++ e) in *.
  assert (RD : ready buf (cursor_of buf) 0 NIL).
  { split; [reflexivity|]. split; [reflexivity|]. split; [reflexivity|]. split; [right; split; reflexivity|reflexivity]. }
  destruct (scan_ops buf NIL s ops H HB (cursor_of buf) 0 (w ++ e) RD eq_refl) as (c' & RD' & SC).
  replace (S (length ops + f)) with (length ops + S f)%nat by lia. rewrite SC.
  rewrite (scan_tail buf c' _ _ w e f RD'); [cbn [fst snd]; rewrite app_nil_r; reflexivity| | |exact W|exact HE].
  - apply (skipn_text buf 0 s (w ++ e)). reflexivity.
  - unfold buf. rewrite !app_length. lia.
Qed.
End FrameProofs.
Arguments lit_atom : clear implicits.
Arguments parsed : clear implicits.
Arguments unwinds : clear implicits.
Arguments on_group : clear implicits.
