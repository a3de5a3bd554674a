(* The cursors visited while a frame of the grammar is read: each stands on an
   op whose values can be written back. *)
From Verif Require Import Prelude UuidModel UuidSpec CodecModel CodecSpec StringProofs TextTable TextModel TextSpec TextTokens
  TokenValues TokenStrings FrameProofs BuilderSpec BuilderProofs MergeModel MergeSpec MergeTextModel MergeTheorems TextMergeSpec.

Set Default Proof Using "Type".
Section TextCursors.
Context {CW : bytes -> N -> Prop}.
Local Notation chars_lit := (chars_lit CW).
Local Notation value_lit := (value_lit CW).
Local Notation values_lit := (values_lit CW).
Local Notation span_lit := (span_lit CW).
Local Notation op_lit := (op_lit CW).
Local Notation ops_lit := (ops_lit CW).
Local Notation frame_lit := (frame_lit CW).
Local Notation op_marked := (op_marked CW).
Local Notation ops_marked := (ops_marked CW).
Local Notation frame_marked := (frame_marked CW).
Local Notation lit_atom := (lit_atom CW).
Local Notation parsed := (parsed CW).
Local Notation unwinds := (unwinds CW).
Local Notation on_group := (on_group CW).
Local Notation wval_ok := (wval_ok CW).
Local Notation rep := (rep CW).
Local Notation writes := (writes CW).

Definition lit_cursor (c : cursor) (o : rop) : Prop :=
  rop_of c = o /\ Forall2 (lit_atom (c_buf c)) (skipn 2 (c_op c)) (r_vals o).

(* a cursor on an op inside a span of characters, on another op *)
Definition marked_cursor (c : cursor) (m : bool) : Prop := marked m (skipn 2 (c_op c)).

(* Next moves to a cursor from which cs are visited *)
Definition then_visits (c : cursor) (cs : list cursor) : Prop :=
  exists c', text_next c = Some (valid c', c') /\ visits valid text_next c' cs.

Lemma parsed_lit buf atoms vs : Forall2 (parsed buf) atoms vs -> Forall2 (lit_atom buf) atoms vs.
Proof. induction 1 as [|a v atoms vs [_ H] F IH]; constructor; assumption. Qed.

Lemma group_visits m buf vss : forall c p id ref t, on_group m buf c p id ref vss t ->
  exists c' cs0, ready buf c' p (inc_times (length vss - 1) id) /\ valid c = true /\
    Forall2 lit_cursor (c :: cs0) (chain id ref vss t) /\
    Forall2 marked_cursor (c :: cs0) (repeat m (length vss)) /\
    forall cs, then_visits c' cs -> visits valid text_next c (c :: cs0 ++ cs).
Proof.
  induction vss as [|vs vss IH]; intros c p id ref t (EB & EP & ES & ET & EN & atoms & EO & U); [contradiction|].
  destruct U as (EV & MK & U).
  assert (V : valid c = true) by (unfold valid; rewrite ES; reflexivity).
  assert (RO : lit_cursor c (mkRop id ref vs t)).
  { split.
    - unfold rop_of. rewrite EB, EO, ET. cbn [op_id op_ref nth a2u skipn]. rewrite (parsed_values _ _ _ EV). reflexivity.
    - rewrite EO, EB. cbn [skipn r_vals]. apply parsed_lit. exact EV. }
  assert (MC : marked_cursor c m) by (unfold marked_cursor; rewrite EO; exact MK).
  destruct vss as [|vs2 vss].
  - exists c, []. split; [|split; [exact V|split; [|split]]].
    + cbn [length] in EN. split; [exact EB|]. split; [exact EP|]. split; [lia|]. split; [left; exact ES|]. rewrite EO. reflexivity.
    + cbn [chain]. constructor; [exact RO|constructor].
    + cbn [length repeat]. constructor; [exact MC|constructor].
    + intros cs (c' & NX & VI). cbn [app]. econstructor; eassumption.
  - specialize (U ltac:(discriminate)).
    set (c1 := mkCursor buf p (AUuid (inc id) :: AUuid id :: step_atoms buf atoms) t 74 (c_span c - 1)).
    assert (NX : next c = NOk c1).
    { unfold next. cbn [length] in EN. replace (c_span c =? 0) with false by lia. cbn [negb]. rewrite EO, EB, EP, ES, ET.
      cbn [op_id op_ref nth a2u]. unfold set_nth. cbn [firstn skipn app].
      pose proof (step_whole buf (inc id) id atoms) as SW. unfold step_atoms at 1 in SW.
      unfold c1. rewrite <- SW. reflexivity. }
    assert (G1 : on_group m buf c1 p (inc id) id (vs2 :: vss) t).
    { split; [reflexivity|]. split; [reflexivity|]. split; [reflexivity|]. split; [reflexivity|].
      split; [cbn [c1 c_span length] in *; lia|]. exists (step_atoms buf atoms). split; [reflexivity|exact U]. }
    destruct (IH c1 p (inc id) id t G1) as (c' & cs0 & RD & V1 & F & FM & K).
    exists c', (c1 :: cs0). split; [|split; [exact V|split; [|split]]].
    + replace (length (vs :: vs2 :: vss) - 1)%nat with (S (length (vs2 :: vss) - 1)) by (cbn [length]; lia). exact RD.
    + cbn [chain]. constructor; [exact RO|exact F].
    + cbn [length repeat] in *. constructor; [exact MC|exact FM].
    + intros cs T. cbn [app]. apply (visits_cons valid text_next c c1); [exact V| |apply K; exact T].
      unfold text_next. rewrite NX, V1. reflexivity.
Qed.

Lemma ops_visits buf prev s ops ms : ops_marked prev s ops ms -> N.of_nat (length buf) < two32 ->
  forall c p rest, ready buf c p prev -> skipn (N.to_nat p) buf = s ++ rest ->
  exists c' cs0, ready buf c' (p + N.of_nat (length s)) (last_id prev ops) /\ Forall2 lit_cursor cs0 ops /\ Forall2 marked_cursor cs0 ms /\
    forall cs, then_visits c' cs -> then_visits c (cs0 ++ cs).
Proof.
  intros H HB. induction H as [prev|prev s ops m r ops' ms H1 H2 IH]; intros c p rest RD HS.
  - exists c, []. cbn [length N.of_nat]. rewrite N.add_0_r. split; [exact RD|]. split; [constructor|]. split; [constructor|]. intros cs T. exact T.
  - rewrite <- app_assoc in HS.
    destruct (next_marked buf c p prev s ops m _ RD HB HS H1) as (c1 & id & ref & vss & t & NX & G & EO).
    assert (NV : vss <> []).
    { destruct G as (_ & _ & _ & _ & E & _). intros ->. cbn [length] in E. lia. }
    destruct (group_visits m buf vss c1 _ id ref t G) as (c2 & cs0 & RD2 & V1 & F & FM & K).
    pose proof (skipn_text _ _ _ _ HS) as HS1.
    rewrite <- (chain_last vss prev id ref t NV), <- EO in RD2.
    destruct (IH c2 _ rest RD2 HS1) as (c3 & cs1 & RD3 & F3 & FM3 & K3).
    exists c3, ((c1 :: cs0) ++ cs1). split; [|split; [|split]].
    + rewrite last_id_app.
      replace (p + N.of_nat (length (s ++ r))) with (p + N.of_nat (length s) + N.of_nat (length r)) by (rewrite app_length; lia). exact RD3.
    + rewrite EO. apply Forall2_app; assumption.
    + rewrite EO, chain_length. apply Forall2_app; assumption.
    + intros cs T. exists c1. split; [unfold text_next; rewrite NX, V1; reflexivity|].
      rewrite <- app_assoc. apply K. apply K3. exact T.
Qed.

Lemma next_end c c' : next c = NEnd c' -> valid c' = false.
Proof.
  unfold next. destruct (negb (c_span c =? 0)); [discriminate|].
  destruct ((c_state c =? 0) && negb (c_pos c =? 0)); [discriminate|].
  destruct (c_state c =? RON_FULL_STOP); [intro E; injection E as <-; reflexivity|].
  destruct (c_pos c =? N.of_nat (length (c_buf c))); [intro E; injection E as <-; reflexivity|].
  destruct (run _ _ _ _ _ _) as [[[st l] p]|]; [|discriminate].
  destruct (negb (l_term l =? 0) && negb (st =? 0)); [discriminate|].
  destruct (RON_START <=? st); [intro E; injection E as <-; reflexivity|discriminate].
Qed.

Lemma tail_visits buf c p prev w e : ready buf c p prev -> skipn (N.to_nat p) buf = w ++ e -> (N.to_nat p <= length buf)%nat ->
  blank w -> e = [] \/ e = [46; 10] -> then_visits c [].
Proof.
  intros RD HS LE W HE. pose proof (scan_tail buf c p prev w e 0 RD HS LE W HE) as SC.
  cbn [scan] in SC. unfold then_visits, text_next.
  destruct (next c) as [c'|c'|c'|] eqn:NX; try discriminate.
  exists c'. rewrite (next_end _ _ NX). split; [reflexivity|]. constructor. exact (next_end _ _ NX).
Qed.

Lemma marked_visits buf ops ms : frame_marked buf ops ms -> N.of_nat (length buf) < 2 ^ 32 ->
  exists cs, then_visits (cursor_of buf) cs /\ Forall2 lit_cursor cs ops /\ Forall2 marked_cursor cs ms.
Proof.
  intros H HB. destruct H as [s ops ms w e H W HE].
  set (buf := s ++ w ++ e) in *.
  assert (RD : ready buf (cursor_of buf) 0 NIL).
  { split; [reflexivity|]. split; [reflexivity|]. split; [reflexivity|]. split; [right; split; reflexivity|reflexivity]. }
  destruct (ops_visits buf NIL s ops ms H HB (cursor_of buf) 0 (w ++ e) RD eq_refl) as (c' & cs & RD' & F & FM & K).
  exists cs. split; [|split; [exact F|exact FM]]. rewrite <- (app_nil_r cs). apply K.
  apply (tail_visits buf c' _ _ w e RD'); [| |exact W|exact HE].
  - apply (skipn_text buf 0 s (w ++ e)). reflexivity.
  - unfold buf. rewrite !app_length. lia.
Qed.

Lemma frame_visits buf ops : frame_lit buf ops -> N.of_nat (length buf) < 2 ^ 32 ->
  exists cs, then_visits (cursor_of buf) cs /\ Forall2 lit_cursor cs ops.
Proof.
  intros H HB. destruct (frame_mark _ _ H) as [ms M]. destruct (marked_visits buf ops ms M HB) as (cs & V & F & _). exists cs. auto.
Qed.

(* ---- such ops can be written ---- *)

Lemma lit_first buf n b e cs cp : chars_lit cs -> sub buf b e = chars_text cs -> n = N.of_nat (length cs) -> chars_cps cs = [cp] ->
  match next_cp buf (AStr 0 n b e) with AStr cp' _ _ _ => cp' | _ => 0 end = cp.
Proof.
  intros HC SB -> E. destruct cs as [|[bs c1] [|x cs]]; try discriminate. injection E as ->.
  cbn [next_cp]. rewrite SB. unfold next_codepoint. cbn [length N.of_nat]. change (N.pos (Pos.of_succ_nat 0) =? 0) with false. cbn iota.
  pose proof (chars_lit_uni _ HC) as U. destruct HC as [HE _]. inversion HE as [|x y H1 H2]; subst. cbn [fst snd] in H1.
  unfold chars_text. cbn [map fst concat]. rewrite (cp_run_esc bs cp); [reflexivity|exact H1|exact Logic.I|].
  intro K. exfalso. apply U. exact K.
Qed.

Lemma lit_atom_ok buf a v : writes -> lit_atom buf a v -> value_ok v -> wval_ok (wval_of_atom buf a) v.
Proof.
  intro WR. destruct a as [u|b e|cp n b e|b e], v as [u'|z|[cps|]|t]; cbn [lit_atom wval_of_atom]; try contradiction.
  - intros <- (A & B & D). split; [reflexivity|]. split; [split; assumption|exact D].
  - intros H _. exact H.
  - destruct (cp =? 0) eqn:Z.
    + apply N.eqb_eq in Z. subst cp. intros (cs & HC & SB & -> & E) OK. exists cs. split; [exact HC|]. split; [exact SB|].
      split; [reflexivity|]. split; [subst n; unfold chars_cps; rewrite map_length; reflexivity|].
      intros cp Q. split; [apply (lit_first buf n b e cs cp HC SB E Q)|].
      cbn [value_ok] in OK. rewrite Q in OK. inversion OK; assumption.
    + intros -> OK. cbn [value_ok] in OK. inversion OK as [|x y (A & B & D) _]; subst.
      destruct (esc_append_ok cp A B D) as [E1 E2].
      exists [(utf8esc_append cp, cp)]. split; [apply (chars_lit_snoc []); [constructor|constructor|exact E1|apply WR; assumption|exact E2]|].
      split; [unfold chars_text; cbn [map fst concat]; rewrite app_nil_r; reflexivity|]. split; [reflexivity|]. split; [reflexivity|].
      intros cp' Q. injection Q as <-. auto.
  - intros H _. exact H.
Qed.

Lemma lit_rep c o : writes -> lit_cursor c o -> uop_ok (bare o) -> rep (wop_of_cursor c) (bare o).
Proof.
  intros WR [E F] (I1 & I2 & V). unfold BuilderProofs.rep, wop_of_cursor. cbn [w_id w_ref w_vals]. rewrite <- E at 1 2. cbn [bare rop_of u_id u_ref].
  split; [reflexivity|]. split; [reflexivity|]. split; [exact I1|]. split; [exact I2|].
  cbn [bare u_vals] in *. clear -F V WR. induction F as [|a v atoms vs H F IH]; [constructor|].
  inversion V as [|x y V1 V2]; subst. cbn [map]. constructor; [apply lit_atom_ok; [exact WR|exact H|exact V1]|apply IH; exact V2].
Qed.

End TextCursors.
Arguments lit_cursor : clear implicits.

Lemma canon_writes : writes canon.
Proof. intros cp _ _ _ H. apply plain_escape. exact H. Qed.

Lemma lit_plain c o : lit_cursor canon c o -> plain_string (bare o) -> wplain (wop_of_cursor c).
Proof.
  intros [_ F] P. unfold wplain, wop_of_cursor, plain_string in *. cbn [w_vals bare u_vals] in *.
  destruct F as [|a v atoms vs H F]; [exact Logic.I|]. cbn [map]. destruct F; [|cbn [map]; destruct (wval_of_atom (c_buf c) a); exact Logic.I].
  destruct a as [u|b e|cp n b e|b e]; cbn [wval_of_atom map]; try exact Logic.I.
  destruct v as [u'|z|[cps|]|t]; cbn [lit_atom] in H; try contradiction. destruct (cp =? 0) eqn:Z.
  - destruct H as (cs & (HE & HL & HP) & SB & -> & ->). intro N1. destruct cs as [|[bs c1] [|x cs]]; [discriminate| |cbn [length] in N1; lia].
    unfold chars_cps in P. cbn [map snd] in P. rewrite SB. unfold chars_text. cbn [map fst concat].
    rewrite app_nil_r. inversion HP as [|x y H1 H2]; subst. cbn [fst snd] in H1. exists c1. apply H1. exact P.
  - subst cps. intros _. exists cp. apply plain_escape. exact P.
Qed.
