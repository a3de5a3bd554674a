(* Where parsing stops early: an over-large integer, a reference without an id. *)
From Verif Require Import Prelude UuidModel UuidSpec UuidProofs CodecModel CodecSpec CodecProofs StringProofs
  TextTable TextModel TextSpec TextSafety TextTokens TokenValues TokenStrings FrameProofs BuilderSpec BuilderProofs.

Local Notation chars_lit := (chars_lit any_char).
Local Notation value_lit := (value_lit any_char).
Local Notation values_lit := (values_lit any_char).
Local Notation span_lit := (span_lit any_char).
Local Notation op_lit := (op_lit any_char).
Local Notation ops_lit := (ops_lit any_char).
Local Notation frame_lit := (frame_lit any_char).
Local Notation lit_atom := (lit_atom any_char).
Local Notation parsed := (parsed any_char).
Local Notation unwinds := (unwinds any_char).
Local Notation on_group := (on_group any_char).
Local Notation wval_ok := (wval_ok any_char).
Local Notation rep := (rep any_char).
Local Notation form := (form any_char).
Local Notation opened := (opened any_char).
Local Notation closed := (closed any_char).
Local Notation good_a := (good_a any_char).
Local Notation inv := (inv any_char).

Lemma next_run buf c p prev st l p' :
  ready buf c p prev -> skipn (N.to_nat p) buf <> [] ->
  run buf (N.of_nat (length buf)) 74 (loc0 p prev) p (skipn (N.to_nat p) buf) = Some (st, l, p') ->
  next c = if negb (l_term l =? 0) && negb (st =? 0) then NOk (mkCursor buf p' (l_op l) (chr2term (l_term l)) st (l_span l))
           else if RON_START <=? st then NEnd (mkCursor buf p' (l_op l) (c_term c) 0 (l_span l))
           else NBad (mkCursor buf p' (l_op l) (c_term c) 0 (l_span l)).
Proof.
  intros (EB & EP & ES & EST & EPR) NE RUN.
  unfold next. rewrite ES. cbn [N.eqb negb]. rewrite N.eqb_refl. cbn [negb].
  replace ((c_state c =? 0) && negb (c_pos c =? 0)) with false by (destruct EST as [->|[-> E0]]; [reflexivity|rewrite EP, E0; reflexivity]).
  replace (c_state c =? RON_FULL_STOP) with false by (destruct EST as [->|[-> _]]; reflexivity).
  replace (if c_state c =? 0 then RON_START else c_state c) with 74 by (destruct EST as [->|[-> _]]; reflexivity).
  replace (c_pos c =? N.of_nat (length (c_buf c))) with false.
  - rewrite EB, EP, EPR, RUN. reflexivity.
  - symmetry. rewrite EB, EP. apply N.eqb_neq. intro K. apply NE. apply skipn_all2. lia.
Qed.

Lemma ready0 buf : ready buf (cursor_of buf) 0 NIL.
Proof. split; [reflexivity|]. split; [reflexivity|]. split; [reflexivity|]. split; [right; split; reflexivity|reflexivity]. Qed.

(* text that stops at a reference with no id before it *)
Lemma scan_lone_ref s ops w x f : ops_lit NIL s ops -> blank w ->
  N.of_nat (length (s ++ w ++ 58 :: x)) < 2 ^ 32 ->
  scan (S (length ops + f)) (cursor_of (s ++ w ++ 58 :: x)) = (ops, SBad).
Proof.
  intros O W L. set (buf := s ++ w ++ 58 :: x) in *.
  destruct (scan_ops buf NIL s ops O L _ 0 (w ++ 58 :: x) (ready0 buf) eq_refl) as (c' & RD & SC).
  replace (S (length ops + f)) with (length ops + S f)%nat by lia. rewrite SC. rewrite N.add_0_l in RD.
  assert (HS : skipn (N.to_nat (N.of_nat (length s))) buf = w ++ 58 :: x).
  { rewrite Nat2N.id. unfold buf. rewrite skipn_app, skipn_all, Nat.sub_diag. reflexivity. }
  assert (NX : exists c'', next c' = NBad c'').
  { eexists. rewrite (next_run buf c' _ _ 0 (loc0 (N.of_nat (length s)) (last_id NIL ops)) (N.of_nat (length s) + N.of_nat (length w)) RD).
    - reflexivity.
    - rewrite HS. destruct w; discriminate.
    - rewrite HS, (run_runs _ _ _ _ _ _ _ _ _ (blank_run buf _ 74 _ _ w ltac:(cbn; tauto) W)). reflexivity. }
  destruct NX as (c'' & NX). cbn [scan]. rewrite NX. cbn [fst snd]. rewrite app_nil_r. reflexivity.
Qed.

(* a literal that fails the size check is long enough to be checked *)
Lemma big_literal t v : int_literal t v -> ~ int_fits t -> int_too_big t = true /\ (19 <= length t)%nat.
Proof.
  intros L NF. split.
  - destruct (int_too_big t) eqn:E; [reflexivity|]. exfalso. apply NF. apply (int_fits_ok t v L). exact E.
  - destruct L as [s Hn F|s Hn F|s Hn F].
    + destruct s as [|c s]; [contradiction|]. cbn [int_fits] in NF. inversion F as [|x y F1 F2]; subst. unfold is_dec in F1.
      replace ((c =? 43) || (c =? 45)) with false in NF by lia.
      destruct (Nat.le_gt_cases 19 (length (c :: s))) as [H|H]; [exact H|].
      exfalso. apply NF. left. lia.
    + cbn [int_fits N.eqb orb] in NF. cbn [length]. destruct (Nat.le_gt_cases 18 (length s)) as [H|H]; [lia|].
      exfalso. apply NF. left. lia.
    + cbn [int_fits N.eqb orb] in NF. cbn [length]. destruct (Nat.le_gt_cases 18 (length s)) as [H|H]; [lia|].
      exfalso. apply NF. left. lia.
Qed.

(* text with an over-large integer among the values of an op *)
Lemma scan_big_int s ops w sp id ref vt vs wv t v d rest f :
  ops_lit NIL s ops -> blank w -> spec_lit (last_id NIL ops) sp id ref ->
  values_lit (match sp with [] => true | _ => false end) vt vs -> blank wv -> wv <> [] ->
  int_literal t v -> ~ int_fits t -> ws_char d \/ (exists k, term_lit d k) ->
  N.of_nat (length (s ++ w ++ sp ++ vt ++ wv ++ t ++ d :: rest)) < 2 ^ 32 ->
  scan (S (length ops + f)) (cursor_of (s ++ w ++ sp ++ vt ++ wv ++ t ++ d :: rest)) =
    (ops, if (d =? 9) || (d =? 10) || (d =? 13) || (d =? 32) then SBad else SEnd).
Proof.
  intros O W SP VL WV NWV IL NF HD L. set (buf := s ++ w ++ sp ++ vt ++ wv ++ t ++ d :: rest) in *.
  destruct (big_literal t v IL NF) as [TB TL].
  destruct (scan_ops buf NIL s ops O L _ 0 _ (ready0 buf) eq_refl) as (c' & RD & SC).
  replace (S (length ops + f)) with (length ops + S f)%nat by lia. rewrite SC. rewrite N.add_0_l in RD.
  set (p := N.of_nat (length s)) in *. set (prev := last_id NIL ops) in *.
  assert (HS : skipn (N.to_nat p) buf = w ++ sp ++ vt ++ wv ++ t ++ d :: rest).
  { unfold p. rewrite Nat2N.id. unfold buf. rewrite skipn_app, skipn_all, Nat.sub_diag. reflexivity. }
  pose proof (skipn_text _ _ _ _ HS) as HS1.
  assert (DD : is_delim d = true).
  { destruct HD as [H|(k & H)]; [apply ws_delim; exact H|destruct H; reflexivity]. }
  assert (DW : delimited (wv ++ t ++ d :: rest)).
  { destruct WV as [|c wv Hc WV]; [contradiction|]. eexists c, _. split; [reflexivity|apply ws_delim; exact Hc]. }
  destruct (spec_run buf (N.of_nat (length buf)) prev sp id ref (loc0 p prev) _ _ SP HS1) as (st1 & l1 & I1 & _ & S1 & O1 & R1).
  { destruct sp as [|y sp]; [right; reflexivity|]. left. apply (values_delimited (CW := any_char) vt vs); [exact VL|exact DW]. }
  { eexists _, _. reflexivity. }
  { reflexivity. }
  pose proof (skipn_text _ _ _ _ HS1) as HS2.
  destruct (values_run buf (N.of_nat (length buf)) _ vt vs VL L st1 l1 _ _ I1 HS2 DW) as (st2 & l2 & atoms & I2 & S2 & O2 & V2 & A2 & R2).
  pose proof (skipn_text _ _ _ _ HS2) as HS3. pose proof (skipn_text _ _ _ _ HS3) as HS4.
  assert (LK : exists acts, look (text_row 4) d = Some (acts, if (d =? 9) || (d =? 10) || (d =? 13) || (d =? 32) then 4 else 74)).
  { destruct HD as [[->|[->|[->| ->]]]|(k & H)]; [eexists; reflexivity|eexists; reflexivity|eexists; reflexivity|eexists; reflexivity|].
    destruct H; eexists; reflexivity. }
  destruct LK as (acts & LK).
  destruct (big_int_token buf (N.of_nat (length buf)) st2 l2 _ t v d rest acts _ I2 HS4 IL TB TL DD LK) as (l3 & S3 & R3).
  destruct (same_trans _ _ _ (same_trans _ _ _ S1 S2) S3) as [_ Z].
  remember (p + N.of_nat (length w) + N.of_nat (length sp) + N.of_nat (length vt) + N.of_nat (length wv) + N.of_nat (length t) + 1) as q eqn:EQ.
  assert (NX : next c' = if RON_START <=? (if (d =? 9) || (d =? 10) || (d =? 13) || (d =? 32) then 4 else 74)
     then NEnd (mkCursor buf q (l_op l3) (c_term c') 0 (l_span l3)) else NBad (mkCursor buf q (l_op l3) (c_term c') 0 (l_span l3))).
  { rewrite (next_run buf c' p prev (if (d =? 9) || (d =? 10) || (d =? 13) || (d =? 32) then 4 else 74) l3 q RD).
    - rewrite Z. cbn [loc0 l_term N.eqb negb andb]. reflexivity.
    - rewrite HS. destruct w; [|discriminate]. destruct sp; [|discriminate]. destruct vt; [|discriminate]. destruct wv; [contradiction|discriminate].
    - rewrite HS. rewrite (run_runs _ _ _ _ _ _ _ _ _ (blank_run buf _ 74 _ p w ltac:(cbn; tauto) W)).
      rewrite R1, R2. rewrite (run_runs _ _ _ _ _ _ _ _ _ (blank_run buf _ st2 l2 _ wv ltac:(cbn in I2 |- *; tauto) WV)).
      exact R3. }
  cbn [scan]. rewrite NX. destruct ((d =? 9) || (d =? 10) || (d =? 13) || (d =? 32)); cbn [fst snd]; rewrite app_nil_r; reflexivity.
Qed.

(* ---- a builder never takes back text before the op it is writing ---- *)

Definition kept (base : bytes) (b : builder) (lo : wop) (last : uop) (opn ext : bool) : Prop :=
  b_prev b = u_id last /\ b_prev2 b = sig_of (u_vals last) /\ rep lo last /\
  exists x, b_data b = base ++ x /\
    (if opn then if ext then 2 <= b_span b
                 else b_span b = 1 /\ exists y, x = y ++ flat_map (fun v => 32 :: value_text v) (w_vals lo)
     else b_span b = 0).

Lemma write_term_kept t b : exists y, b_data (write_term t b) = b_data b ++ y.
Proof.
  unfold write_term. destruct (b_span b =? 0); [exists []; symmetry; apply app_nil_r|]. cbn [b_data]. eexists. reflexivity.
Qed.

Lemma kept_new base b o u x : rep o u -> b_data b = base ++ x ->
  kept base (write_values o (write_spec (w_id o) (w_ref o) (write_term REDUCED b))) o u true false.
Proof.
  intros R D. pose proof R as (E1 & E2 & _ & _ & F).
  destruct (write_term_keeps REDUCED b) as (_ & _ & K3).
  destruct (write_term_kept REDUCED b) as (y & D1).
  unfold write_spec. rewrite (write_term_closed REDUCED _ K3). unfold write_values. cbn [b_prev b_prev2 b_span b_data].
  split; [exact E1|]. split; [apply (signature_ok (CW := any_char)); exact F|]. split; [exact R|].
  set (sp := (if uuid_eqb (w_id o) (inc (b_prev (write_term REDUCED b))) then [] else 64 :: write_uuid (w_id o)) ++
     (if uuid_eqb (w_ref o) (b_prev (write_term REDUCED b)) then []
      else (if uuid_eqb (w_id o) (inc (b_prev (write_term REDUCED b))) then [] else [32]) ++ 58 :: write_uuid (w_ref o))).
  set (vt := flat_map (fun v => 32 :: value_text v) (w_vals o)).
  rewrite D1, D. exists (x ++ y ++ sp ++ vt).
  split; [rewrite <- !app_assoc; reflexivity|]. split; [reflexivity|].
  exists (x ++ y ++ sp). rewrite <- !app_assoc. reflexivity.
Qed.

Lemma kept_step base cs : forall b lo last opn ext, kept base b lo last opn ext -> good_a lo last opn ext cs ->
  exists b' x, build_from b (map to_b cs) = Some b' /\ b_data b' = base ++ x.
Proof.
  induction cs as [|c cs IH]; intros b lo last opn ext K G.
  - destruct K as (_ & _ & _ & x & D & _). exists b, x. split; [reflexivity|exact D].
  - unfold build_from. cbn [map fold_left].
    destruct c as [o u|t]; cbn [good_a] in G; cbn [to_b bstep].
    + destruct G as (R & Q & C & G). pose proof R as (E1 & E2 & _ & _ & FV).
      pose proof K as (BP & P2 & RL & x & D & SH).
      unfold append_op. rewrite (spans_agree (CW := any_char) o u b last E1 E2 FV BP P2).
      destruct (continues last u) eqn:EC.
      * destruct (C eq_refl) as [-> PL].
        assert (CO := EC). unfold continues in CO. apply andb_prop in CO as [CO SK]. apply andb_prop in CO as [C1 C2].
        apply uuid_eqb_eq in C1, C2.
        assert (SG : sig_of (u_vals u) = sig_of (u_vals last)).
        { pose proof (sig_continues (u_vals last) (u_vals u)) as X. rewrite SK in X. apply andb_prop in X as [_ X].
          destruct (sig_of (u_vals u)), (sig_of (u_vals last)); cbn [sig_eqb] in X; try discriminate; [|reflexivity].
          apply uuid_eqb_eq in X. congruence. }
        assert (FIN : forall d z, d = base ++ z -> exists b1,
           Some (mkBuilder (inc (b_prev b)) (b_prev2 b) (b_span b + 1) d) = Some b1 /\ kept base b1 o u true true).
        { intros d z ->. eexists. split; [reflexivity|]. split; [cbn [b_prev]; congruence|]. split; [cbn [b_prev2]; congruence|].
          split; [exact R|]. exists z. split; [reflexivity|]. cbn [b_span]. destruct ext; [|destruct SH]; lia. }
        assert (ES : exists b1, extend_span o b = Some b1 /\ kept base b1 o u true true).
        { unfold extend_span. destruct (b_prev2 b) as [su|] eqn:E2'; [apply (FIN _ x D)|].
          destruct ext.
          - replace (b_span b =? 1) with false by lia. apply (FIN _ (x ++ utf8esc_append (match w_vals o with [WStr _ _ f] => f | _ => 0 end))).
            rewrite D, <- app_assoc. reflexivity.
          - destruct SH as (S1 & y & EX). replace (b_span b =? 1) with true by lia.
            destruct PL as [PL|PL]; [discriminate|].
            destruct RL as (_ & _ & _ & _ & FL). unfold wplain in PL.
            destruct (u_vals last) as [|[lu|z|[[|lc [|lc2 lcps]]|]|ft] [|v2 vs2]] eqn:EL; try discriminate P2.
            destruct (w_vals lo) as [|lwv lws] eqn:LEW; inversion FL as [|lwv' v lws' vs LH FL2 EQ2]; subst. inversion FL2; subst.
            destruct lwv as [|lt|linner ln lfirst]; cbn [wval_ok] in LH; try contradiction.
            destruct LH as (lcs & LCL & LEI & LEC & LEN & LH1).
            destruct (PL LEN) as [c ->]. destruct (single_byte lcs c LCL (eq_sym LEI)) as (cp & -> & N39).
            cbn [flat_map value_text app] in D.
            replace (base ++ y ++ [32; 39; c; 39]) with ((base ++ y ++ [32]) ++ [39; c; 39]) in D by (rewrite <- !app_assoc; reflexivity).
            rewrite D, rev_app_distr. cbn [rev app]. rewrite strip_one by exact N39. rewrite rev_involutive.
            eapply FIN. rewrite <- !app_assoc. reflexivity. }
        destruct ES as (b1 & -> & K1). apply (IH b1 o u true true K1 G).
      * apply (IH _ o u true false); [|exact G]. apply (kept_new base b o u x R D).
    + destruct G as (T & G). unfold end_chunk.
      replace (t =? REDUCED) with false by (cbn [In] in T; unfold RAW, HEADER, QUERY, REDUCED in *; lia).
      apply (IH (write_term t b) lo last false ext); [|exact G].
      destruct K as (BP & P2 & RL & x & D & _). destruct (write_term_keeps t b) as (K1 & K2 & K3). destruct (write_term_kept t b) as (y & D1).
      split; [congruence|]. split; [congruence|]. split; [exact RL|]. exists (x ++ y). split; [rewrite D1, D, <- app_assoc; reflexivity|exact K3].
Qed.

Lemma build_lone_ref cs1 o u cs2 :
  good_a lo0 origin_op false false cs1 -> rep o u ->
  u_id u = inc (u_id (last_uop origin_op (map to_u cs1))) -> u_ref u <> u_id (last_uop origin_op (map to_u cs1)) ->
  good_a o u true false cs2 -> N.of_nat (length cs1) < 2 ^ 32 ->
  exists s w x pre, build (map to_b (cs1 ++ AApp o u :: cs2)) = Some (s ++ w ++ 58 :: x) /\ ops_lit NIL s pre /\ blank w /\
    denote (map to_u (cs1 ++ AApp o u :: cs2)) = pre ++ denote (UAppend u :: map to_u cs2).
Proof.
  intros G1 R EI NR G2 L.
  destruct (inv_step cs1 any_writes builder0 [] [] _ _ lo0 origin_op false false 0 (inv0 lo0) G1 L)
    as (b1 & done & ms & pend & pm & lo' & opn' & ext' & k' & B & I & K & EQ & _).
  set (last := last_uop origin_op (map to_u cs1)) in *.
  assert (NC : continues last u = false).
  { unfold continues. replace (uuid_eqb (u_ref u) (u_id last)) with false; [rewrite andb_false_r; reflexivity|].
    destruct (uuid_eqb (u_ref u) (u_id last)) eqn:E; [apply uuid_eqb_eq in E; contradiction|reflexivity]. }
  specialize (EQ (UAppend u :: map to_u cs2)). cbn [term_after app] in EQ. rewrite NC in EQ.
  assert (CL : exists ms1, closed (write_term REDUCED b1) (done ++ pend REDUCED) ms1 last).
  { inversion I as [? ? ? ? ? CL|? ? id ref vss ? ? ? OP]; subst.
    - exists ms. rewrite (write_term_closed REDUCED b1) by apply CL. rewrite app_nil_r. exact CL.
    - eexists. eapply close_ok; [exact OP|exact K|cbn; tauto]. }
  destruct CL as (ms1 & CL).
  assert (BP1 : b_prev b1 = u_id last /\ b_prev2 b1 = sig_of (u_vals last)).
  { destruct CL as (_ & X & Y & _). destruct (write_term_keeps REDUCED b1) as (K1 & K2 & _). rewrite <- K1, <- K2. auto. }
  destruct CL as (ZS & BP & P2 & LI & s & w & D & W & O). apply ops_erase in O.
  pose proof R as (E1 & E2 & _ & _ & FV).
  assert (STEP : append_op o b1 = Some (write_values o (write_spec (w_id o) (w_ref o) (write_term REDUCED b1)))).
  { unfold append_op. rewrite (spans_agree (CW := any_char) o u b1 last E1 E2 FV) by apply BP1. rewrite NC. reflexivity. }
  set (b2 := write_values o (write_spec (w_id o) (w_ref o) (write_term REDUCED b1))) in *.
  assert (KP : kept (s ++ w ++ [58]) b2 o u true false).
  { destruct (kept_new [] b1 o u _ R eq_refl) as (A1 & A2 & A3 & _). fold b2 in A1, A2, A3.
    split; [exact A1|]. split; [exact A2|]. split; [exact A3|].
    exists (write_uuid (w_ref o) ++ flat_map (fun v => 32 :: value_text v) (w_vals o)). split.
    - unfold b2, write_spec. rewrite (write_term_closed REDUCED _ ZS). unfold write_values. cbn [b_data].
      rewrite D, BP, E1, E2, EI. replace (uuid_eqb (inc (u_id last)) (inc (u_id last))) with true by (symmetry; apply uuid_eqb_eq; reflexivity).
      replace (uuid_eqb (u_ref u) (u_id last)) with false
        by (symmetry; destruct (uuid_eqb (u_ref u) (u_id last)) eqn:E; [apply uuid_eqb_eq in E; contradiction|reflexivity]).
      cbn [app]. rewrite <- !app_assoc. reflexivity.
    - split; [reflexivity|]. exists (write_uuid (w_ref o)). reflexivity. }
  destruct (kept_step _ cs2 b2 o u true false KP G2) as (b3 & x & B3 & D3).
  assert (RL : exists y, fst (release b3) = s ++ w ++ 58 :: y).
  { unfold release. cbn [fst]. destruct (b_span b3 =? 0).
    - exists x. rewrite D3, <- !app_assoc. reflexivity.
    - destruct (write_term_kept RAW b3) as (y & ->). exists (x ++ y). rewrite D3, <- !app_assoc. reflexivity. }
  destruct RL as (y & RL). exists s, w, y, (done ++ pend REDUCED). split; [|split; [exact O|split; [exact W|]]].
  - unfold build. unfold build_from in *. rewrite map_app, fold_left_app. cbn [map fold_left to_b bstep]. rewrite B.
    cbn [bstep]. rewrite STEP. rewrite B3. cbn [option_map]. rewrite RL. reflexivity.
  - rewrite map_app. cbn [map to_u]. rewrite <- app_assoc. exact EQ.
Qed.

(* ---- an unknown escape in a string ---- *)

Lemma bad_escape buf pe st l p cs c rest : In st [4; 63; 74] -> esc_text cs -> N.of_nat (length cs) < two32 ->
  look (text_row 51) c = None ->
  exists l2 q, run buf pe st l p (39 :: concat (map fst cs) ++ 92 :: c :: rest) = Some (0, l2, q).
Proof.
  intros I H B NL.
  assert (L : look (text_row st) 39 = Some ([], 1)) by (destruct I as [<-|[<-|[<-|[]]]]; reflexivity).
  rewrite (run_step _ _ _ _ _ _ _ _ _ _ L eq_refl).
  pose proof sm_ok_true as M. apply andb_prop in M as [M _].
  assert (FIN : forall st1 A l1 l1' q, In (st1, A) (entries sm_value) -> exec_all buf pe A 92 q l1 = ECont l1' ->
     exists l2 q2, run buf pe st1 l1 q (92 :: c :: rest) = Some (0, l2, q2)).
  { intros st1 A l1 l1' q J E.
    assert (LK : look (text_row st1) 92 = Some (A, 51)).
    { cbn [entries In sm_value m_open m_in m_uni] in J. repeat destruct J as [J|J]; try contradiction; inversion J; subst; reflexivity. }
    rewrite (run_step _ _ _ _ _ _ _ _ _ _ LK E). cbn [run]. rewrite NL. eauto. }
  inversion H as [|[bs cp] cs' C F]; subst.
  - cbn [map concat app]. eapply (FIN _ [a_begin_string]); [left; reflexivity|reflexivity].
  - cbn [fst snd] in C. cbn [map fst concat]. rewrite <- app_assoc. cbn [length] in B.
    destruct (char_run sm_value buf pe 1 [a_begin_string] bs cp l (in_str l (p + 1) 0) (p + 1) M) as (st1 & S1 & R1);
      [left; reflexivity|exact C|reflexivity|].
    rewrite (run_runs _ _ _ _ _ _ _ _ _ R1).
    destruct (chars_run sm_value buf pe cs' M F st1 l (p + 1) 0 (p + 1 + N.of_nat (length bs)) S1 ltac:(lia)) as (st2 & S2 & R2).
    rewrite (run_runs _ _ _ _ _ _ _ _ _ R2).
    destruct S2 as [->| ->].
    + eapply (FIN _ [a_end_cp]); [right; left; reflexivity|reflexivity].
    + eapply (FIN _ [a_string_uesc; a_end_cp]); [right; right; left; reflexivity|reflexivity].
Qed.

Lemma scan_bad_escape s ops w sp id ref wv cs c rest f :
  ops_lit NIL s ops -> blank w -> spec_lit (last_id NIL ops) sp id ref -> blank wv -> wv <> [] ->
  esc_text cs -> look (text_row 51) c = None ->
  N.of_nat (length (s ++ w ++ sp ++ wv ++ 39 :: concat (map fst cs) ++ 92 :: c :: rest)) < 2 ^ 32 ->
  scan (S (length ops + f)) (cursor_of (s ++ w ++ sp ++ wv ++ 39 :: concat (map fst cs) ++ 92 :: c :: rest)) = (ops, SBad).
Proof.
  intros O W SP WV NWV ET NL L. set (buf := s ++ w ++ sp ++ wv ++ 39 :: concat (map fst cs) ++ 92 :: c :: rest) in *.
  assert (LC : N.of_nat (length cs) < two32).
  { eapply N.le_lt_trans; [|exact L]. unfold buf. rewrite !app_length. cbn [length]. rewrite app_length.
    assert (length cs <= length (concat (map fst cs)))%nat; [|lia].
    clear -ET. induction ET as [|[bs cp] cs C F IH]; [reflexivity|]. cbn [map fst concat length]. rewrite app_length.
    destruct bs as [|b bs]; [destruct (esc_nonempty _ _ C eq_refl)|]. cbn [length]. lia. }
  destruct (scan_ops buf NIL s ops O L _ 0 _ (ready0 buf) eq_refl) as (c' & RD & SC).
  replace (S (length ops + f)) with (length ops + S f)%nat by lia. rewrite SC. rewrite N.add_0_l in RD.
  set (p := N.of_nat (length s)) in *. set (prev := last_id NIL ops) in *.
  assert (HS : skipn (N.to_nat p) buf = w ++ sp ++ wv ++ 39 :: concat (map fst cs) ++ 92 :: c :: rest).
  { unfold p. rewrite Nat2N.id. unfold buf. rewrite skipn_app, skipn_all, Nat.sub_diag. reflexivity. }
  pose proof (skipn_text _ _ _ _ HS) as HS1.
  destruct (spec_run buf (N.of_nat (length buf)) prev sp id ref (loc0 p prev) _ _ SP HS1) as (st1 & l1 & I1 & _ & S1 & O1 & R1).
  { left. destruct WV as [|d wv Hc WV]; [contradiction|]. eexists d, _. split; [reflexivity|apply ws_delim; exact Hc]. }
  { eexists _, _. reflexivity. }
  { reflexivity. }
  destruct (bad_escape buf (N.of_nat (length buf)) st1 l1 (p + N.of_nat (length w) + N.of_nat (length sp) + N.of_nat (length wv)) cs c rest I1 ET LC NL)
    as (l2 & q & R2).
  assert (NX : exists c'', next c' = NBad c'').
  { eexists. rewrite (next_run buf c' p prev 0 l2 q RD).
    - rewrite N.eqb_refl. cbn [negb]. rewrite andb_false_r. reflexivity.
    - rewrite HS. destruct w; [|discriminate]. destruct sp; [|discriminate]. destruct wv; [contradiction|discriminate].
    - rewrite HS. rewrite (run_runs _ _ _ _ _ _ _ _ _ (blank_run buf _ 74 _ p w ltac:(cbn; tauto) W)).
      rewrite R1. rewrite (run_runs _ _ _ _ _ _ _ _ _ (blank_run buf _ st1 l1 _ wv ltac:(cbn in I1 |- *; tauto) WV)).
      exact R2. }
  destruct NX as (c'' & NX). cbn [scan]. rewrite NX. cbn [fst snd]. rewrite app_nil_r. reflexivity.
Qed.

(* the text of a frame with one string *)
Lemma one_string_text o : (forall u, w_vals o <> [WUuid u]) ->
  build [BAppend o] = Some (b_data (write_spec (w_id o) (w_ref o) builder0) ++ flat_map (fun v => 32 :: value_text v) (w_vals o) ++ [59; 10]).
Proof.
  intro NU. unfold build, build_from. cbn [fold_left bstep append_op].
  assert (SS : is_same_span o builder0 = false).
  { unfold is_same_span, span_signature. cbn [builder0 b_prev b_prev2].
    destruct (w_vals o) as [|[u|t|i n f] [|v2 vs]] eqn:E; try (rewrite andb_false_r; reflexivity).
    - destruct (NU u eq_refl).
    - destruct (n =? 1); rewrite andb_false_r; reflexivity. }
  unfold append_op. rewrite SS. cbn [option_map].
  change (write_term REDUCED builder0) with builder0.
  set (b1 := write_spec (w_id o) (w_ref o) builder0).
  assert (E1 : b_span (write_values o b1) = 1) by reflexivity.
  unfold release. rewrite E1. unfold write_term. rewrite E1. cbn [N.eqb fst b_data write_values].
  change (1 <? 1) with false. cbv match. cbn [app]. rewrite <- app_assoc. reflexivity.
Qed.

Lemma until_zero_ok s : ~ In 0 s -> until_zero s = s.
Proof.
  induction s as [|c s IH]; intro N; [reflexivity|]. cbn [until_zero]. cbn [In] in N.
  replace (c =? 0) with false by lia. rewrite IH by tauto. reflexivity.
Qed.
Lemma until_zero_short s : ~ In 0 (until_zero s) /\ (forall c, In c (until_zero s) -> In c s).
Proof.
  induction s as [|c s [IH1 IH2]]; [split; [intros []|auto]|]. cbn [until_zero].
  destruct (c =? 0) eqn:E; [split; [intros []|intros d []]|]. split.
  - cbn [In]. intros [H|H]; [lia|tauto].
  - intros d [->|H]; [left; reflexivity|right; auto].
Qed.

Lemma first_ff s : In 12 s -> exists a b, s = a ++ 12 :: b /\ ~ In 12 a.
Proof.
  induction s as [|c s IH]; intro H; [destruct H|]. destruct (c =? 12) eqn:E.
  - exists [], s. apply N.eqb_eq in E. subst. split; [reflexivity|intros []].
  - destruct H as [H|H]; [lia|]. destruct (IH H) as (a & b & -> & N). exists (c :: a), b. split; [reflexivity|].
    cbn [In]. intros [X|X]; [lia|tauto].
Qed.

Lemma string_frame id ref s : id_ok id -> id_ok ref -> (id = inc NIL -> ref = NIL) -> Forall (fun cp => cp < 2 ^ 21) s ->
  exists text, build_calls [UAppend (mkUop id ref [VStr (Some s)])] = Some text /\
    (N.of_nat (length text) < 2 ^ 32 ->
     (~ In 0 s /\ ~ In 12 s <-> scan 2 (cursor_of text) = ([mkRop id ref [VStr (Some s)] RAW], SEnd))).
Proof.
  intros I1 I2 Q F.
  assert (GOOD : forall s', Forall (fun cp => cp < 2 ^ 21) s' -> ~ In 0 s' -> ~ In 12 s' ->
    exists text, build_calls [UAppend (mkUop id ref [VStr (Some s')])] = Some text /\
      (N.of_nat (length text) < 2 ^ 32 -> scan 2 (cursor_of text) = ([mkRop id ref [VStr (Some s')] RAW], SEnd))).
  { intros s' F' N0 N12. destruct (build_calls_frame [UAppend (mkUop id ref [VStr (Some s')])] any_writes) as (text & B & FL).
    - cbn [good_calls u_id u_ref u_vals]. split; [|split; [exact Q|split; [|exact Logic.I]]].
      + split; [exact I1|]. split; [exact I2|]. constructor; [|constructor]. cbn [value_ok].
        rewrite Forall_forall in *. intros c Ic. split; [apply F'; exact Ic|]. split; intros ->; tauto.
      + unfold continues. cbn [origin_op u_vals same_kind]. rewrite andb_false_r. discriminate.
    - reflexivity.
    - exists text. split; [exact B|]. intro L. exact (scan_frame text _ 0 FL L). }
  unfold build_calls in *. cbn [calls_of u_id u_ref u_vals wop_of_op wvals_of wval_of_value option_map] in *.
  unfold wop_of_op in *. cbn [wvals_of wval_of_value option_map] in *.
  eexists. split; [apply one_string_text; discriminate|]. cbn [w_id w_ref w_vals flat_map value_text].
  set (pre := b_data (write_spec id ref builder0)) in *.
  intro L. split.
  - intros [N0 N12]. destruct (GOOD s F N0 N12) as (text & B & SC).
    rewrite one_string_text in B by discriminate. cbn [w_id w_ref w_vals flat_map value_text] in B. fold pre in B.
    injection B as B. subst text. apply SC. exact L.
  - intro SC. destruct (in_dec N.eq_dec 12 (until_zero s)) as [I12|N12].
    + exfalso. destruct (first_ff _ I12) as (a & b & E & NA). destruct (until_zero_short s) as [U1 U2].
      rewrite E in L, SC, U1, U2. set (cs := map (fun cp => (utf8esc_append cp, cp)) a).
      assert (ET : esc_text cs).
      { unfold cs, esc_text. apply Forall_map. apply Forall_forall. intros c Ic. cbn [fst snd].
        rewrite Forall_forall in F. apply utf8esc_char.
        - apply F. apply U2. apply in_or_app. left. exact Ic.
        - intros ->. apply U1. apply in_or_app. left. exact Ic.
        - intros ->. tauto. }
      assert (TX : flat_map utf8esc_append (a ++ 12 :: b) = concat (map fst cs) ++ 92 :: 102 :: flat_map utf8esc_append b).
      { rewrite flat_map_app. cbn [flat_map]. unfold cs. rewrite map_map. cbn [fst]. rewrite flat_map_concat_map. reflexivity. }
      rewrite TX in L, SC.
      assert (SP : spec_lit NIL pre id ref).
      { unfold pre, write_spec. change (write_term REDUCED builder0) with builder0. cbn [b_data builder0 b_prev app].
        destruct (uuid_eqb id (inc NIL)) eqn:E1.
        - apply uuid_eqb_eq in E1. rewrite (Q E1), E1. cbn. constructor.
        - destruct (uuid_eqb ref NIL) eqn:E2.
          + apply uuid_eqb_eq in E2. rewrite E2, app_nil_r. apply sl_id. apply write_uuid_lit. exact I1.
          + cbn [app]. apply (sl_both _ _ _ [32]); try (apply write_uuid_lit; assumption); [|discriminate].
            constructor; [unfold ws_char; tauto|constructor]. }
      match type of L with context[length ?X] =>
        replace X with (pre ++ [32] ++ 39 :: concat (map fst cs) ++ 92 :: 102 :: flat_map utf8esc_append b ++ [39; 59; 10]) in L, SC
          by (cbn [app]; rewrite ?app_nil_r; cbn [app]; rewrite <- ?app_assoc; cbn [app]; rewrite <- ?app_assoc; reflexivity) end.
      cbn [app] in L, SC.
      assert (W32 : blank [32]) by (constructor; [unfold ws_char; tauto|constructor]).
      pose proof (scan_bad_escape [] [] [] pre id ref [32] cs 102 (flat_map utf8esc_append b ++ [39; 59; 10]) 1 (os_nil NIL) ltac:(constructor) SP W32 ltac:(discriminate) ET eq_refl) as X.
      cbn [app length Nat.add] in X. rewrite (X L) in SC. discriminate.
    + destruct (until_zero_short s) as [U1 U2].
      assert (F' : Forall (fun cp => cp < 2 ^ 21) (until_zero s)).
      { rewrite Forall_forall in *. intros c Ic. apply F. apply U2. exact Ic. }
      destruct (GOOD _ F' U1 N12) as (text & B & SC').
      rewrite one_string_text in B by discriminate. cbn [w_id w_ref w_vals flat_map value_text] in B. fold pre in B.
      rewrite (until_zero_ok _ U1) in B. injection B as B. subst text. pose proof (eq_trans (eq_sym (SC' L)) SC) as SE.
      injection SE as E. rewrite E in U1, N12. auto.
Qed.

(* a character outside numbers *)
Lemma not_float t : existsb (fun c => negb (((48 <=? c) && (c <=? 57)) || (c =? 69) || (c =? 101) || (c =? 43) || (c =? 45))) t = true ->
  ~ float_like t.
Proof.
  intros H (a & e & b & -> & _ & Fa & He & Hb). apply existsb_exists in H as (c & I & H).
  assert (D : forall s x, Forall is_dec s -> In x s -> 48 <= x <= 57).
  { intros s x F J. rewrite Forall_forall in F. exact (F x J). }
  unfold exp_char, sign_char in *. apply in_app_or in I as [I|[I|I]].
  - apply (D _ _ Fa) in I. lia.
  - lia.
  - destruct Hb as [[_ Fb]|(g & d & -> & Hg & _ & Fd)].
    + apply (D _ _ Fb) in I. lia.
    + destruct I as [I|I]; [lia|]. apply (D _ _ Fd) in I. lia.
Qed.
