(* The builder writes frames that denote the ops appended to it. *)
From Verif Require Import Prelude UuidModel UuidSpec UuidProofs CodecModel CodecSpec CodecProofs StringProofs
  TextTable TextModel TextSpec TextSafety TextTokens TokenValues TokenStrings FrameProofs BuilderSpec.

Set Default Proof Using "Type".
Section BuilderProofs.
Context {CW : bytes -> N -> Prop}.
Local Notation chars_lit := (chars_lit CW).
Local Notation value_lit := (value_lit CW).
Local Notation values_lit := (values_lit CW).
Local Notation span_lit := (span_lit CW).
Local Notation op_lit := (op_lit CW).
Local Notation ops_lit := (ops_lit CW).
Local Notation frame_lit := (frame_lit CW).
Local Notation op_marked := (op_marked CW).
Local Notation ops_marked := (ops_marked CW).
Local Notation frame_marked := (frame_marked CW).
Local Notation lit_atom := (lit_atom CW).
Local Notation parsed := (parsed CW).
Local Notation unwinds := (unwinds CW).
Local Notation on_group := (on_group CW).

(* ---- the text of a UUID ---- *)

Lemma write_uuid_lit u : id_ok u -> uuid_lit (write_uuid u) u.
Proof. clear CW.
  destruct u as [val org]. unfold id_ok, uuid_wf. cbn [uvalue uorigin]. intros [[Hv _] Ho].
  unfold write_uuid, variety, version, word_flags. cbn [uvalue uorigin].
  rewrite !shiftr_div.
  set (vrt := val / 2 ^ 60). set (f := org / 2 ^ 60).
  assert (Hvrt : vrt < 16). { apply N.div_lt_upper_bound; [vm_compute; discriminate|]. exact Hv. }
  assert (Hf : f < 4). { apply N.div_lt_upper_bound; [vm_compute; discriminate|]. exact Ho. }
  change 3 with (2 ^ 2 - 1). rewrite land_ones_mod. change (2 ^ 2) with 4.
  rewrite (N.mod_small f 4) by exact Hf.
  destruct (write_word_text val) as (D1 & L1 & V1).
  destruct (write_word_text org) as (D2 & L2 & V2).
  assert (Ev : vrt * 2 ^ 60 + val mod 2 ^ 60 = val).
  { unfold vrt. rewrite N.mul_comm. symmetry. apply N.div_mod. vm_compute; discriminate. }
  assert (Eo : f * 2 ^ 60 + org mod 2 ^ 60 = org).
  { unfold f. rewrite N.mul_comm. symmetry. apply N.div_mod. vm_compute; discriminate. }
  assert (Hvp : (if vrt =? 0 then [] else [base_punct vrt; 47]) = [] /\ vrt = 0 \/
          exists h, (if vrt =? 0 then [] else [base_punct vrt; 47]) = [h; 47] /\
             digit_value h = Some vrt /\ vrt < 16).
  { destruct (vrt =? 0) eqn:E; [left; split; [reflexivity|lia]|right].
    exists (base_punct vrt). destruct (base_punct_ok vrt ltac:(lia)) as (A & B & _).
    rewrite digit_value_dgt by exact B. rewrite A. auto. }
  assert (No : write_word org <> []) by (intro E; rewrite E in L2; cbn [length] in L2; lia).
  destruct (negb (f =? 0) || negb (org =? 0)) eqn:E.
  - replace (mkUuid val org) with (mkUuid (vrt * 2 ^ 60 + left_aligned 10 (write_word val)) (f * 2 ^ 60 + left_aligned 10 (write_word org)))
      by (rewrite V1, V2, Ev, Eo; reflexivity).
    apply uuid_lit_intro; try assumption; [|lia].
    right. exists (uuid_punct f). split; [reflexivity|]. split; [apply uuid_punct_version; exact Hf|exact No].
  - replace (mkUuid val org) with (mkUuid (vrt * 2 ^ 60 + left_aligned 10 (write_word val)) (0 * 2 ^ 60 + left_aligned 10 [])).
    + apply uuid_lit_intro; try assumption; [|constructor|cbn [length]; lia]. left. auto.
    + rewrite V1, Ev. cbn [left_aligned]. replace org with 0 by lia. reflexivity.
Qed.

Lemma all_digits_text tbl w : forallb is_decimal (write_word_loop tbl w) = true -> all_digits_loop tbl w = true.
Proof.
  induction tbl as [|[off low] tbl IH]; [reflexivity|]. cbn [write_word_loop all_digits_loop forallb].
  intro H. apply andb_prop in H as [H1 H2]. rewrite H1. cbn [andb].
  destruct (N.land w low =? 0); [reflexivity|apply IH; exact H2].
Qed.

Lemma number_like_ambiguous u : id_ok u -> number_like (write_uuid u) -> is_ambiguous u = true.
Proof. clear CW.
  intros [[Hv _] Ho] F. unfold write_uuid in F. unfold number_like in F.
  apply Forall_app in F as [_ F]. apply Forall_app in F as [F1 F2].
  unfold is_ambiguous. destruct (negb (version u =? 0) || negb (uorigin u =? 0)) eqn:E.
  - inversion F2 as [|x y P Q]; subst. exfalso. unfold is_dec in P.
    assert (V : version u < 4).
    { unfold version. change 3 with (2 ^ 2 - 1). rewrite land_ones_mod. apply N.mod_lt. discriminate. }
    assert (X : uuid_punct (version u) < 48).
    { assert (version u = 0 \/ version u = 1 \/ version u = 2 \/ version u = 3) as [->|[->|[->| ->]]] by lia; reflexivity. }
    lia.
  - replace (uorigin u =? 0) with true by lia. cbn [andb]. apply all_digits_text.
    apply forallb_forall. intros c I. rewrite Forall_forall in F1. specialize (F1 c I). unfold is_dec in F1. unfold is_decimal. lia.
Qed.

(* ---- values ---- *)

Definition wval_ok (w : wval) (v : value) : Prop :=
  match w, v with
  | WUuid u, VUuid u' => u = u' /\ id_ok u /\ ~ float_like (write_uuid u)
  | WNum t, VInt _ => value_lit t v
  | WNum t, VFloat _ => value_lit t v
  | WStr inner n first, VStr (Some cps) =>
      exists cs, chars_lit cs /\ inner = chars_text cs /\ cps = chars_cps cs /\ n = N.of_nat (length cps) /\
        (forall cp, cps = [cp] -> first = cp /\ cp < 2 ^ 21 /\ cp <> 0 /\ cp <> 12)
  | _, _ => False
  end.

Lemma value_text_lit w v : wval_ok w v -> value_lit (value_text w) v.
Proof.
  destruct w as [u|t|inner n first], v as [u'|z|[cps|]|t']; cbn [wval_ok value_text]; try contradiction.
  - intros (<- & I & F). destruct (is_ambiguous u) eqn:E.
    + apply vl_quoted. apply write_uuid_lit. exact I.
    + apply vl_bare; [apply write_uuid_lit; exact I| |exact F].
      intro K. pose proof (number_like_ambiguous u I K) as X. rewrite X in E. discriminate E.
  - auto.
  - auto.
  - intros (cs & C & -> & -> & _). apply vl_str. exact C.
Qed.

Lemma values_text_lit ws vs : Forall2 wval_ok ws vs -> forall f, values_lit f (flat_map (fun v => 32 :: value_text v) ws) vs.
Proof.
  induction 1 as [|w v ws vs H F IH]; intro f; [constructor|]. cbn [flat_map].
  apply (vls_cons f [32] (value_text w) v).
  - constructor; [unfold ws_char; tauto|constructor].
  - discriminate.
  - apply value_text_lit. exact H.
  - apply IH.
Qed.

(* ---- span signatures ---- *)

Definition sig_of (vs : list value) : sig :=
  match vs with
  | [VUuid u] => SigUuid u
  | [VStr (Some [_])] => SigStr
  | _ => SigUuid NIL
  end.

Lemma signature_ok o vs : Forall2 wval_ok (w_vals o) vs -> span_signature o = sig_of vs.
Proof.
  unfold span_signature. intro F. destruct F as [|w v ws vs H F]; [reflexivity|].
  destruct F as [|w2 v2 ws vs H2 F].
  - destruct w as [u|t|inner n first], v as [u'|z|[cps|]|t']; cbn [wval_ok] in H; try contradiction; try reflexivity.
    + destruct H as [-> _]. reflexivity.
    + destruct H as (cs & _ & _ & _ & -> & _). cbn [sig_of]. destruct cps as [|c1 [|c2 cps]]; [reflexivity|reflexivity|].
      cbn [length]. replace (N.of_nat (S (S (length cps))) =? 1) with false by lia. reflexivity.
  - cbn [sig_of]. destruct w, v as [u'|z|[[|c1 [|c2 cps]]|]|t']; reflexivity.
Qed.

Lemma sig_continues a b : negb (sig_eqb (sig_of a) (SigUuid NIL)) && sig_eqb (sig_of b) (sig_of a) = same_kind a b.
Proof.
  assert (E : forall u v, uuid_eqb u v = uuid_eqb v u).
  { intros u v. unfold uuid_eqb. rewrite (N.eqb_sym (uvalue u)), (N.eqb_sym (uorigin u)). reflexivity. }
  assert (Z : forall u, negb (uuid_eqb u NIL) && uuid_eqb NIL u = false).
  { intro u. rewrite (E NIL). destruct (uuid_eqb u NIL); reflexivity. }
  destruct a as [|[u|z|[[|c1 [|c2 cps]]|]|t] [|a2 a]]; try reflexivity;
  destruct b as [|[v|z'|[[|d1 [|d2 dps]]|]|t'] [|b2 b]]; cbn [sig_of sig_eqb same_kind negb andb]; try reflexivity; try apply Z.
  - rewrite (E v u), andb_comm. reflexivity.
  - apply andb_false_r.
Qed.

Lemma spans_agree o u b last :
  w_id o = u_id u -> w_ref o = u_ref u -> Forall2 wval_ok (w_vals o) (u_vals u) ->
  b_prev b = u_id last -> b_prev2 b = sig_of (u_vals last) ->
  is_same_span o b = continues last u.
Proof.
  intros E1 E2 F P1 P2. unfold is_same_span, continues. rewrite E1, E2, P1, P2, (signature_ok o _ F).
  rewrite <- andb_assoc, sig_continues, (andb_comm (uuid_eqb (u_ref u) _)). reflexivity.
Qed.

(* ---- texts and lists ---- *)

Lemma esc_len bs cp : esc_char bs cp -> ~ is_uni bs -> length bs <> 6%nat.
Proof. clear CW.
  destruct 1 as [bs cp C P|c cp H|a b c d va vb vc vd Ha Hb Hc Hd]; intro U.
  - destruct C; cbn [length]; lia.
  - cbn [length]. lia.
  - exfalso. apply U. exact Logic.I.
Qed.

Lemma esc_append_ok cp : cp < 2 ^ 21 -> cp <> 0 -> cp <> 12 ->
  esc_char (utf8esc_append cp) cp /\ length (utf8esc_append cp) <> 6%nat.
Proof.
  intros A B C. destruct (utf8esc_char cp A B C) as [D E]. split; [exact D|]. apply (esc_len _ cp); assumption.
Qed.

(* the builder's own way of writing characters is allowed *)
Definition writes : Prop := forall cp, cp < 2 ^ 21 -> cp <> 0 -> cp <> 12 -> CW (utf8esc_append cp) cp.

Lemma chars_lit_snoc cs bs cp : Forall (fun c => esc_char (fst c) (snd c)) cs -> Forall (fun c => CW (fst c) (snd c)) cs ->
  esc_char bs cp -> CW bs cp -> length bs <> 6%nat -> chars_lit (cs ++ [(bs, cp)]).
Proof.
  intros F FW E W L. split; [|split].
  - apply Forall_app. split; [exact F|]. constructor; [exact E|constructor].
  - intros bs' cp' r Q. apply app_inj_tail in Q as [_ Q]. inversion Q; subst. exact L.
  - apply Forall_app. split; [exact FW|]. constructor; [exact W|constructor].
Qed.

Lemma chars_text_app a b : chars_text (a ++ b) = chars_text a ++ chars_text b.
Proof. unfold chars_text. rewrite map_app, concat_app. reflexivity. Qed.

Lemma esc_nonempty bs cp : esc_char bs cp -> bs <> [].
Proof. destruct 1 as [bs cp C P| |]; try discriminate. destruct C; discriminate. Qed.

(* a text of one byte is one plain character *)
Lemma single_byte cs c : chars_lit cs -> chars_text cs = [c] -> exists cp, cs = [([c], cp)] /\ c <> 39.
Proof.
  intros [F _] E. destruct cs as [|[bs cp] cs]; [discriminate|].
  unfold chars_text in E. cbn [map fst concat] in E. inversion F as [|x y F1 F2]; subst. cbn [fst snd] in F1.
  destruct bs as [|b bs]; [destruct (esc_nonempty _ _ F1 eq_refl)|].
  cbn [app] in E. injection E as -> E. apply app_eq_nil in E as [-> E].
  destruct cs as [|[b2 c2] cs].
  - exists cp. split; [reflexivity|]. inversion F1 as [x y C P| |]; subst. destruct P as [P|P]; [|cbn [length] in P; lia].
    inversion C; subst. intros ->. apply P. cbn; tauto.
  - exfalso. cbn [map fst concat] in E. apply app_eq_nil in E as [-> E]. inversion F2 as [|x y F3 F4]; subst.
    apply (esc_nonempty _ _ F3). reflexivity.
Qed.

Lemma inc_times_S n u : inc_times (S n) u = inc (inc_times n u).
Proof. revert u. induction n as [|n IH]; intro u; [reflexivity|]. cbn [inc_times]. rewrite <- IH. reflexivity. Qed.

Lemma chain_snoc vss : forall id ref v t, vss <> [] ->
  chain id ref (vss ++ [v]) t =
  chain id ref vss t ++ [mkRop (inc (inc_times (length vss - 1) id)) (inc_times (length vss - 1) id) v t].
Proof.
  induction vss as [|vs vss IH]; intros id ref v t NE; [contradiction|].
  destruct vss as [|v2 vss]; [reflexivity|].
  cbn [app chain]. apply f_equal. specialize (IH (inc id) id v t ltac:(discriminate)).
  cbn [app chain] in IH. rewrite IH. cbn [length]. rewrite !Nat.sub_succ, !Nat.sub_0_r. reflexivity.
Qed.

Lemma ops_marked_snoc prev s ops ms t ops' m : ops_marked prev s ops ms -> op_marked (last_id prev ops) t ops' m ->
  ops_marked prev (s ++ t) (ops ++ ops') (ms ++ repeat m (length ops')).
Proof.
  intros H K. induction H as [prev|prev s ops m1 r ops2 ms H1 H2 IH].
  - rewrite <- (app_nil_r ([] ++ t)), <- (app_nil_r ([] ++ ops')), <- (app_nil_r ([] ++ repeat m (length ops'))). apply oms_cons; [exact K|constructor].
  - rewrite <- !app_assoc. apply oms_cons; [exact H1|]. apply IH. replace (last_id (last_id prev ops) ops2) with (last_id prev (ops ++ ops2)); [exact K|].
    unfold last_id. rewrite map_app. destruct (map r_id ops2) as [|x l] using rev_ind; [rewrite app_nil_r; reflexivity|].
    rewrite app_assoc, !last_last. reflexivity.
Qed.

Lemma last_id_app prev a b : last_id prev (a ++ b) = last_id (last_id prev a) b.
Proof.
  unfold last_id. rewrite map_app. destruct (map r_id b) as [|x l] using rev_ind; [rewrite app_nil_r; reflexivity|].
  rewrite app_assoc, !last_last. reflexivity.
Qed.

(* ---- the invariant ---- *)

Definition rep (o : wop) (u : uop) : Prop :=
  w_id o = u_id u /\ w_ref o = u_ref u /\ id_ok (u_id u) /\ id_ok (u_ref u) /\ Forall2 wval_ok (w_vals o) (u_vals u).

Definition wplain (o : wop) : Prop :=
  match w_vals o with [WStr inner n _] => n = 1 -> exists c, inner = [c] | _ => True end.

(* all ops written so far are terminated *)
Definition closed (b : builder) (done : list rop) (ms : list bool) (last : uop) : Prop :=
  b_span b = 0 /\ b_prev b = u_id last /\ b_prev2 b = sig_of (u_vals last) /\ last_id NIL done = u_id last /\
  exists s w, b_data b = s ++ w /\ blank w /\ ops_marked NIL s done ms.

(* the text after the specifiers of an open op or span *)
Inductive form (lo : wop) (last : uop) : bool -> bytes -> list (list value) -> Prop :=
| f_one : form lo last false (flat_map (fun v => 32 :: value_text v) (w_vals lo)) [u_vals last]
| f_uuids w u n : wval_ok w (VUuid u) -> (2 <= n)%nat -> u_vals last = [VUuid u] ->
    form lo last true (32 :: value_text w) (repeat [VUuid u] n)
| f_chars cs cp : chars_lit cs -> ~ In 0 (chars_cps cs) -> (2 <= length cs)%nat -> u_vals last = [VStr (Some [cp])] ->
    form lo last true (32 :: 40 :: 39 :: chars_text cs) (map (fun cp => [VStr (Some [cp])]) (chars_cps cs)).

Definition opened (b : builder) (done : list rop) (ms : list bool) (id ref : uuid) (vss : list (list value)) (lo : wop) (last : uop) (ext : bool) : Prop :=
  b_span b = N.of_nat (length vss) /\ b_prev b = u_id last /\ b_prev2 b = sig_of (u_vals last) /\
  rep lo last /\ inc_times (length vss - 1) id = u_id last /\
  exists s w sp body, b_data b = s ++ w ++ sp ++ body /\ blank w /\ ops_marked NIL s done ms /\
    spec_lit (last_id NIL done) sp id ref /\ form lo last ext body vss.

Lemma form_nonempty lo last ext body vss : form lo last ext body vss -> vss <> [].
Proof.
  destruct 1 as [|w u n H L E|cs cp C Z L E]; [discriminate| |].
  - destruct n; [lia|discriminate].
  - destruct cs; [cbn [length] in L; lia|discriminate].
Qed.

Lemma term_punct_lit t : In t [RAW; REDUCED; HEADER; QUERY] -> term_lit (term_punct t) t.
Proof. intros [<-|[<-|[<-|[<-|[]]]]]; constructor. Qed.

Lemma closing_form lo last ext body vss b t :
  form lo last ext body vss -> rep lo last -> N.of_nat (length vss) < 2 ^ 32 ->
  b_prev2 b = sig_of (u_vals last) -> b_span b = N.of_nat (length vss) -> In t [RAW; REDUCED; HEADER; QUERY] ->
  forall prev sp id ref w, blank w -> spec_lit prev sp id ref ->
  exists tail, b_data (write_term t b) = b_data b ++ tail ++ [10] /\ op_marked prev (w ++ sp ++ body ++ tail) (chain id ref vss t) (single_char last && ext).
Proof.
  intros F R L P2 BS T prev sp id ref w W SP. pose proof (term_punct_lit t T) as TL.
  pose proof (form_nonempty _ _ _ _ _ F) as NE.
  unfold write_term. replace (b_span b =? 0) with false by (rewrite BS; destruct vss; [contradiction|cbn [length]; lia]).
  cbn [b_data]. rewrite P2.
  destruct F as [|wv u n H N2 E|cs cp C Z N2 E].
  - rewrite BS. cbn [length]. change (1 <? N.of_nat 1) with false. cbv match. cbn [app].
    exists [term_punct t]. split; [reflexivity|].
    rewrite andb_false_r. apply (om prev w sp id ref _ (u_vals last) [] [] _ [] (term_punct t) t); try assumption; try constructor.
    apply values_text_lit. apply R.
  - rewrite BS, repeat_length. replace (1 <? N.of_nat n) with true by lia. rewrite E. cbn [sig_of].
    rewrite repeat_length in L.
    destruct (decimal_spec (N.of_nat n)) as (D1 & D2 & D3 & _).
    { eapply N.lt_trans; [exact L|]. reflexivity. }
    exists (40 :: decimal (N.of_nat n) ++ [41; term_punct t]). split.
    + cbn [app]. rewrite <- !app_assoc. reflexivity.
    + assert (NB : blank []) by constructor.
      assert (SPX : span_lit [VUuid u] (40 :: decimal (N.of_nat n) ++ [41]) (repeat [VUuid u] n)).
      { pose proof (sp_count (P := CW) [VUuid u] [] (decimal (N.of_nat n)) [] NB NB D3 D1) as X.
        rewrite D2, Nat2N.id in X. cbn [app] in X. apply X; [lia|exact L]. }
      pose proof (values_text_lit [wv] [VUuid u] ltac:(constructor; [exact H|constructor])) as VT.
      cbn [flat_map] in VT. rewrite app_nil_r in VT.
      pose proof (om prev w sp id ref (32 :: value_text wv) [VUuid u] [] _ _ [] (term_punct t) t W SP (VT _) NB SPX NB TL) as X.
      pose proof (count_spread [] (decimal (N.of_nat n)) [] NB NB D1) as CS. cbn [app] in CS. rewrite CS in X.
      unfold single_char. rewrite E. cbn [andb].
      cbn [app] in X. rewrite <- app_assoc in X. cbn [app] in X. exact X.
  - rewrite BS, map_length. replace (1 <? N.of_nat (length (chars_cps cs))) with true
      by (unfold chars_cps; rewrite map_length; lia). rewrite E. cbn [sig_of app].
    exists [39; 41; term_punct t]. split; [reflexivity|].
    assert (NB : blank []) by constructor.
    assert (NB2 : blank [32]) by (constructor; [unfold ws_char; tauto|constructor]).
    pose proof (sp_chars [] [] cs [] NB NB C ltac:(intros ->; cbn [length] in N2; lia) Z) as SPX.
    pose proof (om prev w sp id ref [] [] [32] _ _ [] (term_punct t) t W SP (vls_nil _) NB2 SPX NB TL) as X.
    pose proof (chars_spread [] (chars_text cs ++ 39 :: [] ++ [41])) as CS. 
    unfold single_char. rewrite E. cbn [andb].
    cbn [app] in X, CS. cbn [app]. rewrite <- app_assoc in X. cbn [app] in X. rewrite CS in X. exact X.
Qed.

Lemma write_term_keeps t b : b_prev (write_term t b) = b_prev b /\ b_prev2 (write_term t b) = b_prev2 b /\ b_span (write_term t b) = 0.
Proof. clear CW. unfold write_term. destruct (b_span b =? 0) eqn:E; [|auto]. split; [reflexivity|]. split; [reflexivity|lia]. Qed.

Lemma write_term_closed t b : b_span b = 0 -> write_term t b = b.
Proof. intro E. unfold write_term. rewrite E. reflexivity. Qed.

Lemma close_ok b done ms id ref vss lo last ext t :
  opened b done ms id ref vss lo last ext -> N.of_nat (length vss) < 2 ^ 32 -> In t [RAW; REDUCED; HEADER; QUERY] ->
  closed (write_term t b) (done ++ chain id ref vss t) (ms ++ repeat (single_char last && ext) (length vss)) last.
Proof.
  intros (BS & BP & P2 & R & IT & s & w & sp & body & DA & W & O & SP & F) L T.
  destruct (closing_form _ _ _ _ _ b t F R L P2 BS T _ sp id ref w W SP) as (tail & D2 & OL).
  destruct (write_term_keeps t b) as (K1 & K2 & K3).
  split; [exact K3|]. split; [rewrite K1; exact BP|]. split; [rewrite K2; exact P2|]. split.
  - rewrite last_id_app, chain_last by (eapply form_nonempty; exact F). exact IT.
  - exists (s ++ w ++ sp ++ body ++ tail), [10]. split; [|split].
    + rewrite D2, DA. rewrite <- !app_assoc. reflexivity.
    + constructor; [unfold ws_char; tauto|constructor].
    + rewrite <- (chain_length id ref vss t). apply ops_marked_snoc; [exact O|exact OL].
Qed.

Lemma open_ok b done ms last o u :
  closed b done ms last -> rep o u -> (u_id u = inc (u_id last) -> u_ref u = u_id last) ->
  opened (write_values o (write_spec (w_id o) (w_ref o) (write_term REDUCED b))) done ms (u_id u) (u_ref u) [u_vals u] o u false.
Proof.
  intros (BS & BP & P2 & LI & s & w & DA & W & O) R Q.
  rewrite (write_term_closed REDUCED b BS). pose proof R as (E1 & E2 & I1 & I2 & F).
  unfold write_spec. rewrite (write_term_closed REDUCED b BS). unfold write_values. cbn [b_prev b_prev2 b_span b_data].
  split; [reflexivity|]. split; [exact E1|]. split; [apply signature_ok; exact F|]. split; [exact R|]. split; [reflexivity|].
  exists s, w.
  exists ((if uuid_eqb (w_id o) (inc (b_prev b)) then [] else 64 :: write_uuid (w_id o)) ++
     (if uuid_eqb (w_ref o) (b_prev b) then []
      else (if uuid_eqb (w_id o) (inc (b_prev b)) then [] else [32]) ++ 58 :: write_uuid (w_ref o))).
  exists (flat_map (fun v => 32 :: value_text v) (w_vals o)).
  split; [rewrite DA, !app_assoc; reflexivity|].
  split; [exact W|]. split; [exact O|]. split; [|constructor].
  rewrite LI, BP, E1, E2. destruct (uuid_eqb (u_id u) (inc (u_id last))) eqn:S1.
  - apply uuid_eqb_eq in S1. specialize (Q S1).
    replace (uuid_eqb (u_ref u) (u_id last)) with true by (symmetry; apply uuid_eqb_eq; exact Q).
    rewrite Q, S1. constructor.
  - destruct (uuid_eqb (u_ref u) (u_id last)) eqn:S2.
    + apply uuid_eqb_eq in S2. rewrite S2, app_nil_r. apply sl_id. apply write_uuid_lit. exact I1.
    + cbn [app]. apply (sl_both _ _ _ [32]); try (apply write_uuid_lit; assumption); [|discriminate].
      constructor; [unfold ws_char; tauto|constructor].
Qed.

Lemma strip_one c r : c <> 39 -> strip_char 8 (c :: 39 :: r) = Some ([c], r).
Proof. clear CW. intro H. cbn [strip_char]. replace (c =? 39) with false by lia. reflexivity. Qed.

Lemma extend_ok b done ms id ref vss lo last ext o u : writes ->
  opened b done ms id ref vss lo last ext -> rep o u -> continues last u = true -> ext = true \/ wplain lo ->
  exists b', extend_span o b = Some b' /\ opened b' done ms id ref (vss ++ [u_vals u]) o u true.
Proof.
  intros WR (BS & BP & P2 & R & IT & s & w & sp & body & DA & W & O & SP & F) RU CO PL.
  pose proof (form_nonempty _ _ _ _ _ F) as NE.
  pose proof RU as (E1 & E2 & I1 & I2 & FV).
  unfold continues in CO. apply andb_prop in CO as [CO SK]. apply andb_prop in CO as [C1 C2].
  apply uuid_eqb_eq in C1, C2.
  assert (IT2 : inc_times (length (vss ++ [u_vals u]) - 1) id = u_id u).
  { rewrite app_length. cbn [length]. replace (length vss + 1 - 1)%nat with (S (length vss - 1)) by (destruct vss; [contradiction|cbn [length]; lia]).
    rewrite inc_times_S, IT, C1. reflexivity. }
  assert (SG : sig_of (u_vals u) = sig_of (u_vals last)).
  { pose proof (sig_continues (u_vals last) (u_vals u)) as X. rewrite SK in X. apply andb_prop in X as [_ X].
    destruct (sig_of (u_vals u)), (sig_of (u_vals last)); cbn [sig_eqb] in X; try discriminate; [|reflexivity].
    apply uuid_eqb_eq in X. congruence. }
  assert (K : forall d body', d = s ++ w ++ sp ++ body' -> form o u true body' (vss ++ [u_vals u]) ->
    opened (mkBuilder (inc (b_prev b)) (sig_of (u_vals last)) (b_span b + 1) d) done ms id ref (vss ++ [u_vals u]) o u true).
  { intros d body' DD FF. split; [cbn [b_span]; rewrite BS, app_length; cbn [length]; lia|].
    split; [cbn [b_prev]; rewrite BP, C1; reflexivity|]. split; [cbn [b_prev2]; rewrite SG; reflexivity|].
    split; [exact RU|]. split; [exact IT2|]. exists s, w, sp, body'. auto. }
  rewrite BS in K. unfold extend_span. rewrite P2, BS.
  destruct (u_vals last) as [|[lu|z|[[|lc [|lc2 lcps]]|]|ft] [|v2 vs2]] eqn:EL; try discriminate SK; cbn [sig_of];
    destruct (u_vals u) as [|[uu|uz|[[|uc [|uc2 ucps]]|]|uft] [|uv2 uvs2]] eqn:EU; try discriminate SK.
  - (* the same UUID *)
    cbn [same_kind] in SK. apply andb_prop in SK as [SK _]. apply uuid_eqb_eq in SK. subst uu.
    eexists. split; [reflexivity|]. apply (K _ body DA). destruct F as [|wv v n H N2 E|cs cp C Z N2 E].
    + destruct R as (_ & _ & _ & _ & FL). rewrite EL in FL. inversion FL as [|wv v ws vs H FL2 EQ]; subst. inversion FL2; subst.
      cbn [flat_map]. rewrite app_nil_r. rewrite EL. apply (f_uuids o u wv lu 2); [exact H|lia|exact EU].
    + rewrite EL in E. injection E as <-.
      replace (repeat [VUuid lu] n ++ [[VUuid lu]]) with (repeat [VUuid lu] (S n)).
      * apply f_uuids; [exact H|lia|exact EU].
      * rewrite <- (repeat_cons n). reflexivity.
    + rewrite EL in E. discriminate E.
  - (* another character *)
    destruct (w_vals o) as [|wv ws] eqn:EW; inversion FV as [|wv' v ws' vs H FV2 EQ]; subst. inversion FV2; subst.
    destruct wv as [|t|inner n first]; cbn [wval_ok] in H; try contradiction.
    destruct H as (cs & CL & EI & EC & EN & H1). destruct (H1 uc eq_refl) as (-> & B1 & B2 & B3).
    destruct (esc_append_ok uc B1 B2 B3) as [EA L6].
    destruct F as [|wv v n' H N2 E|cs' cp C Z N2 E].
    + change (N.of_nat (length [u_vals last]) =? 1) with true. cbv match.
      destruct PL as [PL|PL]; [discriminate|].
      destruct R as (_ & _ & _ & _ & FL). rewrite EL in FL.
      unfold wplain in PL. destruct (w_vals lo) as [|lwv lws] eqn:LEW; inversion FL as [|lwv' v lws' vs LH FL2 EQ2]; subst. inversion FL2; subst.
      destruct lwv as [|lt|linner ln lfirst]; cbn [wval_ok] in LH; try contradiction.
      destruct LH as (lcs & LCL & LEI & LEC & LEN & LH1). destruct (LH1 lc eq_refl) as (-> & LB1 & LB2 & LB3).
      destruct (PL LEN) as [c ->].
      destruct (single_byte lcs c LCL (eq_sym LEI)) as (cp & -> & N39).
      cbn [chars_cps map snd] in LEC. injection LEC as <-.
      cbn [flat_map value_text app] in DA.
      replace (s ++ w ++ sp ++ [32; 39; c; 39]) with ((s ++ w ++ sp ++ [32]) ++ [39; c; 39]) in DA by (rewrite <- !app_assoc; reflexivity).
      rewrite DA, rev_app_distr. cbn [rev app]. rewrite strip_one by exact N39.
      eexists. split; [reflexivity|]. rewrite rev_involutive.
      rewrite EL in K |- *. apply (K _ (32 :: 40 :: 39 :: chars_text ([([c], lc)] ++ [(utf8esc_append uc, uc)]))).
      * rewrite <- !app_assoc. unfold chars_text. cbn [app map fst concat]. rewrite app_nil_r. reflexivity.
      * apply (f_chars o u ([([c], lc)] ++ [(utf8esc_append uc, uc)]) uc).
        -- apply chars_lit_snoc; [apply LCL|apply LCL|exact EA|apply WR; assumption|exact L6].
        -- unfold chars_cps. cbn [app map snd In]. intros [X|[X|[]]]; congruence.
        -- cbn [app length]. lia.
        -- exact EU.
    + rewrite EL in E. discriminate E.
    + replace (N.of_nat (length (map (fun cp0 => [VStr (Some [cp0])]) (chars_cps cs'))) =? 1) with false
        by (unfold chars_cps; rewrite !map_length; lia).
      eexists. split; [reflexivity|].
      replace (map (fun cp0 => [VStr (Some [cp0])]) (chars_cps cs') ++ [[VStr (Some [uc])]])
        with (map (fun cp0 => [VStr (Some [cp0])]) (chars_cps (cs' ++ [(utf8esc_append uc, uc)]))) in *
        by (unfold chars_cps; rewrite !map_app; reflexivity).
      apply (K _ (32 :: 40 :: 39 :: chars_text (cs' ++ [(utf8esc_append uc, uc)]))).
      * rewrite DA, chars_text_app. rewrite <- !app_assoc. unfold chars_text at 3. cbn [map fst concat]. rewrite app_nil_r. reflexivity.
      * apply (f_chars o u _ uc); [apply chars_lit_snoc; [apply C|apply C|exact EA|apply WR; assumption|exact L6]| | |exact EU].
        -- unfold chars_cps. rewrite map_app, in_app_iff. cbn [map snd In]. intros [X|[X|[]]]; [apply Z; exact X|congruence].
        -- rewrite app_length. cbn [length]. lia.
Qed.

(* ---- sequences of calls ---- *)

Inductive acmd : Set := AApp (o : wop) (u : uop) | AEnd (t : N).
Definition to_b (c : acmd) : bcmd := match c with AApp o _ => BAppend o | AEnd t => BEnd t end.
Definition to_u (c : acmd) : ucmd := match c with AApp _ u => UAppend u | AEnd t => UEnd t end.

Fixpoint good_a (lo : wop) (last : uop) (opn ext : bool) (cs : list acmd) : Prop :=
  match cs with
  | [] => True
  | AEnd t :: r => In t [RAW; HEADER; QUERY] /\ good_a lo last false ext r
  | AApp o u :: r =>
      rep o u /\ (u_id u = inc (u_id last) -> u_ref u = u_id last) /\
      (continues last u = true -> opn = true /\ (ext = true \/ wplain lo)) /\
      good_a o u true (continues last u) r
  end.

(* the marks of an open op or span, given the calls that follow *)
Definition open_marks (last : uop) (ext : bool) (n : nat) (r : list ucmd) : list bool :=
  repeat (single_char last && (ext || goes_on last r)) n.
Inductive inv (b : builder) : list rop -> list bool -> (N -> list rop) -> (list ucmd -> list bool) -> wop -> uop -> bool -> bool -> nat -> Prop :=
| i_closed done ms lo last ext : closed b done ms last -> inv b done ms (fun _ => []) (fun _ => []) lo last false ext 0
| i_open done ms id ref vss lo last ext : opened b done ms id ref vss lo last ext ->
    inv b done ms (fun t => chain id ref vss t) (open_marks last ext (length vss)) lo last true ext (length vss).

Lemma continues_single a b : continues a b = true -> single_char b = single_char a.
Proof. clear CW.
  unfold continues, single_char. intro H. apply andb_prop in H as [_ H]. unfold same_kind in H.
  destruct (u_vals a) as [|[?|?|[[|? [|? ?]]|]|?] [|? ?]]; try discriminate H; destruct (u_vals b) as [|[?|?|[[|? [|? ?]]|]|?] [|? ?]]; try discriminate H; reflexivity.
Qed.

Lemma inv_step cs : writes -> forall b done ms pend pm lo last opn ext k,
  inv b done ms pend pm lo last opn ext k -> good_a lo last opn ext cs -> N.of_nat (k + length cs) < 2 ^ 32 ->
  exists b' done' ms' pend' pm' lo' opn' ext' k',
    build_from b (map to_b cs) = Some b' /\
    inv b' done' ms' pend' pm' lo' (last_uop last (map to_u cs)) opn' ext' k' /\ N.of_nat k' < 2 ^ 32 /\
    (forall rest, done ++ pend (term_after last (map to_u cs ++ rest)) ++ denote (map to_u cs ++ rest) =
      done' ++ pend' (term_after (last_uop last (map to_u cs)) rest) ++ denote rest) /\
    forall rest, ms ++ pm (map to_u cs ++ rest) ++ in_runs last (map to_u cs ++ rest) =
      ms' ++ pm' rest ++ in_runs (last_uop last (map to_u cs)) rest.
Proof.
  intro WR. induction cs as [|c cs IH]; intros b done ms pend pm lo last opn ext k I G L.
  - exists b, done, ms, pend, pm, lo, opn, ext, k. cbn [length] in L. rewrite Nat.add_0_r in L. cbn [map app last_uop]. auto.
  - unfold build_from. cbn [map fold_left]. cbn [length] in L.
    destruct c as [o u|t]; cbn [good_a] in G; cbn [to_b to_u bstep last_uop].
    + destruct G as (R & Q & C & G). pose proof R as (E1 & E2 & _ & _ & FV).
      unfold append_op.
      rewrite (spans_agree o u b last E1 E2 FV) by (destruct I as [? ? ? ? ? (?&?&?&?)|? ? ? ? ? ? ? ? (?&?&?&?)]; assumption).
      destruct (continues last u) eqn:EC.
      * destruct (C eq_refl) as [-> PL].
        inversion I as [|? ? id ref vss ? ? ? OP]; subst.
        destruct (extend_ok _ _ _ _ _ _ _ _ _ o u WR OP R EC PL) as (b1 & -> & OP1).
        destruct (IH b1 done ms (fun t => chain id ref (vss ++ [u_vals u]) t) _ o u true true (length (vss ++ [u_vals u])) (i_open _ _ _ _ _ _ _ _ _ OP1) G)
          as (b' & done' & ms' & pend' & pm' & lo' & opn' & ext' & k' & B & I' & K' & EQ & EM).
        { rewrite app_length. cbn [length]. lia. }
        exists b', done', ms', pend', pm', lo', opn', ext', k'. split; [exact B|]. split; [exact I'|]. split; [exact K'|]. split.
        -- intro rest. rewrite <- (EQ rest). cbn [app map term_after denote]. rewrite EC.
           destruct OP as (_ & _ & _ & _ & IT & s & w & sp & body & _ & _ & _ & _ & F).
           rewrite chain_snoc by (eapply form_nonempty; exact F). rewrite IT.
           unfold continues in EC. apply andb_prop in EC as [EC _]. apply andb_prop in EC as [X1 X2].
           apply uuid_eqb_eq in X1, X2. rewrite X1, X2, <- !app_assoc. reflexivity.
        -- intro rest. rewrite <- (EM rest). cbn [app map in_runs]. unfold open_marks. cbn [goes_on]. rewrite EC, orb_true_r.
           cbn [orb]. rewrite (continues_single _ _ EC), andb_true_r, app_length. cbn [length]. rewrite Nat.add_1_r. cbn [repeat].
           rewrite repeat_cons, <- !app_assoc. reflexivity.
      * assert (CL : exists done1, closed (write_term REDUCED b) done1 (ms ++ pm (UAppend u :: [])) last /\
            done ++ pend REDUCED = done1).
        { inversion I as [? ? ? ? ? CL|? ? id ref vss ? ? ? OP]; subst.
          - exists done. rewrite (write_term_closed REDUCED b) by apply CL. rewrite !app_nil_r. auto.
          - eexists. split; [|reflexivity]. unfold open_marks. cbn [goes_on]. rewrite EC, orb_false_r. eapply close_ok; [exact OP|lia|cbn; tauto]. }
        destruct CL as (done1 & CL & ED).
        pose proof (open_ok _ _ _ _ o u CL R Q) as OP.
        replace (write_term REDUCED (write_term REDUCED b)) with (write_term REDUCED b) in OP
          by (symmetry; apply write_term_closed; apply CL).
        destruct (IH _ done1 _ (fun t => chain (u_id u) (u_ref u) [u_vals u] t) _ o u true false 1%nat (i_open _ _ _ _ _ _ _ _ _ OP) G)
          as (b' & done' & ms' & pend' & pm' & lo' & opn' & ext' & k' & B & I' & K' & EQ & EM); [lia|].
        exists b', done', ms', pend', pm', lo', opn', ext', k'. split; [exact B|]. split; [exact I'|]. split; [exact K'|]. split.
        -- intro rest. rewrite <- (EQ rest). cbn [app map term_after denote]. rewrite EC, <- ED, <- !app_assoc. reflexivity.
        -- intro rest. rewrite <- (EM rest). cbn [app map in_runs]. rewrite EC. unfold open_marks. cbn [length repeat orb]. rewrite <- !app_assoc.
           cbn [app]. replace (pm (UAppend u :: map to_u cs ++ rest)) with (pm [UAppend u]) by (inversion I; subst; reflexivity). reflexivity.
    + destruct G as (T & G). unfold end_chunk.
      replace (t =? REDUCED) with false by (cbn [In] in T; unfold RAW, HEADER, QUERY, REDUCED in *; lia).
      assert (T4 : In t [RAW; REDUCED; HEADER; QUERY]) by (cbn [In] in *; tauto).
      assert (CL : closed (write_term t b) (done ++ pend t) (ms ++ pm [UEnd t]) last).
      { inversion I as [? ? ? ? ? CL|? ? id ref vss ? ? ? OP]; subst.
        - rewrite (write_term_closed t b) by apply CL. rewrite !app_nil_r. exact CL.
        - unfold open_marks. cbn [goes_on]. rewrite orb_false_r. eapply close_ok; [exact OP|lia|exact T4]. }
      destruct (IH _ _ _ _ _ lo last false ext 0%nat (i_closed _ _ _ _ _ _ CL) G)
        as (b' & done' & ms' & pend' & pm' & lo' & opn' & ext' & k' & B & I' & K' & EQ & EM); [lia|].
      exists b', done', ms', pend', pm', lo', opn', ext', k'. split; [exact B|]. split; [exact I'|]. split; [exact K'|]. split.
      * intro rest. rewrite <- (EQ rest). cbn [app map term_after denote]. rewrite <- !app_assoc. reflexivity.
      * intro rest. rewrite <- (EM rest). cbn [app map in_runs]. rewrite <- !app_assoc.
        replace (pm (UEnd t :: map to_u cs ++ rest)) with (pm [UEnd t]) by (inversion I; subst; reflexivity). reflexivity.
Qed.

Lemma inv_release b done ms pend pm lo last opn ext k : inv b done ms pend pm lo last opn ext k -> N.of_nat k < 2 ^ 32 ->
  frame_marked (fst (release b)) (done ++ pend RAW) (ms ++ pm []).
Proof.
  intros I L. assert (CL : closed (write_term RAW b) (done ++ pend RAW) (ms ++ pm []) last).
  { inversion I as [? ? ? ? ? CL|? ? id ref vss ? ? ? OP]; subst.
    - rewrite (write_term_closed RAW b) by apply CL. rewrite !app_nil_r. exact CL.
    - unfold open_marks. cbn [goes_on]. rewrite orb_false_r. eapply close_ok; [exact OP|exact L|cbn; tauto]. }
  unfold release. cbn [fst].
  replace (if b_span b =? 0 then b else write_term RAW b) with (write_term RAW b)
    by (destruct (b_span b =? 0) eqn:E; [apply write_term_closed; lia|reflexivity]).
  destruct CL as (_ & _ & _ & _ & s & w & -> & W & O). rewrite <- (app_nil_r w).
  apply fm; [exact O|exact W|left; reflexivity].
Qed.

Lemma inv0 lo : inv builder0 [] [] (fun _ => []) (fun _ => []) lo origin_op false false 0.
Proof.
  constructor. split; [reflexivity|]. split; [reflexivity|]. split; [reflexivity|]. split; [reflexivity|].
  exists [], []. split; [reflexivity|]. split; constructor.
Qed.

Lemma build_marked lo cs : writes -> good_a lo origin_op false false cs -> N.of_nat (length cs) < 2 ^ 32 ->
  exists text, build (map to_b cs) = Some text /\ frame_marked text (denote (map to_u cs)) (in_runs origin_op (map to_u cs)).
Proof.
  intros WR G L. destruct (inv_step cs WR builder0 [] [] _ _ lo origin_op false false 0 (inv0 lo) G L)
    as (b' & done' & ms' & pend' & pm' & lo' & opn' & ext' & k' & B & I' & K' & EQ & EM).
  unfold build. rewrite B. cbn [option_map]. eexists. split; [reflexivity|].
  specialize (EQ []). cbn [term_after denote app] in EQ. rewrite !app_nil_r in EQ. rewrite EQ.
  specialize (EM []). cbn [in_runs app] in EM. rewrite !app_nil_r in EM. rewrite EM.
  eapply inv_release; [exact I'|exact K'].
Qed.

Lemma build_frame lo cs : writes -> good_a lo origin_op false false cs -> N.of_nat (length cs) < 2 ^ 32 ->
  exists text, build (map to_b cs) = Some text /\ frame_lit text (denote (map to_u cs)).
Proof.
  intros WR G L. destruct (build_marked lo cs WR G L) as (text & B & F). exists text. split; [exact B|]. eapply frame_erase. exact F.
Qed.

(* ---- struct Ops ---- *)

Lemma wval_of_ok v : writes -> value_ok v -> exists w, wval_of_value v = Some w /\ wval_ok w v.
Proof.
  intro WR. destruct v as [u|z|[s|]|t]; cbn [value_ok wval_of_value]; [| | |contradiction|].
  - intros (A & B & C). eexists. split; [reflexivity|]. cbn [wval_ok]. unfold id_ok. auto.
  - intro H. pose proof (write_int_text z ltac:(lia)) as X. destruct (write_int z) as [s|]; [|exfalso; lia].
    destruct X as (L & B & T). eexists. split; [reflexivity|]. cbn [wval_ok].
    constructor; [exact L|].
    assert (Y : int_too_big s = false) by (apply T; unfold MAX18; lia).
    apply (int_fits_ok s z L). exact Y.
  - intro F. eexists. split; [reflexivity|].
    assert (UZ : until_zero s = s).
    { induction F as [|c s (A & B & C) F IH]; [reflexivity|]. cbn [until_zero]. replace (c =? 0) with false by lia. rewrite IH. reflexivity. }
    rewrite UZ. exists (map (fun cp => (utf8esc_append cp, cp)) s).
    assert (EC : chars_cps (map (fun cp => (utf8esc_append cp, cp)) s) = s).
    { unfold chars_cps. rewrite map_map. cbn [snd]. apply map_id. }
    split; [|split; [|split; [|split]]].
    + split; [|split].
      * apply Forall_map. revert F. apply Forall_impl. intros c (A & B & C). cbn [fst snd]. apply esc_append_ok; assumption.
      * intros bs cp r E. assert (I : In (bs, cp) (map (fun cp => (utf8esc_append cp, cp)) s)) by (rewrite E; apply in_elt).
        apply in_map_iff in I as (c & E2 & I). injection E2 as <- <-. rewrite Forall_forall in F. destruct (F c I) as (A & B & C).
        apply esc_append_ok; assumption.
      * apply Forall_map. revert F. apply Forall_impl. intros c (A & B & C). cbn [fst snd]. apply WR; assumption.
    + unfold chars_text. rewrite map_map. cbn [fst]. rewrite flat_map_concat_map. reflexivity.
    + symmetry. exact EC.
    + destruct F as [|c s (A & B & C) F]; [reflexivity|]. cbn [str_size]. replace (c =? 0) with false by lia. reflexivity.
    + intros cp ->. inversion F as [|x y (A & B & C) F2]; subst. cbn [str_first]. replace (cp =? 0) with false by lia. auto.
  - intros [A B]. eexists. split; [reflexivity|]. cbn [wval_ok]. apply vl_float; assumption.
Qed.

Lemma wvals_of_ok vs : writes -> Forall value_ok vs -> exists ws, wvals_of vs = Some ws /\ Forall2 wval_ok ws vs.
Proof.
  intro WR. induction 1 as [|v vs H F (ws & E & IH)]; [exists []; split; constructor|].
  destruct (wval_of_ok v WR H) as (w & E1 & H1). exists (w :: ws). cbn [wvals_of]. rewrite E1, E. split; [reflexivity|].
  constructor; assumption.
Qed.

Lemma wop_of_ok u : writes -> uop_ok u -> exists o, wop_of_op (u_id u) (u_ref u) (u_vals u) = Some o /\ rep o u.
Proof.
  intros WR (A & B & F). destruct (wvals_of_ok _ WR F) as (ws & E & FV). unfold wop_of_op. rewrite E. cbn [option_map].
  eexists. split; [reflexivity|]. split; [reflexivity|]. split; [reflexivity|]. auto.
Qed.

Lemma plain_escape cp : plain_char cp -> utf8esc_append cp = [cp].
Proof. clear CW.
  intros [A B]. unfold utf8esc_append. replace (cp <? 128) with true by lia. cbn [In] in B.
  replace (cp =? 34) with false by lia. replace (cp =? 39) with false by lia. replace (cp =? 92) with false by lia.
  replace (cp =? 10) with false by lia. replace (cp =? 9) with false by lia. replace (cp =? 13) with false by lia.
  replace (cp =? 8) with false by lia. replace (cp =? 12) with false by lia.
  reflexivity.
Qed.

Lemma plain_wop u o : wop_of_op (u_id u) (u_ref u) (u_vals u) = Some o -> rep o u -> plain_string u -> wplain o.
Proof.
  unfold wop_of_op, plain_string, wplain. intros E (_ & _ & _ & _ & F) P.
  destruct (wvals_of (u_vals u)) as [ws|] eqn:EW; [|discriminate]. cbn [option_map] in E. injection E as <-. cbn [w_vals] in *.
  destruct F as [|w v ws vs H F]; [exact Logic.I|]. destruct F; [|destruct w; exact Logic.I].
  destruct w as [x|t|inner n first], v as [x'|z|[cps|]|t']; cbn [wval_ok] in H; try contradiction; try exact Logic.I.
  destruct H as (cs & _ & _ & _ & -> & _). intro N1.
  destruct cps as [|cp [|c2 cps]]; [discriminate| |cbn [length] in N1; lia].
  cbn [wvals_of wval_of_value] in EW. injection EW as <- _ _.
  exists cp. cbn [until_zero]. replace (cp =? 0) with false by (destruct P as [_ P]; cbn [In] in P; lia).
  cbn [flat_map]. rewrite plain_escape by exact P. reflexivity.
Qed.

Lemma calls_good cs : writes -> forall lo last opn ext, good_calls last opn ext cs ->
  (opn = true -> wop_of_op (u_id last) (u_ref last) (u_vals last) = Some lo /\ rep lo last) ->
  exists acs, calls_of cs = Some (map to_b acs) /\ map to_u acs = cs /\ good_a lo last opn ext acs.
Proof.
  intro WR. induction cs as [|c cs IH]; intros lo last opn ext G HL; [exists []; auto|].
  destruct c as [u|t]; cbn [good_calls] in G.
  - destruct G as (U & Q & C & G). destruct (wop_of_ok u WR U) as (o & E & R).
    destruct (IH o u true (continues last u) G ltac:(auto)) as (acs & E1 & E2 & G2).
    exists (AApp o u :: acs). cbn [calls_of map to_b to_u good_a]. rewrite E, E1, E2. cbn [option_map].
    split; [reflexivity|]. split; [reflexivity|]. split; [exact R|]. split; [exact Q|]. split; [|exact G2].
    intro X. destruct (C X) as [-> [->|P]]; split; auto. right. destruct (HL eq_refl) as [A B]. apply (plain_wop last); assumption.
  - destruct G as (T & G). destruct (IH lo last false ext G ltac:(discriminate)) as (acs & E1 & E2 & G2).
    exists (AEnd t :: acs). cbn [calls_of map to_b to_u good_a]. rewrite E1, E2. auto.
Qed.

Lemma calls_of_length cs : forall acs, calls_of cs = Some acs -> length acs = length cs.
Proof.
  induction cs as [|c cs IH]; intros acs E; cbn [calls_of] in E; [injection E as <-; reflexivity|].
  destruct (match c with UAppend o => _ | UEnd t => _ end) as [x|]; [|discriminate]. destruct (calls_of cs) as [y|]; [|discriminate].
  injection E as <-. cbn [length]. rewrite (IH y eq_refl). reflexivity.
Qed.

Definition lo0 : wop := mkWop NIL NIL [WUuid FATAL].

Lemma build_calls_marked cs : writes -> good_calls origin_op false false cs -> N.of_nat (length cs) < 2 ^ 32 ->
  exists text, build_calls cs = Some text /\ frame_marked text (denote cs) (in_runs origin_op cs).
Proof.
  intros WR G L. destruct (calls_good cs WR lo0 origin_op false false G ltac:(discriminate)) as (acs & E1 & E2 & G2).
  destruct (build_marked lo0 acs WR G2) as (text & B & F).
  { rewrite <- E2, map_length in L. exact L. }
  exists text. unfold build_calls. rewrite E1, B, <- E2. auto.
Qed.
Lemma build_calls_frame cs : writes -> good_calls origin_op false false cs -> N.of_nat (length cs) < 2 ^ 32 ->
  exists text, build_calls cs = Some text /\ frame_lit text (denote cs).
Proof.
  intros WR G L. destruct (build_calls_marked cs WR G L) as (text & B & F). exists text. split; [exact B|]. eapply frame_erase. exact F.
Qed.
End BuilderProofs.
Arguments wval_ok : clear implicits.
Arguments rep : clear implicits.
Arguments form : clear implicits.
Arguments opened : clear implicits.
Arguments closed : clear implicits.
Arguments good_a : clear implicits.
Arguments inv : clear implicits.
Arguments writes : clear implicits.
Lemma any_writes : writes any_char.
Proof. intros cp _ _ _. exact Logic.I. Qed.
