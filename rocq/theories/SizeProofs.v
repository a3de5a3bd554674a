(* How long the text is that a Builder writes: bounded by what the ops say, not
   by the length of the frames they come from. *)
From Verif Require Import Prelude UuidModel UuidSpec CodecModel CodecSpec TextModel TextSpec FrameProofs BuilderSpec BuilderProofs
  MergeModel MergeSpec MergeTextModel TextMergeSpec TextCursors TextMerge MetaTheorems.

Definition wop_room (o : wop) : nat := 88 + list_sum (map (fun v => S (length (value_text v))) (w_vals o)).
Definition cmds_room (cs : list bcmd) : nat := list_sum (map (fun c => match c with BAppend o => wop_room o | BEnd _ => 0%nat end) cs).
(* the data and room for the terminator that is due *)
Definition due (b : builder) : nat := length (b_data b) + (if b_span b =? 0 then 0 else 24).

Lemma dec_loop_len f : forall n acc, (length (dec_loop f n acc) <= f + length acc)%nat.
Proof.
  induction f as [|f IH]; intros n acc; cbn [dec_loop]; [lia|].
  match goal with |- context [if ?b then _ else _] => destruct b end; [cbn [length]; lia|].
  eapply Nat.le_trans; [apply IH|]. cbn [length]. lia.
Qed.
Lemma decimal_len n : (length (decimal n) <= 20)%nat.
Proof. unfold decimal. pose proof (dec_loop_len 20 n []). cbn [length] in H. lia. Qed.
Lemma esc4 cp : (length (utf8esc_append cp) <= 4)%nat.
Proof. unfold utf8esc_append. repeat match goal with |- context [if ?b then _ else _] => destruct b end; cbn [length]; lia. Qed.

Lemma term_due t b : (length (b_data (write_term t b)) <= due b)%nat /\ b_span (write_term t b) = 0.
Proof.
  unfold write_term, due. destruct (b_span b =? 0) eqn:Z; [split; [lia|apply N.eqb_eq; exact Z]|]. cbn [b_data b_span]. split; [|reflexivity].
  rewrite !app_length. pose proof (decimal_len (b_span b)).
  destruct (1 <? b_span b); [destruct (b_prev2 b)|]; rewrite ?app_length; cbn [length]; lia.
Qed.
Lemma spec_due id ref b : (length (b_data (write_spec id ref b)) <= due b + 63)%nat.
Proof.
  unfold write_spec. destruct (term_due REDUCED b) as [L _]. set (b1 := write_term REDUCED b) in *. clearbody b1. cbn [b_data].
  rewrite !app_length. pose proof (write_uuid_len id). pose proof (write_uuid_len ref).
  destruct (uuid_eqb id (inc (b_prev b1))), (uuid_eqb ref (b_prev b1)); rewrite ?app_length; cbn [length app]; lia.
Qed.
Lemma strip_len f : forall rd x y, strip_char f rd = Some (x, y) -> length rd = S (length x + length y)%nat.
Proof.
  induction f as [|f IH]; intros [|c r] x y E; cbn [strip_char] in E; try discriminate.
  - destruct (c =? 39); [|discriminate]. injection E as <- <-. reflexivity.
  - destruct (c =? 39); [injection E as <- <-; reflexivity|]. destruct (strip_char f r) as [[x' y']|] eqn:Q; [|discriminate].
    injection E as <- <-. cbn [length]. rewrite (IH _ _ _ Q). reflexivity.
Qed.
Lemma append_due o b b' : append_op o b = Some b' -> (due b' <= due b + wop_room o)%nat.
Proof.
  unfold append_op. destruct (is_same_span o b).
  - unfold extend_span. set (first := match w_vals o with [WStr _ _ f] => f | _ => 0 end). pose proof (esc4 first) as E4. clearbody first.
    destruct (b_prev2 b) as [u|].
    + intro E. injection E as <-. unfold due, wop_room. cbn [b_data b_span]. destruct (b_span b =? 0), (b_span b + 1 =? 0); lia.
    + destruct (b_span b =? 1) eqn:S1.
      * destruct (rev (b_data b)) as [|c rd] eqn:R; [discriminate|]. destruct (strip_char 8 rd) as [[ret rest]|] eqn:SC; [|discriminate].
        intro E. injection E as <-. apply strip_len in SC. apply (f_equal (@length N)) in R. rewrite rev_length in R. cbn [length] in R.
        unfold due, wop_room. cbn [b_data b_span]. rewrite !app_length, rev_length. cbn [length app]. rewrite app_length. destruct (b_span b =? 0), (b_span b + 1 =? 0); lia.
      * intro E. injection E as <-. unfold due, wop_room. cbn [b_data b_span]. rewrite app_length. destruct (b_span b =? 0), (b_span b + 1 =? 0); lia.
  - intro E. injection E as <-. unfold write_values. pose proof (spec_due (w_id o) (w_ref o) (write_term REDUCED b)) as L1.
    destruct (term_due REDUCED b) as [L2 Z]. unfold due in L1 at 1. rewrite Z in L1. change (0 =? 0) with true in L1. cbn iota in L1.
    assert (L3 : (length (flat_map (fun v => 32%N :: value_text v) (w_vals o)) <= list_sum (map (fun v => S (length (value_text v))) (w_vals o)))%nat).
    { clear. induction (w_vals o) as [|v l IH]; [cbn; lia|]. cbn [flat_map map list_sum fold_right app length]. rewrite app_length. unfold list_sum in IH. lia. }
    unfold due at 1. cbn [b_data b_span]. rewrite app_length. unfold wop_room. destruct (b_span _ =? 0); lia.
Qed.
Lemma build_due cs : forall b b', build_from b cs = Some b' -> (due b' <= due b + cmds_room cs)%nat.
Proof.
  induction cs as [|c cs IH]; intros b b' E; unfold build_from in E; cbn [fold_left] in E.
  - injection E as <-. lia.
  - unfold cmds_room. cbn [map list_sum fold_right]. destruct c as [o|t]; cbn [bstep] in E.
    + destruct (append_op o b) as [b1|] eqn:A.
      * apply append_due in A. specialize (IH _ _ E). unfold cmds_room, list_sum in IH. lia.
      * exfalso. clear -E. induction cs; [discriminate|]. apply IHcs. exact E.
    + unfold end_chunk in E. destruct (t =? REDUCED) eqn:T.
      * exfalso. clear -E. induction cs; [discriminate|]. apply IHcs. exact E.
      * specialize (IH _ _ E). destruct (term_due t b) as [L Z]. unfold due in IH at 2. rewrite Z in IH. change (0 =? 0) with true in IH. cbn iota in IH. unfold cmds_room, list_sum in IH. lia.
Qed.
Lemma build_len cs text : build cs = Some text -> (length text <= cmds_room cs)%nat.
Proof.
  unfold build. destruct (build_from builder0 cs) as [b|] eqn:E; [|discriminate]. intro Q. injection Q as <-. apply build_due in E.
  change (due builder0) with 0%nat in E. unfold release. cbn [fst]. destruct (b_span b =? 0) eqn:Z; [unfold due in E; lia|].
  destruct (term_due RAW b) as [L _]. lia.
Qed.

(* values read from literals *)
Lemma esc6 bs cp : esc_char bs cp -> (length bs <= 6)%nat.
Proof.
  intros [b c U _|c e _|a b c d va vb vc vd _ _ _ _]; cbn [length]; try lia.
  destruct U; cbn [length]; lia.
Qed.
Lemma chars_room cs : Forall (fun c => esc_char (fst c) (snd c)) cs -> (length (chars_text cs) <= 6 * length (chars_cps cs))%nat.
Proof.
  unfold chars_text, chars_cps. induction 1 as [|c cs H F IH]; [cbn; lia|]. cbn [map concat length]. rewrite app_length. apply esc6 in H. rewrite map_length in *. lia.
Qed.
Lemma int_len s : int_fits s -> (length s <= 20)%nat.
Proof. unfold int_fits, int_lit_fits. destruct s as [|c d]; [intros []|]. destruct ((c =? 43) || (c =? 45)); cbn [length]; lia. Qed.
Lemma lit_value_room CW buf a v : lit_atom CW buf a v -> (length (value_text (wval_of_atom buf a)) <= value_room v)%nat.
Proof.
  destruct a as [u|b e|cp n b e|b e], v as [u'|z|[cps|]|t]; cbn [lit_atom wval_of_atom]; try contradiction.
  - intros _. cbn [value_text value_room]. rewrite app_length. pose proof (write_uuid_len u). destruct (is_ambiguous u); cbn [length]; lia.
  - intro H. cbn [value_text value_room]. inversion H; subst. apply int_len. assumption.
  - destruct (cp =? 0).
    + intros (cs & HC & SB & -> & _). cbn [value_text value_room]. rewrite SB. cbn [length]. rewrite app_length. cbn [length].
      pose proof (chars_room cs (proj1 HC)). lia.
    + intros ->. cbn [value_text value_room length]. rewrite app_length. pose proof (esc4 cp). cbn [length]. lia.
  - intro H. cbn [value_text value_room]. inversion H; subst. assumption.
Qed.
Lemma lit_room CW c o : lit_cursor CW c o -> (wop_room (wop_of_cursor c) <= op_room (bare o))%nat.
Proof.
  intros [_ F]. unfold wop_room, op_room, wop_of_cursor. cbn [w_vals bare u_vals]. apply Nat.add_le_mono_l.
  induction F as [|a v atoms vs H F IH]; [cbn; lia|]. cbn [map list_sum fold_right]. apply lit_value_room in H. unfold list_sum in IH. lia.
Qed.
Lemma calls_room calls : (forall c, In (MAppend c) calls -> canonical c) -> (cmds_room (bcalls calls) <= room (map bare (denote (ucalls calls))))%nat.
Proof.
  unfold cmds_room, room. induction calls as [|x calls IH]; intro K; [cbn; lia|]. specialize (IH (fun c I => K c (or_intror I))).
  destruct x as [c|t].
  - destruct (K c (or_introl eq_refl)) as (o & LC). pose proof (lit_room _ _ _ LC) as LR. destruct LC as [E _].
    cbn [bcalls ucalls map]. cbn [denote map list_sum fold_right].
    replace (bare _) with (bare o); [unfold list_sum in IH; unfold bcalls, ucalls in IH; lia|]. rewrite E. reflexivity.
  - cbn [bcalls ucalls map denote list_sum fold_right]. exact IH.
Qed.

(* less to say, less room *)
Lemma room_app a b : room (a ++ b) = (room a + room b)%nat.
Proof. unfold room. rewrite map_app, list_sum_app. reflexivity. Qed.
Lemma room_incl us : NoDup us -> forall all, incl us all -> (room us <= room all)%nat.
Proof.
  induction 1 as [|u us N D IH]; intros all I; [cbn; lia|].
  destruct (in_split u all (I u (or_introl eq_refl))) as (a & b & ->).
  assert (J : incl us (a ++ b)).
  { intros x X. specialize (I x (or_intror X)). rewrite in_app_iff in *. destruct I as [|[->|]]; auto. contradiction. }
  specialize (IH _ J). rewrite !room_app in *. unfold room in *. cbn [map list_sum fold_right]. unfold list_sum in *. lia.
Qed.
