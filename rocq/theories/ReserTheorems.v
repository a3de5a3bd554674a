(* C80: frames written anew. *)
From Verif Require Import Prelude UuidModel UuidSpec CodecModel CodecSpec TextModel TextSpec FrameProofs BuilderSpec BuilderProofs BuilderTheorems
  MergeModel MergeSpec MergeTextModel MergeProofs RgaProofs TextMergeSpec TextCursors MergeKeeps TextMerge TextMergeTheorems LogModel LogProofs
  CompareModel CompareSpec CompareTheorems GcTheorems ReserModel.

(* a cursor at the first op of a frame *)
Definition at_first (f : bytes) (c : cursor) : Prop := next (cursor_of f) = NOk c.
(* the ops can be written one after the other (C16) *)
Definition writable (ops : list rop) : Prop := good_calls origin_op false false (map UAppend (map bare ops)).

(* Reserialize of the cursors: the frames ts, each reads as the ops, without
   their terminators *)
Definition written_as (t : bytes) (ops : list rop) : Prop := frame_lit canon t (chunk_of (map bare ops)).

Lemma live_two buf c : live buf c -> Nat.ltb (length (c_op c)) 2 = false.
Proof. intros [_ (_ & u & v & r & ->) _]. reflexivity. Qed.
Lemma walk_loop c l e : walk c l e -> forall buf, live buf c -> forall fuel, (length l < fuel)%nat ->
  reser_loop fuel c = Done (map MAppend (c :: l), match e with SEnd => true | _ => false end).
Proof.
  induction 1 as [c c' NX|c c' NX|c c' l e NX W IH]; intros buf V fuel L; (destruct fuel as [|fuel]; [cbn [length] in L; lia|]); cbn [reser_loop];
    rewrite (live_two buf c V), NX; [reflexivity|reflexivity|].
  destruct (live_next buf c c' V NX) as (V' & _). rewrite (IH buf V' fuel) by (cbn [length] in L; lia). reflexivity.
Qed.
Lemma walk_visits c l e : walk c l e -> forall buf, live buf c -> forall l1, visits valid text_next c l1 -> l1 = c :: l.
Proof.
  induction 1 as [c c' NX|c c' NX|c c' l e NX W IH]; intros buf V l1 VI; (destruct VI as [c VC|c c1 l1 VC N1 VI]; [rewrite (live_valid buf c V) in VC; discriminate|]);
    unfold text_next in N1; rewrite NX in N1; injection N1 as VV <-; f_equal.
  - destruct VI as [x VX|x x1 l1 VX]; [reflexivity|congruence].
  - destruct VI as [x VX|x x1 l1 VX]; [reflexivity|congruence].
  - destruct (live_next buf c c' V NX) as (V' & _). apply (IH buf V'). exact VI.
Qed.

Lemma one_frame f ops c : frame_lit canon f ops -> N.of_nat (length f) < 2 ^ 30 -> at_first f c -> writable ops -> N.of_nat (length ops) < 2 ^ 32 ->
  forall fuel, (length ops <= fuel)%nat ->
  exists calls t, reser_loop fuel c = Done (calls, true) /\ build (bcalls calls) = Some t /\ written_as t ops.
Proof.
  intros F B FI W LN fuel L. assert (B2 : N.of_nat (length f) < 2 ^ 32) by (eapply N.lt_trans; [exact B|reflexivity]).
  pose proof (scan_frame f ops 0 F B2) as SC. cbn [scan] in SC. unfold at_first in FI. rewrite FI in SC.
  destruct (scan (length ops + 0) c) as [r e] eqn:S1. injection SC as <- ->.
  destruct (scan_walk _ _ _ _ S1 (or_introl eq_refl)) as (cs & WK & <-).
  pose proof (live_first f c FI) as V. destruct (frame_cursors f _ F B) as (c1 & l1 & NX & VI & FL).
  unfold text_next in NX. rewrite FI in NX. injection NX as _ <-. pose proof (walk_visits c cs SEnd WK f V l1 VI) as ->.
  cbn [length] in L. rewrite map_length in L.
  exists (map MAppend (c :: cs)). rewrite (walk_loop c cs SEnd WK f V fuel) by lia.
  assert (U : ucalls (map MAppend (c :: cs)) = map UAppend (map bare (rop_of c :: map rop_of cs))).
  { unfold ucalls. rewrite map_map. change (rop_of c :: map rop_of cs) with (map rop_of (c :: cs)). rewrite !map_map. reflexivity. }
  destruct (build_merged (map MAppend (c :: cs))) as (t & BD & FT).
  - intros x J. apply in_map_iff in J as (y & E & J). injection E as ->. clear -FL J.
    induction FL as [|y o l ops H FL IH]; [contradiction|]. destruct J as [-> | J]; [exists o; apply H|apply IH, J].
  - rewrite U. exact W.
  - rewrite map_length. cbn [length] in *. rewrite map_length in LN. exact LN.
  - exists t. split; [reflexivity|]. split; [exact BD|]. unfold written_as. rewrite U, chunk_open in FT. exact FT.
Qed.

(* the frames written anew have the same ops, in the same order *)
Theorem C80_same : forall fuel fs opss cs, Forall2 (frame_lit canon) fs opss -> Forall (fun f => N.of_nat (length f) < 2 ^ 30) fs -> Forall2 at_first fs cs ->
  Forall writable opss -> Forall (fun ops => N.of_nat (length ops) < 2 ^ 32) opss -> Forall (fun ops => (length ops <= fuel)%nat) opss ->
  exists ts, reserialize fuel cs = Done (ts, true) /\ Forall2 written_as ts opss.
Proof.
  intros fuel fs opss cs F. revert cs. induction F as [|f ops fs opss H F IH]; intros cs B A W LN L; inversion A as [|? c ? cs' A1 A2]; subst.
  - exists []. split; [reflexivity|constructor].
  - inversion B as [|? ? B1 B2]; inversion W as [|? ? W1 W2]; inversion LN as [|? ? N1 N2]; inversion L as [|? ? L1 L2]; subst.
    destruct (one_frame f ops c H B1 A1 W1 N1 fuel L1) as (calls & t & E & BD & WT). destruct (IH cs' B2 A2 W2 N2 L2) as (ts & ET & FT).
    exists (t :: ts). cbn [reserialize]. rewrite E. cbn [rbind]. rewrite BD, ET. cbn [rbind]. split; [reflexivity|]. constructor; assumption.
Qed.

(* so they are equal for CompareFrames (C39) *)
Theorem C80_equal : forall fbits fuel f ops t, frame_lit canon f ops -> written_as t ops -> N.of_nat (length f) < 2 ^ 32 -> N.of_nat (length t) < 2 ^ 32 ->
  readable_ops fbits ops -> Forall (fun o => Forall (fun v => match v with VFloat s => ~ is_nan (fbits s) | _ => True end) (r_vals o)) ops ->
  (length ops < fuel)%nat -> compare_frames fbits fuel f t = Done COk.
Proof.
  intros fbits fuel f ops t F W B BT R NN L. unfold written_as in W.
  assert (SB : forall x, map bare (denote (map UAppend x ++ [UEnd RAW])) = x) by (intro x; apply bare_denote).
  assert (EB : map bare (chunk_of (map bare ops)) = map bare ops) by (unfold chunk_of; apply SB).
  assert (LE : length (chunk_of (map bare ops)) = length ops) by (apply (f_equal (@length _)) in EB; rewrite !map_length in EB; exact EB).
  assert (RT : readable_ops fbits (chunk_of (map bare ops))).
  { unfold readable_ops in *. clear -EB R. revert R EB. generalize (chunk_of (map bare ops)). intros l R EB. revert l EB. induction R as [|o ops H R IH]; intros [|x l] EB; try discriminate EB; [constructor|].
    cbn [map] in EB. constructor; [|apply IH; apply (f_equal (@tl _)) in EB; exact EB].
    apply (f_equal (fun z => u_vals (hd origin_op z))) in EB. cbn [hd bare u_vals] in EB. rewrite EB. exact H. }
  destruct (C39_compare fbits f t ops (chunk_of (map bare ops)) false false) with (fuel := fuel) as (s & E & IFF); try assumption; try lia.
  - exists (S (length ops + 0)). apply (scan_frame (CW := canon)); assumption.
  - exists (S (length (chunk_of (map bare ops)) + 0)). apply (scan_frame (CW := canon)); assumption.
  - rewrite E. f_equal. apply IFF. split; [|split].
    + clear -EB R NN. revert R NN EB. generalize (chunk_of (map bare ops)). intros l R NN. revert l. induction ops as [|o ops IH]; intros [|x l] EB; try discriminate EB; [constructor|].
      inversion R as [|? ? R1 R2]; inversion NN as [|? ? N1 N2]; subst. cbn [map] in EB. pose proof (f_equal (@tl _) EB) as ET. cbn [tl] in ET.
      apply (f_equal (hd origin_op)) in EB. cbn [hd] in EB. unfold content in *. cbn [filter].
      assert (EI : r_id x = r_id o) by (apply (f_equal u_id) in EB; exact EB). assert (ER : r_ref x = r_ref o) by (apply (f_equal u_ref) in EB; exact EB).
      assert (EV : r_vals x = r_vals o) by (apply (f_equal u_vals) in EB; exact EB).
      rewrite EI. destruct (negb (uuid_eqb (r_id o) COMMENT)); [|apply IH; assumption]. constructor; [|apply IH; assumption].
      split; [congruence|]. split; [congruence|]. rewrite EV. clear -N1. induction N1 as [|v vs H N1 IH]; constructor; [|exact IH].
      destruct v; cbn [same_value]; auto.
    + split; intro Z; [rewrite Z in LE; destruct (chunk_of (map bare [])); [|discriminate LE]; subst; reflexivity|rewrite Z in LE; destruct ops; [reflexivity|discriminate LE]].
    + reflexivity.
Qed.

(* a frame with a syntax error stops it: the frames before are there, the
   status is not OK *)
Theorem C80_bad : forall fuel fs opss cs f l c rest, Forall2 (frame_lit canon) fs opss -> Forall (fun f => N.of_nat (length f) < 2 ^ 30) fs -> Forall2 at_first fs cs ->
  Forall writable opss -> Forall (fun ops => N.of_nat (length ops) < 2 ^ 32) opss -> Forall (fun ops => (length ops <= fuel)%nat) opss ->
  reads_as f l true -> at_first f c -> (length l <= fuel)%nat ->
  exists ts, reserialize fuel (cs ++ c :: rest) = Done (ts, false) /\ Forall2 written_as ts opss.
Proof.
  intros fuel fs opss cs f l c rest F B A W LN L RD FI LL. revert cs B A W LN L. induction F as [|f1 ops fs opss H F IH]; intros cs B A W LN L; inversion A as [|? c1 ? cs' A1 A2]; subst.
  - exists []. split; [|constructor]. destruct RD as (n & SC). destruct n as [|n]; [discriminate|]. cbn [scan] in SC. unfold at_first in FI. rewrite FI in SC.
    destruct (scan n c) as [r e] eqn:S1. injection SC as <- ->. destruct (scan_walk _ _ _ _ S1 (or_intror eq_refl)) as (cs & WK & <-).
    cbn [length] in LL. rewrite map_length in LL. cbn [app reserialize]. rewrite (walk_loop c cs SBad WK f (live_first f c FI) fuel) by lia. reflexivity.
  - inversion B as [|? ? B1 B2]; inversion W as [|? ? W1 W2]; inversion LN as [|? ? N1 N2]; inversion L as [|? ? L1 L2]; subst.
    destruct (one_frame f1 ops c1 H B1 A1 W1 N1 fuel L1) as (calls & t & E & BD & WT). destruct (IH cs' B2 A2 W2 N2 L2) as (ts & ET & FT).
    exists (t :: ts). cbn [app reserialize]. rewrite E. cbn [rbind]. rewrite BD, ET. cbn [rbind]. split; [reflexivity|]. constructor; assumption.
Qed.

(* a cursor as a frame hands it out, before its first Next, fails an assertion *)
Theorem C80_unmoved : forall fuel f rest, fuel <> O -> reserialize fuel (cursor_of f :: rest) = Aborted.
Proof. intros [|fuel] f rest H; [contradiction|]. reflexivity. Qed.
