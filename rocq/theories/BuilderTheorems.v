(* The grammar of frames, and what frames made by the builder contain. *)
From Verif Require Import Prelude UuidModel UuidSpec CodecModel CodecSpec TextTable TextModel TextSpec
  TextTokens FrameProofs BuilderSpec BuilderProofs FrameErrors.

(* C43: the parser reads every frame of the grammar as the ops it denotes *)
Theorem C43_grammar : forall buf ops, frame_lit any_char buf ops -> N.of_nat (length buf) < 2 ^ 32 ->
  forall fuel, (length ops < fuel)%nat -> scan fuel (cursor_of buf) = (ops, SEnd).
Proof.
  intros buf ops F L fuel H. replace fuel with (S (length ops + (fuel - S (length ops)))) by lia.
  apply (scan_frame (CW := any_char)); assumption.
Qed.
Print Assumptions C43_grammar.

(* @A :B 1 'c'!  >1(2);.  with a line end after the full stop *)
Definition C43_text : bytes := [64;65;32;58;66;32;49;32;39;99;39;33;32;32;62;49;40;50;41;59;46;10].
Definition C43_A : uuid := mkUuid (10 * 2 ^ 54) 0.
Definition C43_ops : list rop :=
  [mkRop C43_A (mkUuid (11 * 2 ^ 54) 0) [VInt 1; VStr (Some [99])] HEADER;
   mkRop (inc C43_A) C43_A [VUuid (mkUuid (1 * 2 ^ 54) 0)] RAW;
   mkRop (inc (inc C43_A)) (inc C43_A) [VUuid (mkUuid (1 * 2 ^ 54) 0)] RAW].
Example C43_case : frame_lit any_char C43_text C43_ops /\ scan 4 (cursor_of C43_text) = (C43_ops, SEnd).
Proof.
  split; [|vm_compute; reflexivity].
  assert (U : forall c v, digit_value c = Some v -> v < 64 -> uuid_lit [c] (mkUuid (v * 2 ^ 54) 0)).
  { intros c v H B. pose proof (uuid_lit_intro [] 0 [c] [] 0 []) as X. cbn [app] in X.
    replace (mkUuid (v * 2 ^ 54) 0) with (mkUuid (0 * 2 ^ 60 + left_aligned 10 [c]) (0 * 2 ^ 60 + left_aligned 10 [])).
    - apply X; [left; auto| |cbn [length]; lia|left; auto|constructor|cbn [length]; lia].
      constructor; [unfold is_digit_char; rewrite H; discriminate|constructor].
    - f_equal. cbn [left_aligned]. rewrite H. change (64 ^ N.of_nat (10 - 1)) with (2 ^ 54). lia. }
  assert (B : blank [32]) by (constructor; [unfold ws_char; tauto|constructor]).
  assert (Z : blank []) by constructor.
  apply (fl [64;65;32;58;66;32;49;32;39;99;39;33;32;32;62;49;40;50;41;59] C43_ops [] [46; 10]); [|exact Z|right; reflexivity].
  apply (os_cons NIL [64;65;32;58;66;32;49;32;39;99;39;33] (firstn 1 C43_ops) [32;32;62;49;40;50;41;59] (skipn 1 C43_ops)).
  - apply (ol NIL [] [64;65;32;58;66] C43_A (mkUuid (11 * 2 ^ 54) 0) [32;49;32;39;99;39] [VInt 1; VStr (Some [99])] [] [] [[VInt 1; VStr (Some [99])]] [] 33 2);
      try exact Z; [|apply (vls_cons false [32] [49])|constructor|constructor].
    + apply (sl_both NIL [65] C43_A [32] [66]); [apply (U 65 10); reflexivity|exact B|discriminate|apply (U 66 11); reflexivity].
    + exact B.
    + discriminate.
    + apply (vl_int [49] 1); [apply (lit_pos [49]); [discriminate|constructor; [unfold is_dec; lia|constructor]]|left; cbn [length]; lia].
    + apply (vls_cons false [32] [39;99;39] (VStr (Some [99])) [] []); [exact B|discriminate| |constructor].
      apply (vl_str [([99], 99)]). split; [|split].
      * constructor; [cbn [fst snd]; apply e_plain; [apply u8_1; reflexivity|left; cbn; lia]|constructor].
      * intros bs cp r E. destruct r as [|x [|y r]]; inversion E; subst. discriminate.
      * constructor; [exact Logic.I|constructor].
  - apply (os_cons _ [32;32;62;49;40;50;41;59] (skipn 1 C43_ops) [] []); [|constructor].
    pose proof (ol (P := any_char) C43_A [32] [] (inc C43_A) C43_A [32;62;49] [VUuid (mkUuid (1 * 2 ^ 54) 0)] [] [40;50;41]
      (repeat [VUuid (mkUuid (1 * 2 ^ 54) 0)] 2) [] 59 0) as X. cbn [app] in X. apply X; try exact Z; try exact B; [constructor| | |constructor].
    + apply (vls_cons true [32] [62;49]); [exact B|discriminate| |constructor]. apply vl_quoted. apply (U 49 1); reflexivity.
    + apply (sp_count _ [] [50] [] Z Z); [discriminate|repeat constructor; discriminate|discriminate|reflexivity].
Qed.

(* C16: a frame built by faithful calls scans to the ops appended *)
Theorem C16_roundtrip : forall cs, good_calls origin_op false false cs -> N.of_nat (length cs) < 2 ^ 32 ->
  exists text, build_calls cs = Some text /\
    (N.of_nat (length text) < 2 ^ 32 ->
     forall fuel, (length (denote cs) < fuel)%nat -> scan fuel (cursor_of text) = (denote cs, SEnd)).
Proof.
  intros cs G L. destruct (build_calls_frame cs any_writes G L) as (text & B & F). exists text. split; [exact B|].
  intros LT fuel H. apply C43_grammar; assumption.
Qed.
Print Assumptions C16_roundtrip.

(* UUIDs, integers, strings, a span of characters, three chunks *)
Definition C16_id (n : N) : uuid := mkUuid (n * 2 ^ 24) (1000 * 2 ^ 40).
Definition C16_calls : list ucmd :=
  [UAppend (mkUop (C16_id 5) (mkUuid 1234 0) [VUuid (mkUuid 77 0)]); UEnd HEADER;
   UAppend (mkUop (C16_id 9) (C16_id 5) [VInt (-42); VStr (Some [233; 39])]);
   UAppend (mkUop (inc (C16_id 9)) (C16_id 9) [VStr (Some [97])]);
   UAppend (mkUop (inc (inc (C16_id 9))) (inc (C16_id 9)) [VStr (Some [8364])]); UEnd QUERY;
   UAppend (mkUop (C16_id 3) (C16_id 3) [])].
Example C16_case :
  map (fun t => scan 9 (cursor_of t)) (match build_calls C16_calls with Some t => [t] | None => [] end) =
  [(denote C16_calls, SEnd)] /\ length (denote C16_calls) = 5%nat /\
  good_calls origin_op false false C16_calls.
Proof.
  split; [vm_compute; reflexivity|]. split; [reflexivity|].
  assert (I : forall n, n < 2 ^ 30 -> id_ok (C16_id n)).
  { intros n H. unfold id_ok, uuid_wf, C16_id. cbn [uvalue uorigin]. change (2 ^ 30) with 1073741824 in H.
    change (2 ^ 24) with 16777216. change (2 ^ 64) with 18446744073709551616. split; [split; [lia|]|]; reflexivity. }
  assert (I1 : id_ok (inc (C16_id 9))) by (split; [split|]; reflexivity).
  assert (I2 : id_ok (inc (inc (C16_id 9)))) by (split; [split|]; reflexivity).
  assert (J : id_ok (mkUuid 1234 0)) by (split; [split|]; reflexivity).
  unfold C16_calls. cbn [good_calls].
  split; [|split; [discriminate|split; [discriminate|split; [cbn; tauto|]]]].
  { split; [apply I; reflexivity|]. split; [exact J|]. constructor; [|constructor].
    split; [split; reflexivity|]. split; [reflexivity|]. apply not_float. vm_compute. reflexivity. }
  split; [|split; [discriminate|split; [discriminate|]]].
  { split; [apply I; reflexivity|]. split; [apply I; reflexivity|]. constructor; [cbn [value_ok]; lia|]. constructor; [|constructor].
    repeat constructor; discriminate. }
  split; [|split; [reflexivity|split; [discriminate|]]].
  { split; [exact I1|]. split; [apply I; reflexivity|]. constructor; [|constructor]. repeat constructor; discriminate. }
  split; [|split; [reflexivity|split; [|split; [cbn; tauto|]]]].
  { split; [exact I2|]. split; [exact I1|]. constructor; [|constructor]. repeat constructor; discriminate. }
  { intros _. split; [reflexivity|]. right. cbn. split; [reflexivity|]. intro H. repeat (destruct H as [H|H]; [discriminate|]). exact H. }
  split; [|split; [discriminate|split; [discriminate|exact Logic.I]]].
  split; [apply I; reflexivity|]. split; [apply I; reflexivity|constructor].
Qed.

(* the conditions of C16 are needed. A span that goes on after the end of a
   chunk is written as garbage: 'a' ; 'b' *)
Definition C16_ab : list ucmd :=
  [UAppend (mkUop (C16_id 9) (C16_id 5) [VStr (Some [97])]); UEnd RAW;
   UAppend (mkUop (inc (C16_id 9)) (C16_id 9) [VStr (Some [98])])].
Definition scan_calls (cs : list ucmd) : option (list rop * scan_end) :=
  option_map (fun t => scan 9 (cursor_of t)) (build_calls cs).
Theorem C16_closed_span_refuted : exists cs, scan_calls cs <> Some (denote cs, SEnd) /\
  Forall (fun c => match c with UAppend o => uop_ok o | UEnd t => t = RAW end) cs.
Proof.
  exists C16_ab. split; [vm_compute; discriminate|].
  assert (I : forall n, n < 2 ^ 30 -> id_ok (C16_id n)).
  { intros n H. unfold id_ok, uuid_wf, C16_id. cbn [uvalue uorigin]. change (2 ^ 30) with 1073741824 in H.
    change (2 ^ 24) with 16777216. change (2 ^ 64) with 18446744073709551616. split; [split; [lia|]|]; reflexivity. }
  assert (I1 : id_ok (inc (C16_id 9))) by (split; [split|]; reflexivity).
  constructor; [|constructor; [reflexivity|constructor; [|constructor]]].
  - split; [apply I; reflexivity|]. split; [apply I; reflexivity|]. constructor; [|constructor]. repeat constructor; discriminate.
  - split; [exact I1|]. split; [apply I; reflexivity|]. constructor; [|constructor]. repeat constructor; discriminate.
Qed.
Print Assumptions C16_closed_span_refuted.

(* a UUID span after the end of a chunk: the second value is lost *)
Theorem C16_closed_uuid_span_refuted : exists cs ops, scan_calls cs = Some (ops, SEnd) /\
  map r_vals ops = [[VUuid (C16_id 7)]; []] /\ map r_vals (denote cs) = [[VUuid (C16_id 7)]; [VUuid (C16_id 7)]].
Proof.
  exists [UAppend (mkUop (C16_id 9) (C16_id 5) [VUuid (C16_id 7)]); UEnd RAW;
          UAppend (mkUop (inc (C16_id 9)) (C16_id 9) [VUuid (C16_id 7)])].
  eexists. vm_compute. repeat split.
Qed.
Print Assumptions C16_closed_uuid_span_refuted.

(* a span of characters whose first one is not ASCII comes back altered *)
Theorem C16_wide_span_refuted : exists cs, scan_calls cs <> Some (denote cs, SEnd) /\
  map r_vals (denote cs) = [[VStr (Some [233])]; [VStr (Some [97])]] /\ length cs = 2%nat.
Proof.
  exists [UAppend (mkUop (C16_id 9) (C16_id 5) [VStr (Some [233])]);
          UAppend (mkUop (inc (C16_id 9)) (C16_id 9) [VStr (Some [97])])].
  split; [vm_compute; discriminate|]. split; reflexivity.
Qed.
Print Assumptions C16_wide_span_refuted.

(* the first op of a frame, with id 0000000001 and the error UUID as its only
   value, loses that value *)
Theorem C16_first_fatal_refuted : exists cs ops, scan_calls cs = Some (ops, SEnd) /\
  map r_vals ops <> map r_vals (denote cs) /\ length cs = 1%nat.
Proof.
  exists [UAppend (mkUop (inc NIL) NIL [VUuid FATAL])]. eexists. split; [vm_compute; reflexivity|].
  split; [vm_compute; discriminate|reflexivity].
Qed.
Print Assumptions C16_first_fatal_refuted.

(* a UUID value spelled 1e5 comes back as a number and a UUID *)
Theorem C16_float_like_refuted : exists u cs ops, id_ok u /\ cs = [UAppend (mkUop (C16_id 9) (C16_id 5) [VUuid u])] /\
  scan_calls cs = Some (ops, SEnd) /\ map r_vals ops = [[VFloat [49; 101; 53]; VUuid u]].
Proof.
  exists (mkUuid (1 * 2 ^ 54 + 41 * 2 ^ 48 + 5 * 2 ^ 42) 0). eexists _, _. split; [split; [split|]; reflexivity|].
  split; [reflexivity|]. split; vm_compute; reflexivity.
Qed.
Print Assumptions C16_float_like_refuted.

(* C12: strings in frames come back, except those with a NUL or a form feed *)
Theorem C12_strings : forall id ref s, id_ok id -> id_ok ref -> (id = inc NIL -> ref = NIL) ->
  Forall (fun cp => cp < 2 ^ 21) s ->
  exists text, build_calls [UAppend (mkUop id ref [VStr (Some s)])] = Some text /\
    (N.of_nat (length text) < 2 ^ 32 ->
     (~ In 0 s /\ ~ In 12 s <-> scan 2 (cursor_of text) = ([mkRop id ref [VStr (Some s)] RAW], SEnd))).
Proof. exact string_frame. Qed.
Print Assumptions C12_strings.

Example C12_case : let s := [39; 34; 92; 10; 8364; 128512; 97] in
  scan_calls [UAppend (mkUop (C16_id 9) (C16_id 5) [VStr (Some s)])] =
    Some ([mkRop (C16_id 9) (C16_id 5) [VStr (Some s)] RAW], SEnd) /\
  scan_calls [UAppend (mkUop (C16_id 9) (C16_id 5) [VStr (Some [97; 12])])] = Some ([], SBad).
Proof. split; vm_compute; reflexivity. Qed.

(* C17: after any faithful calls, an op that takes the next id but references
   another op makes the frame unreadable from that op on *)
Theorem C17_sequential_id : forall cs1 o cs2,
  good_calls origin_op false false cs1 -> uop_ok o ->
  u_id o = inc (u_id (last_uop origin_op cs1)) -> u_ref o <> u_id (last_uop origin_op cs1) ->
  good_calls o true false cs2 -> N.of_nat (length cs1) < 2 ^ 32 ->
  exists text pre, build_calls (cs1 ++ UAppend o :: cs2) = Some text /\
    denote (cs1 ++ UAppend o :: cs2) = pre ++ denote (UAppend o :: cs2) /\
    (N.of_nat (length text) < 2 ^ 32 ->
     forall fuel, (length pre < fuel)%nat -> scan fuel (cursor_of text) = (pre, SBad)).
Proof.
  intros cs1 u cs2 G1 U EI NR G2 L.
  destruct (calls_good cs1 any_writes lo0 origin_op false false G1 ltac:(discriminate)) as (a1 & E1 & M1 & GA1).
  destruct (wop_of_ok u any_writes U) as (o & EO & R).
  destruct (calls_good cs2 any_writes o u true false G2 ltac:(auto)) as (a2 & E2 & M2 & GA2).
  rewrite <- M1 in EI, NR, L. rewrite map_length in L.
  destruct (build_lone_ref a1 o u a2 GA1 R EI NR GA2 L) as (s & w & x & pre & B & O & W & D).
  exists (s ++ w ++ 58 :: x), pre.
  assert (CA : calls_of (cs1 ++ UAppend u :: cs2) = Some (map to_b (a1 ++ AApp o u :: a2))).
  { rewrite map_app. cbn [map to_b]. clear -E1 E2 EO. revert a1 E1. induction cs1 as [|c cs1 IH]; intros a1 E1.
    - cbn [calls_of] in E1. injection E1 as E1. destruct a1; [|discriminate]. cbn [app calls_of map]. rewrite EO, E2. reflexivity.
    - cbn [app calls_of] in *. destruct (match c with UAppend o => _ | UEnd t => _ end) as [y|]; [|discriminate].
      destruct (calls_of cs1) as [ys|]; [|discriminate]. injection E1 as E1. destruct a1 as [|a a1]; [discriminate|].
      cbn [map] in E1. injection E1 as -> ->. rewrite (IH a1 eq_refl). reflexivity. }
  split; [unfold build_calls; rewrite CA; exact B|]. split.
  - rewrite map_app in D. cbn [map to_u] in D. rewrite M1, M2 in D. exact D.
  - intros LT fuel H. replace fuel with (S (length pre + (fuel - S (length pre)))) by lia. apply scan_lone_ref; assumption.
Qed.
Print Assumptions C17_sequential_id.

Example C17_case :
  scan_calls [UAppend (mkUop (C16_id 9) (C16_id 5) [VInt 1]); UAppend (mkUop (inc (C16_id 9)) (C16_id 5) [VInt 2]);
              UAppend (mkUop (C16_id 11) (C16_id 9) [VInt 3])] =
  Some ([mkRop (C16_id 9) (C16_id 5) [VInt 1] REDUCED], SBad).
Proof. vm_compute. reflexivity. Qed.

(* C40: a frame whose next op has an integer literal out of range, followed by
   a terminator, is reported as ended; followed by white space, as broken *)
Theorem C40_large_literal : forall s ops w sp id ref vt vs wv t v d rest,
  ops_lit any_char NIL s ops -> blank w -> spec_lit (last_id NIL ops) sp id ref ->
  values_lit any_char (match sp with [] => true | _ => false end) vt vs -> blank wv -> wv <> [] ->
  int_literal t v -> (v < - 2 ^ 63 \/ 2 ^ 63 <= v)%Z ->
  let buf := s ++ w ++ sp ++ vt ++ wv ++ t ++ d :: rest in N.of_nat (length buf) < 2 ^ 32 ->
  forall fuel, (length ops < fuel)%nat ->
  ((exists k, term_lit d k) -> scan fuel (cursor_of buf) = (ops, SEnd)) /\
  (ws_char d -> scan fuel (cursor_of buf) = (ops, SBad)).
Proof.
  intros s ops w sp id ref vt vs wv t v d rest O W SP VL WV NW IL V buf L fuel H.
  assert (NF : ~ int_fits t).
  { intro K. apply (int_fits_ok t v IL) in K. destruct (StringProofs.int_accept_sound t v IL K) as [B _]. lia. }
  replace fuel with (S (length ops + (fuel - S (length ops)))) by lia. split; intro D.
  - unfold buf. rewrite (scan_big_int s ops w sp id ref vt vs wv t v d rest _ O W SP VL WV NW IL NF (or_intror D) L).
    destruct D as (k & D). destruct D; reflexivity.
  - unfold buf. rewrite (scan_big_int s ops w sp id ref vt vs wv t v d rest _ O W SP VL WV NW IL NF (or_introl D) L).
    destruct D as [->|[->|[->| ->]]]; reflexivity.
Qed.
Print Assumptions C40_large_literal.

(* "@A 9223372036854775808;" and ";@B;" after it *)
Example C40_case :
  scan 5 (cursor_of [64;65;59;64;66;32;57;50;50;51;51;55;50;48;51;54;56;53;52;55;55;53;56;48;56;59;64;67;59]) =
  ([mkRop C43_A NIL [] RAW], SEnd).
Proof. vm_compute. reflexivity. Qed.
