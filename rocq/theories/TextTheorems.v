(* Properties of the text frame parser on arbitrary input. *)
From Verif Require Import Prelude UuidModel CodecModel TextTable TextModel TextSpec TextSafety SplitProofs.

(* C14: reading any buffer is memory safe and makes progress. Every atom of an
   op lies within the consumed part of the buffer. An assertion can fail only
   on a buffer with a run of more than 10 base64 digits. *)
Theorem C14_parser_safety : forall buf,
  (forall c, reachable buf c ->
    (no_long_word buf -> next c <> NAbort) /\
    (forall c', next c = NOk c' ->
       c_buf c' = buf /\ c_pos c' <= N.of_nat (length buf) /\
       (exists id ref vals, c_op c' = AUuid id :: AUuid ref :: vals) /\
       Forall (atom_within (c_pos c')) (c_op c') /\
       (c_pos c < c_pos c' \/ (c_pos c' = c_pos c /\ c_span c = c_span c' + 1)))) /\
  (forall fuel, (N.of_nat (length buf) + 1) * 2 ^ 32 <= N.of_nat fuel ->
     snd (scan fuel (cursor_of buf)) <> SFuel).
Proof.
  intro buf. split.
  - intros c R. destruct (reachable_ok buf c R) as [HC HS]. pose proof (next_safe buf c HC HS) as N.
    unfold next_ok in N. split.
    + intros NL E. rewrite E in N. exact (no_long buf NL N).
    + intros c' E. rewrite E in N. destruct N as ([N1 N2 N3 N4 N5] & [F X] & S & P).
      split; [exact N1|]. split; [exact N2|]. split; [exact X|]. split; [exact F|].
      destruct P as [P|P]; [left; tauto|right; tauto].
  - intros fuel H. destruct (C_start buf) as [HC HS]. apply (scan_fuel fuel buf); [exact HC|exact HS|].
    unfold left_over. cbn [cursor_of cursor_at c_buf c_pos c_span]. change (2 ^ 32) with 4294967296 in *. lia.
Qed.
Print Assumptions C14_parser_safety.

(* @1A 'x' >B;  is read within bounds *)
Example C14_case :
  let buf := [64;49;65;32;39;120;39;32;62;66;59] in
  exists c', next (cursor_of buf) = NOk c' /\ c_pos c' = 11 /\ length (c_op c') = 4%nat.
Proof. eexists. vm_compute. repeat split. Qed.

(* the condition is needed: "@00000000001;" trips the assertion of Word *)
Theorem C14_overlong_word_refuted : exists buf, next (cursor_of buf) = NAbort.
Proof. exists [64;48;48;48;48;48;48;48;48;48;48;49;59]. vm_compute. reflexivity. Qed.
Print Assumptions C14_overlong_word_refuted.

(* C15: after the end or an error the cursor stays invalid; after the end no
   further op is delivered, and after an error only as many as the span that
   was pending when the error occurred; then the same answer recurs. *)
Theorem C15_sticky : forall buf c c' d,
  reachable buf c -> next c = NEnd c' \/ next c = NBad c' -> later c' d ->
  valid d = false /\
  next d <> NAbort /\
  (forall e, next d = NOk e -> c_span d = c_span e + 1 /\ valid e = false /\ c_pos e = c_pos d) /\
  (c_span d = 0 -> exists e, (c_pos d <> 0 /\ next d = NBad d) \/ (buf <> [] /\ next d = NBad e) \/ (buf = [] /\ next d = NEnd e)) /\
  (next c = NEnd c' -> forall e, next d <> NOk e).
Proof.
  intros buf c c' d R E L. destruct (reachable_ok buf c R) as [HC HS].
  pose proof (next_dead buf c HC HS) as ND.
  assert (D : dead buf c') by (destruct E as [E|E]; rewrite E in ND; tauto).
  assert (Z : next c = NEnd c' -> c_span c' = 0) by (intro E'; rewrite E' in ND; tauto).
  assert (DD : dead buf d /\ (c_span c' = 0 -> c_span d = 0)).
  { clear E Z ND. induction L as [|c0 d0 e L IH X|c0 d0 e L IH X|c0 d0 e L IH X]; [split; [exact D|auto]| | |];
      destruct (IH D) as [I1 I2]; pose proof (dead_next buf d0 I1) as N; rewrite X in N; destruct N as [N1 N2];
      (split; [exact N1|]); intro Q; specialize (I2 Q); lia. }
  destruct DD as [DD DZ]. pose proof (dead_next buf d DD) as N.
  split; [unfold valid; rewrite (d_st _ _ DD); reflexivity|].
  split; [intro X; rewrite X in N; exact N|].
  split; [intros e X; rewrite X in N; destruct N as [N1 N2]; split; [exact N2|split; [unfold valid; rewrite (d_st _ _ N1); reflexivity|]];
    unfold next in X; destruct (c_span d =? 0) eqn:S; [lia|]; cbn [negb] in X; injection X as <-; reflexivity|].
  split.
  - intro S. unfold next in *. rewrite S in *. change (0 =? 0) with true in *. cbn [negb] in *. rewrite (d_st _ _ DD) in *.
    change (0 =? 0) with true in *. cbn [andb] in *.
    destruct (c_pos d =? 0) eqn:P; cbn [negb] in *.
    + destruct (d_pos _ _ DD) as [Q|[_ [Q|(b & t & Q & LK)]]]; [lia| |].
      * eexists. right. right. split; [exact Q|]. change (0 =? RON_FULL_STOP) with false. cbv iota.
        rewrite (C_buf _ _ (d_C _ _ DD)), Q. cbn [length]. change (N.of_nat 0) with 0. rewrite P. reflexivity.
      * eexists. right. left. split; [rewrite Q; discriminate|]. change (0 =? RON_FULL_STOP) with false. cbv iota.
        rewrite (C_buf _ _ (d_C _ _ DD)), Q.
        destruct (c_pos d =? N.of_nat (length (b :: t))) eqn:W; [cbn [length] in W; lia|].
        assert (P0 : c_pos d = 0) by lia. rewrite P0. change RON_START with 74. cbn [N.to_nat skipn run]. rewrite LK.
        cbn [l_term loc0]. reflexivity.
    + exists d. left. split; [lia|reflexivity].
  - intros X e Y. rewrite Y in N. specialize (DZ (Z X)). lia.
Qed.
Print Assumptions C15_sticky.

(* "1;x/" : an op, then an error, twice *)
Example C15_case :
  let buf := [49;59;120;47] in
  exists c d e, next (cursor_of buf) = NOk c /\ next c = NBad d /\ next d = NBad e /\ valid e = false.
Proof. do 3 eexists. vm_compute. repeat split. Qed.

(* a pending span does deliver ops after the error: 'a'(3)x *)
Theorem C15_op_after_error_refuted : exists buf c d,
  next (cursor_of buf) = NBad c /\ next c = NOk d.
Proof. exists [39;97;39;40;51;41;120]. do 2 eexists. vm_compute. split; reflexivity. Qed.
Print Assumptions C15_op_after_error_refuted.

(* C18: Split cuts the buffer after frame terminators and drops only white
   space between the frames. *)
Theorem C18_split : forall d, exists gaps,
  length gaps = length (split_frames d) /\
  d = glue (split_frames d) gaps /\
  Forall (Forall white) gaps /\
  (forall pre f post, split_frames d = pre ++ f :: post ->
     (forall i, term_at f i -> (i + 2 = length f)%nat) /\
     (post <> [] -> exists z, f = z ++ [46; 10]) /\
     (pre <> [] -> exists c r, f = c :: r /\ ~ white c)).
Proof. exact split_frames_spec. Qed.
Print Assumptions C18_split.

Example C18_case : split_frames [49;59;46;10;32;10;50;59;46;10;51;59] = [[49;59;46;10]; [50;59;46;10]; [51;59]]
  /\ split_frames [] = [[]].
Proof. vm_compute. split; reflexivity. Qed.
