(* The kind of a name: ron/uuid.cc:13-27 against the letters of its text. *)
From Verif Require Import Prelude UuidModel UuidSpec UuidProofs CliModel CliSpec.

Lemma class_digits (P : N -> bool) : P 0 = false -> forall k ds w, Forall (fun d => d < 64) ds -> (length ds <= k)%nat ->
  w mod 2 ^ (6 * N.of_nat k) = lval k ds -> existsb (fun i => P ((w / 2 ^ (6 * N.of_nat i)) mod 64)) (seq 0 k) = existsb P ds.
Proof.
  intro P0. assert (X6 : forall n, n + 6 - n = 6) by (intro n; lia). induction k as [|k IH]; intros ds w F L E; [destruct ds; [reflexivity|cbn in L; lia]|].
  rewrite seq_S, existsb_app. cbn [existsb plus]. rewrite orb_false_r.
  replace (6 * N.of_nat (S k)) with (6 * N.of_nat k + 6) in E by lia.
  rewrite (mod_pow2_split w (6 * N.of_nat k) (6 * N.of_nat k + 6)) in E by lia.
  rewrite X6 in E. change (2 ^ 6) with 64 in E.
  assert (LT : w mod 2 ^ (6 * N.of_nat k) < 2 ^ (6 * N.of_nat k)) by (apply N.mod_lt; pose proof (pow2_pos (6 * N.of_nat k)); lia).
  destruct ds as [|d ds].
  - cbn [lval] in E. rewrite (IH [] w (Forall_nil _) ltac:(cbn; lia)) by (cbn [lval]; nia). cbn [existsb orb].
    assert (Z : (w / 2 ^ (6 * N.of_nat k)) mod 64 = 0) by nia. rewrite Z. exact P0.
  - cbn [lval] in E. replace (S k - 1)%nat with k in E by lia. inversion F as [|? ? D F']; subst. cbn [length] in L.
    assert (LB : lval k ds < 2 ^ (6 * N.of_nat k)) by (apply lval_bound; [exact F'|lia]).
    assert (E1 : (w / 2 ^ (6 * N.of_nat k)) mod 64 = d) by nia. assert (E2 : w mod 2 ^ (6 * N.of_nat k) = lval k ds) by nia.
    rewrite (IH ds w F' ltac:(lia) E2), E1. cbn [existsb]. apply orb_comm.
Qed.

(* the loop of base64_case; stopping at 3 loses nothing *)
Lemma char_case_mod v : char_case v = char_case (v mod 64).
Proof. unfold char_case. change 63 with (N.ones 6). rewrite !N.land_ones. change (2 ^ 6) with 64. rewrite N.mod_mod by discriminate. reflexivity. Qed.
Lemma case_loop b : forall n u r, N.testbit (base64_case_loop n u r) b = N.testbit r b || existsb (fun i => N.testbit (char_case ((u / 2 ^ (6 * N.of_nat i)) mod 64)) b) (seq 0 n).
Proof.
  induction n as [|n IH]; intros u r; cbn [base64_case_loop]; [rewrite orb_false_r; reflexivity|].
  cbn [seq existsb]. change (2 ^ (6 * N.of_nat 0)) with 1. rewrite N.div_1_r. rewrite <- char_case_mod.
  assert (SH : existsb (fun i => N.testbit (char_case ((u / 2 ^ (6 * N.of_nat i)) mod 64)) b) (seq 1 n) =
    existsb (fun i => N.testbit (char_case ((N.shiftr u 6 / 2 ^ (6 * N.of_nat i)) mod 64)) b) (seq 0 n)).
  { rewrite <- (seq_shift n 0). generalize (seq 0 n). intro l. induction l as [|i l IHl]; [reflexivity|]. cbn [map existsb]. rewrite IHl. f_equal.
    rewrite N.shiftr_div_pow2, N.div_div by (pose proof (pow2_pos (6 * N.of_nat i)); change (2 ^ 6) with 64; lia). rewrite <- N.pow_add_r. do 5 f_equal. lia. }
  rewrite SH. destruct (N.eqb_spec u 3) as [->|NE].
  - change (N.testbit (char_case 3) b) with (N.testbit 0 b). rewrite N.bits_0. change (N.shiftr 3 6) with 0.
    assert (Z : existsb (fun i => N.testbit (char_case ((0 / 2 ^ (6 * N.of_nat i)) mod 64)) b) (seq 0 n) = false).
    { generalize (seq 0 n). intro l. induction l as [|i l IHl]; [reflexivity|]. cbn [existsb]. rewrite IHl.
      rewrite N.div_0_l by (pose proof (pow2_pos (6 * N.of_nat i)); lia). change (char_case (0 mod 64)) with 0. rewrite N.bits_0. reflexivity. }
    rewrite Z, !orb_false_r. reflexivity.
  - rewrite IH, N.lor_spec, orb_assoc. reflexivity.
Qed.
Lemma case_low v : char_case v < 4.
Proof.
  rewrite char_case_mod. assert (v mod 64 < 64) by (apply N.mod_lt; discriminate). apply N.ltb_lt.
  apply (forall_below_spec 64 (fun d => char_case d <? 4)); [vm_compute; reflexivity|exact H].
Qed.
Lemma lor_low a b : a < 4 -> b < 4 -> N.lor a b < 4.
Proof.
  intros A B. apply N.ltb_lt. pose proof (forall_below_spec 4 (fun a => forall_below 4 (fun b => N.lor a b <? 4)) ltac:(vm_compute; reflexivity) a A) as K. cbv beta in K.
  exact (forall_below_spec 4 (fun b => N.lor a b <? 4) K b B).
Qed.
Lemma loop_low : forall n u r, r < 4 -> base64_case_loop n u r < 4.
Proof. induction n as [|n IH]; intros u r L; cbn [base64_case_loop]; [exact L|]. destruct (u =? 3); [exact L|]. apply IH, lor_low; [exact L|apply case_low]. Qed.

Definition capitalb (c : N) : bool := ((65 <=? c) && (c <=? 90)) || (c =? 126).
Definition smallb (c : N) : bool := (c =? 95) || ((97 <=? c) && (c <=? 122)).
Lemma capitalb_ok c : capitalb c = true <-> capital c.
Proof. unfold capitalb, capital. rewrite orb_true_iff, andb_true_iff, !N.leb_le, N.eqb_eq. tauto. Qed.
Lemma smallb_ok c : smallb c = true <-> small_letter c.
Proof. unfold smallb, small_letter. rewrite orb_true_iff, andb_true_iff, !N.leb_le, N.eqb_eq. tauto. Qed.
Lemma exists_of (f : N -> bool) (P : N -> Prop) s : (forall c, f c = true <-> P c) -> (existsb f s = true <-> Exists P s).
Proof. intro H. rewrite existsb_exists, Exists_exists. split; intros (x & I & K); exists x; (split; [exact I|apply H, K]). Qed.
Lemma letters s : forallb is_dgt s = true -> existsb (fun d => N.testbit (char_case d) 1) (map abc s) = existsb capitalb s /\
  existsb (fun d => N.testbit (char_case d) 0) (map abc s) = existsb smallb s.
Proof.
  induction s as [|c s IH]; intro D; [split; reflexivity|]. cbn [forallb map existsb] in *. apply andb_true_iff in D as [D1 D2]. destruct (IH D2) as [-> ->].
  assert (L : c < 128).
  { apply N.ltb_lt. unfold is_dgt in D1. rewrite !orb_true_iff, !andb_true_iff, !N.leb_le, !N.eqb_eq in D1. apply N.ltb_lt. lia. }
  pose proof (forall_below_spec 128 (fun c => negb (is_dgt c) || (Bool.eqb (N.testbit (char_case (abc c)) 1) (capitalb c) && Bool.eqb (N.testbit (char_case (abc c)) 0) (smallb c)))
    ltac:(vm_compute; reflexivity) c L) as K. cbv beta in K. rewrite D1 in K. cbn [negb orb] in K. apply andb_true_iff in K as [K1 K2]. apply Bool.eqb_prop in K1, K2. rewrite K1, K2. auto.
Qed.
(* The case computed for a word is that of the letters it is written with. *)
Lemma kind_text s w : forallb is_dgt s = true -> (length s <= 10)%nat -> lval 10 (map abc s) = w mod 2 ^ 60 -> kind s (base64_case w).
Proof.
  intros D L E. destruct (letters s D) as [LC LS].
  assert (F : Forall (fun d => d < 64) (map abc s)).
  { rewrite Forall_map, Forall_forall. intros c I. rewrite forallb_forall in D. specialize (D c I).
    assert (LC' : c < 128) by (unfold is_dgt in D; rewrite !orb_true_iff, !andb_true_iff, !N.leb_le, !N.eqb_eq in D; lia).
    pose proof (forall_below_spec 128 (fun c => negb (is_dgt c) || (abc c <? 64)) ltac:(vm_compute; reflexivity) c LC') as K. cbv beta in K. rewrite D in K. apply N.ltb_lt. exact K. }
  assert (ML : (length (map abc s) <= 10)%nat) by (rewrite map_length; exact L).
  assert (B : forall b, N.testbit (base64_case w) b = existsb (fun d => N.testbit (char_case d) b) (map abc s)).
  { intro b. unfold base64_case. rewrite case_loop, N.bits_0. cbn [orb].
    refine (class_digits (fun d => N.testbit (char_case d) b) _ 10 (map abc s) w F ML _); [change (char_case 0) with 0; apply N.bits_0|]. change (6 * N.of_nat 10) with 60. symmetry. exact E. }
  assert (LOW : base64_case w < 4) by (apply loop_low; reflexivity).
  pose proof (B 1) as B1. pose proof (B 0) as B0. rewrite LC in B1. rewrite LS in B0. clear B.
  pose proof (exists_of capitalb capital s capitalb_ok) as XC. pose proof (exists_of smallb small_letter s smallb_ok) as XS.
  rewrite <- B1 in XC. rewrite <- B0 in XS. clear -LOW XC XS.
  assert (C : base64_case w = 0 \/ base64_case w = 1 \/ base64_case w = 2 \/ base64_case w = 3) by lia.
  destruct C as [C|[C|[C|C]]]; rewrite C in *.
  - apply kind_numeric; [intro Q; apply XC in Q|intro Q; apply XS in Q]; vm_compute in Q; discriminate Q.
  - apply kind_snake; [intro Q; apply XC in Q; vm_compute in Q; discriminate Q|apply XS; reflexivity].
  - apply kind_caps; [apply XC; reflexivity|intro Q; apply XS in Q; vm_compute in Q; discriminate Q].
  - apply kind_camel; [apply XC; reflexivity|apply XS; reflexivity].
Qed.
Theorem C63_written w : kind (write_word w) (base64_case w).
Proof.
  destruct (write_word_text w) as (D & (_ & L) & V). apply Forall_digit_char in D. apply kind_text; [exact D|exact L|]. rewrite <- left_aligned_lval by exact D. exact V.
Qed.
(* for a name as it is typed: trailing zeroes do not matter *)
Theorem C63_typed s vrt value vsn origin : uuid_text s vrt value vsn origin -> kind value (base64_case (uvalue (parse_uuid s))).
Proof.
  intro T. rewrite (parse_uuid_accepts _ _ _ _ _ T). cbn [uvalue]. destruct T as (vp & op & _ & VP & D & L & _). apply Forall_digit_char in D.
  apply kind_text; [exact D|exact L|]. rewrite <- left_aligned_lval by exact D. rewrite N.add_comm, N.mod_add by discriminate. symmetry. apply N.mod_small.
  apply left_aligned_bound; [apply Forall_digit_char; exact D|exact L].
Qed.
(* there is one kind of a text *)
Theorem C63_one t a b : kind t a -> kind t b -> a = b.
Proof. intros [] []; try reflexivity; contradiction. Qed.
Example C63_case : base64_case (uvalue (parse_uuid [65; 98; 99])) = CAMEL /\ base64_case (uvalue (parse_uuid [97; 95; 49])) = SNAKE /\
  base64_case (uvalue (parse_uuid [65; 49; 126])) = CAPS /\ base64_case (uvalue (parse_uuid [49; 51; 48; 51])) = NUMERIC /\
  base64_case (uvalue (parse_uuid [51; 48; 97])) = SNAKE /\ uuid_text [51; 48; 97] 0 [51; 48; 97] 0 [].
Proof.
  do 5 (split; [vm_compute; reflexivity|]). exists [], []. split; [reflexivity|]. split; [left; auto|]. split; [repeat (constructor; [discriminate|]); constructor|].
  split; [cbn; lia|]. split; [left; auto|]. split; [constructor|]. split; [cbn; lia|]. discriminate.
Qed.
Print Assumptions C63_written.
Print Assumptions C63_typed.
Print Assumptions C63_one.
