(* C41, continued: the hexadecimal text of a hash. *)
From Verif Require Import Prelude UuidModel CodecModel CodecSpec CodecProofs CodecTheorems.

Lemma encode_loop_short w n raw b c : (n <= length raw)%nat -> encode_loop w n raw b c = encode_loop w n (firstn n raw) b c.
Proof.
  revert raw b c. induction n as [|n IH]; intros raw b c L; [reflexivity|]. destruct raw as [|x raw]; [cbn [length] in L; lia|].
  cbn [firstn encode_loop]. destruct (enc_emit _ _ _ _) as [bc ds]. rewrite IH by (cbn [length] in L; lia). reflexivity.
Qed.
Lemma encode_whole w coding raw n : n / 8 <= N.of_nat (length raw) ->
  encode w coding raw n = encode w coding (firstn (N.to_nat (n / 8)) raw) (8 * N.of_nat (length (firstn (N.to_nat (n / 8)) raw))).
Proof.
  intro L. assert (F : length (firstn (N.to_nat (n / 8)) raw) = N.to_nat (n / 8)) by (apply firstn_length_le; lia).
  unfold encode, encode_digits. rewrite F, N2Nat.id, (N.mul_comm 8), N.div_mul by discriminate. rewrite encode_loop_short by lia. reflexivity.
Qed.

(* The hex text of a hash: two digits for every byte that is known as a whole, and
   these bytes are read back from it; so a full hash has 64 digits and is read back *)
Theorem C41_hex h : length (hbits h) = 32%nat -> Forall is_byte (hbits h) -> known_bits h <= 256 ->
  exists s, sha2_hex h = Some s /\ length s = (2 * N.to_nat (known_bits h / 8))%nat
    /\ decode 4 abc16 s (4 * N.of_nat (length s)) = DecOk (firstn (N.to_nat (known_bits h / 8)) (hbits h)).
Proof.
  intros L F K. assert (Q : known_bits h / 8 <= 32) by (change 32 with (256 / 8); apply N.div_le_mono; [discriminate|exact K]).
  assert (FF : Forall is_byte (firstn (N.to_nat (known_bits h / 8)) (hbits h))).
  { rewrite Forall_forall in F |- *. intros x I. apply F. rewrite <- (firstn_skipn (N.to_nat (known_bits h / 8)) (hbits h)). apply in_or_app. left. exact I. }
  destruct (proj1 (proj2 C11_armour) _ FF) as (s & E & Ls & D). exists s. unfold sha2_hex.
  rewrite encode_whole by (rewrite L; lia). split; [exact E|]. split; [|exact D].
  rewrite Ls, firstn_length_le by lia. reflexivity.
Qed.
(* Two full hashes have the same hex text only if they are equal *)
Theorem C41_hex_tells a b s : length (hbits a) = 32%nat -> Forall is_byte (hbits a) -> known_bits a = 256 ->
  length (hbits b) = 32%nat -> Forall is_byte (hbits b) -> known_bits b = 256 ->
  sha2_hex a = Some s -> sha2_hex b = Some s -> length s = 64%nat /\ hbits a = hbits b.
Proof.
  intros La Fa Ka Lb Fb Kb Ea Eb.
  destruct (C41_hex a La Fa ltac:(rewrite Ka; lia)) as (x & Qa & Xa & Da). destruct (C41_hex b Lb Fb ltac:(rewrite Kb; lia)) as (y & Qb & Xb & Db).
  rewrite Qa in Ea. rewrite Qb in Eb. injection Ea as ->. injection Eb as ->. rewrite Ka in Xa, Da. rewrite Kb in Db.
  change (N.to_nat (256 / 8)) with 32%nat in *. split; [exact Xa|]. rewrite Da in Db. rewrite !firstn_all2 in Db by lia. injection Db as Db. exact Db.
Qed.
Print Assumptions C41_hex.
Print Assumptions C41_hex_tells.

Example C41_hex_case : sha2_hex (mkSha2 20 (171 :: 205 :: 239 :: repeat 0 29)) = Some [97; 98; 99; 100]
  /\ decode 4 abc16 [97; 98; 99; 100] 16 = DecOk [171; 205].
Proof. vm_compute. split; reflexivity. Qed.
(* the bits past the last whole byte are not printed: hashes abbreviated to five
   digits are printed by four *)
Theorem C41_hex_refuted : exists a b, known_bits a = 20 /\ known_bits b = 20 /\ sha2_matches a b = false /\ sha2_hex a = sha2_hex b.
Proof. exists (mkSha2 20 (171 :: 205 :: 239 :: repeat 0 29)), (mkSha2 20 (171 :: 205 :: 15 :: repeat 0 29)). vm_compute. repeat split. Qed.

(* C11, continued: the alphabets of the armour. The base64 digit of value d is the
   d-th of "0-9A-Z_a-z~", and nothing else is read; hex digits are written small
   and read small or capital. *)
Theorem C11_alphabet :
  (forall c d, abc64 c = Some d <-> nth_error BASE_PUNCT (N.to_nat d) = Some c)
  /\ (forall c d, abc16 c = Some d <->
       (d < 10 /\ c = 48 + d) \/ (10 <= d < 16 /\ (c = 97 + (d - 10) \/ c = 65 + (d - 10))))
  /\ (forall d, d < 16 -> nth (N.to_nat d) HEX_PUNCT 0 = if d <? 10 then 48 + d else 97 + (d - 10)).
Proof.
  assert (HI64 : forall c, abc64 c <> None -> c < 256).
  { intros c H. destruct (N.lt_ge_cases c 256) as [L|L]; [exact L|]. exfalso. apply H. unfold abc64. rewrite nth_overflow by (change (length ABC64) with 256%nat; lia). reflexivity. }
  assert (HI16 : forall c, abc16 c <> None -> c < 256).
  { intros c H. destruct (N.lt_ge_cases c 256) as [L|L]; [exact L|]. exfalso. apply H. unfold abc16. rewrite nth_overflow by (change (length ABC16) with 256%nat; lia). reflexivity. }
  split; [|split].
  - intros c d. split; intro E.
    + assert (L : c < 256) by (apply HI64; congruence).
      pose proof (forall_below_spec 256 (fun c => match abc64 c with None => true | Some d => match nth_error BASE_PUNCT (N.to_nat d) with Some x => x =? c | None => false end end) ltac:(vm_compute; reflexivity) c L) as K.
      cbv beta in K. rewrite E in K. destruct (nth_error BASE_PUNCT (N.to_nat d)) as [x|]; [|discriminate K]. apply N.eqb_eq in K. subst x. reflexivity.
    + assert (L : d < 64) by (assert (Z : (N.to_nat d < length BASE_PUNCT)%nat) by (apply nth_error_Some; congruence); change (length BASE_PUNCT) with 64%nat in Z; lia).
      rewrite <- (abc64_inv d L). f_equal. symmetry. apply nth_error_nth. exact E.
  - intros c d. split.
    + intro E. assert (L : c < 256) by (apply HI16; congruence).
      pose proof (forall_below_spec 256 (fun c => match abc16 c with None => true | Some d => (d <? 10) && (c =? 48 + d) || (10 <=? d) && (d <? 16) && ((c =? 97 + (d - 10)) || (c =? 65 + (d - 10))) end) ltac:(vm_compute; reflexivity) c L) as K.
      cbv beta in K. rewrite E in K. lia.
    + intro H. assert (L : d < 16) by lia.
      pose proof (forall_below_spec 16 (fun d => (match abc16 (48 + d) with Some x => (x =? d) || (10 <=? d) | None => 10 <=? d end)
        && (match abc16 (97 + (d - 10)), abc16 (65 + (d - 10)) with Some x, Some y => (x =? d) && (y =? d) || (d <? 10) | _, _ => d <? 10 end)) ltac:(vm_compute; reflexivity) d L) as K.
      cbv beta in K. apply andb_prop in K as [K1 K2]. destruct H as [[A ->]|[A H]].
      * destruct (abc16 (48 + d)) as [x|]; [f_equal; lia|lia].
      * destruct (abc16 (97 + (d - 10))) as [x|] eqn:X, (abc16 (65 + (d - 10))) as [y|] eqn:Y; try (exfalso; clear -K2 A; lia).
        destruct H as [-> | ->]; [rewrite X|rewrite Y]; f_equal; clear -K2 A; lia.
  - intros d L. pose proof (forall_below_spec 16 (fun d => nth (N.to_nat d) HEX_PUNCT 0 =? if d <? 10 then 48 + d else 97 + (d - 10)) ltac:(vm_compute; reflexivity) d L) as K.
    apply N.eqb_eq in K. exact K.
Qed.
Print Assumptions C11_alphabet.
Example C11_alphabet_case : abc64 126 = Some 63 /\ abc64 45 = None /\ abc16 70 = Some 15 /\ abc16 102 = Some 15 /\ abc16 71 = None.
Proof. vm_compute. repeat split. Qed.
