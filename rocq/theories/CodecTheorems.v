(* Properties C09 (UTF-8), C10 (UTF-16), C11 (base-2^k armour), C13 (integers),
   C41 (hash texts), C42 (abbreviated hashes). *)
From Verif Require Import Prelude UuidModel CodecModel CodecSpec CodecProofs StringProofs.

(* C09 *)
Theorem C09_utf8 :
  (* the decoder accepts exactly sequences of UTF-8 style characters, and
     returns their numbers *)
  (forall s l, parse_utf8 s = Some l <-> utf8_text s l) /\
  (* the encoder writes the shortest such character *)
  (forall cp, cp < 2 ^ 21 -> utf8_char (utf8append cp) cp /\
     forall bs, utf8_char bs cp -> (length (utf8append cp) <= length bs)%nat) /\
  (* decoding an encoded text gives it back *)
  (forall l, Forall (fun cp => cp < 2 ^ 21) l -> parse_utf8 (flat_map utf8append l) = Some l) /\
  (* the single-character reader consumes exactly the bytes of one character *)
  (forall cp r, cp < 2 ^ 21 -> utf8read (utf8append cp ++ r) = Some (cp, r)) /\
  (* a text cut inside its last character is refused *)
  (forall l cp p q, Forall (fun c => c < 2 ^ 21) l -> cp < 2 ^ 21 ->
     utf8append cp = p ++ q -> p <> [] -> q <> [] ->
     parse_utf8 (flat_map utf8append l ++ p) = None).
Proof.
  exact (conj parse_utf8_exact (conj (fun cp H => conj (utf8append_char cp H) (fun bs => utf8append_shortest cp bs H))
   (conj utf8_roundtrip (conj utf8read_append utf8_truncated)))).
Qed.
Print Assumptions C09_utf8.

Example C09_case : parse_utf8 (flat_map utf8append [65; 1071; 8364; 128512]) = Some [65; 1071; 8364; 128512]
  /\ flat_map utf8append [65; 1071; 8364; 128512] = [65; 208;175; 226;130;172; 240;159;152;128].
Proof. vm_compute. split; reflexivity. Qed.

(* The decoder does not enforce canonical UTF-8 (encdec.hpp:64-66 says RON
   should): NUL in two bytes is accepted as the code point 0. *)
Theorem C09_canonical_utf8_refuted : exists s l, parse_utf8 s = Some l /\ flat_map utf8append l <> s.
Proof. exists [192; 128], [0]. vm_compute. split; [reflexivity|discriminate]. Qed.
Print Assumptions C09_canonical_utf8_refuted.

(* C10 *)
Theorem C10_utf16 :
  (forall l, Forall (fun c => c < 2 ^ 21) l ->
     utf16read_all (length (flat_map utf16append l)) (flat_map utf16append l) = Some l) /\
  (forall cp, scalar cp -> (utf16append cp = utf16_standard cp <-> cp < 0x10000 /\ cp <> 0xD7FF)).
Proof. exact (conj (fun l H => utf16_all l H _ (le_n _)) utf16_standard_iff). Qed.
Print Assumptions C10_utf16.

Example C10_case : flat_map utf16append [1071; 8364] = [1071; 8364] /\
  utf16read_all 4 (flat_map utf16append [1071; 128512]) = Some [1071; 128512].
Proof. vm_compute. split; reflexivity. Qed.

(* every supplementary-plane character gets non-standard units *)
Theorem C10_utf16_standard_refuted : exists cp, scalar cp /\ utf16append cp <> utf16_standard cp.
Proof. exists 128512. split; [right; split; vm_compute; [discriminate|reflexivity]|vm_compute; discriminate]. Qed.
Print Assumptions C10_utf16_standard_refuted.

(* C11. Hex (w = 4) and base64 (w = 6) armour. *)
Theorem C11_armour :
  (* digits: the bits of the whole bytes taken, zero padded to a digit *)
  (forall w raw n, (0 < w <= 8)%nat -> n / 8 <= N.of_nat (length raw) -> Forall is_byte raw ->
     exists ds, encode_digits (N.of_nat w) raw n = Some ds /\
       bits_of w ds = bits_of 8 (firstn (N.to_nat (n / 8)) raw)
                      ++ repeat false (pad_to w (8 * N.to_nat (n / 8))) /\
       Forall (fun d => d < 2 ^ N.of_nat w) ds) /\
  (* round trips *)
  (forall raw, Forall is_byte raw -> exists s,
     encode 4 HEX_PUNCT raw (8 * N.of_nat (length raw)) = Some s /\ length s = (2 * length raw)%nat /\
     decode 4 abc16 s (4 * N.of_nat (length s)) = DecOk raw) /\
  (forall raw, Forall is_byte raw -> exists s,
     encode 6 BASE_PUNCT raw (8 * N.of_nat (length raw)) = Some s /\
     (8 * length raw <= 6 * length s < 8 * length raw + 6)%nat /\
     decode 6 abc64 s (6 * N.of_nat (length s)) =
       DecOk (raw ++ if (8 * length raw =? 6 * length s)%nat then [] else [0])) /\
  (* a character outside the alphabet is refused *)
  (forall w table coded n i c, nth_error coded i = Some c -> table c = None -> (i < N.to_nat (n / w))%nat ->
     (N.to_nat (n / w) <= length coded)%nat -> exists out, decode w table coded n = DecBad out).
Proof.
  split; [exact encode_digits_spec|]. split; [|split].
  - intros raw F.
    destruct (armour_roundtrip 4 HEX_PUNCT abc16 raw (or_introl eq_refl) abc16_bound abc16_inv F) as (s & E & L1 & L2 & D).
    exists s. split; [exact E|]. assert (L : length s = (2 * length raw)%nat) by lia. split; [exact L|].
    change (N.of_nat 4) with 4 in D. rewrite D. replace (8 * length raw =? 4 * length s)%nat with true by lia.
    rewrite app_nil_r. reflexivity.
  - intros raw F.
    destruct (armour_roundtrip 6 BASE_PUNCT abc64 raw (or_intror eq_refl) abc64_bound abc64_inv F) as (s & E & L1 & L2 & D).
    exists s. split; [exact E|]. split; [lia|]. exact D.
  - intros w table coded n i c Hi Hc Hn Hl. exact (decode_loop_bad w table _ coded 0 0 i c Hi Hc Hn Hl).
Qed.
Print Assumptions C11_armour.

Example C11_case : encode 6 BASE_PUNCT [255; 0; 17; 34] 32 = Some [126; 108; 48; 72; 56; 87] /\
  decode 6 abc64 [126; 108; 48; 72; 56; 87] 36 = DecOk [255; 0; 17; 34; 0] /\
  decode 6 abc64 [126; 33] 12 = DecBad [].
Proof. vm_compute. repeat split; reflexivity. Qed.

(* Asked for the bit length of the original, the base64 decoder drops the
   last incomplete digit: a 32-byte hash loses its last 4 bits. *)
Theorem C11_base64_by_bit_length_refuted : exists raw s, length raw = 32%nat /\
  encode 6 BASE_PUNCT raw 256 = Some s /\ decode 6 abc64 s 256 <> DecOk raw.
Proof.
  exists (repeat 255 32). eexists. split; [reflexivity|]. split; [vm_compute; reflexivity|].
  vm_compute. discriminate.
Qed.
Print Assumptions C11_base64_by_bit_length_refuted.

(* C13. int_too_big is the check the frame parser runs on every integer token,
   parse_integer the value the cursor reports, write_int the formatter. *)
Theorem C13_integers :
  (* every accepted literal is within 64 bits and read as its value *)
  (forall s v, int_literal s v -> int_too_big s = false ->
     (- 2 ^ 63 < v < 2 ^ 63)%Z /\ parse_integer s = v) /\
  (* every integer from -922337203685477580 up is printed, accepted and read back *)
  (forall v, (- 922337203685477580 <= v < 2 ^ 63)%Z ->
     exists s, write_int v = Some s /\ int_literal s v /\ int_too_big s = false /\ parse_integer s = v) /\
  (* the others are printed but refused, or overflow the print buffer *)
  (forall v, (- 10 ^ 18 < v < - 922337203685477580)%Z ->
     exists s, write_int v = Some s /\ int_literal s v /\ int_too_big s = true) /\
  (forall v, (- 2 ^ 63 <= v <= - 10 ^ 18)%Z -> write_int v = None).
Proof.
  split; [exact int_accept_sound|]. split; [|split].
  - intros v H. pose proof (write_int_text v ltac:(lia)) as W.
    destruct (write_int v) as [s|].
    + destruct W as (L & _ & T). exists s. split; [reflexivity|]. split; [exact L|].
      assert (Q : int_too_big s = false) by (apply T; change (Z.of_N MAX18) with 922337203685477580%Z; lia).
      split; [exact Q|]. apply int_accept_sound; assumption.
    + change (10 ^ 18)%Z with 1000000000000000000%Z in W. lia.
  - intros v H. pose proof (write_int_text v ltac:(change (10 ^ 18)%Z with 1000000000000000000%Z in H; change (2 ^ 63)%Z with 9223372036854775808%Z; lia)) as W.
    destruct (write_int v) as [s|].
    + destruct W as (L & _ & T). exists s. split; [reflexivity|]. split; [exact L|].
      destruct (int_too_big s); [reflexivity|].
      pose proof (proj1 T eq_refl) as Q. change (Z.of_N MAX18) with 922337203685477580%Z in Q. lia.
    + lia.
  - intros v H. pose proof (write_int_text v ltac:(change (10 ^ 18)%Z with 1000000000000000000%Z in H; change (2 ^ 63)%Z with 9223372036854775808%Z in *; lia)) as W.
    destruct (write_int v) as [s|]; [|reflexivity]. destruct W as (_ & Q & _). lia.
Qed.
Print Assumptions C13_integers.

Example C13_case : write_int (-900000000000000001)%Z =
   Some [45;57;48;48;48;48;48;48;48;48;48;48;48;48;48;48;48;48;49] /\
  parse_integer [45;57;48;48;48;48;48;48;48;48;48;48;48;48;48;48;48;48;49] = (-900000000000000001)%Z /\
  int_too_big [57;50;50;51;51;55;50;48;51;54;56;53;52;55;55;53;56;48;56] = true.
Proof. vm_compute. repeat split; reflexivity. Qed.

(* not every 64-bit integer survives: the two exact exception ranges are not empty *)
Theorem C13_full_range_refuted :
  (exists v s, (- 2 ^ 63 <= v < 2 ^ 63)%Z /\ write_int v = Some s /\ int_too_big s = true) /\
  (exists v, (- 2 ^ 63 < v < 2 ^ 63)%Z /\ write_int v = None).
Proof.
  split.
  - exists (-950000000000000000)%Z. eexists. split; [vm_compute; split; [discriminate|reflexivity]|].
    split; [vm_compute; reflexivity|]. vm_compute. reflexivity.
  - exists (-1000000000000000000)%Z. split; [vm_compute; split; reflexivity|vm_compute; reflexivity].
Qed.
Print Assumptions C13_full_range_refuted.

(* C41. A hash is printed faithfully; parsing never recovers its bits. *)
Lemma sha2_parse_zero w table m s : (0 < w) -> (length s <= N.to_nat m)%nat ->
  sha2_parse w table m s = Some (mkSha2 (N.min (N.of_nat (length s) * w) 256) (repeat 0 32)).
Proof.
  intros Hw L. unfold sha2_parse. replace (m <? N.of_nat (length s)) with false by lia.
  change (known_bits SHA2_EMPTY) with 0. unfold decode. rewrite N.div_0_l by lia. reflexivity.
Qed.

Theorem C41_hash_text :
  (* printing a full hash keeps all its bits *)
  (forall h, known_bits h = 256 -> length (hbits h) = 32%nat -> Forall is_byte (hbits h) ->
     exists s, sha2_base64 h = Some s /\ length s = 43%nat /\ sha2_valid s = true /\
       decode 6 abc64 s 258 = DecOk (hbits h ++ [0])) /\
  (* reading any text of admissible length, valid or not, gives zero bits *)
  (forall s, (length s <= 43)%nat ->
     sha2_parse_base64 s = Some (mkSha2 (N.min (N.of_nat (length s) * 6) 256) (repeat 0 32))) /\
  (forall s, (length s <= 64)%nat ->
     sha2_parse_hex s = Some (mkSha2 (N.min (N.of_nat (length s) * 4) 256) (repeat 0 32))).
Proof.
  split; [|split; intros s L; apply sha2_parse_zero; [reflexivity|exact L|reflexivity|exact L]].
  intros h K L F.
  destruct (armour_roundtrip 6 BASE_PUNCT abc64 (hbits h) (or_intror eq_refl) abc64_bound abc64_inv F) as (s & E & L1 & L2 & D).
  rewrite L in *. change (8 * N.of_nat 32) with 256 in E. change (N.of_nat 6) with 6 in *.
  assert (Ls : length s = 43%nat) by lia. rewrite Ls in D.
  exists s. unfold sha2_base64. rewrite K. split; [exact E|]. split; [exact Ls|]. split; [|exact D].
  destruct (encode_digits_spec 6 (hbits h) 256 ltac:(lia) ltac:(rewrite L; vm_compute; discriminate) F) as (ds & Q & B & FD).
  unfold encode in E. change (N.of_nat 6) with 6 in Q. rewrite Q in E. cbn [option_map] in E.
  assert (Es : s = map (fun d => nth (N.to_nat d) BASE_PUNCT 0) ds) by congruence. clear E. subst s.
  rewrite map_length in Ls. change (2 ^ N.of_nat 6) with 64 in FD.
  unfold sha2_valid. rewrite map_length, Ls. change (N.of_nat 43 =? 43) with true.
  assert (Fa : forallb (fun c => match abc64 c with Some _ => true | None => false end)
                 (map (fun d => nth (N.to_nat d) BASE_PUNCT 0) ds) = true).
  { apply forallb_forall. intros c Hc. apply in_map_iff in Hc. destruct Hc as (d & <- & Hd).
    rewrite Forall_forall in FD. rewrite abc64_inv by auto. reflexivity. }
  rewrite Fa. cbn [andb].
  (* the last digit *)
  assert (Hlast : exists ds' x, ds = ds' ++ [x]).
  { destruct ds as [|y ds] using rev_ind; [discriminate|]. eauto. }
  destruct Hlast as (ds' & x & ->). rewrite app_length in Ls. cbn [length] in Ls.
  assert (L42 : length ds' = 42%nat) by lia.
  rewrite map_app, app_nth2; rewrite map_length, L42; [|lia]. cbn [map nth Nat.sub].
  apply Forall_app in FD as [_ FD]. inversion FD; subst.
  rewrite abc64_inv by assumption.
  (* its two low bits are padding *)
  change (N.to_nat (256 / 8)) with 32%nat in B. rewrite firstn_all2 in B by lia.
  change (repeat false (pad_to 6 (8 * 32))) with [false; false] in B.
  unfold bits_of in B. rewrite flat_map_app in B. cbn [flat_map] in B. rewrite app_nil_r in B.
  assert (E2 : N.testbit x 0 = false /\ N.testbit x 1 = false).
  { pose proof (f_equal (@rev bool) B) as R. rewrite !rev_app_distr in R.
    cbn [bits_be rev app] in R. change (N.of_nat 0) with 0 in R. change (N.of_nat 1) with 1 in R.
    split; congruence. }
  destruct E2 as [B0 B1].
  change (N.land x 3) with (N.land x (2 ^ 2 - 1)). rewrite land_ones_mod.
  apply N.eqb_eq. apply N.bits_inj_0. intro i. destruct (N.lt_ge_cases i 2) as [Hi|Hi].
  - rewrite N.mod_pow2_bits_low by exact Hi. assert (Hi' : i = 0 \/ i = 1) by lia. destruct Hi' as [->| ->]; assumption.
  - apply N.mod_pow2_bits_high. exact Hi.
Qed.
Print Assumptions C41_hash_text.

Example C41_case : sha2_base64 (mkSha2 256 (repeat 255 32)) =
    Some (repeat 126 42 ++ [120]) /\ sha2_parse_base64 (repeat 126 42 ++ [120]) = Some (mkSha2 256 (repeat 0 32)).
Proof. vm_compute. split; reflexivity. Qed.

Theorem C41_hash_roundtrip_refuted : exists h s, known_bits h = 256 /\ sha2_base64 h = Some s /\
  sha2_valid s = true /\ sha2_parse_base64 s <> Some h.
Proof.
  exists (mkSha2 256 (repeat 255 32)). eexists. split; [reflexivity|]. split; [vm_compute; reflexivity|].
  split; [vm_compute; reflexivity|]. vm_compute. discriminate.
Qed.
Print Assumptions C41_hash_roundtrip_refuted.

(* C42 *)
Lemma bytes_eqb_eq a : forall b, bytes_eqb a b = true <-> a = b.
Proof.
  induction a as [|x a IH]; intros [|y b]; cbn [bytes_eqb]; try (split; congruence).
  rewrite andb_true_iff, N.eqb_eq, IH. split; [intros [-> ->]; reflexivity|intro E; injection E; auto].
Qed.

Lemma firstn_bits k l n r : (r < k)%nat -> (n < length l)%nat \/ r = O ->
  firstn (k * n + r) (bits_of k l) = bits_of k (firstn n l) ++ firstn r (bits_be k (nth n l 0)).
Proof.
  intros Hr. revert l. induction n as [|n IH]; intros l Hn.
  - rewrite Nat.mul_0_r. cbn [plus firstn bits_of flat_map app].
    destruct l as [|x l].
    + destruct Hn as [Hn|Hn]; [cbn in Hn; lia|]. subst. reflexivity.
    + cbn [bits_of flat_map nth]. rewrite firstn_app, bits_be_length.
      replace (r - k)%nat with O by lia. cbn [firstn]. rewrite app_nil_r. reflexivity.
  - destruct l as [|x l].
    + destruct Hn as [Hn|Hn]; [cbn in Hn; lia|]. subst. cbn [firstn nth bits_of flat_map]. rewrite firstn_nil. reflexivity.
    + cbn [bits_of flat_map firstn nth]. rewrite firstn_app, bits_be_length.
      replace (k * S n + r - k)%nat with (k * n + r)%nat by lia.
      rewrite firstn_all2 by (rewrite bits_be_length; lia).
      fold (bits_of k l). rewrite IH; [|destruct Hn as [Hn|Hn]; [left; cbn in Hn; lia|right; exact Hn]].
      rewrite <- app_assoc. reflexivity.
Qed.

Lemma shiftr_bits x y t : x < 256 -> y < 256 -> (t <= 8)%nat ->
  (N.shiftr x (8 - N.of_nat t) =? N.shiftr y (8 - N.of_nat t)) = true <->
  firstn t (bits_be 8 x) = firstn t (bits_be 8 y).
Proof.
  intros Hx Hy Ht.
  assert (S : forall z, firstn t (bits_be 8 z) = bits_be t (N.shiftr z (8 - N.of_nat t))).
  { intro z. pose proof (bits_be_split t (8 - t) z) as Q. replace (t + (8 - t))%nat with 8%nat in Q by lia.
    rewrite Q. rewrite firstn_app, bits_be_length, Nat.sub_diag. cbn [firstn]. rewrite app_nil_r.
    rewrite firstn_all2 by (rewrite bits_be_length; lia). do 2 f_equal. lia. }
  rewrite !S, N.eqb_eq. split; [congruence|]. intro E.
  assert (B : forall z, z < 256 -> N.shiftr z (8 - N.of_nat t) < 2 ^ N.of_nat t).
  { intros z Hz. rewrite shiftr_div. apply N.div_lt_upper_bound; [apply N.pow_nonzero; lia|].
    rewrite <- N.pow_add_r. replace (8 - N.of_nat t + N.of_nat t) with 8 by lia. exact Hz. }
  eapply bits_be_inj; [apply B, Hx|apply B, Hy|exact E].
Qed.

Theorem C42_abbreviated_hash_match :
  (forall a b, length (hbits a) = 32%nat -> length (hbits b) = 32%nat ->
     Forall is_byte (hbits a) -> Forall is_byte (hbits b) -> known_bits a <= 256 -> known_bits b <= 256 ->
     (sha2_matches a b = true <->
      let k := N.to_nat (N.min (known_bits a) (known_bits b)) in
      firstn k (bits_of 8 (hbits a)) = firstn k (bits_of 8 (hbits b)))) /\
  (forall a b, sha2_eqb a b = true <-> hbits a = hbits b).
Proof.
  split; [|intros a b; apply bytes_eqb_eq].
  intros a b La Lb Fa Fb Ka Kb. unfold sha2_matches. cbv zeta.
  set (m := N.min (known_bits a) (known_bits b)).
  assert (Hm : m <= 256) by lia.
  pose proof (N.div_mod m 8 ltac:(lia)) as D. assert (Hr : m mod 8 < 8) by (apply N.mod_lt; lia).
  set (q := m / 8) in *. set (r := m mod 8) in *.
  replace (N.to_nat m) with (8 * N.to_nat q + N.to_nat r)%nat by lia.
  assert (C : (N.to_nat q < 32)%nat \/ N.to_nat r = O) by lia.
  rewrite !firstn_bits by (try lia; rewrite ?La, ?Lb; exact C).
  assert (NB : forall l, Forall is_byte l -> nth (N.to_nat q) l 0 < 256).
  { intros l F. destruct (Nat.lt_ge_cases (N.to_nat q) (length l)) as [H|H].
    - rewrite Forall_forall in F. apply F. apply nth_In. exact H.
    - rewrite nth_overflow by exact H. reflexivity. }
  rewrite andb_true_iff, bytes_eqb_eq.
  assert (T : (if 0 <? r then N.shiftr (nth (N.to_nat q) (hbits a) 0) (8 - r) =? N.shiftr (nth (N.to_nat q) (hbits b) 0) (8 - r) else true) = true
    <-> firstn (N.to_nat r) (bits_be 8 (nth (N.to_nat q) (hbits a) 0)) = firstn (N.to_nat r) (bits_be 8 (nth (N.to_nat q) (hbits b) 0))).
  { destruct (0 <? r) eqn:E.
    - pose proof (shiftr_bits _ _ (N.to_nat r) (NB _ Fa) (NB _ Fb) ltac:(lia)) as Q.
      rewrite Nnat.N2Nat.id in Q. exact Q.
    - replace (N.to_nat r) with O by lia. split; reflexivity. }
  rewrite T. split.
  - intros [-> ->]. reflexivity.
  - intro E. apply app_eq_app in E.
    assert (LE : length (bits_of 8 (firstn (N.to_nat q) (hbits a))) = length (bits_of 8 (firstn (N.to_nat q) (hbits b)))).
    { rewrite !bits_of_length, !firstn_length, La, Lb. reflexivity. }
    assert (Fn : forall l, Forall is_byte l -> Forall (fun d => d < 2 ^ N.of_nat 8) (firstn (N.to_nat q) l)).
    { intros l F. rewrite Forall_forall in *. intros x Hx. apply F.
      rewrite <- (firstn_skipn (N.to_nat q) l). apply in_or_app. left. exact Hx. }
    destruct E as (l & [[E1 E2]|[E1 E2]]); pose proof (f_equal (@length bool) E1) as Q; rewrite app_length in Q;
      (assert (l = []) by (destruct l; [reflexivity|cbn [length] in Q; lia])); subst l; rewrite app_nil_r in E1; cbn [app] in E2.
    + split; [apply (bits_of_inj 8); auto; lia|symmetry; exact E2].
    + split; [apply (bits_of_inj 8); auto; lia|exact E2].
Qed.
Print Assumptions C42_abbreviated_hash_match.

Example C42_case : sha2_matches (mkSha2 12 (171 :: 205 :: repeat 0 30)) (mkSha2 256 (171 :: 193 :: repeat 7 30)) = true
  /\ sha2_matches (mkSha2 13 (171 :: 205 :: repeat 0 30)) (mkSha2 256 (171 :: 193 :: repeat 7 30)) = false.
Proof. vm_compute. split; reflexivity. Qed.
