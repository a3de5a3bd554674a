(* Proofs for C33: the hashed bytes of an op are a prefix code. *)
From Verif Require Import Prelude UuidModel CodecModel CodecSpec CodecProofs TextTable TextModel
  MergeModel HashModel HashSpec.

(* ---- words ---- *)
Lemma be_bytes_length k : forall w, length (be_bytes k w) = k.
Proof.
  induction k as [|k IH]; intro w; [reflexivity|]. cbn [be_bytes]. rewrite app_length, IH. cbn. lia.
Qed.
Lemma be_bytes_inj k : forall v w, v < 2 ^ (8 * N.of_nat k) -> w < 2 ^ (8 * N.of_nat k) ->
  be_bytes k v = be_bytes k w -> v = w.
Proof.
  induction k as [|k IH]; intros v w Hv Hw E.
  - change (2 ^ (8 * N.of_nat 0)) with 1 in *. lia.
  - assert (P : 2 ^ (8 * N.of_nat (S k)) = 2 ^ (8 * N.of_nat k) * 256).
    { rewrite Nat2N.inj_succ, N.mul_succ_r, N.pow_add_r. reflexivity. }
    cbn [be_bytes] in E. apply app_inj_tail in E. destruct E as [E1 E2].
    apply IH in E1.
    + rewrite (N.div_mod v 256), (N.div_mod w 256) by discriminate. rewrite E1, E2. reflexivity.
    + apply N.div_lt_upper_bound; [discriminate|]. rewrite P in Hv. lia.
    + apply N.div_lt_upper_bound; [discriminate|]. rewrite P in Hw. lia.
Qed.
Lemma be64_length w : length (be64 w) = 8%nat. Proof. apply be_bytes_length. Qed.
Lemma be64_inj v w : v < 2 ^ 64 -> w < 2 ^ 64 -> be64 v = be64 w -> v = w.
Proof. exact (be_bytes_inj 8 v w). Qed.

Lemma app_inj_len {X} (a b c d : list X) : length a = length b -> a ++ c = b ++ d -> a = b /\ c = d.
Proof.
  revert b. induction a as [|x a IH]; intros [|y b] L E; try discriminate L.
  - split; [reflexivity|exact E].
  - cbn [app] in E. injection E as -> E. injection L as L. destruct (IH b L E) as [-> ->].
    split; reflexivity.
Qed.
Lemma write_words_inj v o v' o' s s' :
  v < 2 ^ 64 -> v' < 2 ^ 64 -> o < 2 ^ 64 -> o' < 2 ^ 64 ->
  write_words v o ++ s = write_words v' o' ++ s' -> v = v' /\ o = o' /\ s = s'.
Proof.
  intros Hv Hv' Ho Ho' E. unfold write_words in E. rewrite <- !app_assoc in E.
  apply app_inj_len in E; [|rewrite !be64_length; reflexivity]. destruct E as [E1 E].
  apply app_inj_len in E; [|rewrite !be64_length; reflexivity]. destruct E as [E2 E].
  split; [exact (be64_inj _ _ Hv Hv' E1)|]. split; [exact (be64_inj _ _ Ho Ho' E2)|exact E].
Qed.
Lemma write_words_length v o : length (write_words v o) = 16%nat.
Proof. unfold write_words. rewrite app_length, !be64_length. reflexivity. Qed.

(* ---- the flag bits of an origin word ---- *)
Lemma land_top x : x < 2 ^ 64 -> N.land x (2 ^ 64 - 2 ^ 60) = x / 2 ^ 60 * 2 ^ 60.
Proof.
  intro H. change (2 ^ 64 - 2 ^ 60) with (N.shiftl (N.ones 4) 60).
  rewrite <- shiftr_div, <- shiftl_mul. apply N.bits_inj. intro i.
  rewrite N.land_spec. destruct (N.lt_ge_cases i 60) as [L|L].
  - rewrite !N.shiftl_spec_low by exact L. apply andb_false_r.
  - rewrite !N.shiftl_spec_high' by exact L. rewrite N.shiftr_spec'.
    replace (i - 60 + 60) with i by lia. destruct (N.lt_ge_cases i 64) as [L2|L2].
    + rewrite N.ones_spec_low by lia. apply andb_true_r.
    + rewrite (N.bits_above_log2 x i); [reflexivity|].
      destruct (N.eq_dec x 0) as [->|Nz]; [cbn; lia|].
      apply N.lt_le_trans with 64; [|exact L2]. apply N.log2_lt_pow2; lia.
Qed.
Lemma origin_word_eq ty b e : ty < 4 -> b < 2 ^ 30 -> e < 2 ^ 30 ->
  origin_word ty b e = ty * 2 ^ 62 + e * 2 ^ 32 + b.
Proof.
  intros Ht Hb He. unfold origin_word. rewrite !shiftl_mul.
  rewrite (N.lor_comm b), lor_shl_add
    by (change (2 ^ 30) with 1073741824 in *; change (2 ^ 32) with 4294967296; lia).
  rewrite N.lor_comm, lor_shl_add
    by (change (2 ^ 30) with 1073741824 in *; change (2 ^ 32) with 4294967296;
        change (2 ^ 62) with 4611686018427387904; lia).
  lia.
Qed.
Definition top_bits (ty e : N) : N := ty * 2 ^ 62 + e / 2 ^ 28 * 2 ^ 60.
Lemma rangeless_eq ty b e : ty < 4 -> b < 2 ^ 30 -> e < 2 ^ 30 ->
  N.land (origin_word ty b e) (2 ^ 64 - 2 ^ 60) = top_bits ty e.
Proof.
  intros Ht Hb He. rewrite (origin_word_eq ty b e Ht Hb He). unfold top_bits.
  change (2 ^ 30) with 1073741824 in *. change (2 ^ 62) with 4611686018427387904.
  change (2 ^ 32) with 4294967296. change (2 ^ 28) with 268435456.
  rewrite land_top by (change (2 ^ 64) with 18446744073709551616; lia).
  change (2 ^ 60) with 1152921504606846976.
  pose proof (N.div_mod e 268435456 ltac:(discriminate)) as D.
  pose proof (N.mod_lt e 268435456 ltac:(discriminate)) as M.
  set (q := e / 268435456) in *. set (m := e mod 268435456) in *. clearbody q m.
  replace ((ty * 4611686018427387904 + e * 4294967296 + b) / 1152921504606846976) with (ty * 4 + q).
  - lia.
  - apply (N.div_unique _ _ _ (m * 4294967296 + b)); lia.
Qed.
Lemma top_bits_ty ty e ty' e' : e < 2 ^ 30 -> e' < 2 ^ 30 ->
  top_bits ty e = top_bits ty' e' -> ty = ty'.
Proof.
  unfold top_bits. change (2 ^ 30) with 1073741824. change (2 ^ 62) with 4611686018427387904.
  change (2 ^ 28) with 268435456. change (2 ^ 60) with 1152921504606846976. intros He He' E.
  assert (Q : e / 268435456 < 4) by (apply N.div_lt_upper_bound; lia).
  assert (Q' : e' / 268435456 < 4) by (apply N.div_lt_upper_bound; lia).
  set (q := e / 268435456) in *. set (q' := e' / 268435456) in *. clearbody q q'. lia.
Qed.
Lemma top_bits_lt ty e : ty < 4 -> e < 2 ^ 30 -> top_bits ty e < 2 ^ 64.
Proof.
  unfold top_bits. change (2 ^ 30) with 1073741824. change (2 ^ 62) with 4611686018427387904.
  change (2 ^ 28) with 268435456. change (2 ^ 60) with 1152921504606846976.
  change (2 ^ 64) with 18446744073709551616. intros Ht He.
  assert (Q : e / 268435456 < 4) by (apply N.div_lt_upper_bound; lia). lia.
Qed.
Lemma top_bits_low ty e : 1 <= ty -> 2 ^ 62 <= top_bits ty e.
Proof.
  unfold top_bits. change (2 ^ 62) with 4611686018427387904.
  change (2 ^ 60) with 1152921504606846976. intro H.
  set (q := e / 2 ^ 28). clearbody q. lia.
Qed.

Lemma word_of_z_lt z : word_of_z z < 2 ^ 64.
Proof.
  unfold word_of_z. pose proof (Z.mod_pos_bound z (2 ^ 64) ltac:(reflexivity)) as B.
  change (2 ^ 64) with 18446744073709551616. change (2 ^ 64)%Z with 18446744073709551616%Z in *. lia.
Qed.
Lemma word_of_z_inj y z : (- 2 ^ 63 <= y < 2 ^ 63)%Z -> (- 2 ^ 63 <= z < 2 ^ 63)%Z ->
  word_of_z y = word_of_z z -> y = z.
Proof.
  unfold word_of_z. intros Hy Hz E.
  pose proof (Z.mod_pos_bound y (2 ^ 64) ltac:(reflexivity)) as By.
  pose proof (Z.mod_pos_bound z (2 ^ 64) ltac:(reflexivity)) as Bz.
  apply Z2N.inj in E; [|lia|lia].
  change (2 ^ 64)%Z with 18446744073709551616%Z in *. change (2 ^ 63)%Z with 9223372036854775808%Z in *.
  revert E. clear By Bz. intro E. Z.to_euclidean_division_equations. lia.
Qed.

Lemma to_int64_range z : (- 2 ^ 63 <= to_int64 z < 2 ^ 63)%Z.
Proof.
  unfold to_int64. pose proof (Z.mod_pos_bound (z + 2 ^ 63) (2 ^ 64) ltac:(reflexivity)) as B.
  change (2 ^ 64)%Z with 18446744073709551616%Z in *. change (2 ^ 63)%Z with 9223372036854775808%Z in *. lia.
Qed.
Lemma parse_integer_range s : (- 2 ^ 63 <= parse_integer s < 2 ^ 63)%Z.
Proof.
  assert (L : forall t r, (- 2 ^ 63 <= r < 2 ^ 63)%Z -> (- 2 ^ 63 <= parse_int_loop r t < 2 ^ 63)%Z).
  { induction t as [|c t IH]; intros r R; [exact R|]. cbn [parse_int_loop]. apply IH, to_int64_range. }
  assert (Z : (- 2 ^ 63 <= 0 < 2 ^ 63)%Z) by (split; [discriminate|reflexivity]).
  destruct s as [|c t]; [exact Z|]. unfold parse_integer.
  destruct (c =? 45); [apply to_int64_range|]. destruct (c =? 43); apply L; exact Z.
Qed.

(* ---- strings ---- *)
Lemma read_prefix_all n : forall s l, read_codepoints n s = Some l -> read_prefix n s = l /\ length l = n.
Proof.
  induction n as [|n IH]; intros s l E; cbn [read_codepoints read_prefix] in *.
  - injection E as <-. split; reflexivity.
  - destruct (next_codepoint s (N.of_nat (S n))) as [|cp k|]; try discriminate E.
    destruct (read_codepoints n (skipn (N.to_nat k) s)) as [l'|] eqn:E'; [|discriminate E].
    cbn [option_map] in E. injection E as <-. destruct (IH _ _ E') as [A B].
    split; [f_equal; exact A|cbn [length]; rewrite B; reflexivity].
Qed.
Lemma utf8append_inj a b s t : a < 2 ^ 21 -> b < 2 ^ 21 ->
  utf8append a ++ s = utf8append b ++ t -> a = b /\ s = t.
Proof.
  intros Ha Hb E. pose proof (utf8read_append a s Ha) as A. rewrite E, (utf8read_append b t Hb) in A.
  injection A as -> ->. split; reflexivity.
Qed.
Lemma utf8_inj l : forall m s t, Forall (fun cp => cp < 2 ^ 21) l -> Forall (fun cp => cp < 2 ^ 21) m ->
  length l = length m -> flat_map utf8append l ++ s = flat_map utf8append m ++ t -> l = m /\ s = t.
Proof.
  induction l as [|x l IH]; intros [|y m] s t Fl Fm L E; try discriminate L.
  - split; [reflexivity|exact E].
  - apply Forall_cons_iff in Fl, Fm. destruct Fl as [Hx Fl], Fm as [Hy Fm].
    cbn [flat_map] in E. rewrite <- !app_assoc in E.
    destruct (utf8append_inj x y _ _ Hx Hy E) as [-> E']. injection L as L.
    destruct (IH m s t Fl Fm L E') as [-> ->]. split; reflexivity.
Qed.

(* ---- one atom ---- *)
Section Atoms.
Variable fbits : bytes -> N.

(* strtod gives a 64-bit word *)
Hypothesis fbits_ok : forall s, fbits s < 2 ^ 64.

(* atoms of a frame of less than 2^30 bytes; C14 *)
Definition ranged (a : atom) : Prop :=
  match a with
  | AUuid u => uvalue u < 2 ^ 64 /\ uorigin u < 2 ^ 62
  | AInt b e | AFloat b e => b < 2 ^ 30 /\ e < 2 ^ 30
  | AStr _ n b e => b < 2 ^ 30 /\ e < 2 ^ 30 /\ n < 2 ^ 32
  end.

(* the two words an atom's image starts with, and the rest of it *)
Definition head_words (buf : bytes) (a : atom) : N * N :=
  match a with
  | AUuid u => (uvalue u, uorigin u)
  | AInt b e => (word_of_z (parse_integer (sub buf b e)), top_bits 1 e)
  | AFloat b e => (fbits (sub buf b e), top_bits 3 e)
  | AStr cp n b e => if cp =? 0 then (n * 2 ^ 32, top_bits 2 e) else (cp, top_bits 2 0)
  end.
Definition tail_bytes (buf : bytes) (a : atom) : bytes :=
  match a with
  | AStr cp n b e => if cp =? 0 then flat_map utf8append (read_prefix (N.to_nat n) (sub buf b e))
                     else utf8append cp
  | _ => []
  end.
Lemma image_parts buf a : ranged a ->
  atom_image fbits buf a = write_words (fst (head_words buf a)) (snd (head_words buf a)) ++ tail_bytes buf a.
Proof.
  intro R. destruct a as [u|b e|cp n b e|b e]; cbn [atom_image head_words tail_bytes fst snd].
  - rewrite app_nil_r. reflexivity.
  - rewrite app_nil_r. destruct R as [Rb Re]. unfold write_rangeless.
    rewrite rangeless_eq by (assumption || reflexivity). reflexivity.
  - destruct R as [Rb [Re _]]. unfold write_rangeless. destruct (cp =? 0); cbn [fst snd].
    + rewrite rangeless_eq by (assumption || reflexivity). rewrite shiftl_mul. reflexivity.
    + rewrite rangeless_eq by reflexivity. reflexivity.
  - rewrite app_nil_r. destruct R as [Rb Re]. unfold write_rangeless.
    rewrite rangeless_eq by (assumption || reflexivity). reflexivity.
Qed.

(* what a well-ranged atom that says something proper looks like *)
Lemma head_ok buf a : ranged a -> said_ok (said_of fbits (value_of buf a)) ->
  fst (head_words buf a) < 2 ^ 64 /\ snd (head_words buf a) < 2 ^ 64.
Proof.
  intros R K. destruct a as [u|b e|cp n b e|b e]; cbn [head_words fst snd value_of said_of said_ok] in *.
  - destruct R as [K1 K2]. split; [exact K1|].
    change (2 ^ 62) with 4611686018427387904 in K2. change (2 ^ 64) with 18446744073709551616. lia.
  - destruct R as [_ Re]. split; [apply word_of_z_lt|apply top_bits_lt; [reflexivity|exact Re]].
  - destruct R as [_ [Re Rn]]. destruct (cp =? 0) eqn:Z; cbn [fst snd].
    + split; [|apply top_bits_lt; [reflexivity|exact Re]].
      change (2 ^ 32) with 4294967296 in *. change (2 ^ 64) with 18446744073709551616. lia.
    + apply Forall_inv in K. split; [|reflexivity].
      change (2 ^ 21) with 2097152 in K. change (2 ^ 64) with 18446744073709551616. lia.
  - destruct R as [_ Re]. split; [apply fbits_ok|apply top_bits_lt; [reflexivity|exact Re]].
Qed.

Definition tag (a : atom) : N := match a with AUuid _ => 0 | AInt _ _ => 1 | AStr _ _ _ _ => 2 | AFloat _ _ => 3 end.
Lemma head_tag buf a buf' a' : ranged a -> ranged a' ->
  said_ok (said_of fbits (value_of buf a)) -> said_ok (said_of fbits (value_of buf' a')) ->
  snd (head_words buf a) = snd (head_words buf' a') -> tag a = tag a'.
Proof.
  intros R R' K K' E.
  assert (T : forall b x, ranged x -> said_ok (said_of fbits (value_of b x)) ->
    (tag x = 0 /\ snd (head_words b x) < 2 ^ 62) \/
    (1 <= tag x /\ exists f, f < 2 ^ 30 /\ snd (head_words b x) = top_bits (tag x) f)).
  { clear - fbits_ok. intros buf a R K. destruct a as [u|b e|cp n b e|b e]; cbn [head_words snd tag value_of said_of said_ok] in *.
    - left. split; [reflexivity|exact (proj2 R)].
    - right. split; [lia|]. exists e. split; [exact (proj2 R)|reflexivity].
    - right. split; [lia|]. destruct (cp =? 0); cbn [snd].
      + exists e. split; [exact (proj1 (proj2 R))|reflexivity].
      + exists 0. split; [reflexivity|reflexivity].
    - right. split; [lia|]. exists e. split; [exact (proj2 R)|reflexivity]. }
  destruct (T buf a R K) as [[A B]|[A [f [Lf B]]]], (T buf' a' R' K') as [[A' B']|[A' [f' [Lf' B']]]].
  - congruence.
  - rewrite B' in E. pose proof (top_bits_low (tag a') f' A'). lia.
  - rewrite B in E. pose proof (top_bits_low (tag a) f A). lia.
  - rewrite B, B' in E. exact (top_bits_ty _ _ _ _ Lf Lf' E).
Qed.

Lemma atom_image_inj buf a buf' a' s s' : ranged a -> ranged a' ->
  said_ok (said_of fbits (value_of buf a)) -> said_ok (said_of fbits (value_of buf' a')) ->
  atom_image fbits buf a ++ s = atom_image fbits buf' a' ++ s' ->
  said_of fbits (value_of buf a) = said_of fbits (value_of buf' a') /\ in_span a = in_span a' /\ s = s'.
Proof.
  intros R R' K K' E. rewrite (image_parts _ _ R), (image_parts _ _ R'), <- !app_assoc in E.
  destruct (head_ok _ _ R K) as [H1 H2]. destruct (head_ok _ _ R' K') as [H1' H2'].
  apply write_words_inj in E; try assumption. destruct E as [Ev [Eo Et]].
  pose proof (head_tag _ _ _ _ R R' K K' Eo) as T.
  destruct a as [u|b e|cp n b e|b e], a' as [u'|b' e'|cp' n' b' e'|b' e']; try discriminate T;
    cbn [head_words tail_bytes fst snd value_of said_of said_ok in_span app] in *.
  - split; [|split; [reflexivity|exact Et]]. destruct u as [v o], u' as [v' o']. cbn [uvalue uorigin] in *. congruence.
  - split; [|split; [reflexivity|exact Et]]. f_equal.
    exact (word_of_z_inj _ _ (parse_integer_range _) (parse_integer_range _) Ev).
  - destruct (cp =? 0) eqn:Z, (cp' =? 0) eqn:Z'; cbn [fst snd negb] in *.
    + destruct (read_codepoints (N.to_nat n) (sub buf b e)) as [l|] eqn:Q; [|destruct K].
      destruct (read_codepoints (N.to_nat n') (sub buf' b' e')) as [l'|] eqn:Q'; [|destruct K'].
      destruct (read_prefix_all _ _ _ Q) as [P Ln]. destruct (read_prefix_all _ _ _ Q') as [P' Ln'].
      rewrite P, P' in Et.
      assert (n = n') by (change (2 ^ 32) with 4294967296 in Ev; lia). subst n'.
      apply utf8_inj in Et; [|assumption|assumption|congruence]. destruct Et as [-> ->].
      split; [reflexivity|split; reflexivity].
    + exfalso. apply N.eqb_neq in Z'. apply Forall_inv in K'.
      change (2 ^ 32) with 4294967296 in Ev. change (2 ^ 21) with 2097152 in K'. lia.
    + exfalso. apply N.eqb_neq in Z. apply Forall_inv in K.
      change (2 ^ 32) with 4294967296 in Ev. change (2 ^ 21) with 2097152 in K. lia.
    + subst cp'. apply app_inv_head in Et. split; [reflexivity|split; [reflexivity|exact Et]].
  - split; [f_equal; exact Ev|split; [reflexivity|exact Et]].
Qed.

Lemma atom_image_nonempty buf a : ranged a -> atom_image fbits buf a <> [].
Proof.
  intros R E. rewrite (image_parts _ _ R) in E. apply (f_equal (@length N)) in E.
  rewrite app_length, write_words_length in E. discriminate E.
Qed.
Lemma atoms_image_inj buf l : forall buf' l', Forall ranged l -> Forall ranged l' ->
  Forall (fun a => said_ok (said_of fbits (value_of buf a))) l ->
  Forall (fun a => said_ok (said_of fbits (value_of buf' a))) l' ->
  flat_map (atom_image fbits buf) l = flat_map (atom_image fbits buf') l' ->
  map (fun a => said_of fbits (value_of buf a)) l = map (fun a => said_of fbits (value_of buf' a)) l' /\
  map in_span l = map in_span l'.
Proof.
  induction l as [|a l IH]; intros buf' [|a' l'] R R' K K' E.
  - split; reflexivity.
  - exfalso. cbn [flat_map] in E. symmetry in E. apply app_eq_nil in E. destruct E as [E _].
    apply Forall_inv in R'. exact (atom_image_nonempty _ _ R' E).
  - exfalso. cbn [flat_map] in E. apply app_eq_nil in E. destruct E as [E _].
    apply Forall_inv in R. exact (atom_image_nonempty _ _ R E).
  - apply Forall_cons_iff in R, R', K, K'. destruct R as [Ra R], R' as [Ra' R'], K as [Ka K], K' as [Ka' K'].
    cbn [flat_map] in E. destruct (atom_image_inj _ _ _ _ _ _ Ra Ra' Ka Ka' E) as [A [B C]].
    destruct (IH buf' l' R R' K K' C) as [D F]. cbn [map]. rewrite A, B, D, F. split; reflexivity.
Qed.

(* equal sayings written alike have equal images *)
Lemma atom_image_same buf a buf' a' : ranged a -> ranged a' ->
  said_ok (said_of fbits (value_of buf a)) -> said_ok (said_of fbits (value_of buf' a')) ->
  said_of fbits (value_of buf a) = said_of fbits (value_of buf' a') ->
  in_span a = in_span a' -> ends_at a / 2 ^ 28 = ends_at a' / 2 ^ 28 ->
  atom_image fbits buf a = atom_image fbits buf' a'.
Proof.
  clear fbits_ok. intros R R' K K' E Sp En. rewrite (image_parts _ _ R), (image_parts _ _ R').
  destruct a as [u|b e|cp n b e|b e], a' as [u'|b' e'|cp' n' b' e'|b' e'];
    cbn [value_of said_of] in E; try discriminate E;
    cbn [head_words tail_bytes fst snd value_of said_of said_ok in_span ends_at] in *.
  - injection E as ->. reflexivity.
  - injection E as E. unfold top_bits. rewrite E, En. reflexivity.
  - destruct (cp =? 0) eqn:Z, (cp' =? 0) eqn:Z'; cbn [negb fst snd] in *; try discriminate Sp.
    + destruct (read_codepoints (N.to_nat n) (sub buf b e)) as [l|] eqn:Q; [|destruct K].
      destruct (read_codepoints (N.to_nat n') (sub buf' b' e')) as [l'|] eqn:Q'; [|destruct K'].
      destruct (read_prefix_all _ _ _ Q) as [P Ln]. destruct (read_prefix_all _ _ _ Q') as [P' Ln'].
      injection E as <-. rewrite P, P'. assert (n = n') by lia. subst n'. unfold top_bits.
      rewrite En. reflexivity.
    + injection E as ->. reflexivity.
  - injection E as E. unfold top_bits. rewrite E, En. reflexivity.
Qed.
End Atoms.
