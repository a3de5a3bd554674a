(* C10: strings read as UTF-16. *)
From Verif Require Import Prelude UuidModel CodecModel CodecSpec CodecProofs CodecTheorems TextModel HashModel HashProofs CompareModel.

(* ron/frames.hpp:139-147 ReadString16 of a string atom as Cursor::atom gives it
   (ron/text.hpp:54-58): a character of a span has its code point and no range,
   so that the loop ends at once. The units, and whether it answers OK. *)
Definition read_string16 (buf : bytes) (cp n b e : N) : list N * bool :=
  if cp =? 0 then (flat_map utf16append (read_prefix (N.to_nat n) (sub buf b e)), match read_codepoints (N.to_nat n) (sub buf b e) with Some _ => true | None => false end)
  else ([], true).

Lemma lor_bits x y k m : x < 2 ^ k -> y < 2 ^ m -> N.lor (N.shiftl x m mod 2 ^ 32) y < 2 ^ (k + m).
Proof.
  intros X Y. assert (A : N.shiftl x m mod 2 ^ 32 <= N.shiftl x m) by (apply N.mod_le; discriminate).
  assert (B : N.shiftl x m < 2 ^ (k + m)) by (rewrite N.shiftl_mul_pow2, N.pow_add_r; apply N.mul_lt_mono_pos_r; [apply N.neq_0_lt_0; apply N.pow_nonzero; discriminate|exact X]).
  assert (C : y < 2 ^ (k + m)) by (eapply N.lt_le_trans; [exact Y|]; apply N.pow_le_mono_r; [discriminate|lia]).
  assert (D : N.shiftl x m mod 2 ^ 32 < 2 ^ (k + m)) by lia. clear A B X Y. set (z := N.shiftl x m mod 2 ^ 32) in *. clearbody z. set (p := k + m) in *. clearbody p.
  assert (E : N.lor z y = N.lor z y mod 2 ^ p).
  { rewrite <- N.land_ones, N.land_lor_distr_l, !N.land_ones, !N.mod_small by assumption. reflexivity. }
  rewrite E. apply N.mod_lt. apply N.pow_nonzero. discriminate.
Qed.
Lemma hex_bound d : forall ret k, ret < 2 ^ (4 * N.of_nat k) -> decode_hex ret d < 2 ^ (4 * N.of_nat (k + length d)).
Proof.
  induction d as [|c d IH]; intros ret k R; cbn [decode_hex length]; [rewrite Nat.add_0_r; exact R|].
  destruct (abc16 c) as [v|] eqn:A.
  - pose proof (lor_bits ret v _ 4 R (abc16_bound _ _ A)) as K. replace (4 * N.of_nat k + 4) with (4 * N.of_nat (S k)) in K by lia.
    specialize (IH _ _ K). replace (k + S (length d))%nat with (S k + length d)%nat by lia. exact IH.
  - apply N.neq_0_lt_0. apply N.pow_nonzero. discriminate.
Qed.
(* what the automaton holds *)
Definition holds_cp (st cp : N) (hex : bytes) : Prop :=
  1 <= st <= 11 /\ cp < 2 ^ 21 /\ (st = 6 -> cp < 2 ^ 15) /\ (st = 7 -> cp < 2 ^ 9) /\ (st = 8 -> cp < 2 ^ 3) /\
  (st = 2 -> length hex = 0%nat) /\ (st = 3 -> length hex = 1%nat) /\ (st = 4 -> length hex = 2%nat) /\ (st = 5 -> length hex = 3%nat) /\ (st = 11 -> length hex = 4%nat).
Lemma cont_bits cp b k : cp < 2 ^ k -> cont cp b < 2 ^ (k + 6).
Proof. intro L. apply lor_bits; [exact L|]. change 63 with (N.ones 6). rewrite N.land_ones. apply N.mod_lt. discriminate. Qed.
Lemma land_low b k : N.land b (N.ones k) < 2 ^ k.
Proof. rewrite N.land_ones. apply N.mod_lt. apply N.pow_nonzero. discriminate. Qed.
Lemma esc_bound b : is_esc b = true -> decode_esc b < 128.
Proof.
  unfold is_esc. intro H. rewrite !orb_true_iff in H. repeat (destruct H as [H|H]); apply N.eqb_eq in H; subst b; vm_compute; reflexivity.
Qed.
Lemma up_to a b : a < 2 ^ b -> b <= 21 -> a < 2 ^ 21.
Proof. intros A B. eapply N.lt_le_trans; [exact A|]. apply N.pow_le_mono_r; [discriminate|exact B]. Qed.
Lemma cp_run_bound s : forall st cp hex n c k, holds_cp st cp hex -> cp_run st cp hex n s = Some (c, k) -> c < 2 ^ 21.
Proof.
  induction s as [|b s IH]; intros st cp hex n c k (ST & L & L6 & L7 & L8 & H2 & H3 & H4 & H5 & H11) H; cbn [cp_run] in H; [injection H as <- _; exact L|].
  assert (OUT : forall st' cp' hex', st' = 10 \/ st' = 1 \/ st' = 2 /\ hex' = [] -> cp' < 2 ^ 21 -> holds_cp st' cp' hex') by (intros st' cp' hex' [-> |[-> |[-> ->]]] LL; repeat split; first [lia|exact LL|reflexivity|intro Q; discriminate Q]).
  destruct (N.eqb_spec st 9) as [->|N9].
  { destruct (cp_stop b); [discriminate|]. destruct (b =? 92); [eapply IH; [|exact H]; apply OUT; auto|].
    destruct (N.ltb_spec b 128) as [B|B]; [eapply IH; [|exact H]; apply OUT; [auto|]; eapply N.lt_trans; [exact B|vm_compute; reflexivity]|].
    destruct (b <? 192); [discriminate|]. destruct (b <? 224).
    { eapply IH; [|exact H]. pose proof (land_low b 5) as K. change (N.ones 5) with 31 in K. repeat split; try (intro Q; discriminate Q); try lia; first [exact (up_to _ _ K ltac:(lia))|intros _; eapply N.lt_trans; [exact K|vm_compute; reflexivity]]. }
    destruct (b <? 240).
    { eapply IH; [|exact H]. pose proof (land_low b 4) as K. change (N.ones 4) with 15 in K. repeat split; try (intro Q; discriminate Q); try lia; first [exact (up_to _ _ K ltac:(lia))|intros _; eapply N.lt_trans; [exact K|vm_compute; reflexivity]]. }
    destruct (b <? 248); [|discriminate].
    eapply IH; [|exact H]. pose proof (land_low b 3) as K. change (N.ones 3) with 7 in K. repeat split; try (intro Q; discriminate Q); try lia; first [exact (up_to _ _ K ltac:(lia))|intros _; exact K]. }
  destruct (N.eqb_spec st 10) as [->|N10]; [destruct (cp_start b); [injection H as <- _; exact L|discriminate]|].
  destruct (N.eqb_spec st 11) as [->|N11].
  { destruct (cp_start b); [|discriminate]. injection H as <- _. pose proof (hex_bound hex 0 0%nat ltac:(vm_compute; reflexivity)) as K. rewrite (H11 eq_refl) in K. unfold decode_hex_cp. eapply N.lt_trans; [exact K|vm_compute; reflexivity]. }
  destruct (N.eqb_spec st 1) as [->|N1].
  { destruct (is_esc b) eqn:E; [eapply IH; [|exact H]; apply OUT; [auto|]; eapply N.lt_trans; [exact (esc_bound _ E)|vm_compute; reflexivity]|]. destruct (b =? 117); [|discriminate]. eapply IH; [|exact H]. apply OUT; auto. }
  destruct (N.eqb_spec st 2) as [->|N2].
  { destruct (is_hex b); [|discriminate]. eapply IH; [|exact H]. specialize (H2 eq_refl). repeat split; try (intro Q; discriminate Q); try lia; first [exact L|intros _; rewrite app_length, H2; reflexivity]. }
  destruct (N.eqb_spec st 3) as [->|N3].
  { destruct (is_hex b); [|discriminate]. eapply IH; [|exact H]. specialize (H3 eq_refl). repeat split; try (intro Q; discriminate Q); try lia; first [exact L|intros _; rewrite app_length, H3; reflexivity]. }
  destruct (N.eqb_spec st 4) as [->|N4].
  { destruct (is_hex b); [|discriminate]. eapply IH; [|exact H]. specialize (H4 eq_refl). repeat split; try (intro Q; discriminate Q); try lia; first [exact L|intros _; rewrite app_length, H4; reflexivity]. }
  destruct (N.eqb_spec st 5) as [->|N5].
  { destruct (is_hex b); [|discriminate]. eapply IH; [|exact H]. specialize (H5 eq_refl). repeat split; try (intro Q; discriminate Q); try lia; first [exact L|intros _; rewrite app_length, H5; reflexivity]. }
  destruct (cp_cont b); [|discriminate]. destruct (N.eqb_spec st 6) as [->|N6].
  { eapply IH; [|exact H]. apply OUT; [auto|]. exact (cont_bits cp b 15 (L6 eq_refl)). }
  destruct (N.eqb_spec st 7) as [->|N7].
  { eapply IH; [|exact H]. pose proof (cont_bits cp b 9 (L7 eq_refl)) as K. repeat split; try (intro Q; discriminate Q); try lia; first [exact (up_to _ _ K ltac:(lia))|intros _; exact K]. }
  destruct (N.eqb_spec st 8) as [->|N8].
  { eapply IH; [|exact H]. pose proof (cont_bits cp b 3 (L8 eq_refl)) as K. repeat split; try (intro Q; discriminate Q); try lia; first [exact (up_to _ _ K ltac:(lia))|intros _; exact K]. }
  (* no other state is reached *)
  exfalso. clear -ST N9 N10 N11 N1 N2 N3 N4 N5 N6 N7 N8. lia.
Qed.

Lemma prefix_bound n : forall s, Forall (fun c => c < 2 ^ 21) (read_prefix n s).
Proof.
  induction n as [|n IH]; intro s; cbn [read_prefix]; [constructor|]. unfold next_codepoint. destruct (N.of_nat (S n) =? 0); [constructor|].
  destruct (cp_run 9 0 [] 0 s) as [[c k]|] eqn:R; [|constructor]. constructor; [|apply IH]. eapply (cp_run_bound s 9 0 [] 0); [|exact R]. repeat split; try (intro Q; discriminate Q); try lia; vm_compute; reflexivity.
Qed.
(* Whatever is in the string: the units that ReadString16 gives are read back as
   the code points that ReadString gives, in UTF-8; and it fails exactly if the
   string cannot be read. *)
Theorem C10_read buf n b e : let '(units, ok) := read_string16 buf 0 n b e in
  exists l, utf16read_all (length units) units = Some l /\ read_string buf 0 n b e = flat_map utf8append l /\
    (ok = true <-> value_of buf (AStr 0 n b e) = VStr (Some l)) /\ (ok = false <-> value_of buf (AStr 0 n b e) = VStr None).
Proof.
  unfold read_string16, read_string, value_of. change (0 =? 0) with true. cbv iota. set (s := sub buf b e). exists (read_prefix (N.to_nat n) s).
  split; [apply (proj1 C10_utf16); apply prefix_bound|]. split; [reflexivity|]. destruct (read_codepoints (N.to_nat n) s) as [l|] eqn:R.
  - destruct (read_prefix_all _ _ _ R) as [-> _]. split; split; intro; first [reflexivity|discriminate].
  - split; split; intro; first [reflexivity|discriminate].
Qed.
(* Characters of the basic plane but U+D7FF are as in the standard. *)
Theorem C10_read_standard buf n b e l : value_of buf (AStr 0 n b e) = VStr (Some l) -> Forall (fun c => scalar c /\ c < 0x10000 /\ c <> 0xD7FF) l ->
  read_string16 buf 0 n b e = (flat_map utf16_standard l, true).
Proof.
  unfold value_of, read_string16. change (0 =? 0) with true. cbv iota. intros V F. injection V as V. rewrite V. destruct (read_prefix_all _ _ _ V) as [-> _]. f_equal.
  clear -F. induction F as [|c l (SC & L & N) F IH]; [reflexivity|]. cbn [flat_map]. rewrite (proj2 (proj2 C10_utf16 c SC) (conj L N)), IH. reflexivity.
Qed.
Print Assumptions C10_read.
Print Assumptions C10_read_standard.
