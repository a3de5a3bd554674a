(* C41: just which hashes have the same hexadecimal text. *)
From Verif Require Import Prelude UuidModel CodecModel CodecSpec CodecProofs CodecTheorems HashText.

Definition a_hash (h : sha2) : Prop := length (hbits h) = 32%nat /\ Forall is_byte (hbits h) /\ known_bits h <= 256.
(* those that have the same known whole bytes *)
Theorem C41_hex_iff a b : a_hash a -> a_hash b ->
  (sha2_hex a = sha2_hex b <-> firstn (N.to_nat (known_bits a / 8)) (hbits a) = firstn (N.to_nat (known_bits b / 8)) (hbits b)).
Proof.
  assert (Q : forall h, a_hash h -> known_bits h / 8 <= N.of_nat (length (hbits h))).
  { intros h (L & _ & K). rewrite L. change (N.of_nat 32) with (256 / 8). apply N.div_le_mono; [discriminate|exact K]. }
  intros A B. split.
  - intro E. destruct A as (La & Fa & Ka), B as (Lb & Fb & Kb). destruct (C41_hex a La Fa Ka) as (x & Ea & _ & Da). destruct (C41_hex b Lb Fb Kb) as (y & Eb & _ & Db).
    rewrite Ea, Eb in E. injection E as ->. rewrite Da in Db. injection Db as Db. exact Db.
  - intro E. unfold sha2_hex. rewrite (encode_whole 4 HEX_PUNCT (hbits a)) by exact (Q a A). rewrite (encode_whole 4 HEX_PUNCT (hbits b)) by exact (Q b B). rewrite E. reflexivity.
Qed.
(* so of two hashes of the same number of whole bytes the text tells whether they match *)
Theorem C41_hex_matches a b : a_hash a -> a_hash b -> known_bits a = known_bits b -> known_bits a mod 8 = 0 -> (sha2_hex a = sha2_hex b <-> sha2_matches a b = true).
Proof.
  intros A B K M. rewrite (C41_hex_iff a b A B). unfold sha2_matches. rewrite <- K, N.min_id, M. cbv zeta. change (0 <? 0) with false. cbv iota. rewrite andb_true_r. symmetry. apply bytes_eqb_eq.
Qed.
Print Assumptions C41_hex_iff.
Print Assumptions C41_hex_matches.
Example C41_hex_iff_case : let a := mkSha2 20 (171 :: 205 :: 239 :: repeat 0 29) in let b := mkSha2 16 (171 :: 205 :: 15 :: repeat 0 29) in let c := mkSha2 16 (171 :: 204 :: repeat 0 30) in
  a_hash a /\ a_hash b /\ a_hash c /\ sha2_hex a = sha2_hex b /\ sha2_hex b <> sha2_hex c /\ sha2_matches b c = false.
Proof.
  cbv zeta. assert (H : forall n l, length l = 32%nat -> forallb (fun x => x <? 256) l = true -> n <= 256 -> a_hash (mkSha2 n l)).
  { intros n l L F K. split; [exact L|]. split; [|exact K]. apply Forall_forall. intros x I. cbn [hbits] in I. rewrite forallb_forall in F. apply F in I. apply N.ltb_lt in I. exact I. }
  do 3 (split; [apply H; vm_compute; first [reflexivity|discriminate]|]). split; [vm_compute; reflexivity|]. split; [vm_compute; discriminate|vm_compute; reflexivity].
Qed.
