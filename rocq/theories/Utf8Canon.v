(* C09: just which texts are kept when they are decoded and encoded again. *)
From Verif Require Import Prelude UuidModel CodecModel CodecSpec CodecProofs CodecTheorems.

Lemma char_bound bs cp : utf8_char bs cp -> cp < 2 ^ 21.
Proof. change (2 ^ 21) with 2097152. destruct 1; lia. Qed.
Lemma char_same a b cp : utf8_char a cp -> utf8_char b cp -> length a = length b -> a = b.
Proof. intros A B L. destruct A; inversion B; subst; try discriminate L; repeat (f_equal; try lia). Qed.
Lemma char_shortest bs cp : utf8_char bs cp -> (length (utf8append cp) <= length bs)%nat /\ (length (utf8append cp) = length bs -> utf8append cp = bs).
Proof.
  intro C. destruct C09_utf8 as (_ & E & _). destruct (E cp (char_bound _ _ C)) as [U S]. split; [exact (S bs C)|]. intro L. exact (char_same _ _ _ U C L).
Qed.
(* a text that can be decoded is never longer after decoding and encoding; it is
   the same text if and only if it is as long, so if and only if it is the shortest
   text for its code points *)
Theorem C09_canonical s l : parse_utf8 s = Some l ->
  (length (flat_map utf8append l) <= length s)%nat /\ (flat_map utf8append l = s <-> length (flat_map utf8append l) = length s) /\
  (flat_map utf8append l = s <-> forall t, parse_utf8 t = Some l -> (length s <= length t)%nat).
Proof.
  destruct C09_utf8 as (D & _ & R & _).
  assert (K : forall t, parse_utf8 t = Some l -> (length (flat_map utf8append l) <= length t)%nat /\ (length (flat_map utf8append l) = length t -> flat_map utf8append l = t)).
  { intros t H. apply D in H as (cs & -> & -> & F). clear -F. induction F as [|[bs cp] cs C F [L E]]; [split; [apply le_n|reflexivity]|]. cbn [map concat flat_map fst snd] in *. rewrite !app_length.
    destruct (char_shortest _ _ C) as [L1 E1]. split; [lia|]. intro Q. rewrite E1 by lia. rewrite E by lia. reflexivity. }
  intro H. destruct (K s H) as [L E]. assert (I : flat_map utf8append l = s <-> length (flat_map utf8append l) = length s) by (split; [intros ->; reflexivity|exact E]).
  split; [exact L|]. split; [exact I|]. split.
  - intros Q t T. rewrite <- Q. exact (proj1 (K t T)).
  - intro M. apply I. apply PeanoNat.Nat.le_antisymm; [exact L|]. apply M. apply R. apply D in H as (cs & _ & -> & F). clear -F. induction F as [|c cs C F IH]; [constructor|]. constructor; [exact (char_bound _ _ C)|exact IH].
Qed.
Print Assumptions C09_canonical.
(* a, a Cyrillic letter and a face; the letter a in two bytes *)
Example C09_canonical_case : parse_utf8 [97; 208; 175; 240; 159; 152; 128] = Some [97; 1071; 128512] /\ flat_map utf8append [97; 1071; 128512] = [97; 208; 175; 240; 159; 152; 128] /\
  parse_utf8 [193; 161; 208; 175] = Some [97; 1071] /\ flat_map utf8append [97; 1071] = [97; 208; 175].
Proof. vm_compute. auto. Qed.
