(* C09: the single-character reader on every string. *)
From Verif Require Import Prelude UuidModel CodecModel CodecSpec CodecProofs CodecTheorems.

(* the number of bytes a first byte announces; one that begins no character,
   from 248 on, is passed alone, but one from 128 to 191 is taken for the first
   of two *)
Definition announced (head : N) : nat := if head <? 128 then 1 else if head <=? 223 then 2 else if head <=? 239 then 3 else if head <=? 247 then 4 else 1.
Theorem C09_reader :
  (forall bs cp r, utf8_char bs cp -> utf8read (bs ++ r) = Some (cp, r)) /\
  (forall head t, exists cp, utf8read (head :: t) = Some (cp, skipn (announced head) (head :: t)) /\
     (248 <= head \/ (length (head :: t) < announced head)%nat -> cp = 0)) /\
  utf8read [] = None.
Proof.
  split; [|split; [|reflexivity]].
  - intros bs cp r H. destruct H; cbn [app utf8read].
    + rewrite (proj2 (N.ltb_lt a 128)) by assumption. reflexivity.
    + replace (192 + a <? 128) with false by lia. replace (192 + a <=? 223) with true by lia. rewrite land_192_31 by assumption.
      rewrite cont_eq by (try assumption; change (2 ^ 26) with 67108864; lia). reflexivity.
    + replace (224 + a <? 128) with false by lia. replace (224 + a <=? 223) with false by lia. replace (224 + a <=? 239) with true by lia. rewrite land_224_15 by assumption.
      rewrite (cont_eq a b) by (try assumption; change (2 ^ 26) with 67108864; lia).
      rewrite cont_eq by (try assumption; change (2 ^ 26) with 67108864; lia). do 2 f_equal. lia.
    + replace (240 + a <? 128) with false by lia. replace (240 + a <=? 223) with false by lia. replace (240 + a <=? 239) with false by lia. replace (240 + a <=? 247) with true by lia.
      rewrite land_240_7 by assumption.
      rewrite (cont_eq a b) by (try assumption; change (2 ^ 26) with 67108864; lia).
      rewrite (cont_eq (a * 64 + b) c) by (try assumption; change (2 ^ 26) with 67108864; lia).
      rewrite cont_eq by (try assumption; change (2 ^ 26) with 67108864; lia). do 2 f_equal. lia.
  - intros head t. unfold utf8read, announced.
    destruct (head <? 128) eqn:E1; [exists head; split; [reflexivity|intros [Q|Q]; [lia|cbn [length] in Q; lia]]|].
    destruct (head <=? 223) eqn:E2.
    { destruct t as [|b t]; [exists 0; split; reflexivity|]. eexists. split; [reflexivity|]. intros [Q|Q]; [lia|cbn [length] in Q; lia]. }
    destruct (head <=? 239) eqn:E3.
    { destruct t as [|b [|c t]]; [exists 0; split; reflexivity|exists 0; split; reflexivity|]. eexists. split; [reflexivity|]. intros [Q|Q]; [lia|cbn [length] in Q; lia]. }
    destruct (head <=? 247) eqn:E4.
    { destruct t as [|b [|c [|d t]]]; [exists 0; split; reflexivity|exists 0; split; reflexivity|exists 0; split; reflexivity|]. eexists. split; [reflexivity|]. intros [Q|Q]; [lia|cbn [length] in Q; lia]. }
    exists 0. split; reflexivity.
Qed.
Example C09_reader_case : utf8_char [226; 130; 172] 8364 /\ utf8read [226; 130; 172; 65] = Some (8364, [65]) /\ utf8read [255; 65; 66] = Some (0, [65; 66]) /\ utf8read [226; 130] = Some (0, []).
Proof. split; [apply (u8_3 2 2 44); reflexivity|]. do 2 (split; [vm_compute; reflexivity|]). vm_compute. reflexivity. Qed.
(* that it reads only what the decoder accepts is false: the bytes that follow
   the first are not looked at, and a first byte may be one that follows *)
Theorem C09_reader_refuted : (exists s cp r, utf8read s = Some (cp, r) /\ cp <> 0 /\ r = [] /\ parse_utf8 s = None) /\
  (exists b t, 128 <= b < 192 /\ utf8read (b :: 65 :: t) = Some (1, t)).
Proof.
  split; [exists [195; 65], 193, []|exists 128, []]; [|split; [lia|vm_compute; reflexivity]].
  split; [vm_compute; reflexivity|]. split; [discriminate|]. split; vm_compute; reflexivity.
Qed.
Print Assumptions C09_reader.
Print Assumptions C09_reader_refuted.
