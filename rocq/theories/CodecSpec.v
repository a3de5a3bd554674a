(* Independent specification of the encodings. *)
From Verif Require Import Prelude.

(* one UTF-8 style byte sequence and the number it denotes (any length) *)
Inductive utf8_char : list N -> N -> Prop :=
  | u8_1 a : a < 128 -> utf8_char [a] a
  | u8_2 a b : a < 32 -> b < 64 -> utf8_char [192 + a; 128 + b] (a * 64 + b)
  | u8_3 a b c : a < 16 -> b < 64 -> c < 64 ->
      utf8_char [224 + a; 128 + b; 128 + c] (a * 4096 + b * 64 + c)
  | u8_4 a b c d : a < 8 -> b < 64 -> c < 64 -> d < 64 ->
      utf8_char [240 + a; 128 + b; 128 + c; 128 + d] (a * 262144 + b * 4096 + c * 64 + d).

(* a text: byte sequences paired with code points *)
Definition utf8_text (s : list N) (l : list N) : Prop :=
  exists cs, s = concat (map fst cs) /\ l = map snd cs /\
             Forall (fun c => utf8_char (fst c) (snd c)) cs.

(* Unicode scalar values and the standard UTF-16 form (RFC 2781) *)
Definition scalar (cp : N) : Prop := cp < 0xD800 \/ (0xE000 <= cp < 0x110000).
Definition utf16_standard (cp : N) : list N :=
  if cp <? 0x10000 then [cp]
  else [0xD800 + (cp - 0x10000) / 1024; 0xDC00 + (cp - 0x10000) mod 1024].

(* the k low bits of n, most significant first *)
Fixpoint bits_be (k : nat) (n : N) : list bool :=
  match k with O => [] | S j => N.testbit n (N.of_nat j) :: bits_be j n end.
(* bit string of a list of k-bit digits *)
Definition bits_of (k : nat) (l : list N) : list bool := flat_map (bits_be k) l.

(* one character of an escaped RON string and the code point it denotes.
   A backslash escape is a backslash before one of: double quote, quote,
   slash, backslash, b n r t, or u and four hex digits. *)
Definition hex_value (c : N) : option N :=
  if (48 <=? c) && (c <=? 57) then Some (c - 48)
  else if (65 <=? c) && (c <=? 70) then Some (c - 55)
  else if (97 <=? c) && (c <=? 102) then Some (c - 87)
  else None.
Inductive esc_char : list N -> N -> Prop :=
  | e_plain bs cp : utf8_char bs cp -> ~ In cp [0; 10; 13; 39; 92] \/ (1 < length bs)%nat ->
      esc_char bs cp
  | e_esc c cp : In (c, cp) [(34, 34); (39, 39); (47, 47); (92, 92); (98, 8); (110, 10); (114, 13); (116, 9)] ->
      esc_char [92; c] cp
  | e_uni a b c d va vb vc vd :
      hex_value a = Some va -> hex_value b = Some vb -> hex_value c = Some vc -> hex_value d = Some vd ->
      esc_char [92; 117; a; b; c; d] (va * 4096 + vb * 256 + vc * 16 + vd).

(* decimal integer literals: optional sign, then digits *)
Definition is_dec (c : N) : Prop := 48 <= c <= 57.
Definition dec_value (s : list N) : N := fold_left (fun a c => a * 10 + (c - 48)) s 0.
Inductive int_literal : list N -> Z -> Prop :=
  | lit_pos s : s <> [] -> Forall is_dec s -> int_literal s (Z.of_N (dec_value s))
  | lit_plus s : s <> [] -> Forall is_dec s -> int_literal (43 :: s) (Z.of_N (dec_value s))
  | lit_minus s : s <> [] -> Forall is_dec s -> int_literal (45 :: s) (- Z.of_N (dec_value s)).

Definition MAX18 : N := 922337203685477580.
Definition MAX19 : N := 9223372036854775807.

(* exactly which literals pass the size check *)
Definition int_lit_fits (signed : bool) (digits : list N) : Prop :=
  (length digits <= (if signed then 17 else 18))%nat \/
  (length digits = 18%nat /\ dec_value digits <= MAX18) \/
  (length digits = 19%nat /\ dec_value digits <= MAX19).

Definition int_fits (s : list N) : Prop :=
  match s with
  | c :: d => if (c =? 43) || (c =? 45) then int_lit_fits true d else int_lit_fits false s
  | [] => False
  end.
