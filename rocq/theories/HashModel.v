(* What is hashed for an op: ron/hash.hpp:99-200. The hash function itself,
   Botan's SHA-512/256, is not modelled: the models that need it take it as a
   parameter. *)
From Verif Require Import Prelude UuidModel CodecModel TextTable TextModel MergeModel.

(* htobe64 of a 64-bit word: its bytes, most significant first *)
Fixpoint be_bytes (k : nat) (w : N) : bytes :=
  match k with O => [] | S j => be_bytes j (w / 256) ++ [w mod 256] end.
Definition be64 (w : N) : bytes := be_bytes 8 w.

(* ron/hash.hpp:110-113 Stream::WriteAtom on the two words of an atom *)
Definition write_words (value origin : N) : bytes := be64 value ++ be64 origin.
(* ron/hash.hpp:118 WriteUuid *)
Definition write_id (u : uuid) : bytes := write_words (uvalue u) (uorigin u).
(* ron/hash.hpp:119-123 WriteAtomRangeless: origin & FLAG_BITS *)
Definition write_rangeless (value origin : N) : bytes :=
  write_words value (N.land origin (2 ^ 64 - 2 ^ 60)).
(* ron/hash.hpp:114-117 WriteHash, with its assert *)
Definition write_hash (h : sha2) : res bytes :=
  if (length (hbits h) =? 32)%nat then Done (hbits h) else Aborted.

(* the origin word of a parsed atom: Word{range} | type << 62,
   ron/uuid.hpp:170-183; the begin of the range is in the low half *)
Definition origin_word (ty b e : N) : N := N.lor (N.lor b (N.shiftl e 32)) (N.shiftl ty 62).
(* the int64_t in a word *)
Definition word_of_z (z : Z) : N := Z.to_N (z mod 2 ^ 64).

(* ron/frames.hpp:125-137 ReadString as a loop: what is in the string when it
   returns, with or without an error *)
Fixpoint read_prefix (cp_size : nat) (rest : bytes) : list N :=
  match cp_size with
  | O => []
  | S k => match next_codepoint rest (N.of_nat cp_size) with
           | CpOk cp n => cp :: read_prefix k (skipn (N.to_nat n) rest)
           | _ => []
           end
  end.

Section Image.
Variable fbits : bytes -> N.   (* strtod: the 64-bit word of a float literal *)

(* ron/hash.hpp:138-157, one value atom as cursor.atom(i) returns it: INT and
   FLOAT parsed into the value word, a STRING cursor at a character replaced by
   the bare character, ron/text.hpp:48-62 *)
Definition atom_image (buf : bytes) (a : atom) : bytes :=
  match a with
  | AUuid u => write_id u
  | AInt b e => write_rangeless (word_of_z (parse_integer (sub buf b e))) (origin_word 1 b e)
  | AFloat b e => write_rangeless (fbits (sub buf b e)) (origin_word 3 b e)
  | AStr cp n b e =>
      if cp =? 0
      then write_rangeless (N.shiftl n 32) (origin_word 2 b e) ++
           flat_map utf8append (read_prefix (N.to_nat n) (sub buf b e))
      else write_rangeless cp (origin_word 2 0 0) ++ utf8append cp
  end.

(* ron/hash.hpp:132-158 WriteOpHashable on a text cursor *)
Definition hash_image (c : cursor) (prev refh : sha2) : res bytes :=
  rbind (write_hash prev) (fun p =>
  rbind (write_hash refh) (fun r =>
  Done (write_id (op_id (c_op c)) ++ p ++ write_id (op_ref (c_op c)) ++ r ++
        flat_map (atom_image (c_buf c)) (skipn 2 (c_op c))))).
End Image.
