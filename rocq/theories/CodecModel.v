(* Model of the byte codecs: ron/encdec.hpp, ron/utf8-parser.cc,
   ron/cp-parser.cc, ron/text.cc and the SHA2 text forms of ron/hash.hpp. *)
From Verif Require Import Prelude UuidModel.

(* ---- UTF-8 ---- *)

(* ron/encdec.hpp:78-94 utf8append: the bytes appended for one code point *)
Definition utf8append (cp : N) : bytes :=
  if cp <? 128 then [cp]
  else if cp <? 2048 then [N.lor (N.shiftr cp 6) 192; N.lor (N.land cp 63) 128]
  else if cp <? 65536 then
    [N.lor (N.shiftr cp 12) 224; N.lor (N.land (N.shiftr cp 6) 63) 128; N.lor (N.land cp 63) 128]
  else
    [N.lor (N.land (N.shiftr cp 18) 7) 240; N.lor (N.land (N.shiftr cp 12) 63) 128;
     N.lor (N.land (N.shiftr cp 6) 63) 128; N.lor (N.land cp 63) 128].

(* ron/encdec.hpp:96-150 utf8esc_append *)
Definition utf8esc_append (cp : N) : bytes :=
  if cp <? 128 then
    if cp =? 34 then [92; 34]
    else if cp =? 39 then [92; 39]
    else if cp =? 92 then [92; 92]
    else if cp =? 8 then [92; 98]
    else if cp =? 12 then [92; 102]
    else if cp =? 10 then [92; 110]
    else if cp =? 13 then [92; 114]
    else if cp =? 9 then [92; 116]
    else [cp]
  else if cp <? 2048 then [N.lor (N.shiftr cp 6) 192; N.lor (N.land cp 63) 128]
  else if cp <? 65536 then
    [N.lor (N.shiftr cp 12) 224; N.lor (N.land (N.shiftr cp 6) 63) 128; N.lor (N.land cp 63) 128]
  else
    [N.lor (N.land (N.shiftr cp 18) 7) 240; N.lor (N.land (N.shiftr cp 12) 63) 128;
     N.lor (N.land (N.shiftr cp 6) 63) 128; N.lor (N.land cp 63) 128].

(* ragel/utf8-grammar.rl:7, compiled in ron/utf8-parser.cc:54 and
   ron/cp-parser.cc:82: a continuation byte; cp is a 32-bit word *)
Definition cont (cp b : N) : N := N.lor (N.shiftl cp 6 mod 2 ^ 32) (N.land b 63).

(* ron/utf8-parser.cc:21-200 ParseUtf8. States: 4 start, 5 a code point is
   complete in cp, 1/2/3 continuation bytes still missing. out holds the
   pushed code points, latest first. None is the error state 0. *)
Definition p8_lead (b : N) (out : list N) : option (N * N * list N) :=
  if b <? 128 then Some (5, b, out)                        (* tr4, tr8 *)
  else if b <? 192 then None
  else if b <? 224 then Some (1, N.land b 31, out)         (* tr5, tr9 *)
  else if b <? 240 then Some (2, N.land b 15, out)         (* tr6, tr10 *)
  else if b <? 248 then Some (3, N.land b 7, out)          (* tr7, tr11 *)
  else None.
Definition p8_step (st cp : N) (out : list N) (b : N) : option (N * N * list N) :=
  if st =? 4 then p8_lead b out
  else if st =? 5 then p8_lead b (cp :: out)
  else if (128 <=? b) && (b <=? 191) then
    Some (if st =? 1 then 5 else if st =? 2 then 1 else 2, cont cp b, out)
  else None.
Fixpoint p8_run (st cp : N) (out : list N) (s : bytes) : option (list N) :=
  match s with
  | [] => if st =? 5 then Some (rev (cp :: out)) else if st =? 4 then Some (rev out) else None
  | b :: t => match p8_step st cp out b with
              | Some (st', cp', out') => p8_run st' cp' out' t
              | None => None
              end
  end.
(* None is BADSYNTAX; code points pushed before the error are not modelled *)
Definition parse_utf8 (s : bytes) : option (list N) := p8_run 4 0 [] s.

(* ron/encdec.hpp:161-203 utf8read: code point and remaining bytes; CP_ERROR
   is 0. The iterator must not be at the end: reading there is None. *)
Definition utf8read (s : bytes) : option (N * bytes) :=
  match s with
  | [] => None
  | head :: t =>
    if head <? 128 then Some (head, t)
    else if head <=? 223 then
      match t with b :: r => Some (cont (N.land head 31) b, r) | _ => Some (0, []) end
    else if head <=? 239 then
      match t with b :: c :: r => Some (cont (cont (N.land head 15) b) c, r) | _ => Some (0, []) end
    else if head <=? 247 then
      match t with b :: c :: d :: r => Some (cont (cont (cont (N.land head 7) b) c) d, r)
                 | _ => Some (0, []) end
    else Some (0, t)
  end.

(* ---- UTF-16 ---- *)

(* ron/encdec.hpp:152-159 utf16append; char16_t casts truncate to 16 bits *)
Definition utf16append (cp : N) : list N :=
  if (cp <? 55295) || ((cp <? 65536) && (57344 <=? cp)) then [cp mod 65536]
  else [(55296 + N.shiftr cp 10) mod 65536; (56320 + N.land cp 1023) mod 65536].

(* ron/encdec.hpp:205-222 utf16read; no bound check before the second unit, so
   a high unit at the end reads past the string (None). next - 0xdc00 is an int
   that may be negative; or-ing it into the 32-bit word is taken modulo 2^32. *)
Definition utf16read (s : list N) : option (N * list N) :=
  match s with
  | [] => None
  | u :: t =>
    if u <? 55296 then Some (u, t)
    else if 57344 <=? u then Some (u, t)
    else match t with
         | [] => None
         | n :: r => Some (N.lor (N.shiftl (u - 55296) 10 mod 2 ^ 32)
                                 ((2 ^ 32 + n - 56320) mod 2 ^ 32), r)
         end
  end.

(* reading a whole u16string *)
Fixpoint utf16read_all (fuel : nat) (s : list N) : option (list N) :=
  match fuel, s with
  | _, [] => Some []
  | O, _ => None
  | S f, _ => match utf16read s with
              | Some (c, r) => option_map (cons c) (utf16read_all f r)
              | None => None
              end
  end.

(* ---- base-2^k armour ---- *)

(* ron/const.hpp:42 HEX_PUNCT *)
Definition HEX_PUNCT : list N := [48;49;50;51;52;53;54;55;56;57;97;98;99;100;101;102].

(* ron/uuid.cc:109-123 ABC64 and 125-139 ABC16; 255 stands for -1 *)
Definition ABC64 : list N := [
   255;255;255;255;255;255;255;255;255;255;255;255;255;255;255;255;255;255;255;255;255;255;255;255;255;255;255;255;255;255;255;255;
   255;255;255;255;255;255;255;255;255;255;255;255;255;255;255;255;0;1;2;3;4;5;6;7;8;9;255;255;255;255;255;255;
   255;10;11;12;13;14;15;16;17;18;19;20;21;22;23;24;25;26;27;28;29;30;31;32;33;34;35;255;255;255;255;36;
   255;37;38;39;40;41;42;43;44;45;46;47;48;49;50;51;52;53;54;55;56;57;58;59;60;61;62;255;255;255;63;255;
   255;255;255;255;255;255;255;255;255;255;255;255;255;255;255;255;255;255;255;255;255;255;255;255;255;255;255;255;255;255;255;255;
   255;255;255;255;255;255;255;255;255;255;255;255;255;255;255;255;255;255;255;255;255;255;255;255;255;255;255;255;255;255;255;255;
   255;255;255;255;255;255;255;255;255;255;255;255;255;255;255;255;255;255;255;255;255;255;255;255;255;255;255;255;255;255;255;255;
   255;255;255;255;255;255;255;255;255;255;255;255;255;255;255;255;255;255;255;255;255;255;255;255;255;255;255;255;255;255;255;255].
Definition ABC16 : list N := [
   255;255;255;255;255;255;255;255;255;255;255;255;255;255;255;255;255;255;255;255;255;255;255;255;255;255;255;255;255;255;255;255;
   255;255;255;255;255;255;255;255;255;255;255;255;255;255;255;255;0;1;2;3;4;5;6;7;8;9;255;255;255;255;255;255;
   255;10;11;12;13;14;15;255;255;255;255;255;255;255;255;255;255;255;255;255;255;255;255;255;255;255;255;255;255;255;255;255;
   255;10;11;12;13;14;15;255;255;255;255;255;255;255;255;255;255;255;255;255;255;255;255;255;255;255;255;255;255;255;255;255;
   255;255;255;255;255;255;255;255;255;255;255;255;255;255;255;255;255;255;255;255;255;255;255;255;255;255;255;255;255;255;255;255;
   255;255;255;255;255;255;255;255;255;255;255;255;255;255;255;255;255;255;255;255;255;255;255;255;255;255;255;255;255;255;255;255;
   255;255;255;255;255;255;255;255;255;255;255;255;255;255;255;255;255;255;255;255;255;255;255;255;255;255;255;255;255;255;255;255;
   255;255;255;255;255;255;255;255;255;255;255;255;255;255;255;255;255;255;255;255;255;255;255;255;255;255;255;255;255;255;255;255].
Definition abc64 (c : N) : option N :=
  let v := nth (N.to_nat c) ABC64 255 in if v =? 255 then None else Some v.
Definition abc16 (c : N) : option N :=
  let v := nth (N.to_nat c) ABC16 255 in if v =? 255 then None else Some v.

(* ron/encdec.hpp:23-26: while (bc >= w) emit the top w bits. The loop runs at
   most bc times, which is the fuel. Returns the new bc and the digits. *)
Fixpoint enc_emit (fuel : nat) (w bits bc : N) : N * list N :=
  match fuel with
  | O => (bc, [])
  | S f => if w <=? bc then
             let bc' := bc - w in
             let '(r, ds) := enc_emit f w bits bc' in
             (r, N.land (N.shiftr bits bc') (2 ^ w - 1) :: ds)
           else (bc, [])
  end.
(* ron/encdec.hpp:12-32 encode, digits as numbers; n is bit_size / 8, the
   number of whole bytes taken. None: the raw slice is too short (an
   out-of-bounds read). bits is a 32-bit word. *)
Fixpoint encode_loop (w : N) (n : nat) (raw : bytes) (bits bc : N) : option (list N) :=
  match n with
  | O => Some (if 0 <? bc
               then [N.land (N.shiftl bits (w - bc) mod 2 ^ 32) (2 ^ w - 1)] else [])
  | S n' =>
    match raw with
    | [] => None
    | b :: t =>
      let bits' := N.lor (N.shiftl bits 8 mod 2 ^ 32) b in
      let '(bc', ds) := enc_emit (N.to_nat (bc + 8)) w bits' (bc + 8) in
      option_map (app ds) (encode_loop w n' t bits' bc')
    end
  end.
Definition encode_digits (w : N) (raw : bytes) (bit_size : N) : option (list N) :=
  encode_loop w (N.to_nat (bit_size / 8)) raw 0 0.
Definition encode (w : N) (coding : list N) (raw : bytes) (bit_size : N) : option bytes :=
  option_map (map (fun d => nth (N.to_nat d) coding 0)) (encode_digits w raw bit_size).

(* result of decode: bytes and true, or what was written before false *)
Inductive dec_result : Set := DecOk (b : bytes) | DecBad (b : bytes) | DecOutOfBounds.
Definition dec_app (ds : bytes) (r : dec_result) : dec_result :=
  match r with DecOk b => DecOk (ds ++ b) | DecBad b => DecBad (ds ++ b) | DecOutOfBounds => DecOutOfBounds end.
(* ron/encdec.hpp:46-49 *)
Fixpoint dec_emit (fuel : nat) (bits bc : N) : N * list N :=
  match fuel with
  | O => (bc, [])
  | S f => if 8 <=? bc then
             let bc' := bc - 8 in
             let '(r, ds) := dec_emit f bits bc' in
             (r, N.land (N.shiftr bits bc') 255 :: ds)
           else (bc, [])
  end.
(* ron/encdec.hpp:34-55 decode; n is bit_size / w *)
Fixpoint decode_loop (w : N) (table : N -> option N) (n : nat) (coded : bytes) (bits bc : N) : dec_result :=
  match n with
  | O => DecOk (if 0 <? bc then [N.land (N.shiftl bits (8 - bc) mod 2 ^ 32) 255] else [])
  | S n' =>
    match coded with
    | [] => DecOutOfBounds
    | c :: t =>
      match table c with
      | None => DecBad []
      | Some v =>
        let bits' := N.lor (N.shiftl bits w mod 2 ^ 32) v in
        let '(bc', ds) := dec_emit (N.to_nat (bc + w)) bits' (bc + w) in
        dec_app ds (decode_loop w table n' t bits' bc')
      end
    end
  end.
Definition decode (w : N) (table : N -> option N) (coded : bytes) (bit_size : N) : dec_result :=
  decode_loop w table (N.to_nat (bit_size / w)) coded 0 0.

(* ron/hash.hpp:13-23 SHA2: known_bits_ and the 32 bytes of bits_ *)
Record sha2 : Set := mkSha2 { known_bits : N; hbits : bytes }.
Definition SHA2_EMPTY : sha2 := mkSha2 0 (repeat 0 32).
(* ron/hash.hpp:56-61 hex, 86-91 base64 *)
Definition sha2_hex (h : sha2) : option bytes := encode 4 HEX_PUNCT (hbits h) (known_bits h).
Definition sha2_base64 (h : sha2) : option bytes := encode 6 BASE_PUNCT (hbits h) (known_bits h).
(* ron/hash.hpp:63-71 ParseHex and 73-81 ParseBase64: decode is called with
   ret.known_bits_, which is still 0, so it converts nothing. None: the
   assert on the length fails. *)
Definition sha2_parse (w : N) (table : N -> option N) (maxlen : N) (s : bytes) : option sha2 :=
  if maxlen <? N.of_nat (length s) then None
  else
    let b := N.min (N.of_nat (length s) * w) 256 in
    match decode w table s (known_bits SHA2_EMPTY) with
    | DecOk more => Some (mkSha2 b (hbits SHA2_EMPTY ++ more))
    | DecBad more => Some (mkSha2 0 (hbits SHA2_EMPTY ++ more))
    | DecOutOfBounds => None
    end.
Definition sha2_parse_hex : bytes -> option sha2 := sha2_parse 4 abc16 64.
Definition sha2_parse_base64 : bytes -> option sha2 := sha2_parse 6 abc64 43.
(* ron/hash.hpp:40 operator== *)
Fixpoint bytes_eqb (a b : bytes) : bool :=
  match a, b with
  | [], [] => true
  | x :: a', y :: b' => (x =? y) && bytes_eqb a' b'
  | _, _ => false
  end.
Definition sha2_eqb (a b : sha2) : bool := bytes_eqb (hbits a) (hbits b).
(* ron/hash.hpp:43-55 matches. The code shifts signed chars; sign extension copies
   the top compared bit, so equality of the results is the same as for the
   unsigned bytes used here. *)
Definition sha2_matches (a b : sha2) : bool :=
  let bits := N.min (known_bits a) (known_bits b) in
  let nb := N.to_nat (bits / 8) in
  bytes_eqb (firstn nb (hbits a)) (firstn nb (hbits b)) &&
  let tail := bits mod 8 in
  if 0 <? tail
  then N.shiftr (nth nb (hbits a) 0) (8 - tail) =? N.shiftr (nth nb (hbits b) 0) (8 - tail)
  else true.
(* ron/hash.hpp:32-37 valid (base64 text of a full hash) *)
Definition sha2_valid (s : bytes) : bool :=
  (N.of_nat (length s) =? 43) && forallb (fun c => match abc64 c with Some _ => true | None => false end) s &&
  match abc64 (nth 42 s 0) with Some v => N.land v 3 =? 0 | None => false end.

(* ---- escaped strings ---- *)

(* ron/text.hpp:372-391 decode_esc *)
Definition decode_esc (c : N) : N :=
  if c =? 97 then 7 else if c =? 98 then 8 else if c =? 102 then 12 else if c =? 110 then 10
  else if c =? 114 then 13 else if c =? 116 then 9 else if c =? 118 then 11 else c.

(* ron/text.cc:88-98 decode_hex_cp *)
Fixpoint decode_hex (ret : N) (d : bytes) : N :=
  match d with
  | [] => ret
  | c :: t => match abc16 c with
              | None => 0
              | Some v => decode_hex (N.lor (N.shiftl ret 4 mod 2 ^ 32) v) t
              end
  end.
Definition decode_hex_cp (d : bytes) : N := decode_hex 0 d.

(* ron/cp-parser.cc:45-69 and 131-155: bytes that cannot start a character *)
Definition cp_stop (b : N) : bool := (b =? 0) || (b =? 10) || (b =? 13) || (b =? 39).
Definition cp_cont (b : N) : bool := (128 <=? b) && (b <=? 191).
(* a byte that starts a character in states 9, 10, 11 *)
Definition cp_start (b : N) : bool := negb (cp_stop b) && negb (cp_cont b) && (b <? 248).
(* ron/cp-parser.cc:193-211 *)
Definition is_esc (b : N) : bool :=
  (b =? 34) || (b =? 39) || (b =? 47) || (b =? 92) || (b =? 98) || (b =? 110) || (b =? 114) || (b =? 116).
Definition is_hex (b : N) : bool :=
  ((48 <=? b) && (b <=? 57)) || ((65 <=? b) && (b <=? 70)) || ((97 <=? b) && (b <=? 102)).

(* ron/cp-parser.cc:34-513, the automaton of NextCodepoint. hex holds the
   last bytes read after \u (the Slice{p-4,4}); n counts consumed bytes.
   Some (cp, n): the automaton stopped with cs <> 0 having consumed n bytes;
   None: cs = 0. Since eof is 0, running out of input runs no end action: the
   current cp is kept, in every state. *)
Fixpoint cp_run (st cp : N) (hex : bytes) (n : N) (s : bytes) : option (N * N) :=
  match s with
  | [] => Some (cp, n)
  | b :: t =>
    if st =? 9 then
      if cp_stop b then None
      else if b =? 92 then cp_run 1 cp hex (n + 1) t
      else if b <? 128 then cp_run 10 b hex (n + 1) t
      else if b <? 192 then None
      else if b <? 224 then cp_run 6 (N.land b 31) hex (n + 1) t
      else if b <? 240 then cp_run 7 (N.land b 15) hex (n + 1) t
      else if b <? 248 then cp_run 8 (N.land b 7) hex (n + 1) t
      else None
    else if st =? 10 then if cp_start b then Some (cp, n) else None
    else if st =? 11 then if cp_start b then Some (decode_hex_cp hex, n) else None
    else if st =? 1 then
      if is_esc b then cp_run 10 (decode_esc b) hex (n + 1) t
      else if b =? 117 then cp_run 2 cp [] (n + 1) t
      else None
    else if st =? 2 then if is_hex b then cp_run 3 cp (hex ++ [b]) (n + 1) t else None
    else if st =? 3 then if is_hex b then cp_run 4 cp (hex ++ [b]) (n + 1) t else None
    else if st =? 4 then if is_hex b then cp_run 5 cp (hex ++ [b]) (n + 1) t else None
    else if st =? 5 then if is_hex b then cp_run 11 cp (hex ++ [b]) (n + 1) t else None
    else if cp_cont b then
      cp_run (if st =? 6 then 10 else if st =? 7 then 6 else 7) (cont cp b) hex (n + 1) t
    else None
  end.

(* ron/cp-parser.cc:21-523 NextCodepoint over the remaining bytes of a string
   atom with cp_size code points left. *)
Inductive next_cp_result : Set :=
  | CpEnd                                   (* ENDOFINPUT, cp = 0 *)
  | CpOk (cp : N) (consumed : N)            (* OK; cp_size decreases by one *)
  | CpBad.                                  (* BADSYNTAX, cp = 0 *)
Definition next_codepoint (rest : bytes) (cp_size : N) : next_cp_result :=
  if cp_size =? 0 then CpEnd
  else match cp_run 9 0 [] 0 rest with
       | Some (cp, n) => CpOk cp n
       | None => CpBad
       end.

(* repeated NextCodepoint calls until ENDOFINPUT, as in ReadString,
   ron/frames.hpp:132-136; cp_size gives the number of calls *)
Fixpoint read_codepoints (cp_size : nat) (rest : bytes) : option (list N) :=
  match cp_size with
  | O => Some []
  | S k => match next_codepoint rest (N.of_nat cp_size) with
           | CpOk cp n => option_map (cons cp) (read_codepoints k (skipn (N.to_nat n) rest))
           | _ => None
           end
  end.

(* ---- integers ---- *)

(* printf of a non-negative number in decimal; n below 10^20, so 20 rounds
   are enough (fuel) *)
Fixpoint dec_loop (fuel : nat) (n : N) (acc : bytes) : bytes :=
  match fuel with
  | O => acc
  | S f => let acc' := (48 + n mod 10) :: acc in
           if n / 10 =? 0 then acc' else dec_loop f (n / 10) acc'
  end.
Definition decimal (n : N) : bytes := dec_loop 20 n [].

(* ron/text-builder.cc:39-43 WriteInt: sprintf("%ld") into char tmp[20]; None
   means that the text and its terminating zero do not fit the buffer (stack
   overflow, undefined behaviour). *)
Definition write_int (v : Z) : option bytes :=
  let s := if (v <? 0)%Z then 45 :: decimal (Z.to_N (- v)) else decimal (Z.to_N v) in
  if (length s <=? 19)%nat then Some s else None.

(* int64_t arithmetic, two's complement wrap-around *)
Definition to_int64 (z : Z) : Z := ((z + 2 ^ 63) mod 2 ^ 64 - 2 ^ 63)%Z.

(* ron/text.cc:7-26 ParseInteger *)
Fixpoint parse_int_loop (ret : Z) (s : bytes) : Z :=
  match s with
  | [] => ret
  | c :: t => parse_int_loop (to_int64 (to_int64 (ret * 10) + (Z.of_N c - 48))) t
  end.
Definition parse_integer (s : bytes) : Z :=
  match s with
  | c :: t => if c =? 45 then to_int64 (- parse_int_loop 0 t)
              else if c =? 43 then parse_int_loop 0 t
              else parse_int_loop 0 s
  | [] => 0%Z
  end.

(* ron/text.cc:70-86 int_too_big; memcmp > 0 is the lexicographic order *)
Definition MAXINTSTR : bytes := [57;50;50;51;51;55;50;48;51;54;56;53;52;55;55;53;56;48;55].
Definition strip_sign (s : bytes) : bytes :=
  match s with c :: t => if (c =? 45) || (c =? 43) then t else s | [] => [] end.
Definition int_too_big (s : bytes) : bool :=
  if (length s <? 19)%nat then false
  else
    let mem := strip_sign s in
    if (19 <? length mem)%nat then true
    else lex_ltb (firstn (length mem) MAXINTSTR) mem.
