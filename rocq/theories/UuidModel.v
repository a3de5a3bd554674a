(* Model of Word and Uuid: ron/uuid.hpp, ron/uuid.cc, ron/uuid-parser.cc. *)
From Verif Require Import Prelude.

(* ron/const.hpp:63-64 BASE_PUNCT, the base64 alphabet, as ASCII codes
   "0-9A-Z_a-z~". *)
Definition BASE_PUNCT : list N :=
  [48;49;50;51;52;53;54;55;56;57;
   65;66;67;68;69;70;71;72;73;74;75;76;77;78;79;80;81;82;83;84;85;86;87;88;89;90;
   95;
   97;98;99;100;101;102;103;104;105;106;107;108;109;110;111;112;113;114;115;116;
   117;118;119;120;121;122;
   126].

(* ron/const.hpp:26 UUID_PUNCT "$%+-" *)
Definition UUID_PUNCT : list N := [36; 37; 43; 45].

(* ron/uuid.cc:97-106 ABC[128]: value of a punctuation or base64 character *)
Definition ABC : list N :=
  [255;255;255;255;255;255;255;255;255;255;255;255;255;255;255;
   255;255;255;255;255;255;255;255;255;255;255;255;255;255;255;
   255;255;255;2;  255;1;  0;  1;  255;2;  0;  5;  0;  2;  1;
   3;  0;  255;0;  1;  2;  3;  4;  5;  6;  7;  8;  9;  3;  0;
   255;1;  0;  3;  2;  10; 11; 12; 13; 14; 15; 16; 17; 18; 19;
   20; 21; 22; 23; 24; 25; 26; 27; 28; 29; 30; 31; 32; 33; 34;
   35; 1;  255;4;  3;  36; 0;  37; 38; 39; 40; 41; 42; 43; 44;
   45; 46; 47; 48; 49; 50; 51; 52; 53; 54; 55; 56; 57; 58; 59;
   60; 61; 62; 2;  255;3;  63; 255].

(* array reads; the index is below the table size at every use in the model *)
Definition base_punct (d : N) : N := nth (N.to_nat d) BASE_PUNCT 0.
Definition uuid_punct (d : N) : N := nth (N.to_nat d) UUID_PUNCT 0.
Definition abc (c : N) : N := nth (N.to_nat c) ABC 255.

Definition two64 : N := 2 ^ 64.
Definition two60 : N := 2 ^ 60.

(* ron/uuid.hpp:69,75 MAX_VALUE, PAYLOAD_BITS *)
Definition MAX_VALUE : N := 2 ^ 60 - 1.

(* ron/uuid.hpp:71-74 OFFSET6 paired with LOWER6[1..10] of ron/uuid.hpp:77-87;
   the writer always reads OFFSET6[len] and then LOWER6[len+1]. *)
Definition WORD_TABLE : list (N * N) :=
  [(54, 2^54-1); (48, 2^48-1); (42, 2^42-1); (36, 2^36-1); (30, 2^30-1);
   (24, 2^24-1); (18, 2^18-1); (12, 2^12-1); (6, 2^6-1); (0, 0)].

(* ron/uuid.cc:29-35 Word::write_base64, the do-while loop; running off the
   tables (the [] case) would be an out-of-bounds read; it is unreachable
   because the last LOWER6 entry is 0. *)
Fixpoint write_word_loop (tbl : list (N * N)) (w : N) : bytes :=
  match tbl with
  | [] => []
  | (off, low) :: t =>
      base_punct (N.land 63 (N.shiftr w off)) ::
      (if N.land w low =? 0 then [] else write_word_loop t w)
  end.

(* ron/uuid.cc:29-35 *)
Definition write_word (w : N) : bytes := write_word_loop WORD_TABLE w.

(* C isdigit on ASCII *)
Definition is_decimal (c : N) : bool := (48 <=? c) && (c <=? 57).

(* ron/uuid.cc:37-45 Word::is_all_digits *)
Fixpoint all_digits_loop (tbl : list (N * N)) (w : N) : bool :=
  match tbl with
  | [] => true
  | (off, low) :: t =>
      is_decimal (base_punct (N.land 63 (N.shiftr w off))) &&
      (if N.land w low =? 0 then true else all_digits_loop t w)
  end.
Definition is_all_digits (w : N) : bool := all_digits_loop WORD_TABLE w.

(* ron/uuid.hpp:89 Word::flags *)
Definition word_flags (w : N) : N := N.shiftr w 60.
(* ron/uuid.hpp:92 Word::payload *)
Definition word_payload (w : N) : N := N.land w MAX_VALUE.

(* ron/uuid.hpp:162-167, 194-196: an Atom/Uuid is a pair of 64-bit words *)
Record uuid : Set := mkUuid { uvalue : N; uorigin : N }.

(* both halves fit 64 bits *)
Definition uuid_wf (u : uuid) : Prop := uvalue u < 2 ^ 64 /\ uorigin u < 2 ^ 64.

(* ron/uuid.hpp:206-208 Uuid::version *)
Definition version (u : uuid) : N := N.land (word_flags (uorigin u)) 3.
(* ron/uuid.hpp:209 Uuid::variety *)
Definition variety (u : uuid) : N := word_flags (uvalue u).
(* ron/const.hpp:27 enum UUID *)
Definition NAME : N := 0.
Definition HASH : N := 1.
Definition TIME : N := 2.
Definition DERIVED : N := 3.

(* ron/uuid.cc:47-60 Uuid::write_base64 (and str, 62-67) *)
Definition write_uuid (u : uuid) : bytes :=
  (if variety u =? 0 then [] else [base_punct (variety u); 47]) ++
  write_word (uvalue u) ++
  (if negb (version u =? 0) || negb (uorigin u =? 0)
   then uuid_punct (version u) :: write_word (uorigin u) else []).

(* ron/uuid.hpp:36-49 Word(flags, Slice): 6 bits per character, left aligned.
   The assert(data.size() <= 10) is a precondition; shifts are mod 2^64. *)
Definition word_shift (w : N) : N := N.shiftl w 6 mod two64.
Fixpoint word_push (w : N) (data : bytes) : N :=
  match data with
  | [] => w
  | c :: t => word_push (N.lor (word_shift w) (abc c)) t
  end.
Fixpoint word_pad (n : nat) (w : N) : N :=
  match n with O => w | S n' => word_pad n' (word_shift w) end.
Definition word_parse (flags : N) (data : bytes) : N :=
  word_pad (10 - length data) (word_push (N.land flags 15) data).

(* ron/uuid.hpp:199-201, 255-259 Uuid(variety, value, version, origin) *)
Definition uuid_of_parts (vrt : N) (value : bytes) (vsn : N) (origin : bytes) : uuid :=
  mkUuid (word_parse (abc vrt) value) (word_parse (abc vsn) origin).

(* ron/uuid.cc:8-11 *)
Definition NIL : uuid := mkUuid 0 0.
Definition FATAL : uuid := mkUuid MAX_VALUE MAX_VALUE.

(* ron/uuid.hpp:217-226 Time, Derived, event, derived *)
Definition Time (value origin : N) : uuid :=
  mkUuid value (N.lor (N.land origin MAX_VALUE) (N.shiftl TIME 60)).
Definition Derived (value origin : N) : uuid :=
  mkUuid value (N.lor (N.land origin MAX_VALUE) (N.shiftl DERIVED 60)).
Definition event (u : uuid) : uuid := Time (uvalue u) (uorigin u).
Definition derived (u : uuid) : uuid := Derived (uvalue u) (uorigin u).

(* ron/uuid.cc:10 Uuid::NEVER *)
Definition UUID_NEVER : uuid := Time MAX_VALUE MAX_VALUE.
(* ron/uuid.hpp:136 the Word NEVER *)
Definition WORD_NEVER : N := N.shiftl 63 54.

(* ron/uuid.hpp:227-230 inc, dec (wrapping 64-bit arithmetic) *)
Definition inc_by (u : uuid) (by_ : N) : uuid := mkUuid ((uvalue u + by_) mod two64) (uorigin u).
Definition inc (u : uuid) : uuid := inc_by u 1.
Definition dec (u : uuid) : uuid := mkUuid ((uvalue u + (two64 - 1)) mod two64) (uorigin u).

(* ron/uuid.hpp:232-241 comparisons *)
Definition uuid_ltb (a b : uuid) : bool :=
  (uvalue a <? uvalue b) || ((uvalue a =? uvalue b) && (uorigin a <? uorigin b)).
Definition uuid_eqb (a b : uuid) : bool :=
  (uvalue a =? uvalue b) && (uorigin a =? uorigin b).
Definition uuid_gtb (a b : uuid) : bool := uuid_ltb b a.
Definition uuid_leb (a b : uuid) : bool := negb (uuid_ltb b a).
Definition uuid_geb (a b : uuid) : bool := negb (uuid_ltb a b).

(* ron/uuid.hpp:212 zero(): only the value is inspected *)
Definition uuid_zero (u : uuid) : bool := uvalue u =? 0.
(* ron/uuid.hpp:213-215 is_ambiguous *)
Definition is_ambiguous (u : uuid) : bool := (uorigin u =? 0) && is_all_digits (uvalue u).
(* ron/uuid.hpp:216 is_error *)
Definition is_error (u : uuid) : bool := uorigin u =? MAX_VALUE.

(* ---- ron/uuid-parser.cc:7-257, Uuid(Slice) --------------------------- *)

(* ragel/uuid-grammar.rl:23-24 DGT and HEX *)
Definition is_dgt (c : N) : bool :=
  ((48 <=? c) && (c <=? 57)) || ((65 <=? c) && (c <=? 90)) || (c =? 95)
  || ((97 <=? c) && (c <=? 122)) || (c =? 126).
Definition is_hexcap (c : N) : bool :=
  ((48 <=? c) && (c <=? 57)) || ((65 <=? c) && (c <=? 70)).
(* ragel/uuid-grammar.rl:30 VERSION *)
Definition is_vsn (c : N) : bool := (c =? 36) || (c =? 37) || (c =? 43) || (c =? 45).

(* registers of the automaton: the word in progress (wordb..p), the value and
   origin slices, variety and version characters; [ups] is the state cs. *)
Record up : Set := mkUp {
  ups : N; upword : bytes; upvalue : bytes; uporigin : bytes;
  upvariety : N; upversion : N; upprev : N }.

Definition up0 : up := mkUp 1 [] [] [] 48 36 0.

(* one character, uuid-parser.cc:34-204; state 0 is the error sink.
   [upword] is kept in input order; [upprev] is *(p-1). *)
Definition up_step (m : up) (c : N) : up :=
  let '(mkUp s w v o vr vs pr) := m in
  let err := mkUp 0 w v o vr vs c in
  match s with
  | 1 => if is_hexcap c then mkUp 4 [c] v [] 48 36 c
         else if is_dgt c then mkUp 6 [c] v [] 48 36 c else err
  | 4 => if is_vsn c then mkUp 2 w w o vr c c
         else if c =? 47 then mkUp 3 w v o pr vs c
         else if is_dgt c then mkUp 6 (w ++ [c]) v o vr vs c else err
  | 2 => if is_dgt c then mkUp 5 [c] v o vr vs c else err
  | 5 => if is_dgt c then mkUp 5 (w ++ [c]) v o vr vs c else err
  | 3 => if is_dgt c then mkUp 6 [c] v o vr vs c else err
  | 6 => if is_vsn c then mkUp 2 w w o vr c c
         else if is_dgt c then mkUp 6 (w ++ [c]) v o vr vs c else err
  | _ => m
  end.

(* uuid-parser.cc:222-243, the end-of-input actions *)
Definition up_eof (m : up) : up :=
  let '(mkUp s w v o vr vs pr) := m in
  match s with
  | 4 | 6 => mkUp s w w o vr vs pr
  | 5 => mkUp s w v w vr vs pr
  | _ => m
  end.

(* uuid-parser.cc:7-257 Uuid::Uuid(Slice) *)
Definition parse_uuid (s : bytes) : uuid :=
  let m := up_eof (fold_left up_step s up0) in
  if negb (ups m =? 0) && (N.of_nat (length (upvalue m)) <=? 10)
     && (N.of_nat (length (uporigin m)) <=? 10)
  then uuid_of_parts (upvariety m) (upvalue m) (upversion m) (uporigin m)
  else FATAL.

(* ron/uuid.cc:11 Uuid::COMMENT = Uuid{"~"} *)
Definition COMMENT : uuid := parse_uuid [126].

(* ron/uuid.cc:13-18 char_case: 0 NUMERIC, 1 SNAKE, 2 CAPS, 3 CAMEL bits *)
Definition CAPS_MASK : N := N.lor (2 ^ 36 - 2 ^ 10) (2 ^ 63).
Definition SNAKE_MASK : N := 2 ^ 63 - 2 ^ 36.
Definition char_case (v : N) : N :=
  let idx := N.land v 63 in
  N.lor (N.shiftl (N.land (N.shiftr CAPS_MASK idx) 1) 1)
        (N.land (N.shiftr SNAKE_MASK idx) 1).
(* ron/uuid.cc:20-27 Word::base64_case, including its loop condition u != 3 *)
Fixpoint base64_case_loop (n : nat) (u ret : N) : N :=
  match n with
  | O => ret
  | S n' => if u =? 3 then ret
            else base64_case_loop n' (N.shiftr u 6) (N.lor ret (char_case u))
  end.
Definition base64_case (w : N) : N := base64_case_loop 10 w 0.

(* ron/uuid.cc:69-85 Uuid::HybridTime after gmtime(): the broken-down time is
   the input (gmtime itself is not modelled); arithmetic is on uint64_t. *)
Record tm : Set := mkTm {
  tm_year2010 : N;  (* 1900U + tm_year - 2010U, 32-bit unsigned (ClockModel.year_field) *)
  tm_mon : N; tm_mday : N; tm_hour : N; tm_min : N; tm_sec : N; tm_nanos : N }.
Definition hybrid_time (t : tm) : N :=
  let r := (tm_year2010 t * 12) mod two64 in
  let r := (r + tm_mon t) mod two64 in
  let r := N.lor (N.shiftl r 6 mod two64) (tm_mday t - 1) in
  let r := N.lor (N.shiftl r 6 mod two64) (tm_hour t) in
  let r := N.lor (N.shiftl r 6 mod two64) (tm_min t) in
  let r := N.lor (N.shiftl r 6 mod two64) (tm_sec t) in
  N.lor (N.shiftl r 24 mod two64) (tm_nanos t / 100).
