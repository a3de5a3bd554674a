(* Model of the text frame parser, ron/text.hpp:33-129 (class Cursor),
   ron/text-parser.cc (Next), ron/cp-parser.cc (NextCodepoint), ron/text.cc,
   and of the text frame builder, ron/text.hpp:133-347, ron/text-builder.cc. *)
From Verif Require Import Prelude UuidModel CodecModel TextTable.

(* ---- atoms ---- *)

(* ron/uuid.hpp:162-192 struct Atom, as a tagged union. The code keeps the tag
   in the two top bits of the origin word and the buffer range in its low
   bits; the union is faithful for buffers below 2^30 bytes (FSIZE_MAX) and for
   UUIDs whose two top origin bits are clear. b and e are the byte range in the
   frame buffer; cp and n are value.cp and value.cp_size of a STRING cursor. *)
Inductive atom : Set :=
| AUuid (u : uuid)
| AInt (b e : N)
| AStr (cp n b e : N)
| AFloat (b e : N).

(* ron/slice.hpp:135-160 Slice{buffer, range}: the bytes [b, e) of a buffer *)
Definition sub (buf : bytes) (b e : N) : bytes :=
  firstn (N.to_nat (e - b)) (skipn (N.to_nat b) buf).

(* ron/cp-parser.cc:21-523 NextCodepoint(Atom&) on a STRING atom; the returned
   Result code is ignored by every caller modelled here except the readers
   below, which use next_codepoint of CodecModel directly. *)
Definition next_cp (buf : bytes) (a : atom) : atom :=
  match a with
  | AStr cp n b e =>
      match next_codepoint (sub buf b e) n with
      | CpEnd => AStr 0 n b e
      | CpOk cp' k => AStr cp' (n - 1) (b + k) e
      | CpBad => AStr 0 n b e
      end
  | _ => a
  end.

(* ---- the parser automaton ---- *)

(* the local variables of Next, ron/text-parser.cc:67-90; value and origin are
   Slices of the buffer, here their bytes; uuidb is only tested for nullptr *)
Record loc : Set := mkLoc {
  l_int : N; l_float : N; l_str : N; l_word : N; l_uuid : bool;
  l_val : bytes; l_org : bytes; l_var : N; l_vsn : N;
  l_cpn : N; l_span : N; l_term : N; l_op : list atom }.

Definition set_op (l : loc) (op : list atom) : loc :=
  mkLoc (l_int l) (l_float l) (l_str l) (l_word l) (l_uuid l) (l_val l) (l_org l)
        (l_var l) (l_vsn l) (l_cpn l) (l_span l) (l_term l) op.
Definition push (l : loc) (a : atom) : loc := set_op l (l_op l ++ [a]).

Definition two32 : N := 2 ^ 32.

(* ron/text.hpp:64-66 word_too_big *)
Definition word_too_big (w : bytes) : bool := (10 <? length w)%nat.

(* op_.back() *)
Definition last_atom (op : list atom) : option atom :=
  match rev op with a :: _ => Some a | [] => None end.
Definition set_last (op : list atom) (a : atom) : list atom :=
  match rev op with _ :: r => rev r ++ [a] | [] => [] end.
(* op_[0] = u, op_[1] = u *)
Definition set_nth (op : list atom) (i : nat) (a : atom) : list atom :=
  firstn i op ++ match skipn i op with _ :: t => a :: t | [] => [] end.

(* outcome of an action: go on, leave the machine (fbreak: p++, cs = target),
   or a failed assertion *)
Inductive exec_res : Set := ECont (l : loc) | EBreak (l : loc) | EAbort.

(* Uuid{variety, value, version, origin}: the Word constructor asserts that a
   word has at most 10 digits, ron/uuid.hpp:36-38 *)
Definition loc_uuid (l : loc) : uuid := uuid_of_parts (l_var l) (l_val l) (l_vsn l) (l_org l).
Definition words_ok (l : loc) : bool := negb (word_too_big (l_val l)) && negb (word_too_big (l_org l)).

(* the actions, ragel/text-grammar.rl:9-71 and ragel/uuid-grammar.rl:6-20 as
   compiled in ron/text-parser.cc; c is *p. Line counting, string_esc and
   string_uesc only set locals that are never read. Range construction
   asserts begin <= end, ron/slice.hpp:70-73. *)
Definition exec (buf : bytes) (pe : N) (a : action) (c p : N) (l : loc) : exec_res :=
  match a with
  | a_end_id => if words_ok l then ECont (set_op l (set_nth (l_op l) 0 (AUuid (loc_uuid l)))) else EAbort
  | a_end_ref => if words_ok l then ECont (set_op l (set_nth (l_op l) 1 (AUuid (loc_uuid l)))) else EAbort
  | a_begin_int => ECont (mkLoc p (l_float l) (l_str l) (l_word l) (l_uuid l) (l_val l) (l_org l)
        (l_var l) (l_vsn l) (l_cpn l) (l_span l) (l_term l) (l_op l))
  | a_end_int =>
      if p <? l_int l then EAbort
      else if (19 <=? p - l_int l) && int_too_big (sub buf (l_int l) p) then EBreak l
      else ECont (mkLoc (l_int l) (l_float l) (l_str l) (l_word l) false (l_val l) (l_org l)
        (l_var l) (l_vsn l) (l_cpn l) (l_span l) (l_term l) (l_op l ++ [AInt (l_int l) p]))
  | a_begin_string => ECont (mkLoc (l_int l) (l_float l) p (l_word l) (l_uuid l) (l_val l) (l_org l)
        (l_var l) (l_vsn l) 0 (l_span l) (l_term l) (l_op l))
  | a_end_string =>
      if p <? l_str l then EAbort else ECont (push l (AStr 0 (l_cpn l) (l_str l) p))
  | a_begin_float => ECont (mkLoc (l_int l) p (l_str l) (l_word l) (l_uuid l) (l_val l) (l_org l)
        (l_var l) (l_vsn l) (l_cpn l) (l_span l) (l_term l) (l_op l))
  | a_end_float =>
      if p <? l_float l then EAbort
      else if 24 <? p - l_float l then EBreak l
      else ECont (push l (AFloat (l_float l) p))
  | a_end_quoted_uuid => if words_ok l then ECont (push l (AUuid (loc_uuid l))) else EBreak l
  | a_end_bare_uuid =>
      if l_uuid l then if words_ok l then ECont (push l (AUuid (loc_uuid l))) else EBreak l
      else ECont l
  | a_end_cp => ECont (mkLoc (l_int l) (l_float l) (l_str l) (l_word l) (l_uuid l) (l_val l) (l_org l)
        (l_var l) (l_vsn l) ((l_cpn l + 1) mod two32) (l_span l) (l_term l) (l_op l))
  | a_op_term =>
      let l' := mkLoc (l_int l) (l_float l) (l_str l) (l_word l) (l_uuid l) (l_val l) (l_org l)
        (l_var l) (l_vsn l) (l_cpn l) (l_span l) c (l_op l) in
      if p + 1 <? pe then EBreak l' else ECont l'
  | a_newline | a_string_esc | a_string_uesc => ECont l
  | a_span_size_digit => ECont (mkLoc (l_int l) (l_float l) (l_str l) (l_word l) (l_uuid l) (l_val l) (l_org l)
        (l_var l) (l_vsn l) (l_cpn l) ((l_span l * 10 + (c - 48)) mod two32) (l_term l) (l_op l))
  | a_end_span_size => ECont (mkLoc (l_int l) (l_float l) (l_str l) (l_word l) (l_uuid l) (l_val l) (l_org l)
        (l_var l) (l_vsn l) (l_cpn l) ((l_span l + (two32 - 1)) mod two32) (l_term l) (l_op l))
  | a_end_spread =>
      match last_atom (l_op l) with
      | Some (AStr cp n b e) =>
          let op' := if n =? 0 then l_op l else set_last (l_op l) (next_cp buf (AStr cp n b e)) in
          ECont (mkLoc (l_int l) (l_float l) (l_str l) (l_word l) (l_uuid l) (l_val l) (l_org l)
            (l_var l) (l_vsn l) (l_cpn l) ((l_cpn l + (two32 - 1)) mod two32) (l_term l) op')
      | _ => EAbort  (* would read another atom as a string; unreachable *)
      end
  | a_begin_uuid => ECont (mkLoc (l_int l) (l_float l) (l_str l) (l_word l) true (l_val l) []
        48 36 (l_cpn l) (l_span l) (l_term l) (l_op l))
  | a_variety => ECont (mkLoc (l_int l) (l_float l) (l_str l) (l_word l) (l_uuid l) (l_val l) (l_org l)
        (nth (N.to_nat (p - 1)) buf 0) (l_vsn l) (l_cpn l) (l_span l) (l_term l) (l_op l))
  | a_begin_word => ECont (mkLoc (l_int l) (l_float l) (l_str l) p (l_uuid l) (l_val l) (l_org l)
        (l_var l) (l_vsn l) (l_cpn l) (l_span l) (l_term l) (l_op l))
  | a_end_value => if p <? l_word l then EAbort
      else ECont (mkLoc (l_int l) (l_float l) (l_str l) (l_word l) (l_uuid l) (sub buf (l_word l) p) (l_org l)
        (l_var l) (l_vsn l) (l_cpn l) (l_span l) (l_term l) (l_op l))
  | a_version => ECont (mkLoc (l_int l) (l_float l) (l_str l) (l_word l) (l_uuid l) (l_val l) (l_org l)
        (l_var l) c (l_cpn l) (l_span l) (l_term l) (l_op l))
  | a_end_origin => if p <? l_word l then EAbort
      else ECont (mkLoc (l_int l) (l_float l) (l_str l) (l_word l) (l_uuid l) (l_val l) (sub buf (l_word l) p)
        (l_var l) (l_vsn l) (l_cpn l) (l_span l) (l_term l) (l_op l))
  end.

Fixpoint exec_all (buf : bytes) (pe : N) (acts : list action) (c p : N) (l : loc) : exec_res :=
  match acts with
  | [] => ECont l
  | a :: t => match exec buf pe a c p l with
              | ECont l' => exec_all buf pe t c p l'
              | r => r
              end
  end.

(* a row of the transition table *)
Fixpoint look (row : list (N * N * list action * N)) (c : N) : option (list action * N) :=
  match row with
  | [] => None
  | (lo, hi, acts, tgt) :: t => if (lo <=? c) && (c <=? hi) then Some (acts, tgt) else look t c
  end.

(* ron/text-parser.cc:92-4960, the machine from state st at offset p with the
   bytes s left; None is a failed assertion. *)
Fixpoint run (buf : bytes) (pe : N) (st : N) (l : loc) (p : N) (s : bytes) : option (N * loc * N) :=
  match s with
  | [] => Some (st, l, p)
  | c :: t =>
      match look (text_row st) c with
      | None => Some (0, l, p)
      | Some (acts, tgt) =>
          match exec_all buf pe acts c p l with
          | ECont l' => run buf pe tgt l' (p + 1) t
          | EBreak l' => Some (tgt, l', p + 1)
          | EAbort => None
          end
      end
  end.

(* ---- the cursor ---- *)

(* ron/text.hpp:33-41; c_pos is data_.range().begin(); data_.range().end() is
   the length of the buffer *)
Record cursor : Set := mkCursor {
  c_buf : bytes; c_pos : N; c_op : list atom; c_term : N; c_state : N; c_span : N }.

(* ron/text.hpp:69-74 Cursor(Slice); op_{TERM::RAW} is a vector of size 0.
   term_ is not initialised by the constructor; 0 stands for it. *)
Definition cursor_at (buf : bytes) (pos : N) : cursor := mkCursor buf pos [] 0 0 0.
Definition cursor_of (buf : bytes) : cursor := cursor_at buf 0.

(* ron/text.hpp:95 valid *)
Definition valid (c : cursor) : bool := negb (c_state c =? 0).

(* ron/const.hpp:47-61 chr2term of ; , ! ? *)
Definition RAW : N := 0.
Definition REDUCED : N := 1.
Definition HEADER : N := 2.
Definition QUERY : N := 3.
Definition chr2term (c : N) : N :=
  if c =? 59 then RAW else if c =? 44 then REDUCED else if c =? 33 then HEADER else QUERY.

(* an atom read as a UUID, A2U; only used on op_[0] *)
Definition a2u (a : atom) : uuid := match a with AUuid u => u | _ => NIL end.
Definition op_id (op : list atom) : uuid := a2u (nth 0 op (AUuid NIL)).
Definition op_ref (op : list atom) : uuid := a2u (nth 1 op (AUuid NIL)).

(* Status codes of Next, with the new cursor state; NAbort: failed assertion *)
Inductive next_res : Set :=
| NOk (c : cursor) | NEnd (c : cursor) | NBad (c : cursor) | NAbort.

(* ron/text-parser.cc:21-4985 TextFrame::Cursor::Next *)
Definition RON_START : N := 74.
Definition RON_FULL_STOP : N := 255.
Definition loc0 (p : N) (prev : uuid) : loc :=
  mkLoc p p p p true [] [] 0 0 0 0 0 [AUuid (inc prev); AUuid prev].
Definition next (c : cursor) : next_res :=
  if negb (c_span c =? 0) then
    let id := op_id (c_op c) in
    let op1 := set_nth (set_nth (c_op c) 1 (AUuid id)) 0 (AUuid (inc id)) in
    let op2 := match last_atom op1 with
               | Some (AStr cp n b e) =>
                   if cp =? 0 then op1 else set_last op1 (next_cp (c_buf c) (AStr cp n b e))
               | _ => op1
               end in
    NOk (mkCursor (c_buf c) (c_pos c) op2 (c_term c) (c_state c) (c_span c - 1))
  else if (c_state c =? 0) && negb (c_pos c =? 0) then NBad c
  else if c_state c =? RON_FULL_STOP then
    NEnd (mkCursor (c_buf c) (c_pos c) (c_op c) (c_term c) 0 0)
  else
    let st := if c_state c =? 0 then RON_START else c_state c in
    let pe := N.of_nat (length (c_buf c)) in
    if c_pos c =? pe then
      NEnd (mkCursor (c_buf c) (c_pos c) (c_op c) (c_term c) 0 0)
    else
      let prev := match c_op c with [] => NIL | a :: _ => a2u a end in
      match run (c_buf c) pe st (loc0 (c_pos c) prev) (c_pos c) (skipn (N.to_nat (c_pos c)) (c_buf c)) with
      | None => NAbort
      | Some (st', l, p) =>
          if negb (l_term l =? 0) && negb (st' =? 0) then
            NOk (mkCursor (c_buf c) p (l_op l) (chr2term (l_term l)) st' (l_span l))
          else if RON_START <=? st' then
            NEnd (mkCursor (c_buf c) p (l_op l) (c_term c) 0 (l_span l))
          else
            NBad (mkCursor (c_buf c) p (l_op l) (c_term c) 0 (l_span l))
      end.

(* ---- reading values ---- *)

(* the value of an atom as the API reports it: atom(i) with ParseAtom,
   ron/text.hpp:48-62 and 121-126, ParseInteger, ron/text.cc:7-26, and
   ReadString, ron/frames.hpp:125-137 (code points instead of their UTF-8).
   ParseFloat calls strtod, which is not modelled: the text is the value. *)
Inductive value : Set :=
| VUuid (u : uuid)
| VInt (z : Z)
| VStr (s : option (list N))      (* None: ReadString reports BADSYNTAX *)
| VFloat (s : bytes).
Definition value_of (buf : bytes) (a : atom) : value :=
  match a with
  | AUuid u => VUuid u
  | AInt b e => VInt (parse_integer (sub buf b e))
  | AStr cp n b e => VStr (if cp =? 0 then read_codepoints (N.to_nat n) (sub buf b e) else Some [cp])
  | AFloat b e => VFloat (sub buf b e)
  end.

(* an op as the API reports it: id(), ref(), the values, term() *)
Record rop : Set := mkRop { r_id : uuid; r_ref : uuid; r_vals : list value; r_term : N }.
Definition rop_of (c : cursor) : rop :=
  mkRop (op_id (c_op c)) (op_ref (c_op c)) (map (value_of (c_buf c)) (skipn 2 (c_op c))) (c_term c).

(* the loop  while (cur.Next()) use(cur);  every user of a cursor runs it.
   SFuel: not finished within the given number of calls. *)
Inductive scan_end : Set := SEnd | SBad | SAbort | SFuel.
Fixpoint scan (fuel : nat) (c : cursor) : list rop * scan_end :=
  match fuel with
  | O => ([], SFuel)
  | S f => match next c with
           | NOk c' => let '(r, e) := scan f c' in (rop_of c' :: r, e)
           | NEnd _ => ([], SEnd)
           | NBad _ => ([], SBad)
           | NAbort => ([], SAbort)
           end
  end.

(* ---- the builder ---- *)

(* what the builder sees of an op it appends (Cursor2 in ron/text.hpp:190-280):
   the value atoms with the text they are written as.
   WUuid: a UUID; WNum: INT or FLOAT, written text; WStr inner n first: a
   string, the text between the quotes, StringSize, and the code point
   ExtendSpan writes. *)
Inductive wval : Set :=
| WUuid (u : uuid)
| WNum (text : bytes)
| WStr (inner : bytes) (n : N) (first : N).
Record wop : Set := mkWop { w_id : uuid; w_ref : uuid; w_vals : list wval }.

(* prev_2_: the span signature, ron/text.hpp:222-240; SigUuid NIL is the
   "no span" value, Atom{0, STRING_FLAGS} is SigStr *)
Inductive sig : Set := SigUuid (u : uuid) | SigStr.
Definition sig_eqb (a b : sig) : bool :=
  match a, b with
  | SigUuid u, SigUuid v => uuid_eqb u v
  | SigStr, SigStr => true
  | _, _ => false
  end.
Definition span_signature (o : wop) : sig :=
  match w_vals o with
  | [WUuid u] => SigUuid u
  | [WStr _ n _] => if n =? 1 then SigStr else SigUuid NIL
  | _ => SigUuid NIL
  end.

(* ron/text.hpp:133-138; data_ is kept as written *)
Record builder : Set := mkBuilder {
  b_prev : uuid; b_prev2 : sig; b_span : N; b_data : bytes }.
(* ron/text.hpp:283-288 *)
Definition builder0 : builder := mkBuilder NIL (SigUuid FATAL) 0 [].

(* ron/text.hpp:154-170 WriteTerm; span sizes stay far below 2^63, so
   WriteInt(span_size_) does not overflow its buffer *)
Definition term_punct (t : N) : N := nth (N.to_nat t) [59; 44; 33; 63] 0.
Definition write_term (t : N) (b : builder) : builder :=
  if b_span b =? 0 then b
  else
    mkBuilder (b_prev b) (b_prev2 b) 0
      (b_data b ++
       (if 1 <? b_span b
        then (match b_prev2 b with
              | SigStr => [39]
              | SigUuid _ => 40 :: decimal (b_span b)
              end) ++ [41]
        else []) ++ [term_punct t; 10]).

(* ron/text.hpp:172-186 WriteSpec *)
Definition write_spec (id ref : uuid) (b0 : builder) : builder :=
  let b := write_term REDUCED b0 in
  let seq := uuid_eqb id (inc (b_prev b)) in
  mkBuilder id (b_prev2 b) 1
    (b_data b ++
     (if seq then [] else 64 :: write_uuid id) ++
     (if uuid_eqb ref (b_prev b) then [] else (if seq then [] else [32]) ++ 58 :: write_uuid ref)).

(* ron/text.hpp:190-220 and ron/text-builder.cc:6-37 WriteValues *)
Definition value_text (v : wval) : bytes :=
  match v with
  | WUuid u => (if is_ambiguous u then [62] else []) ++ write_uuid u
  | WNum t => t
  | WStr inner _ _ => 39 :: inner ++ [39]
  end.
Definition write_values (o : wop) (b : builder) : builder :=
  mkBuilder (b_prev b) (span_signature o) (b_span b)
    (b_data b ++ flat_map (fun v => 32 :: value_text v) (w_vals o)).

(* ron/text.hpp:242-251 is_same_span *)
Definition is_same_span (o : wop) (b : builder) : bool :=
  uuid_eqb (w_ref o) (b_prev b) && uuid_eqb (w_id o) (inc (b_prev b)) &&
  negb (sig_eqb (b_prev2 b) (SigUuid NIL)) && sig_eqb (span_signature o) (b_prev2 b).

(* ron/text.hpp:258-270: strip the closing quote and the character before it
   up to the opening quote. The argument is the data reversed (latest byte
   first); the result is the stripped bytes in the order they are written back
   (latest first) and the remaining data, reversed. None: the data runs out
   (undefined behaviour of back() on an empty string) or more than 8 bytes are
   stripped (overflow of ret[8]). *)
Fixpoint strip_char (fuel : nat) (rd : bytes) : option (bytes * bytes) :=
  match fuel, rd with
  | _, [] => None
  | O, c :: r => if c =? 39 then Some ([], r) else None
  | S f, c :: r => if c =? 39 then Some ([], r)
                   else option_map (fun '(x, y) => (c :: x, y)) (strip_char f r)
  end.

(* ron/text.hpp:253-280 ExtendSpan *)
Definition extend_span (o : wop) (b : builder) : option builder :=
  let finish d := Some (mkBuilder (inc (b_prev b)) (b_prev2 b) (b_span b + 1) d) in
  match b_prev2 b with
  | SigUuid _ => finish (b_data b)
  | SigStr =>
      let first := match w_vals o with [WStr _ _ f] => f | _ => 0 end in
      if b_span b =? 1 then
        match rev (b_data b) with
        | _ :: rd =>
            match strip_char 8 rd with
            | Some (ret, rest) =>
                finish (rev rest ++ [40; 39] ++ ret ++ utf8esc_append first)
            | None => None
            end
        | [] => None
        end
      else finish (b_data b ++ utf8esc_append first)
  end.

(* ron/text.hpp:291-312 AppendOp (both overloads); None: undefined behaviour *)
Definition append_op (o : wop) (b : builder) : option builder :=
  if is_same_span o b then extend_span o b
  else Some (write_values o (write_spec (w_id o) (w_ref o) (write_term REDUCED b))).

(* ron/text.hpp:315-320 EndChunk; None: assert(term != REDUCED) *)
Definition end_chunk (t : N) (b : builder) : option builder :=
  if t =? REDUCED then None else Some (write_term t b).

(* ron/text.hpp:327-342 Release: the frame, and the builder, which keeps
   prev_id_ and prev_2_ *)
Definition release (b : builder) : bytes * builder :=
  let b' := if b_span b =? 0 then b else write_term RAW b in
  (b_data b', mkBuilder (b_prev b') (b_prev2 b') (b_span b') []).

(* sequences of API calls *)
Inductive bcmd : Set := BAppend (o : wop) | BEnd (t : N).
Definition bstep (b : option builder) (c : bcmd) : option builder :=
  match b with
  | None => None
  | Some b => match c with BAppend o => append_op o b | BEnd t => end_chunk t b end
  end.
Definition build_from (b : builder) (cs : list bcmd) : option builder := fold_left bstep cs (Some b).
Definition build (cs : list bcmd) : option bytes :=
  option_map (fun b => fst (release b)) (build_from builder0 cs).

(* the op as seen through struct Op, ron/op.hpp:12-110, by the generic
   WriteValues, ron/text.hpp:190-220: strings are written code point by code
   point until a zero one. None: WriteInt overflows its buffer. *)
Fixpoint until_zero (s : list N) : list N :=
  match s with [] => [] | c :: t => if c =? 0 then [] else c :: until_zero t end.
(* the code point ExtendSpan writes: the atom's current one or, if that is 0,
   the next one, ron/text.hpp:272-275 *)
Definition str_first (s : list N) : N :=
  match s with [] => 0 | c :: t => if c =? 0 then match t with [] => 0 | d :: _ => d end else c end.
(* StringSize, ron/uuid.hpp:285-292, of Atom::String(first, range, n-1) *)
Definition str_size (s : list N) : N :=
  match s with [] => 0 | c :: t => if c =? 0 then N.of_nat (length t) else N.of_nat (length s) end.
Definition wval_of_value (v : value) : option wval :=
  match v with
  | VUuid u => Some (WUuid u)
  | VInt z => option_map WNum (write_int z)
  | VStr (Some s) => Some (WStr (flat_map utf8esc_append (until_zero s)) (str_size s) (str_first s))
  | VStr None => None
  | VFloat t => Some (WNum t)
  end.

(* an op passed to AppendOp as a struct Op, ron/op.hpp:12-110 *)
Fixpoint wvals_of (vs : list value) : option (list wval) :=
  match vs with
  | [] => Some []
  | v :: r => match wval_of_value v, wvals_of r with Some w, Some ws => Some (w :: ws) | _, _ => None end
  end.
Definition wop_of_op (id ref : uuid) (vs : list value) : option wop := option_map (mkWop id ref) (wvals_of vs).

(* the op as seen through a text Cursor, ron/text-builder.cc:6-37: numbers and
   strings are copied as written in the source frame; a STRING atom that
   already holds a code point (an unwound span) is a single char, and so is
   atom(2) then, ron/text.hpp:52-56. *)
Definition wval_of_atom (buf : bytes) (a : atom) : wval :=
  match a with
  | AUuid u => WUuid u
  | AInt b e => WNum (sub buf b e)
  | AFloat b e => WNum (sub buf b e)
  | AStr cp n b e =>
      if cp =? 0
      then WStr (sub buf b e) n (match next_cp buf a with AStr cp' _ _ _ => cp' | _ => 0 end)
      else WStr (utf8esc_append cp) 1 cp
  end.
Definition wop_of_cursor (c : cursor) : wop :=
  mkWop (op_id (c_op c)) (op_ref (c_op c)) (map (wval_of_atom (c_buf c)) (skipn 2 (c_op c))).

(* ron/text.cc:52-68 Split; FRAME_TERM is ".\n" (ron/const.hpp) *)
Definition is_space (c : N) : bool := ((9 <=? c) && (c <=? 13)) || (c =? 32).
(* d.find(".\n"): the text up to and including the first terminator, and the rest *)
Fixpoint find_term (d : bytes) : bytes * bytes :=
  match d with
  | [] => ([], [])
  | c :: t =>
      match t with
      | e :: t' => if (c =? 46) && (e =? 10) then ([46; 10], t')
                   else let '(x, y) := find_term t in (c :: x, y)
      | [] => ([c], [])
      end
  end.
Fixpoint skip_space (d : bytes) : bytes :=
  match d with [] => [] | c :: t => if is_space c then skip_space t else d end.
Fixpoint split_loop (fuel : nat) (d : bytes) : list bytes :=
  match fuel with
  | O => []
  | S f => let '(x, y) := find_term d in
           x :: match skip_space y with [] => [] | z => split_loop f z end
  end.
(* every round but the last consumes at least two bytes *)
Definition split_frames (d : bytes) : list bytes := split_loop (S (length d)) d.
