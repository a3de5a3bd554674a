(* Vocabulary for the statements about text frames; independent of how the
   parser and the builder work. *)
From Verif Require Import Prelude UuidModel UuidSpec CodecModel CodecSpec TextModel.

(* an atom refers only to the first hi bytes of the buffer; a number has at
   least one character; a float fits the 32-byte buffer it is copied to,
   ron/text.cc:31-33; a UUID leaves the atom type bits clear *)
Definition atom_within (hi : N) (a : atom) : Prop :=
  match a with
  | AUuid u => uuid_wf u /\ uorigin u < 2 ^ 62
  | AInt b e => b < e /\ e <= hi
  | AStr _ n b e => b <= e /\ e <= hi /\ n < 2 ^ 32
  | AFloat b e => b <= e /\ e <= hi /\ e - b <= 24
  end.

(* the cursors that can be obtained from a fresh one by calling Next, whatever
   it returns *)
Inductive reachable (buf : bytes) : cursor -> Prop :=
| reach0 : reachable buf (cursor_of buf)
| reach_ok c c' : reachable buf c -> next c = NOk c' -> reachable buf c'
| reach_end c c' : reachable buf c -> next c = NEnd c' -> reachable buf c'
| reach_bad c c' : reachable buf c -> next c = NBad c' -> reachable buf c'.

(* no 11 consecutive base64 digits anywhere *)
Definition no_long_word (buf : bytes) : Prop :=
  forall x w y, buf = x ++ w ++ y -> Forall (fun c => is_dgt c = true) w -> (length w <= 10)%nat.

(* any number of further calls, whatever they return *)
Inductive later : cursor -> cursor -> Prop :=
| later0 c : later c c
| later_ok c d e : later c d -> next d = NOk e -> later c e
| later_end c d e : later c d -> next d = NEnd e -> later c e
| later_bad c d e : later c d -> next d = NBad e -> later c e.

(* a frame terminator at offset i *)
Definition term_at (d : bytes) (i : nat) : Prop := nth_error d i = Some 46 /\ nth_error d (S i) = Some 10.
Definition white (c : N) : Prop := c = 32 \/ 9 <= c <= 13.
(* frames with white space after each *)
Definition glue (fs gaps : list bytes) : bytes := concat (map (fun '(f, g) => f ++ g) (combine fs gaps)).

(* ---- concrete syntax of ops ---- *)

(* a UUID as it appears in a frame: an optional variety "X/", 1 to 10 base64
   digits, and an optional version sign with 1 to 10 digits *)
Inductive uuid_lit : bytes -> uuid -> Prop :=
| uuid_lit_intro vp vrt value op vsn origin :
    (vp = [] /\ vrt = 0) \/ (exists h, vp = [h; 47] /\ digit_value h = Some vrt /\ vrt < 16) ->
    Forall is_digit_char value -> (1 <= length value <= 10)%nat ->
    (op = [] /\ vsn = 0 /\ origin = []) \/ (exists v, op = v :: origin /\ version_value v = Some vsn /\ origin <> []) ->
    Forall is_digit_char origin -> (length origin <= 10)%nat ->
    uuid_lit (vp ++ value ++ op)
      (mkUuid (vrt * 2 ^ 60 + left_aligned 10 value) (vsn * 2 ^ 60 + left_aligned 10 origin)).

Definition exp_char (c : N) : Prop := c = 69 \/ c = 101.
Definition sign_char (c : N) : Prop := c = 43 \/ c = 45.
(* decimal digits; digits with an exponent: these texts also denote numbers *)
Definition number_like (s : bytes) : Prop := Forall is_dec s.
Definition float_like (s : bytes) : Prop :=
  exists a e b, s = a ++ e :: b /\ a <> [] /\ Forall is_dec a /\ exp_char e /\
    ((b <> [] /\ Forall is_dec b) \/ exists g d, b = g :: d /\ sign_char g /\ d <> [] /\ Forall is_dec d).

(* a float with a fraction: [+-]digits.digits[exponent]; or signed with an
   exponent and no fraction *)
Definition exponent (s : bytes) : Prop :=
  s = [] \/ exists e g d, s = e :: g ++ d /\ exp_char e /\ (g = [] \/ exists c, g = [c] /\ sign_char c) /\
                        d <> [] /\ Forall is_dec d.
Definition float_lit (s : bytes) : Prop :=
  exists g a f x, s = g ++ a ++ f ++ x /\ (g = [] \/ exists c, g = [c] /\ sign_char c) /\
    a <> [] /\ Forall is_dec a /\ exponent x /\
    ((exists b, f = 46 :: b /\ b <> [] /\ Forall is_dec b) \/ (f = [] /\ g <> [] /\ x <> [])).

Definition ws_char (c : N) : Prop := c = 9 \/ c = 10 \/ c = 13 \/ c = 32.
Definition blank (s : bytes) : Prop := Forall ws_char s.

(* The grammar has a parameter: a condition P on the way characters are
   written. any_char is none; canonical writes are a subset of the grammar. *)
Definition any_char (bs : bytes) (cp : N) : Prop := True.
Section Chars.
Variable P : bytes -> N -> Prop.

(* a string between the quotes: characters, the last one not a \uXXXX escape *)
Definition chars_lit (cs : list (bytes * N)) : Prop :=
  Forall (fun c => esc_char (fst c) (snd c)) cs /\
  (forall bs cp r, cs = r ++ [(bs, cp)] -> length bs <> 6%nat) /\
  Forall (fun c => P (fst c) (snd c)) cs.
Definition chars_text (cs : list (bytes * N)) : bytes := concat (map fst cs).
Definition chars_cps (cs : list (bytes * N)) : list N := map snd cs.

(* value atoms *)
Inductive value_lit : bytes -> value -> Prop :=
| vl_bare t u : uuid_lit t u -> ~ number_like t -> ~ float_like t -> value_lit t (VUuid u)
| vl_quoted t u : uuid_lit t u -> value_lit (62 :: t) (VUuid u)
| vl_int t v : int_literal t v -> int_fits t -> value_lit t (VInt v)
| vl_float t : float_lit t -> (length t <= 24)%nat -> value_lit t (VFloat t)
| vl_str cs : chars_lit cs -> value_lit (39 :: chars_text cs ++ [39]) (VStr (Some (chars_cps cs))).

(* values, each after white space; the very first may follow a terminator
   directly *)
Inductive values_lit : bool -> bytes -> list value -> Prop :=
| vls_nil f : values_lit f [] []
| vls_cons f w t v r vs : blank w -> (f = false -> w <> []) -> value_lit t v -> values_lit false r vs ->
    values_lit f (w ++ t ++ r) (v :: vs).

(* the specifiers: what is left out is implied by the id of the previous op *)
Inductive spec_lit (prev : uuid) : bytes -> uuid -> uuid -> Prop :=
| sl_none : spec_lit prev [] (inc prev) prev
| sl_id t id : uuid_lit t id -> spec_lit prev (64 :: t) id prev
| sl_both t id w s ref : uuid_lit t id -> blank w -> w <> [] -> uuid_lit s ref ->
    spec_lit prev (64 :: t ++ w ++ 58 :: s) id ref.

(* the ops a chain of n values stands for: ids one after another, each
   referencing the previous one *)
Fixpoint chain (id ref : uuid) (vss : list (list value)) (t : N) : list rop :=
  match vss with
  | [] => []
  | vs :: r => mkRop id ref vs t :: chain (inc id) id r t
  end.
Fixpoint inc_times (n : nat) (u : uuid) : uuid := match n with O => u | S m => inc_times m (inc u) end.

(* a span: nothing, a count, or one character per op *)
Inductive span_lit (vs : list value) : bytes -> list (list value) -> Prop :=
| sp_none : span_lit vs [] [vs]
| sp_count w1 ds w2 : blank w1 -> blank w2 -> ds <> [] -> Forall is_dec ds -> 1 <= dec_value ds -> dec_value ds < 2 ^ 32 ->
    span_lit vs (40 :: w1 ++ ds ++ w2 ++ [41]) (repeat vs (N.to_nat (dec_value ds)))
| sp_chars w1 cs w2 : blank w1 -> blank w2 -> chars_lit cs -> cs <> [] -> ~ In 0 (chars_cps cs) ->
    span_lit vs (40 :: w1 ++ 39 :: chars_text cs ++ 39 :: w2 ++ [41])
      (map (fun cp => vs ++ [VStr (Some [cp])]) (chars_cps cs)).

(* ; RAW , REDUCED ! HEADER ? QUERY *)
Inductive term_lit : N -> N -> Prop :=
| tl_raw : term_lit 59 0 | tl_reduced : term_lit 44 1 | tl_header : term_lit 33 2 | tl_query : term_lit 63 3.

(* one op or span: white space, specifiers, values, span, terminator *)
Inductive op_lit (prev : uuid) : bytes -> list rop -> Prop :=
| ol w0 sp id ref vt vs w1 st vss w2 tc t :
    blank w0 -> spec_lit prev sp id ref -> values_lit (match sp with [] => true | _ => false end) vt vs ->
    blank w1 -> span_lit vs st vss -> blank w2 -> term_lit tc t ->
    op_lit prev (w0 ++ sp ++ vt ++ w1 ++ st ++ w2 ++ [tc]) (chain id ref vss t).

(* the id after a list of ops *)
Definition last_id (prev : uuid) (ops : list rop) : uuid := last (map r_id ops) prev.

(* op texts one after another; prev: the id before the first of them *)
Inductive ops_lit : uuid -> bytes -> list rop -> Prop :=
| os_nil prev : ops_lit prev [] []
| os_cons prev s ops r ops' : op_lit prev s ops -> ops_lit (last_id prev ops) r ops' ->
    ops_lit prev (s ++ r) (ops ++ ops').

(* a frame: ops, then white space and possibly the frame terminator *)
Inductive frame_lit : bytes -> list rop -> Prop :=
| fl s ops w e : ops_lit NIL s ops -> blank w -> e = [] \/ e = [46; 10] -> frame_lit (s ++ w ++ e) ops.

(* the same with a mark for every op: whether it was written inside a span of
   characters, which is a span with a quote in it *)
Definition spread (st : bytes) : bool := existsb (N.eqb 39) st.
Inductive op_marked (prev : uuid) : bytes -> list rop -> bool -> Prop :=
| om w0 sp id ref vt vs w1 st vss w2 tc t :
    blank w0 -> spec_lit prev sp id ref -> values_lit (match sp with [] => true | _ => false end) vt vs ->
    blank w1 -> span_lit vs st vss -> blank w2 -> term_lit tc t ->
    op_marked prev (w0 ++ sp ++ vt ++ w1 ++ st ++ w2 ++ [tc]) (chain id ref vss t) (spread st).
Inductive ops_marked : uuid -> bytes -> list rop -> list bool -> Prop :=
| oms_nil prev : ops_marked prev [] [] []
| oms_cons prev s ops m r ops' ms : op_marked prev s ops m -> ops_marked (last_id prev ops) r ops' ms ->
    ops_marked prev (s ++ r) (ops ++ ops') (repeat m (length ops) ++ ms).
Inductive frame_marked : bytes -> list rop -> list bool -> Prop :=
| fm s ops ms w e : ops_marked NIL s ops ms -> blank w -> e = [] \/ e = [46; 10] -> frame_marked (s ++ w ++ e) ops ms.
End Chars.
Arguments vl_bare {P}. Arguments vl_quoted {P}. Arguments vl_int {P}. Arguments vl_float {P}. Arguments vl_str {P}.
Arguments vls_nil {P}. Arguments vls_cons {P}. Arguments sp_none {P}. Arguments sp_count {P}. Arguments sp_chars {P}.
Arguments ol {P}. Arguments os_nil {P}. Arguments os_cons {P}. Arguments fl {P}.
Arguments om {P}. Arguments oms_nil {P}. Arguments oms_cons {P}. Arguments fm {P}.
