(* Answers to queries: what the query handlers of db/replica.cc and
   db/map/txt.hpp append to the response builder. The answer is the list of
   calls on the builder, in order; the other handlers of Receive are passed the
   builder but do not touch it. Section variables: ReplicaModel, BranchModel. *)
From Verif Require Import Prelude UuidModel KeyModel CodecModel TextTable TextModel MergeModel MergeTextModel StoreModel RocksModel
  HashModel MetaModel ClockModel ScanModel ReplicaModel BranchModel.

(* ron/frames.hpp:187-196 AppendAll from a cursor; Next's status is ignored *)
Fixpoint append_all (n : nat) (c : cursor) : res (list bcmd) :=
  match n with
  | O => Fuel
  | S k =>
      if valid c then
        rbind (next_any c) (fun c' =>
        rbind (append_all k c') (fun r =>
        Done (BAppend (wop_of_cursor c) :: (if c_term c =? REDUCED then [] else [BEnd (c_term c)]) ++ r)))
      else Done []
  end.
(* 199-204 AppendFrame *)
Definition append_frame (n : nat) (f : bytes) : res (list bcmd) :=
  match next (cursor_of f) with
  | NAbort => Aborted
  | NEnd _ | NBad _ => Done []
  | NOk c => append_all n c
  end.
(* db/replica.cc:521-523, the loop of QueryObjectLog: the ops before the one
   with the id; the cursor it stops at *)
Fixpoint append_before (n : nat) (id : uuid) (c : cursor) : res (list bcmd * cursor) :=
  match n with
  | O => Fuel
  | S k =>
      match next c with
      | NAbort => Aborted
      | NEnd c' | NBad c' => Done ([], c')
      | NOk c' => if uuid_eqb (text_id c') id then Done ([], c')
                  else rbind (append_before k id c') (fun '(r, c1) => Done (BAppend (wop_of_cursor c') :: r, c1))
      end
  end.

(* db/const.hpp:43-44 *)
Definition TXT_MAP_ID : uuid := mkUuid 1025941105738252288 0.

Section Answers.
Variable sha : bytes -> bytes.
Variable fbits : bytes -> N.

(* atom(2).value.cp, ron/uuid.hpp:15-27, ron/text.hpp:40-56: the low half of the
   parsed value; the code point an unwound span is at, 0 for other strings *)
Definition atom_cp (buf : bytes) (a : atom) : N :=
  match a with
  | AUuid u => uvalue u mod 2 ^ 32
  | AInt b e => Z.to_N (parse_integer (sub buf b e) mod 2 ^ 32)
  | AStr cp _ _ _ => cp
  | AFloat b e => fbits (sub buf b e) mod 2 ^ 32
  end.
(* db/map/txt.hpp:22-28: the text; tombs[pos] and atom(2) that are not there are
   undefined *)
Fixpoint weave_text (n : nat) (tombs : list bool) (c : cursor) : res bytes :=
  match n with
  | O => Fuel
  | S k =>
      match next c with
      | NAbort => Aborted
      | NEnd _ | NBad _ => Done []
      | NOk c' =>
          match tombs with
          | [] => Aborted
          | true :: r => weave_text k r c'
          | false :: r =>
              match nth_error (c_op c') 2 with
              | None => Aborted
              | Some a => rbind (weave_text k r c') (fun t => Done (utf8append (atom_cp (c_buf c') a) ++ t))
              end
          end
      end
  end.
(* AppendOp(Op{id.derived(), TXT_MAP_ID, text}), ron/op.hpp:54-66: the text is
   parsed as UTF-8, which always succeeds on what utf8append wrote; None: the
   builder's undefined behaviour, or a text that is not UTF-8 *)
Definition text_op (id : uuid) (text : bytes) : option bcmd :=
  match parse_utf8 text with
  | Some cps => option_map BAppend (wop_of_op (derived id) TXT_MAP_ID [VStr (Some cps)])
  | None => None
  end.

Variable S : Type.
Notation mem := (list (key * bytes)).
Variable jread : S -> mem -> key -> res (S * mem * bytes * rstatus).
Variable jprev : S -> mem -> key -> res (bytes * rstatus).
Variable mwrite : S -> key -> bytes -> res (S * rstatus).
Variable mbatch : S -> mem -> res (S * rstatus).
Variable active : N.
Variable fuel : nat.
Notation cst := (cst S).
Notation jread_step := (jread_step S jread).
Notation find_op := (find_op sha fbits S jread jprev fuel).
Notation receive_op := (receive_op sha fbits S jread jprev mwrite active fuel).

(* db/replica.cc:472-490 QueryObject, with KEEP_STATES *)
Definition answer_object (st : cst) (c : cursor) : res (cst * cursor * rstatus * list bcmd) :=
  rbind (jread_step st (key_as (text_id c) (text_ref c))) (fun '(st1, f, s) =>
  if negb (is_ok s) then Done (st1, c, s, [])
  else rbind (append_frame fuel f) (fun a => rbind (next_any c) (fun c' => Done (st1, c', ROk, a)))).
(* 503-527 QueryObjectLog: the frame read is the state, not the log *)
Definition answer_log (st : cst) (c : cursor) : res (cst * cursor * rstatus * list bcmd) :=
  let id := text_id c in
  rbind (next_any c) (fun c' =>
  rbind (find_op st id) (fun '(st1, m, s) =>
  if negb (is_ok s) then Done (st1, c', s, [])
  else rbind (jread_step st1 (key_as (m_obj m) (m_rdt m))) (fun '(st2, f, s2) =>
  if negb (is_ok s2) then Done (st2, c', s2, [])
  else if uuid_eqb id (m_obj m) then rbind (append_frame fuel f) (fun a => Done (st2, c', ROk, a))
  else rbind (append_before fuel id (cursor_of f)) (fun '(a, c1) =>
       match c_op c1 with
       | [] => Aborted
       | _ => Done (st2, c', (if uuid_eqb (text_id c1) id then ROk else RNotFound), a)
       end)))).
(* db/map/txt.hpp:11-32 Read *)
Definition answer_txt (st : cst) (c : cursor) : res (cst * cursor * rstatus * list bcmd) :=
  let id := uuid_time (uvalue (text_id c)) (uorigin (text_id c)) in
  rbind (jread_step st (key_of id RGA_RDT_FORM)) (fun '(st1, f, s) =>
  if negb (is_ok s) then Done (st1, c, s, [])
  else match scan_text fuel f with
       | ScanUB | ScanAbort => Aborted
       | ScanFuel => Fuel
       | ScanRet _ tombs =>
           rbind (weave_text fuel tombs (cursor_of f)) (fun text =>
           match text_op id text with
           | None => Aborted
           | Some a => rbind (next_any c) (fun c' => Done (st1, c', ROk, [a]))
           end)
       end).
(* db/replica.cc:624-641 ReceiveQuery, 602-612 ReceiveMapQuery *)
Definition answer_query (st : cst) (c : cursor) : res (cst * cursor * rstatus * list bcmd) :=
  let f := uuid2form (text_ref c) in
  if (f =? LWW_RDT_FORM) || (f =? RGA_RDT_FORM) || (f =? MX_RDT_FORM) || (f =? YARN_RAW_FORM) then answer_object st c
  else if f =? LOG_RAW_FORM then answer_log st c
  else Done (st, c, RNotImplemented, []).
Definition answer_map (st : cst) (c : cursor) : res (cst * cursor * rstatus * list bcmd) :=
  if uuid2form (text_ref c) =? TXT_MAP_FORM then answer_txt st c else Done (st, c, RNotImplemented, []).
(* 708-745: one turn of the loop of Receive *)
Definition answer_op (st : cst) (c : cursor) : res (cst * cursor * rstatus * list bcmd) :=
  let other := rbind (receive_op st c) (fun '(st1, c1, s) => Done (st1, c1, s, [])) in
  let v := version (text_id c) in
  if (v =? TIME) && (c_term c =? QUERY) then answer_query st c
  else if v =? DERIVED then rbind (peek_term c) (fun p => if p =? QUERY then answer_map st c else other)
  else other.
Fixpoint answer_loop (n : nat) (st : cst) (c : cursor) : res (cst * rstatus * list bcmd) :=
  match n with
  | O => Fuel
  | Datatypes.S k =>
      if valid c then
        rbind (answer_op st c) (fun '(st1, c1, s, a) =>
        if is_ok s then rbind (answer_loop k st1 c1) (fun '(st2, s2, r) => Done (st2, s2, a ++ r)) else Done (st1, s, a))
      else Done (st, ROk, [])
  end.
(* 696-752 Receive: the answer is rendered even if the frame is refused *)
Definition answer (st : cst) (c : cursor) : res (cst * rstatus * list bcmd) :=
  rbind (answer_loop fuel st c) (fun '(st1, s, a) =>
  if is_ok s then rbind (save S mbatch st1) (fun '(st2, s2) => Done (st2, s2, a)) else Done (st1, s, a)).
(* db/replica.hpp:397-404 ReceiveFrame *)
Definition answer_frame (main : S) (now : N) (readings : list N) (tip : uuid) (frame : bytes) : res (S * N * rstatus * list bcmd) :=
  match next (cursor_of frame) with
  | NAbort => Aborted
  | NEnd _ | NBad _ => Done (main, now, ROk, [])
  | NOk c => rbind (answer (commit_on S main now readings tip) c) (fun '(st, s, a) => Done (s_main S st, s_now S st, s, a))
  end.
(* db/main.cc:384-394 CommandGetFrame: the query is a frame, ron/frames.hpp:95-102,
   and Receive is given a cursor of it that was not moved to the first op *)
Definition get_frame (main : S) (now : N) (readings : list N) (tip : uuid) (id form : uuid) : res (rstatus * list bcmd) :=
  match wop_of_op id form [] with
  | None => Aborted
  | Some o => match build [BAppend o; BEnd QUERY] with
              | None => Aborted
              | Some q => rbind (answer (commit_on S main now readings tip) (cursor_of q)) (fun '(_, s, a) => Done (s, a))
              end
  end.
End Answers.

(* a frame received by a branch and the text of the response (Release of a
   builder that was fresh); None: undefined behaviour of the builder *)
Definition b_ask (sha : bytes -> bytes) (fbits : bytes -> N) (active : N) (fuel : nat) (b : branch) (now : N) (readings : list N) (frame : bytes)
    : res (branch * rstatus * option bytes) :=
  rbind (answer_frame sha fbits family (b_jread fbits fuel) (b_jprev fbits fuel) b_write b_batch active fuel
           (br_main b) now readings (br_tip b) frame) (fun '(d, _, s, a) =>
  Done (mkBranch d (br_tip b), s, build a)).
Definition b_get (sha : bytes -> bytes) (fbits : bytes -> N) (active : N) (fuel : nat) (b : branch) (now : N) (readings : list N) (id form : uuid)
    : res (rstatus * option bytes) :=
  rbind (get_frame sha fbits family (b_jread fbits fuel) (b_jprev fbits fuel) b_write b_batch active fuel
           (br_main b) now readings (br_tip b) id form) (fun '(s, a) => Done (s, build a)).
