(* Commits of a replica: db/replica.cc, db/replica.hpp, for text frames.

   A commit joins the branch's store with an in-memory store that collects its
   writes. The in-memory store is StoreModel's; the branch's store is a
   parameter: its state S and the calls made on it or on the join. The
   responses to queries are in AnswerModel; the trace output (LOG) is not modelled. sha and
   fbits: MetaModel. *)
From Verif Require Import Prelude UuidModel KeyModel CodecModel TextTable TextModel MergeModel MergeTextModel
  StoreModel HashModel MetaModel ClockModel ScanModel.

(* ron/status.hpp: the statuses that are told apart. Status converts to true
   unless its code's origin is that of the error statuses, so returning an
   event id is success. *)
Inductive rstatus : Set :=
| ROk | RNotFound | RBadState | RBadArgs | RBadSyntax | RCauseBreak | RNotImplemented
| RRepeat | RConflict | RBadValue | REndOfFrame | RNotOpen | RBadFrame | RDbFail | REndOfInput.
Definition is_ok (s : rstatus) : bool := match s with ROk => true | _ => false end.
Definition rstatus_of (s : status) : rstatus :=
  match s with
  | StOK => ROk | StNotImplemented => RNotImplemented | StCauseBreak => RCauseBreak
  | StBadArgs => RBadArgs | StBadState => RBadState
  end.

(* ron/frames.hpp:87-93 OneOp; None: undefined behaviour of the builder *)
Definition one_op (id ref : uuid) (vals : list value) : option bytes :=
  match wop_of_op id ref vals with Some o => build [BAppend o] | None => None end.
(* db/replica.cc:11 NAME_UUID{"name"} *)
Definition NAME_UUID : uuid := parse_uuid [110; 97; 109; 101].
(* db/map/txt.hpp:159-161 *)
Definition SINCE_COMMAND : uuid := parse_uuid [115; 105; 110; 99; 101].
Definition HILI_COMMAND : uuid := parse_uuid [104; 105; 108; 105].
(* Key{id, form uuid}: db/key.hpp:38 *)
Definition key_as (id form : uuid) : key := key_of id (uuid2form form).
Definition payload (w : N) : N := N.land w (2 ^ 60 - 1).

(* db/replica.cc:338-358 CheckEventSanity *)
Definition check_sanity (c : cursor) : rstatus :=
  if negb (version (text_id c) =? TIME) then RBadState
  else if version (text_ref c) =? TIME then
    if negb (uuid_ltb (text_ref c) (text_id c)) then RCauseBreak else ROk
  else if negb (version (text_ref c) =? NAME) then RBadState
  else if uuid2form (text_ref c) =? ZERO_RAW_FORM then RNotImplemented
  else ROk.

(* ron/op.hpp:80-105 Amend of an op: the stamped op is never read, but reading
   the first character of an empty string, or of the last character of a span,
   is undefined behaviour, and an undecodable string is read for ever *)
Definition amend_atom (buf : bytes) (a : atom) : res unit :=
  match a with
  | AStr _ n b e =>
      if n =? 0 then Aborted
      else match read_codepoints (N.to_nat n) (sub buf b e) with Some _ => Done tt | None => Fuel end
  | _ => Done tt
  end.
Fixpoint amend_atoms (buf : bytes) (l : list atom) : res unit :=
  match l with [] => Done tt | a :: r => rbind (amend_atom buf a) (fun _ => amend_atoms buf r) end.
Definition amend (c : cursor) : res unit := amend_atoms (c_buf c) (skipn 2 (c_op c)).

(* Cursor::Next whose status is ignored *)
Definition next_any (c : cursor) : res cursor :=
  match next c with NOk c' | NEnd c' | NBad c' => Done c' | NAbort => Aborted end.

Section Replica.
Variable sha : bytes -> bytes.
Variable fbits : bytes -> N.
Variable S : Type.
Notation mem := (list (key * bytes)).
(* join_.Read(key, Frame{}), db/joined_store.hpp:30-43 *)
Variable jread : S -> mem -> key -> res (S * mem * bytes * rstatus).
(* Iterator i{join_}; i.SeekTo(key, true); i.value(): the frame of the value's
   cursor *)
Variable jprev : S -> mem -> key -> res (bytes * rstatus).
(* main_.Write(key, frame), main_.Write(batch) *)
Variable mwrite : S -> key -> bytes -> res (S * rstatus).
Variable mbatch : S -> mem -> res (S * rstatus).
(* active_store().origin *)
Variable active : N.
(* a bound on the turns of every loop; a loop that needs more gives Fuel *)
Variable fuel : nat.

(* class Commit, db/replica.hpp:201-213; readings: what the system clock will
   say (0 when exhausted); max_ and comment_ are never read *)
Record cst : Type := mkCst {
  s_main : S; s_mem : mem; s_now : N; s_readings : list N; s_base : uuid; s_tip : uuid }.
Definition set_tip (st : cst) (t : uuid) : cst :=
  mkCst (s_main st) (s_mem st) (s_now st) (s_readings st) (s_base st) t.
Definition set_stores (st : cst) (m : S) (w : mem) : cst :=
  mkCst m w (s_now st) (s_readings st) (s_base st) (s_tip st).

(* db/replica.cc:179-186 Now(yarn_id()) *)
Definition now_step (st : cst) : cst * uuid :=
  let r := hd 0 (s_readings st) in
  let '(now', u) := clock_now active (s_now st) r (uorigin (s_base st)) in
  (mkCst (s_main st) (s_mem st) now' (tl (s_readings st)) (s_base st) (s_tip st), u).
(* host_.See *)
Definition see_step (st : cst) (id : uuid) : cst * rstatus :=
  let '(now', s) := clock_see (s_now st) id in
  (mkCst (s_main st) (s_mem st) now' (s_readings st) (s_base st) (s_tip st), rstatus_of s).

Definition jread_step (st : cst) (k : key) : res (cst * bytes * rstatus) :=
  rbind (jread (s_main st) (s_mem st) k) (fun '(m, w, f, s) => Done (set_stores st m w, f, s)).
(* join_.Write(key, frame), db/joined_store.hpp:45: into mem_ *)
Definition jwrite_step (st : cst) (k : key) (f : bytes) : cst * rstatus :=
  let '(w, s) := write bytes (s_mem st) k f in (set_stores st (s_main st) w, rstatus_of s).

(* db/replica.cc:252-267 FindChainHeadMeta, into a fresh OpMeta *)
Definition find_head (st : cst) (id : uuid) : res (meta * rstatus) :=
  rbind (jprev (s_main st) (s_mem st) (key_as id META_FORM_UUID)) (fun '(f, s) =>
  if negb (is_ok s) then Done (meta_nil, s)
  else match next (cursor_of f) with
       | NAbort => Aborted
       | NEnd _ | NBad _ => Done (meta_nil, RBadState)
       | NOk c =>
           if negb (uorigin (text_id c) =? uorigin id) || negb (uuid_eqb (text_ref c) META_FORM_UUID)
           then Done (meta_nil, RNotFound)
           else Done (let '(m, l) := meta_load meta_nil c in
                      (m, match l with LOk => ROk | LBadArgs => RBadArgs | LBadSyntax => RBadSyntax end))
       end).

(* db/replica.cc:223-226: move to the op with the id *)
Fixpoint seek_id (n : nat) (id : uuid) (c : cursor) : res cursor :=
  match n with
  | O => Fuel
  | Datatypes.S k => if valid c && negb (uuid_eqb (text_id c) id) then rbind (next_any c) (seek_id k id) else Done c
  end.
(* 231-243: follow the chain; the cursor's validity decides at the end *)
Fixpoint follow (n : nat) (m : meta) (id : uuid) (c : cursor) : res (meta * bool * rstatus) :=
  match n with
  | O => Fuel
  | Datatypes.S k =>
      match next c with
      | NAbort => Aborted
      | NEnd c' | NBad c' => Done (m, valid c', ROk)
      | NOk c' =>
          if negb (uorigin (text_id c') =? uorigin id) then follow k m id c'
          else if negb (uuid_eqb (text_ref c') (m_id m)) then Done (m, true, RNotFound)
          else rbind (meta_next sha fbits m c' m) (fun m' =>
               if uuid_eqb (m_id m') id then Done (m', valid c', ROk) else follow k m' id c')
      end
  end.
(* db/replica.cc:210-249 FindOpMeta *)
Definition find_op (st : cst) (id : uuid) : res (cst * meta * rstatus) :=
  rbind (find_head st id) (fun '(m, s) =>
  if negb (is_ok s) then Done (st, m, s)
  else if uuid_eqb (m_id m) id then Done (st, m, ROk)
  else rbind (jread_step st (key_of (m_obj m) LOG_RAW_FORM)) (fun '(st1, log, s1) =>
  if negb (is_ok s1) then Done (st1, m, s1)
  else
    rbind (next_any (cursor_of log)) (fun c0 =>
    rbind (seek_id fuel (m_id m) c0) (fun c =>
    if negb (valid c) then Done (st1, m, RNotFound)
    else rbind (follow fuel m id c) (fun '(m', v, s') =>
         if negb (is_ok s') then Done (st1, m', s')
         else if v then Done (st1, m', ROk)
         else if uvalue id =? NEVER_W then Done (st1, m', ROk)
         else Done (st1, m', RNotFound)))))).
(* db/replica.cc:269-273 FindYarnTipMeta *)
Definition find_tip (st : cst) (origin : N) : res (cst * meta * rstatus) := find_op st (mkUuid NEVER_W origin).

(* db/replica.cc:301-336 SaveChainlet; acc: the ops appended so far, latest
   first. base_ does not change. The result's cursor is where the frame was
   left. *)
Fixpoint chainlet (n : nat) (base tip : uuid) (m : meta) (acc : list cursor) (c : cursor)
    : res (uuid * meta * list cursor * cursor * rstatus) :=
  match n with
  | O => Fuel
  | Datatypes.S k =>
      match next c with
      | NAbort => Aborted
      | NEnd c' => Done (tip, m, acc, c', ROk)
      | NBad c' => Done (tip, m, acc, c', RBadSyntax)
      | NOk c' =>
          if uuid_eqb (text_id c') COMMENT then chainlet k base tip m acc c'
          else if meta_is_next m c' then
            match check_sanity c' with
            | ROk =>
                rbind (meta_next sha fbits m c' m) (fun m' =>
                if uorigin (text_id c') =? uorigin base then
                  if negb (uuid_ltb tip (text_id c')) then Done (tip, m', c' :: acc, c', ROk)
                  else chainlet k base (text_id c') m' (c' :: acc) c'
                else chainlet k base tip m' (c' :: acc) c')
            | e => Done (tip, m, acc, c', e)
            end
          else if meta_is_check m c' then
            match meta_check c' with
            | StOK => chainlet k base tip m acc c'
            | e => Done (tip, m, acc, c', rstatus_of e)
            end
          else Done (tip, m, acc, c', ROk)
      end
  end.
Definition save_chainlet (st : cst) (m : meta) (c : cursor) : res (cst * meta * option bytes * cursor * rstatus) :=
  rbind (chainlet fuel (s_base st) (s_tip st) m [c] c) (fun '(t, m', acc, c', s) =>
  Done (set_tip st t, m', build (map (fun x => BAppend (wop_of_cursor x)) (rev acc)), c', s)).

(* db/replica.cc:379-424: the metadata of the head of the chain *)
Definition head_meta (st : cst) (c : cursor) : res (cst * meta * rstatus) :=
  rbind (find_tip st (uorigin (text_id c))) (fun '(st1, tip, s) =>
  let go (tip : meta) :=
    if uuid_eqb (text_ref c) (m_id tip) then
      rbind (meta_next sha fbits tip c tip) (fun m => Done (st1, m, ROk))
    else if version (text_ref c) =? NAME then
      if uuid2form (text_ref c) =? ERROR_NO_FORM then Done (st1, tip, RNotImplemented)
      else rbind (meta_root sha fbits c tip) (fun m => Done (st1, m, ROk))
    else rbind (find_op st1 (text_ref c)) (fun '(st2, refd, s2) =>
         if negb (is_ok s2) then Done (st2, tip, s2)
         else rbind (meta_next sha fbits tip c refd) (fun m => Done (st2, m, ROk))) in
  if uuid_eqb (text_ref c) YARN_FORM_UUID then
    match s with
    | RNotFound => rbind (meta_root sha fbits c meta_nil) go
    | ROk => if uuid_eqb (text_id c) (m_id tip) then Done (st1, tip, RRepeat) else Done (st1, tip, RConflict)
    | e => Done (st1, tip, e)
    end
  else match s with
       | ROk => if negb (uuid_ltb (m_id tip) (text_id c)) then Done (st1, tip, RCauseBreak) else go tip
       | e => Done (st1, tip, e)
       end).

(* db/replica.cc:368-441 SaveChain. The condition ref_id != tip_id always holds:
   tip_id is a reference to the new id, which a sane op does not reference. *)
Definition save_chain (st : cst) (c : cursor) : res (cst * cursor * rstatus) :=
  match check_sanity c with
  | ROk =>
      rbind (head_meta st c) (fun '(st1, m, s) =>
      if negb (is_ok s) then Done (st1, c, s)
      else
        rbind (if negb (uuid_eqb (text_ref c) (m_id m)) then
                 match meta_save m with
                 | None => Aborted
                 | Some f => Done (jwrite_step st1 (key_as (text_id c) META_FORM_UUID) f)
                 end
               else Done (st1, ROk)) (fun '(st2, s2) =>
        if negb (is_ok s2) then Done (st2, c, s2)
        else
          rbind (save_chainlet st2 m c) (fun '(st3, m', data, c', s3) =>
          if negb (is_ok s3) then Done (st3, c', s3)
          else let '(st4, s4) := see_step st3 (m_id m') in
               if negb (is_ok s4) then Done (st4, c', s4)
               else match data with
                    | None => Aborted
                    | Some f =>
                        let '(st5, s5) := jwrite_step st4 (key_as (m_obj m') LOG_FORM_UUID) f in
                        if negb (is_ok s5) then Done (st5, c', s5)
                        else let '(st6, s6) := jwrite_step st5 (key_as (m_obj m') (m_rdt m')) f in
                             if negb (is_ok s6) then Done (st6, c', s6)
                             else Done (set_tip st6 (m_id m'), c', ROk)
                    end)))
  | e => Done (st, c, e)
  end.

(* db/replica.cc:554-566: the loop of WriteNewEvents *)
Fixpoint stamp_loop (n : nat) (c : cursor) : res cursor :=
  match n with
  | O => Fuel
  | Datatypes.S k =>
      if valid c && (payload (uorigin (text_id c)) =? 0)
      then rbind (amend c) (fun _ => rbind (next_any c) (stamp_loop k))
      else Done c
  end.
(* db/replica.cc:549-573 WriteNewEvents: the cursor made over the stamped ops
   is not moved to the first one, hence not valid: nothing is saved *)
Definition write_new (st : cst) (c : cursor) : res (cst * cursor * rstatus) :=
  let '(st1, _) := now_step st in
  rbind (stamp_loop fuel c) (fun c' => Done (st1, c', ROk)).

(* ron/frames.hpp:168-171 HasValue(cur, STRING) *)
Definition has_string (c : cursor) : bool := match nth_error (c_op c) 2 with Some (AStr _ _ _ _) => true | _ => false end.
(* rdt/rga.hpp:131 ScanRGA of a text frame *)
Definition scan_text (f : bytes) : scan_out := scan_rga cursor valid text_next rop_of fuel (cursor_of f).
(* db/map/txt.hpp:23-29: the tombstones are looked up for every op, the first
   value of the visible ones is taken *)
Fixpoint weave (n : nat) (tombs : list bool) (c : cursor) : res unit :=
  match n with
  | O => Fuel
  | Datatypes.S k =>
      match next c with
      | NAbort => Aborted
      | NEnd _ | NBad _ => Done tt
      | NOk c' => match tombs with
                  | [] => Aborted
                  | t :: r => if t then weave k r c'
                              else match nth_error (c_op c') 2 with None => Aborted | Some _ => weave k r c' end
                  end
      end
  end.
(* db/map/txt.hpp:11-34 Read; id.event() is Uuid::Time of its words. The text
   itself: AnswerModel. *)
Definition txt_read (st : cst) (c : cursor) : res (cst * cursor * rstatus) :=
  rbind (jread_step st (key_of (uuid_time (uvalue (text_id c)) (uorigin (text_id c))) RGA_RDT_FORM)) (fun '(st1, f, s) =>
  if negb (is_ok s) then Done (st1, c, s)
  else match scan_text f with
       | ScanUB | ScanAbort => Aborted
       | ScanFuel => Fuel
       | ScanRet _ tombs =>
           rbind (weave fuel tombs (cursor_of f)) (fun _ =>
           rbind (next_any c) (fun c' => Done (st1, c', ROk)))
       end).
(* db/map/txt.hpp:121-138 WriteState with 62-101 WriteDiffs: neither text is
   ever filled, so there are no differences to write; Commit::Now
   (db/replica.hpp:216) makes the new timestamp the tip. The difference of two
   empty texts is taken to be empty. *)
Definition txt_write_state (st : cst) (c : cursor) : res (cst * cursor * rstatus) :=
  rbind (jread_step st (key_as (text_id c) RGA_FORM_UUID)) (fun '(st1, f, s) =>
  if negb (is_ok s) then Done (st1, c, s)
  else match scan_text f with
       | ScanUB | ScanAbort => Aborted
       | ScanFuel => Fuel
       | ScanRet StOK _ =>
           rbind (next_any c) (fun c' =>
           let '(st2, now) := now_step st1 in
           rbind (write_new (set_tip st2 now) (cursor_of [])) (fun '(st3, _, s3) => Done (st3, c', s3)))
       | ScanRet e _ => Done (st1, c, rstatus_of e)
       end).
(* db/map/txt.hpp:164-183 Write *)
Definition txt_write (st : cst) (c : cursor) : res (cst * cursor * rstatus) :=
  match nth_error (c_op c) 2 with
  | None => Done (st, c, RBadArgs)
  | Some (AStr _ _ _ _) => txt_write_state st c
  | Some (AUuid u) =>
      if uuid_eqb u SINCE_COMMAND || uuid_eqb u HILI_COMMAND then Done (st, c, RNotImplemented) else Done (st, c, RBadArgs)
  | Some _ => Done (st, c, RBadArgs)
  end.

(* db/replica.cc:530-543 peek_term, look_ahead: the look ahead, whose result
   ReceiveWrites does not use *)
Fixpoint look_ahead (n : nat) (c : cursor) : res unit :=
  match n with
  | O => Fuel
  | Datatypes.S k =>
      match next c with
      | NAbort => Aborted
      | NEnd _ | NBad _ => Done tt
      | NOk c' => if c_term c' =? REDUCED then look_ahead k c' else Done tt
      end
  end.
(* db/replica.cc:575-600 ReceiveWrites *)
Definition receive_writes (st : cst) (c : cursor) : res (cst * cursor * rstatus) :=
  if version (text_ref c) =? TIME then write_new st c
  else if negb (version (text_ref c) =? NAME) then Done (st, c, RBadArgs)
  else
    rbind (if negb (c_term c =? REDUCED) then Done tt else look_ahead fuel c) (fun _ =>
    let f := uuid2form (text_ref c) in
    if (f =? LWW_RDT_FORM) || (f =? RGA_RDT_FORM) || (f =? MX_RDT_FORM) || (f =? YARN_RAW_FORM) then write_new st c
    else if f =? TXT_MAP_FORM then txt_write st c
    else Done (st, c, RNotImplemented)).

(* db/replica.cc:472-490 QueryObject: KEEP_STATES is set *)
Definition query_object (st : cst) (c : cursor) : res (cst * cursor * rstatus) :=
  rbind (jread_step st (key_as (text_id c) (text_ref c))) (fun '(st1, _, s) =>
  if negb (is_ok s) then Done (st1, c, s)
  else rbind (next_any c) (fun c' => Done (st1, c', ROk))).
(* 521-523: the loop of QueryObjectLog *)
Fixpoint log_upto (n : nat) (id : uuid) (c : cursor) : res cursor :=
  match n with
  | O => Fuel
  | Datatypes.S k =>
      match next c with
      | NAbort => Aborted
      | NEnd c' | NBad c' => Done c'
      | NOk c' => if uuid_eqb (text_id c') id then Done c' else log_upto k id c'
      end
  end.
(* 503-527 QueryObjectLog; id() of a cursor without an op fails its assert *)
Definition query_log (st : cst) (c : cursor) : res (cst * cursor * rstatus) :=
  let id := text_id c in
  rbind (next_any c) (fun c' =>
  rbind (find_op st id) (fun '(st1, m, s) =>
  if negb (is_ok s) then Done (st1, c', s)
  else rbind (jread_step st1 (key_as (m_obj m) (m_rdt m))) (fun '(st2, log, s2) =>
  if negb (is_ok s2) then Done (st2, c', s2)
  else if uuid_eqb id (m_obj m) then Done (st2, c', ROk)
  else rbind (log_upto fuel id (cursor_of log)) (fun c1 =>
       match c_op c1 with
       | [] => Aborted
       | _ => Done (st2, c', if uuid_eqb (text_id c1) id then ROk else RNotFound)
       end)))).
(* 624-641 ReceiveQuery *)
Definition receive_query (st : cst) (c : cursor) : res (cst * cursor * rstatus) :=
  let f := uuid2form (text_ref c) in
  if (f =? LWW_RDT_FORM) || (f =? RGA_RDT_FORM) || (f =? MX_RDT_FORM) || (f =? YARN_RAW_FORM) then query_object st c
  else if f =? LOG_RAW_FORM then query_log st c
  else Done (st, c, RNotImplemented).

(* db/replica.cc:643-660 WriteName(cursor), 144-154 WriteName(key, value):
   straight into the branch's store *)
Definition write_name (st : cst) (c : cursor) : res (cst * cursor * rstatus) :=
  match nth_error (c_op c) 2 with
  | None => Done (st, c, RBadArgs)
  | Some (AUuid tag) =>
      if negb (version tag =? NAME) then Done (st, c, RBadArgs)
      else
        rbind (next_any c) (fun c' =>
        let '(st1, id) := now_step st in
        match one_op id NIL [VUuid tag; VUuid (s_tip st1)] with
        | None => Aborted
        | Some f =>
            rbind (mwrite (s_main st1) (key_of NIL LWW_RDT_FORM) f) (fun '(m, s) =>
            Done (set_stores st1 m (s_mem st1), c', s))
        end)
  | Some _ => Done (st, c, RBadArgs)
  end.

(* db/replica.cc:685-693 PeekTerm *)
Definition peek_term (c : cursor) : res N :=
  if negb (c_term c =? REDUCED) then Done (c_term c)
  else rbind (next_any c) (fun c' => Done (c_term c')).

(* db/replica.cc:708-745: one turn of the loop of Receive *)
Definition receive_op (st : cst) (c : cursor) : res (cst * cursor * rstatus) :=
  let id := text_id c in
  let v := version id in
  if v =? TIME then
    if c_term c =? QUERY then receive_query st c
    else if negb (payload (uorigin id) =? 0) then save_chain st c
    else receive_writes st c
  else if v =? DERIVED then
    rbind (peek_term c) (fun p =>
    if p =? QUERY
    then if uuid2form (text_ref c) =? TXT_MAP_FORM then txt_read st c else Done (st, c, RNotImplemented)
    else if uuid2form (text_ref c) =? TXT_MAP_FORM then txt_write st c else Done (st, c, RNotImplemented))
  else if v =? NAME then
    if uuid_eqb id COMMENT then
      match next c with
      | NOk c' => Done (st, c', ROk)
      | NEnd c' => Done (st, c', REndOfFrame)
      | NBad c' => Done (st, c', RBadSyntax)
      | NAbort => Aborted
      end
    else if uuid_eqb id NAME_UUID then write_name st c
    else Done (st, c, RBadValue)
  else Done (st, c, RNotImplemented).
Fixpoint receive_loop (n : nat) (st : cst) (c : cursor) : res (cst * rstatus) :=
  match n with
  | O => Fuel
  | Datatypes.S k =>
      if valid c then
        rbind (receive_op st c) (fun '(st1, c1, s) =>
        if is_ok s then receive_loop k st1 c1 else Done (st1, s))
      else Done (st, ROk)
  end.

(* db/replica.cc:662-683 Save; mem_.Release hands over all records in order *)
Definition save (st : cst) : res (cst * rstatus) :=
  if uuid_eqb (s_tip st) (s_base st) then Done (st, ROk)
  else if negb (uuid_eqb (s_base st) NIL) && negb (uorigin (s_tip st) =? uorigin (s_base st)) then Done (st, RBadState)
  else if uuid_ltb (s_tip st) (s_base st) then Done (st, RBadState)
  else match one_op (s_tip st) ZERO_FORM_UUID [] with
       | None => Aborted
       | Some f =>
           let '(w, s) := write bytes (s_mem st) KEY_ZERO f in
           if negb (is_ok (rstatus_of s)) then Done (set_stores st (s_main st) w, rstatus_of s)
           else rbind (mbatch (s_main st) w) (fun '(m, s2) =>
                Done (mkCst m [] (s_now st) (s_readings st) NIL NIL, s2))
       end.

(* db/replica.cc:696-752 Receive on an existing branch of an open replica:
   base is the store's tip; db/replica.hpp:382-389 ReceiveFrame *)
Definition receive (st : cst) (c : cursor) : res (cst * rstatus) :=
  rbind (receive_loop fuel st c) (fun '(st1, s) =>
  if is_ok s then save st1 else Done (st1, s)).
Definition commit_on (main : S) (now : N) (readings : list N) (tip : uuid) : cst :=
  mkCst main [] now readings tip tip.
Definition receive_frame (main : S) (now : N) (readings : list N) (tip : uuid) (frame : bytes)
    : res (S * N * rstatus) :=
  match next (cursor_of frame) with
  | NAbort => Aborted
  | NEnd _ | NBad _ => Done (main, now, ROk)
  | NOk c =>
      rbind (receive (commit_on main now readings tip) c) (fun '(st, s) => Done (s_main st, s_now st, s))
  end.

(* db/replica.cc:45-63: one store of Open; id is the store's id. The result is
   the store's tip. *)
Variable sread : S -> key -> res (S * bytes * rstatus).
Definition open_store_tip (main : S) (now : N) (id : uuid) : res (S * N * uuid * rstatus) :=
  rbind (sread main KEY_ZERO) (fun '(m, f, s) =>
  if negb (is_ok s) then Done (m, now, NIL, s)
  else match next (cursor_of f) with
       | NAbort => Aborted
       | NEnd _ | NBad _ => Done (m, now, NIL, RBadFrame)
       | NOk c =>
           let tip := text_id c in
           if negb (uorigin tip =? uorigin id) && negb (uuid_eqb id NIL) then Done (m, now, NIL, RBadFrame)
           else Done (m, fst (clock_see now tip), tip, ROk)
       end).

(* db/replica.cc:86-110 CreateBranch of a new, empty store: the first event is
   saved, the status of SaveChain ignored. The tip member of the store stays
   NIL. *)
Definition create_branch (main : S) (now : N) (readings : list N) (yarn : N) (transcendent : bool) : res (S * N * rstatus) :=
  let '(now1, ev) := if transcendent then (now, uuid_time 0 yarn)
                     else clock_now active now (hd 0 readings) yarn in
  match one_op ev YARN_FORM_UUID [] with
  | None => Aborted
  | Some f =>
      rbind (next_any (cursor_of f)) (fun c =>
      rbind (save_chain (commit_on main now1 (tl readings) NIL) c) (fun '(st, _, _) =>
      rbind (save st) (fun '(st2, s) => Done (s_main st2, s_now st2, s))))
  end.
End Replica.
