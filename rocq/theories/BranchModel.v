(* A branch of a replica over a RocksDB store: db/replica.cc with
   db/rocks_store.cc and db/joined_store.hpp, text frames. A commit joins the
   column family of the branch (RocksModel) with an in-memory store
   (StoreModel). sha, fbits, active, fuel: ReplicaModel. *)
From Verif Require Import Prelude UuidModel KeyModel CodecModel TextModel MergeModel MergeTextModel StoreModel
  RocksModel MetaModel ClockModel ReplicaModel.

Notation family := (list (key * cell)).
Notation mem := (list (key * bytes)).

(* ron/status.cc, ron/status.hpp:16 *)
Definition status_code (s : status) : uuid :=
  match s with
  | StOK => mkUuid 0 0
  | StNotImplemented => mkUuid 421215369505919885 (2 ^ 60 - 1)
  | StCauseBreak => mkUuid 219121412645642900 (2 ^ 60 - 1)
  | StBadArgs => mkUuid 201031024437624832 (2 ^ 60 - 1)
  | StBadState => mkUuid 201032812431266688 (2 ^ 60 - 1)
  end.
Definition kst (s : kstatus) : rstatus :=
  match s with KOk => ROk | KBadArgs => RBadArgs | KDbFail => RDbFail | KEnd => REndOfInput end.
Definition blank (f : bytes) : bool := match f with [] => true | _ => false end.

Section Branch.
Variable sha : bytes -> bytes.
Variable fbits : bytes -> N.
Variable active : N.
Variable fuel : nat.

(* RocksDBStore: Read, Write, Write(batch) *)
Definition b_read (d : family) (k : key) : res (family * bytes * rstatus) :=
  rbind (rocks_read fbits fuel d k) (fun '(f, s) => Done (d, f, kst s)).
Definition b_write (d : family) (k : key) (f : bytes) : res (family * rstatus) :=
  let '(d', s) := rocks_write d k f in Done (d', kst s).
Definition b_batch (d : family) (l : mem) : res (family * rstatus) :=
  let '(d', s) := rocks_batch d l in Done (d', kst s).

(* db/joined_store.hpp:30-43 Read, into an empty frame *)
Definition b_jread (d : family) (w : mem) (k : key) : res (family * mem * bytes * rstatus) :=
  rbind (rocks_read fbits fuel d k) (fun '(fa, sa) =>
  match sa with
  | KOk =>
      rbind (read bytes [] (merge_as fbits fuel) w k []) (fun '(w', fb, sb) =>
      match sb with
      | StOK =>
          if blank fa then Done (d, w', fb, ROk)
          else if blank fb then Done (d, w', fa, ROk)
          else rbind (merge_frames fbits fuel [fa; fb]) (fun '(r, s) =>
               Done (d, w', match r with Some f => f | None => [] end, rstatus_of s))
      | _ => Done (d, w', [], rstatus_of sb)
      end)
  | _ => Done (d, w, [], kst sa)
  end).
(* db/joined_store.hpp:58-60 a new Iterator, 73-91 SeekTo(key, true), 93-116
   value. The value that is an error is a cursor of a frame that is gone; here
   it still has the frame. *)
Definition b_jprev (d : family) (w : mem) (k : key) : res (bytes * rstatus) :=
  rbind (ri_seek fbits fuel (ri_new d) k true) (fun '(ia, sa) =>
  match sa with
  | KOk =>
      let ib := it_seek bytes w (new_iter bytes []) k true in
      let ka := ri_key ia in
      let va := rbind (ri_value fbits fuel ia) (fun g => Done (match g with GValue f => f | _ => [] end)) in
      let vb := rbind (it_value bytes [] (merge_as fbits fuel) w ib) (fun '(f, _) => Done f) in
      rbind (it_key bytes w ib) (fun kb =>
      let at_ := if key_eqb ka KEY_END then kb else if key_eqb kb KEY_END then ka else key_max ka kb in
      if negb (key_eqb ka at_) then rbind vb (fun f => Done (f, ROk))
      else if negb (key_eqb kb at_) then rbind va (fun f => Done (f, ROk))
      else
        rbind va (fun fa => rbind vb (fun fb =>
        rbind (merge_frames fbits fuel [fa; fb]) (fun '(r, s) =>
        match s with
        | StOK => Done (match r with Some f => f | None => [] end, ROk)
        | _ => match one_op (status_code s) FATAL [] with None => Aborted | Some f => Done (f, ROk) end
        end))))
  | _ => Done ([], kst sa)
  end).

(* the branch: its records and the member tip of the store *)
Record branch : Type := mkBranch { br_main : family; br_tip : uuid }.
(* db/rocks_store.cc:127-157 Create: an empty column family with a tip record.
   Failures of the database are not modelled. *)
Definition b_create : res (family * rstatus) :=
  match one_op NIL ZERO_FORM_UUID [] with None => Aborted | Some f => b_write [] KEY_ZERO f end.
(* db/replica.hpp:146 yarn2branch *)
Definition branch_id (yarn : N) : uuid := uuid_time NEVER_W yarn.
(* db/replica.cc:86-110 CreateBranch of a yarn without a branch; now: the clock *)
Definition b_new (now : N) (readings : list N) (yarn : N) (transcendent : bool) : res (branch * rstatus) :=
  rbind b_create (fun '(d, s) =>
  if negb (is_ok s) then Done (mkBranch d NIL, s)
  else rbind (create_branch sha fbits family b_jread b_jprev b_batch active fuel d now readings yarn transcendent) (fun '(d', _, s') =>
       Done (mkBranch d' NIL, s'))).

(* What happens to a branch: a frame is received; the replica is closed and
   opened again; RocksDB compacts. The clock and its readings can be anything
   each time. *)
Inductive bevent : Type :=
| BReceive (now : N) (readings : list N) (frame : bytes)
| BOpen (now : N)
| BCompact (k : key) (e : compaction).
Definition b_open (id : uuid) (d : family) (now : N) : res (family * N * uuid * rstatus) :=
  open_store_tip family b_read d now id.
Definition b_receive (b : branch) (now : N) (readings : list N) (frame : bytes) : res (branch * rstatus) :=
  rbind (receive_frame sha fbits family b_jread b_jprev b_write b_batch active fuel (br_main b) now readings (br_tip b) frame) (fun '(d, _, s) =>
  Done (mkBranch d (br_tip b), s)).
Definition b_step (id : uuid) (b : branch) (e : bevent) : res (branch * rstatus) :=
  match e with
  | BReceive now readings frame => b_receive b now readings frame
  | BOpen now =>
      rbind (b_open id (br_main b) now) (fun '(d, _, t, s) =>
      Done (mkBranch d (if is_ok s then t else br_tip b), s))
  | BCompact k e => rbind (compact fbits fuel (br_main b) k e) (fun d => Done (mkBranch d (br_tip b), ROk))
  end.
Fixpoint b_run (id : uuid) (b : branch) (es : list bevent) : res (branch * list rstatus) :=
  match es with
  | [] => Done (b, [])
  | e :: r => rbind (b_step id b e) (fun '(b1, s) => rbind (b_run id b1 r) (fun '(b2, ss) => Done (b2, s :: ss)))
  end.
End Branch.
