(* A replica with all its stores: db/replica.hpp:31-77, the life cycle of
   db/replica.cc over db/rocks_store.cc. One thread; the database itself
   (opening, listing, creating and dropping column families) does not fail. *)
From Verif Require Import Prelude UuidModel KeyModel CodecModel TextModel MergeModel MergeTextModel StoreModel
  RocksModel MetaModel ClockModel ReplicaModel BranchModel ForkModel.

(* db/replica.hpp:53-73: now_, active_, stores_. A replica that is not open has
   no stores_ (db/replica.hpp:109); then h_stores are the column families of
   the database, and the tips in it are of no use. The order of the list is
   that of the unordered map. *)
Record host : Type := mkHost { h_now : N; h_active : uuid; h_open : bool; h_stores : list (uuid * branch) }.
(* db/replica.cc:10 *)
Definition ACTIVE_STORE_UUID : uuid := uuid_time 40397627049 0.
Definition ACTIVE_KEY : key := key_of ACTIVE_STORE_UUID ZERO_RAW_FORM.

Fixpoint find_store (l : list (uuid * branch)) (id : uuid) : option branch :=
  match l with
  | [] => None
  | (i, b) :: r => if uuid_eqb i id then Some b else find_store r id
  end.
Fixpoint put_store (l : list (uuid * branch)) (id : uuid) (b : branch) : list (uuid * branch) :=
  match l with
  | [] => [(id, b)]
  | (i, x) :: r => if uuid_eqb i id then (i, b) :: r else (i, x) :: put_store r id b
  end.
Definition drop_store (l : list (uuid * branch)) (id : uuid) : list (uuid * branch) := filter (fun p => negb (uuid_eqb (fst p) id)) l.

Section Host.
Variable sha : bytes -> bytes.
Variable fbits : bytes -> N.
Variable fuel : nat.
Notation jread := (b_jread fbits fuel).
Notation jprev := (b_jprev fbits fuel).

(* the stores in use: db/replica.hpp:137 HasStore; none if the replica is closed *)
Definition in_use (h : host) (id : uuid) : option branch := if h_open h then find_store (h_stores h) id else None.

(* db/replica.cc:45-63: the stores one by one; a failure leaves the tips of the
   rest as OpenAll makes them (db/rocks_store.cc:347, ron/uuid.hpp:195) *)
Fixpoint open_all (now : N) (l : list (uuid * branch)) : res (list (uuid * branch) * N * rstatus) :=
  match l with
  | [] => Done ([], now, ROk)
  | (id, b) :: r =>
      rbind (b_open fbits fuel id (br_main b) now) (fun '(d, now1, t, s) =>
      if negb (is_ok s) then Done ((id, mkBranch d NIL) :: map (fun p => (fst p, mkBranch (br_main (snd p)) NIL)) r, now1, s)
      else rbind (open_all now1 r) (fun '(r', now2, s2) => Done ((id, mkBranch d t) :: r', now2, s2)))
  end.
(* db/replica.cc:36-72 Open. The cursor made over the record of the active store
   is not moved to the first op. *)
Definition h_reopen (h : host) : res (host * rstatus) :=
  if h_open h then Done (h, RBadState)
  else rbind (open_all (h_now h) (h_stores h)) (fun '(l, now, s) =>
       if negb (is_ok s) then Done (mkHost now (h_active h) true l, s)
       else match find_store l NIL with
            | None => Aborted
            | Some meta =>
                rbind (b_read fbits fuel (br_main meta) ACTIVE_KEY) (fun '(_, f, s2) =>
                let c := cursor_of f in
                let a := if is_ok s2 && valid c && match find_store l (text_ref c) with Some _ => true | None => false end then text_ref c else h_active h in
                Done (mkHost now a true l, ROk))
            end).
(* db/replica.cc:194-201 Close *)
Definition h_close (h : host) : res (host * rstatus) :=
  if h_open h then match find_store (h_stores h) NIL with
                   | None => Aborted
                   | Some _ => Done (mkHost (h_now h) (h_active h) false (h_stores h), ROk)
                   end
  else Done (h, ROk).
(* the process ends (db/replica.cc:203-206), another one makes a new Replica: now_ and
   active_ are zeroes (ron/uuid.hpp:29, 195) *)
Definition h_restart (h : host) : host := mkHost 0 NIL false (h_stores h).
(* db/replica.cc:75-83 SetActiveStore *)
Definition h_activate (h : host) (readings : list N) (id : uuid) : res (host * rstatus) :=
  match in_use h id with
  | None => Done (h, RNotFound)
  | Some _ =>
      let '(now, u) := clock_now (uorigin (h_active h)) (h_now h) (hd 0 readings) 0 in
      match one_op u id [], find_store (h_stores h) NIL with
      | Some f, Some meta =>
          rbind (b_write (br_main meta) ACTIVE_KEY f) (fun '(d, s) =>
          let l := put_store (h_stores h) NIL (mkBranch d (br_tip meta)) in
          Done (mkHost now (if is_ok s then id else h_active h) true l, s))
      | _, _ => Aborted
      end
  end.
(* db/replica.cc:86-110 CreateBranch. The time is taken before the check; on a
   closed replica GetMetaStore fails (db/replica.hpp:166). *)
Definition h_create (h : host) (readings : list N) (yarn : N) (transcendent : bool) : res (host * rstatus) :=
  match in_use h (branch_id yarn) with
  | Some _ =>
      let now := if transcendent then h_now h else fst (clock_now (uorigin (h_active h)) (h_now h) (hd 0 readings) yarn) in
      Done (mkHost now (h_active h) (h_open h) (h_stores h), RBadArgs)
  | None =>
      if negb (h_open h) then Aborted
      else match find_store (h_stores h) NIL with
           | None => Aborted
           | Some _ =>
               rbind b_create (fun '(d, s) =>
               if negb (is_ok s) then Done (h, s)
               else rbind (create_branch sha fbits family jread jprev b_batch (uorigin (h_active h)) fuel d (h_now h) readings yarn transcendent) (fun '(d', now, s') =>
                    Done (mkHost now (h_active h) true (h_stores h ++ [(branch_id yarn, mkBranch d' NIL)]), s')))
           end
  end.
(* db/replica.cc:112-131 ForkBranch *)
Definition h_fork (h : host) (readings : list N) (yarn orig : N) : res (host * rstatus) :=
  match in_use h (branch_id orig) with
  | None => Done (h, RNotFound)
  | Some _ =>
      rbind (h_create h readings yarn false) (fun '(h1, s) =>
      if negb (is_ok s) then Done (h1, s)
      else match find_store (h_stores h1) (branch_id orig), find_store (h_stores h1) (branch_id yarn) with
           | Some o, Some b =>
               rbind (ri_seek fbits fuel (ri_new (br_main o)) KEY_ZERO false) (fun '(it, s1) =>
               match s1 with
               | KOk => rbind (fork_loop fbits fuel (S (length (br_main o))) (br_main o) it (br_main b)) (fun '(d, s2) =>
                        Done (mkHost (h_now h1) (h_active h1) true (put_store (h_stores h1) (branch_id yarn) (mkBranch d (br_tip b))), s2))
               | _ => Done (h1, kst s1)
               end)
           | _, _ => Aborted
           end)
  end.
(* db/replica.cc:133-141 DropStore; RocksDB does not drop the default family *)
Definition h_drop (h : host) (id : uuid) : host * rstatus :=
  match in_use h id with
  | None => (h, RNotFound)
  | Some _ => if uuid_eqb id NIL then (h, RDbFail)
              else (mkHost (h_now h) (h_active h) true (drop_store (h_stores h) id), ROk)
  end.
(* db/replica.hpp:397-404 ReceiveFrame, db/replica.cc:696-706, 746-751 Receive *)
Definition h_receive (h : host) (readings : list N) (yarn : N) (frame : bytes) : res (host * rstatus) :=
  match next (cursor_of frame) with
  | NAbort => Aborted
  | NEnd _ | NBad _ => Done (h, ROk)
  | NOk _ =>
      if negb (h_open h) then Done (h, RNotOpen)
      else match find_store (h_stores h) (branch_id yarn) with
           | None => Done (h, RNotFound)
           | Some b =>
               rbind (receive_frame sha fbits family jread jprev b_write b_batch (uorigin (h_active h)) fuel (br_main b) (h_now h) readings (br_tip b) frame) (fun '(d, now, s) =>
               Done (mkHost now (h_active h) true (put_store (h_stores h) (branch_id yarn) (mkBranch d (br_tip b))), s))
           end
  end.
(* RocksDB compacts a column family *)
Definition h_compact (h : host) (id : uuid) (k : key) (e : compaction) : res (host * rstatus) :=
  match find_store (h_stores h) id with
  | None => Done (h, ROk)
  | Some b => rbind (compact fbits fuel (br_main b) k e) (fun d =>
              Done (mkHost (h_now h) (h_active h) (h_open h) (put_store (h_stores h) id (mkBranch d (br_tip b))), ROk))
  end.

(* what happens to a replica; readings: of the system clock *)
Inductive hevent : Type :=
| HReceive (readings : list N) (yarn : N) (frame : bytes)
| HCreate (readings : list N) (yarn : N) (transcendent : bool)
| HFork (readings : list N) (yarn orig : N)
| HDrop (id : uuid)
| HActivate (readings : list N) (id : uuid)
| HOpen
| HClose
| HRestart
| HCompact (id : uuid) (k : key) (e : compaction).
Definition h_step (h : host) (e : hevent) : res (host * rstatus) :=
  match e with
  | HReceive rs y f => h_receive h rs y f
  | HCreate rs y t => h_create h rs y t
  | HFork rs y o => h_fork h rs y o
  | HDrop id => Done (h_drop h id)
  | HActivate rs id => h_activate h rs id
  | HOpen => h_reopen h
  | HClose => h_close h
  | HRestart => Done (h_restart h, ROk)
  | HCompact id k e => h_compact h id k e
  end.
Fixpoint h_run (h : host) (es : list hevent) : res (host * list rstatus) :=
  match es with
  | [] => Done (h, [])
  | e :: r => rbind (h_step h e) (fun '(h1, s) => rbind (h_run h1 r) (fun '(h2, ss) => Done (h2, s :: ss)))
  end.
(* db/replica.cc:16-33 CreateReplica in an empty directory; the statuses of Open
   and SaveChain are not looked at. The Replica there is gone in the end. *)
Definition h_new (reading : N) : res (host * rstatus) :=
  rbind b_create (fun '(d, s) =>
  if negb (is_ok s) then Done (mkHost 0 NIL false [(NIL, mkBranch d NIL)], s)
  else rbind (h_reopen (mkHost 0 NIL false [(NIL, mkBranch d NIL)])) (fun '(h, _) =>
       match find_store (h_stores h) NIL, one_op (uuid_time reading 0) YARN_FORM_UUID [] with
       | Some b, Some f =>
           rbind (next_any (cursor_of f)) (fun c =>
           rbind (save_chain sha fbits family jread jprev fuel (commit_on family (br_main b) (h_now h) [] (br_tip b)) c) (fun '(st, _, _) =>
           rbind (save family b_batch st) (fun '(st2, s2) =>
           Done (mkHost 0 NIL false [(NIL, mkBranch (s_main family st2) (br_tip b))], s2))))
       | _, _ => Aborted
       end)).
End Host.
