(* The program swarmdb: db/main.cc. A command line is a process of its own; what
   stays are the column families of the database. *)
From Verif Require Import Prelude UuidModel KeyModel CodecModel TextModel MergeModel MergeTextModel StoreModel
  RocksModel MetaModel ClockModel ReplicaModel BranchModel ForkModel HostModel NamesModel LogModel AnswerModel.

(* ron/uuid.hpp:12 case_t *)
Definition NUMERIC : N := 0.
Definition SNAKE : N := 1.
Definition CAPS : N := 2.
Definition CAMEL : N := 3.

(* the words of the command line *)
Definition W_as : bytes := [97; 115].
Definition W_on : bytes := [111; 110].
Definition W_of : bytes := [111; 102].
Definition W_clean : bytes := [99; 108; 101; 97; 110].
Definition W_yarns : bytes := [121; 97; 114; 110; 115].
Definition W_objects : bytes := [111; 98; 106; 101; 99; 116; 115].
Definition W_versions : bytes := [118; 101; 114; 115; 105; 111; 110; 115].
Definition W_things : bytes := [116; 104; 105; 110; 103; 115].
Definition W_branches : bytes := [98; 114; 97; 110; 99; 104; 101; 115].
Definition W_snapshots : bytes := [115; 110; 97; 112; 115; 104; 111; 116; 115].
Definition W_stores : bytes := [115; 116; 111; 114; 101; 115].
Definition W_create : bytes := [99; 114; 101; 97; 116; 101].
Definition W_fork : bytes := [102; 111; 114; 107].
Definition W_now : bytes := [110; 111; 119].
Definition W_dump : bytes := [100; 117; 109; 112].
Definition W_get : bytes := [103; 101; 116].
Definition W_new : bytes := [110; 101; 119].
Definition W_list : bytes := [108; 105; 115; 116].
Definition W_named : bytes := [110; 97; 109; 101; 100].
Definition W_name : bytes := [110; 97; 109; 101].
Definition W_write : bytes := [119; 114; 105; 116; 101].
Definition W_recall : bytes := [114; 101; 99; 97; 108; 108].
Definition W_hop : bytes := [104; 111; 112].
Definition W_drop : bytes := [100; 114; 111; 112].

(* What a command ends with. CSays: a Status whose code is not an error, OK being
   the code 0; CFails: an error; CNoFile: IOFAIL; CCrash: an assertion fails, or
   there is undefined behaviour, before the database is written to. Comments
   and the texts of the error codes are not kept. *)
Inductive cstatus : Type := CSays (u : uuid) | CFails (s : rstatus) | CNoFile | CCrash.
Notation cok := (CSays NIL).

(* the command line with what the process finds outside of the database: the
   readings of the system clock one by one, the random word (ron/uuid.hpp:122-127),
   the files by name (db/main.cc:42-61 LoadFrame; None: it fails) *)
Record invocation : Type := mkInv { i_args : list bytes; i_readings : list N; i_random : N; i_file : bytes -> option bytes }.
(* what the process leaves: the families, the status, the text on the standard
   output (before the code of the status), the clock of the replica *)
Record proc : Type := mkProc { p_families : list (uuid * family); p_status : cstatus; p_out : bytes; p_clock : N }.

(* db/main.cc:538-542 reverse_map over the pairs in the order they are met *)
Definition reverse_map (l : list (uuid * uuid)) : list (uuid * uuid) := rev (map (fun p => (snd p, fst p)) l).
(* the entries of a map, of which only the first of a name counts *)
Fixpoint entries (l : list (uuid * uuid)) : list (uuid * uuid) :=
  match l with
  | [] => []
  | p :: r => p :: filter (fun q => negb (uuid_eqb (fst q) (fst p))) (entries r)
  end.

(* a replica made by a new process, not open yet *)
Definition shut (fs : list (uuid * family)) : host := mkHost 0 NIL false (map (fun p => (fst p, mkBranch (snd p) NIL)) fs).
Definition left_by (h : host) : list (uuid * family) := map (fun p => (fst p, br_main (snd p))) (h_stores h).

Section Cli.
Variable sha : bytes -> bytes.
Variable fbits : bytes -> N.
Variable fuel : nat.
(* the order in which an unordered map is walked *)
Variable order : list (uuid * uuid) -> list (uuid * uuid).
Notation b_names := (b_names fbits fuel).
Notation walk l := (order (entries l)).

(* db/main.cc:63-85 ResolveName *)
Definition resolve (h : host) (name : uuid) (need : N) (scoped : bool) : res (uuid * rstatus) :=
  if negb (version name =? NAME) then Done (name, ROk)
  else if uuid_eqb name NIL then Done (name, ROk)
  else if negb (need =? NUMERIC) && negb (base64_case (uvalue name) =? need) then Done (name, RBadArgs)
  else match find_store (h_stores h) (if scoped then NIL else h_active h) with
       | None => Aborted
       | Some b =>
           rbind (b_names b) (fun '(l, s) =>
           if negb (is_ok s) then Done (name, s)
           else match names_get l name with
                | None => Done (name, RNotFound)
                | Some v => Done (v, ROk)
                end)
       end.

(* 87-105 ScanAsNameArg; the name is 0 unless there is one. Some: the name and
   the rest of the line; None: BADARGS *)
Definition scan_as (case : N) (args : list bytes) : option (uuid * list bytes) :=
  match args with
  | [] => Some (NIL, [])
  | a :: r =>
      if negb (bytes_eqb a W_as) then Some (NIL, args)
      else match r with
           | [] => None
           | n :: r2 =>
               let name := parse_uuid n in
               if is_error name || negb (version name =? NAME) || (negb (case =? NUMERIC) && negb (base64_case (uvalue name) =? case)) then None
               else Some (name, r2)
           end
  end.
(* 107-124 ScanOnBranchArg *)
Definition has_branch (h : host) (yarn : N) : bool := match in_use h (branch_id yarn) with Some _ => true | None => false end.
Definition scan_on (h : host) (args : list bytes) : res (uuid * list bytes * rstatus) :=
  match args with
  | [] => Done (h_active h, [], ROk)
  | a :: r =>
      if negb (bytes_eqb a W_on) then Done (NIL, args, ROk)
      else match r with
           | [] => Done (NIL, [], RBadArgs)
           | n :: r2 =>
               let b := parse_uuid n in
               if is_error b then Done (b, r2, RBadArgs)
               else rbind (resolve h b CAMEL true) (fun '(b2, s) =>
                    if negb (is_ok s) then Done (b2, r2, s)
                    else if negb (uuid_eqb b2 NIL) && negb (has_branch h (uorigin b2)) then Done (b2, r2, RBadArgs)
                    else Done (b2, r2, ROk))
           end
  end.
(* 126-141 ScanOfObjectArg *)
Definition scan_of (h : host) (args : list bytes) : res (uuid * list bytes * rstatus) :=
  match args with
  | [] => Done (NIL, [], ROk)
  | a :: r =>
      if negb (bytes_eqb a W_of) then Done (NIL, args, ROk)
      else match r with
           | [] => Done (NIL, [], RBadArgs)
           | n :: r2 =>
               let b := parse_uuid n in
               if is_error b then Done (b, r2, RBadArgs)
               else rbind (resolve h b SNAKE false) (fun '(b2, s) => Done (b2, r2, s))
           end
  end.

(* db/replica.cc:144-154 WriteName in a commit on the store; the store has to be
   there (db/replica.hpp:166-170 GetStore) *)
Definition h_name (h : host) (readings : list N) (id name value : uuid) : res (host * cstatus) :=
  match find_store (h_stores h) id with
  | None => Done (h, CCrash)
  | Some b =>
      let now := fst (clock_now (uorigin (h_active h)) (h_now h) (hd 0 readings) (uorigin (br_tip b))) in
      rbind (b_name (uorigin (h_active h)) b (h_now h) readings name value) (fun '(b', u) =>
      Done (mkHost now (h_active h) (h_open h) (put_store (h_stores h) id b'), CSays u))
  end.

(* 160-184, 190-217: the end of the line of create and fork: the tag; None: BADARGS *)
Definition scan_tag (args : list bytes) : option uuid :=
  match args with
  | [] => Some NIL
  | [a; n] =>
      if bytes_eqb a W_as then
        let tag := parse_uuid n in
        if is_error tag || negb (base64_case (uvalue tag) =? CAMEL) then None else Some tag
      else None
  | _ => None
  end.
(* 178-183, 211-216: the new branch is made active, and gets its tag in the store
   of the metadata *)
Definition settle_branch (h : host) (readings : list N) (yarn : N) (tag : uuid) : res (host * cstatus) :=
  rbind (h_activate h readings (branch_id yarn)) (fun '(h1, s) =>
  if negb (is_ok s) then Done (h1, CFails s)
  else if uuid_eqb tag NIL then Done (h1, CSays (branch_id yarn))
  else rbind (h_name h1 (tl readings) NIL tag (branch_id yarn)) (fun '(h2, s2) =>
       Done (h2, match s2 with CSays _ => CSays (branch_id yarn) | e => e end))).
(* 160-184 CommandCreate *)
Definition cmd_create (h : host) (readings : list N) (yarn : N) (args : list bytes) : res (host * cstatus) :=
  match scan_tag args with
  | None => Done (h, CFails RBadArgs)
  | Some tag =>
      rbind (h_create sha fbits fuel h readings yarn false) (fun '(h1, s) =>
      if negb (is_ok s) then Done (h1, CFails s) else settle_branch h1 (tl readings) yarn tag)
  end.
(* 190-217 CommandFork *)
Definition cmd_fork (h : host) (readings : list N) (yarn : N) (args : list bytes) : res (host * cstatus) :=
  if uuid_eqb (h_active h) NIL then Done (h, CFails RBadArgs)
  else match scan_tag args with
       | None => Done (h, CFails RBadArgs)
       | Some tag =>
           rbind (h_fork sha fbits fuel h readings yarn (uorigin (h_active h))) (fun '(h1, s) =>
           if negb (is_ok s) then Done (h1, CFails s) else settle_branch h1 (tl readings) yarn tag)
       end.
(* 223-232 CommandDrop: more words are not looked at *)
Definition cmd_drop (h : host) (args : list bytes) : res (host * cstatus) :=
  match args with
  | [] => Done (h, CFails RBadArgs)
  | _ =>
      rbind (scan_on h (W_on :: args)) (fun '(id, _, s) =>
      if negb (is_ok s) then Done (h, CFails s)
      else if uuid_eqb id NIL then Done (h, CFails RBadArgs)
      else let '(h1, s1) := h_drop h id in Done (h1, if is_ok s1 then cok else CFails s1))
  end.
(* 642-646 CommandHop: more words are not looked at *)
Definition cmd_hop (h : host) (readings : list N) (args : list bytes) : res (host * cstatus) :=
  rbind (scan_on h args) (fun '(id, _, s) =>
  if negb (is_ok s) then Done (h, CFails s)
  else rbind (h_activate h readings id) (fun '(h1, s1) => Done (h1, if is_ok s1 then cok else CFails s1))).
(* 652-663 CommandOn: the status of ReadNames is not looked at *)
Definition cmd_on (h : host) : res cstatus :=
  match find_store (h_stores h) NIL with
  | None => Aborted
  | Some meta =>
      rbind (b_names meta) (fun '(l, _) =>
      Done (CSays (match names_get (reverse_map (walk l)) (h_active h) with Some n => n | None => h_active h end)))
  end.
(* 548-569 CommandList: what is to be listed is checked and not looked at *)
Definition list_line (names : list (uuid * uuid)) (id : uuid) : bytes :=
  write_uuid id ++ [9] ++ write_uuid (match names_get names id with Some n => n | None => NIL end) ++ [10].
Definition cmd_list (h : host) (args : list bytes) : res (cstatus * bytes) :=
  let ok := match args with [] => true | a :: _ => bytes_eqb a W_branches || bytes_eqb a W_snapshots || bytes_eqb a W_stores end in
  if negb ok then Done (CFails RBadArgs, [])
  else match find_store (h_stores h) NIL with
       | None => Aborted
       | Some meta =>
           rbind (b_names meta) (fun '(l, s) =>
           if negb (is_ok s) then Done (CFails s, [])
           else Done (cok, flat_map (list_line (reverse_map (walk l))) (map fst (h_stores h))))
       end.
(* 575-597 CommandName *)
Definition cmd_name (h : host) (readings : list N) (args : list bytes) : res (host * cstatus) :=
  match args with
  | [] => Done (h, CFails RBadArgs)
  | a :: r =>
      let id := parse_uuid a in
      if is_error id || negb (version id =? TIME) then Done (h, CFails RBadArgs)
      else match scan_as NUMERIC r with
           | None => Done (h, CFails RBadArgs)
           | Some (name, r2) =>
               if uuid_zero name then Done (h, CFails RBadArgs)
               else rbind (scan_on h r2) (fun '(branch, r3, s) =>
                    if negb (is_ok s) then Done (h, CFails s)
                    else match r3 with
                         | _ :: _ => Done (h, CFails RBadArgs)
                         | [] => h_name h readings branch name id
                         end)
           end
  end.
(* 603-636 CommandNamed *)
Definition named_line (p : uuid * uuid) : bytes := write_uuid (snd p) ++ [9] ++ write_uuid (fst p) ++ [10].
Definition named_case (a : bytes) : option N :=
  if bytes_eqb a W_yarns then Some CAMEL else if bytes_eqb a W_objects then Some SNAKE
  else if bytes_eqb a W_versions then Some CAPS else if bytes_eqb a W_things then Some NUMERIC else None.
Definition cmd_named (h : host) (args : list bytes) : res (cstatus * bytes) :=
  match (match args with [] => Some (NUMERIC, []) | a :: r => option_map (fun c => (c, r)) (named_case a) end) with
  | None => Done (CFails RBadArgs, [])
  | Some (what, r) =>
      rbind (scan_on h r) (fun '(branch, r2, s) =>
      if negb (is_ok s) then Done (CFails s, [])
      else match r2 with
           | _ :: _ => Done (CFails RBadArgs, [])
           | [] =>
               match find_store (h_stores h) branch with
               | None => Done (CCrash, [])
               | Some b =>
                   rbind (b_names b) (fun '(l, s2) =>
                   if negb (is_ok s2) then Done (CFails s2, [])
                   else Done (cok, flat_map named_line (filter (fun p => (what =? NUMERIC) || (what =? base64_case (uvalue (fst p)))) (walk l))))
               end
           end)
  end.
(* 432-443 CommandWrite: the frame is for the branch of the yarn 0, the default of
   ReceiveFrame; more words are not looked at *)
Definition cmd_write (h : host) (readings : list N) (file : bytes -> option bytes) (args : list bytes) : res (host * cstatus) :=
  let name := match args with [] => [45] | a :: _ => a end in
  let now := fst (clock_now (uorigin (h_active h)) (h_now h) (hd 0 readings) 0) in
  let h0 := mkHost now (h_active h) (h_open h) (h_stores h) in
  match file name with
  | None => Done (h0, CNoFile)
  | Some frame =>
      rbind (h_receive sha fbits fuel h0 (tl readings) 0 frame) (fun '(h1, s) =>
      Done (h1, if is_ok s then cok else CFails s))
  end.
(* 360-406 CommandGetFrame: the query is for the branch of the yarn 0, too. With
   clean, the cursor of the answer is not moved to the first op, so there is
   no value. The words of the message of 375 are those left. *)
Definition cmd_get (h : host) (readings : list N) (args : list bytes) : res (cstatus * bytes) :=
  match args with
  | [] => Done (CFails RBadArgs, [])
  | a :: r =>
      let rdt := parse_uuid a in
      if uuid_eqb rdt FATAL || negb (version rdt =? NAME) then Done (CFails RBadArgs, [])
      else rbind (scan_of h r) (fun '(id, r2, s) =>
           if negb (is_ok s) then Done (CFails s, [])
           else if version id =? NAME then Done (CFails RNotImplemented, [])
           else if negb (version id =? TIME) then Done (match r2 with [] => CCrash | _ => CFails RBadArgs end, [])
           else let clean := match r2 with b :: _ => bytes_eqb b W_clean | [] => false end in
                match find_store (h_stores h) (branch_id 0) with
                | None => Done (CFails RNotFound, [])
                | Some b =>
                    rbind (b_get sha fbits (uorigin (h_active h)) fuel b (h_now h) readings id rdt) (fun '(s2, t) =>
                    match t with
                    | None => Aborted
                    | Some text =>
                        if negb (is_ok s2) then Done (CFails s2, [])
                        else if clean then Done (CFails RBadValue, [])
                        else Done (cok, text ++ [10])
                    end)
                end)
  end.
(* 412-426 CommandRecall in the active store; db/replica.hpp:254-260 *)
Definition cmd_recall (h : host) (args : list bytes) : res (cstatus * bytes) :=
  match args with
  | [] => Done (CFails RBadArgs, [])
  | a :: r =>
      let ver := parse_uuid a in
      if negb (version ver =? TIME) then Done (CFails RBadArgs, [])
      else rbind (scan_of h r) (fun '(obj, _, s) =>
           if negb (is_ok s) then Done (CFails s, [])
           else if negb (version obj =? TIME) then Done (CFails RBadArgs, [])
           else if uuid_ltb ver obj then Done (CFails RBadArgs, [])
           else match find_store (h_stores h) (h_active h) with
                | None => Aborted
                | Some b =>
                    rbind (b_jread fbits fuel (br_main b) [] (key_of obj LOG_RAW_FORM)) (fun '(_, _, log, s2) =>
                    if negb (is_ok s2) then Done (CFails s2, [])
                    else rbind (log_version fbits fuel log ver) (fun '(f, ls) =>
                         match ls, f with
                         | LBadSyntax, _ => Done (CFails RBadSyntax, [])
                         | LMerge StOK, Some f => Done (cok, f)
                         | LMerge e, _ => Done (CFails (rstatus_of e), [])
                         end))
                end)
  end.
(* 456-484 CommandNew: the cursor given to SaveChain is not moved to the first op,
   so the assertion of ron/text.hpp:122 fails *)
Definition cmd_new (h : host) (args : list bytes) : res cstatus :=
  match args with
  | [] => Done (CFails RBadArgs)
  | a :: r =>
      let rdt := parse_uuid a in
      if is_error rdt || (uuid2form rdt =? ERROR_NO_FORM) then Done (CFails RBadArgs)
      else match scan_as SNAKE r with
           | None => Done (CFails RBadArgs)
           | Some (_, r2) =>
               rbind (scan_on h r2) (fun '(_, r3, s) =>
               if negb (is_ok s) then Done (CFails s)
               else match r3 with _ :: _ => Done (CFails RBadArgs) | [] => Done CCrash end)
           end
  end.
(* 309-332 CommandDump; db/key.hpp:63-65. A key of no known form cannot be
   printed (KeyModel.form2uuid). A value is printed as it is: what Slice::str
   does to it is in SliceModel (s_str). *)
Definition key_text (k : key) : res bytes :=
  match form2uuid (key_form k) with None => Aborted | Some f => Done (42 :: write_uuid f ++ 35 :: write_uuid (key_id k TIME)) end.
Fixpoint dump_loop (n : nat) (it : riter) : res bytes :=
  match n with
  | O => Fuel
  | S m =>
      rbind (key_text (ri_key it)) (fun kt =>
      rbind (ri_value fbits fuel it) (fun g =>
      rbind (ri_next fbits fuel it) (fun '(it', s) =>
      let line := kt ++ [9] ++ match g with GValue f => f | _ => [] end in
      match s with
      | KOk => rbind (dump_loop m it') (fun r => Done (line ++ r))
      | _ => Done line
      end)))
  end.
Definition cmd_dump (h : host) (args : list bytes) : res (cstatus * bytes) :=
  rbind (match args with [] => Done (h_active h, ROk) | _ => rbind (scan_on h (W_on :: args)) (fun '(id, _, s) => Done (id, s)) end) (fun '(id, s) =>
  if negb (is_ok s) then Done (CFails s, [])
  else match find_store (h_stores h) id with
       | None => Done (CCrash, [])
       | Some b =>
           rbind (ri_seek fbits fuel (ri_new (br_main b)) KEY_ZERO false) (fun '(it, s1) =>
           match s1 with
           | KOk => rbind (dump_loop (S (length (br_main b))) it) (fun t => Done (cok, t))
           | e => Done (CFails (kst e), [])
           end)
       end).

(* 737-768 of RunCommands, the replica open. help, version, repair, test and init
   come before: they do not open the replica of the directory. *)
Definition quiet (h : host) (r : res cstatus) : res (host * cstatus * bytes) := rbind r (fun s => Done (h, s, [])).
Definition loud (h : host) (r : res (cstatus * bytes)) : res (host * cstatus * bytes) := rbind r (fun '(s, o) => Done (h, s, o)).
Definition acting (r : res (host * cstatus)) : res (host * cstatus * bytes) := rbind r (fun '(h, s) => Done (h, s, [])).
Definition command (h : host) (i : invocation) : res (host * cstatus * bytes) :=
  match i_args i with
  | [] => Done (h, cok, [])
  | verb :: args =>
      let rs := i_readings i in
      let is w := bytes_eqb verb w in
      if is W_create then acting (cmd_create h rs (i_random i) args)
      else if is W_fork then acting (cmd_fork h rs (i_random i) args)
      else if is W_now then
        let '(now, u) := clock_now (uorigin (h_active h)) (h_now h) (hd 0 rs) 0 in
        Done (mkHost now (h_active h) (h_open h) (h_stores h), CSays u, [])
      else if is W_dump then loud h (cmd_dump h args)
      else if is W_get then loud h (cmd_get h rs args)
      else if is W_new then quiet h (cmd_new h args)
      else if is W_list then loud h (cmd_list h args)
      else if is W_named then loud h (cmd_named h args)
      else if is W_name then acting (cmd_name h rs args)
      else if is W_write then acting (cmd_write h rs (i_file i) args)
      else if is W_recall then loud h (cmd_recall h args)
      else if is W_hop then acting (cmd_hop h rs args)
      else if is W_drop then acting (cmd_drop h args)
      else if is W_on then quiet h (cmd_on h)
      else Done (h, CFails RBadArgs, [])
  end.
(* 694-701 OpenReplica, 703-773 RunCommands in the directory of a replica. The
   families are opened in any order; here it is that of the list. *)
Definition cli (fs : list (uuid * family)) (i : invocation) : res proc :=
  match i_args i with
  | [] => Done (mkProc fs cok [] 0)
  | _ =>
      rbind (h_reopen fbits fuel (shut fs)) (fun '(h, s) =>
      if negb (is_ok s) then Done (mkProc (left_by h) (CFails s) [] (h_now h))
      else rbind (command h i) (fun '(h1, c, out) => Done (mkProc (left_by h1) c out (h_now h1))))
  end.
(* 147-152 CommandInit in an empty directory *)
Definition init (reading : N) : res (list (uuid * family) * rstatus) :=
  rbind (h_new sha fbits fuel reading) (fun '(h, s) => Done (left_by h, s)).
End Cli.
