(* Test scripts: swarmdb test, db/main.cc:234-303, 719-730. The reports on the
   standard error stream are left out. *)
From Verif Require Import Prelude UuidModel KeyModel CodecModel TextTable TextModel MergeModel MergeTextModel StoreModel RocksModel
  ClockModel ReplicaModel BranchModel AnswerModel ForkModel HostModel CompareModel.

Section Script.
Variable sha : bytes -> bytes.
Variable fbits : bytes -> N.
Variable fuel : nat.

(* ron/text.hpp:346 empty *)
Definition b_empty (b : builder) : bool := match b_data b with [] => true | _ => false end.
(* db/main.cc:238-239 *)
Definition heads (c : cursor) : bool := uuid_eqb (text_id c) COMMENT && ((c_term c =? HEADER) || (c_term c =? QUERY)).
(* db/main.cc:234-250 SplitTests: c is the cursor, b the builder, which goes on
   after Release. Next fails at the end or at a syntax error. *)
Fixpoint split_loop (n : nat) (c : cursor) (b : builder) : res (list bytes) :=
  match n with
  | O => Fuel
  | S k =>
      match next c with
      | NAbort => Aborted
      | NEnd _ | NBad _ => Done (if b_empty b then [] else [fst (release b)])
      | NOk c' =>
          let cut := heads c' && negb (b_empty b) in
          match append_op (wop_of_cursor c') (if cut then snd (release b) else b) with
          | None => Aborted
          | Some b1 =>
              match (if c_term c' =? REDUCED then Some b1 else end_chunk (c_term c') b1) with
              | None => Aborted
              | Some b2 => rbind (split_loop k c' b2) (fun r => Done (if cut then fst (release b) :: r else r))
              end
          end
      end
  end.
Definition split_tests (script : bytes) : res (list bytes) := split_loop fuel (cursor_of script) builder0.

(* db/replica.hpp:397-404 ReceiveFrame, db/replica.cc:696-752 Receive: HostModel
   h_receive, and what is appended to the response *)
Definition h_ask (h : host) (readings : list N) (yarn : N) (frame : bytes) : res (host * rstatus * list bcmd) :=
  match next (cursor_of frame) with
  | NAbort => Aborted
  | NEnd _ | NBad _ => Done (h, ROk, [])
  | NOk _ =>
      if negb (h_open h) then Done (h, RNotOpen, [])
      else match find_store (h_stores h) (branch_id yarn) with
           | None => Done (h, RNotFound, [])
           | Some b =>
               rbind (answer_frame sha fbits family (b_jread fbits fuel) (b_jprev fbits fuel) b_write b_batch (uorigin (h_active h)) fuel
                        (br_main b) (h_now h) readings (br_tip b) frame) (fun '(d, now, s, a) =>
               Done (mkHost now (h_active h) true (put_store (h_stores h) (branch_id yarn) (mkBranch d (br_tip b))), s, a))
           end
  end.

(* the status of CommandTest: of a call, of a comparison, or BADFRAME *)
Inductive tstatus : Set := TOk | TRefused (s : rstatus) | TDiffers (s : cstatus) | TBadHeader.
(* "test" as a yarn, db/main.cc:258 *)
Definition TEST_YARN : N := 1020592531424935936.

(* db/main.cc:267-301: the parts one by one, b is the response; readings: of the
   clock, for each call of ReceiveFrame. A part that has no op: undefined. *)
Fixpoint test_loop (h : host) (b : builder) (readings : list (list N)) (parts : list bytes) : res (host * tstatus) :=
  match parts with
  | [] => Done (h, TOk)
  | f :: r =>
      match next (cursor_of f) with
      | NAbort | NEnd _ | NBad _ => Aborted
      | NOk c =>
          if negb (uuid_eqb (text_id c) COMMENT) then Done (h, TBadHeader)
          else match next c with
               | NAbort => Aborted
               | _ =>
                   if c_term c =? QUERY then
                     rbind (compare_frames fbits fuel (fst (release b)) f) (fun s =>
                     match s with COk => test_loop h builder0 readings r | _ => Done (h, TDiffers s) end)
                   else if (c_term c =? HEADER) || (c_term c =? RAW) then
                     rbind (h_ask h (hd [] readings) TEST_YARN f) (fun '(h1, s, a) =>
                     match build_from b a with
                     | None => Aborted
                     | Some b1 => if is_ok s then test_loop h1 b1 (tl readings) r else Done (h1, TRefused s)
                     end)
                   else Done (h, TBadHeader)
               end
      end
  end.
(* db/main.cc:256-303 CommandTest; rc, ra: the readings of CreateBranch and of
   SetActiveStore *)
Definition command_test (h : host) (rc ra : list N) (readings : list (list N)) (script : bytes) : res (host * tstatus) :=
  rbind (h_create sha fbits fuel h rc TEST_YARN true) (fun '(h1, s1) =>
  if negb (is_ok s1) then Done (h1, TRefused s1)
  else rbind (h_activate h1 ra (branch_id TEST_YARN)) (fun '(h2, s2) =>
       if negb (is_ok s2) then Done (h2, TRefused s2)
       else rbind (split_tests script) (fun parts => test_loop h2 builder0 readings parts))).
(* db/main.cc:726-729: in a replica made in a directory of its own *)
Definition test (reading : N) (rc ra : list N) (readings : list (list N)) (script : bytes) : res tstatus :=
  rbind (h_new sha fbits fuel reading) (fun '(h, s) =>
  if negb (is_ok s) then Done (TRefused s)
  else rbind (h_reopen fbits fuel (h_restart h)) (fun '(h1, s1) =>
       if negb (is_ok s1) then Done (TRefused s1)
       else rbind (command_test h1 rc ra readings script) (fun '(_, t) => Done t))).
End Script.
