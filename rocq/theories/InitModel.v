(* init in the directory of a replica: db/main.cc:147-152 CommandInit, db/replica.cc:15-34
   CreateReplica. The check of CommandInit never holds: the command is run before
   OpenReplica (db/main.cc:730-736). *)
From Verif Require Import Prelude UuidModel KeyModel TextModel MergeModel MergeTextModel StoreModel
  RocksModel MetaModel ClockModel ReplicaModel BranchModel HostModel.

Section Init.
Variable sha : bytes -> bytes.
Variable fbits : bytes -> N.
Variable fuel : nat.

(* db/replica.cc:18-33 over a database of the default family d alone:
   db/rocks_store.cc:127-157 Create opens it as it is (error_if_exists is false)
   and writes a tip record. The status of Open and that of SaveChain are ignored. *)
Definition create_over (d : family) (reading : N) : res (family * rstatus) :=
  match one_op NIL ZERO_FORM_UUID [] with
  | None => Aborted
  | Some f0 =>
      rbind (b_write d KEY_ZERO f0) (fun '(d1, s) =>
      if negb (is_ok s) then Done (d1, s)
      else rbind (h_reopen fbits fuel (mkHost 0 NIL false [(NIL, mkBranch d1 NIL)])) (fun '(h, _) =>
           match find_store (h_stores h) NIL, one_op (uuid_time reading 0) YARN_FORM_UUID [] with
           | Some b, Some f =>
               rbind (next_any (cursor_of f)) (fun c =>
               rbind (save_chain sha fbits family (b_jread fbits fuel) (b_jprev fbits fuel) fuel (commit_on family (br_main b) (h_now h) [] (br_tip b)) c) (fun '(st, _, _) =>
               rbind (save family b_batch st) (fun '(st2, s2) => Done (s_main family st2, s2))))
           | _, _ => Aborted
           end))
  end.
(* the command. RocksDB does not open a database for writing with less than all of
   its families (db/rocks_store.cc:137-141: only the default one is named). *)
Definition init_over (fs : list (uuid * family)) (reading : N) : res (list (uuid * family) * rstatus) :=
  match fs with
  | [(id, d)] => if uuid_eqb id NIL then rbind (create_over d reading) (fun '(d', s) => Done ([(id, d')], s)) else Done (fs, RDbFail)
  | _ => Done (fs, RDbFail)
  end.
End Init.
