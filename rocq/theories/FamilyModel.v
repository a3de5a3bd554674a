(* The names of column families: db/rocks_store.cc:131-157 Create,
   db/rocks_store.cc:319-353 OpenAll. HostModel has families under the ids of
   their stores; in the database they have names. *)
From Verif Require Import Prelude UuidModel CodecModel BranchModel RocksModel HostModel.

(* rocksdb::kDefaultColumnFamilyName: default *)
Definition DEFAULT_NAME : bytes := [100; 101; 102; 97; 117; 108; 116].
(* db/rocks_store.cc:145-150: the family of NIL is the default one *)
Definition family_name (id : uuid) : bytes := if uuid_eqb id NIL then DEFAULT_NAME else write_uuid id.
(* db/rocks_store.cc:345-347 *)
Definition family_id (name : bytes) : uuid := if bytes_eqb name DEFAULT_NAME then NIL else parse_uuid name.

(* a database: its families by their names *)
Definition database : Type := list (bytes * family).
(* what a replica leaves in the database *)
Definition on_disk (l : list (uuid * branch)) : database := map (fun p => (family_name (fst p), br_main (snd p))) l.
(* db/rocks_store.cc:343-350; emplace keeps the first of two stores with one id *)
Fixpoint emplace_all (seen : list uuid) (db : database) : list (uuid * family) :=
  match db with
  | [] => []
  | (n, d) :: r => let id := family_id n in
                   if existsb (uuid_eqb id) seen then emplace_all seen r else (id, d) :: emplace_all (id :: seen) r
  end.
Definition opened (db : database) : list (uuid * family) := emplace_all [] db.
(* rocksdb::DB::CreateColumnFamily: a name in use is refused *)
Definition db_create (db : database) (name : bytes) (d : family) : option database :=
  if existsb (fun p => bytes_eqb (fst p) name) db then None else Some (db ++ [(name, d)]).
(* rocksdb::DB::DropColumnFamily: the default family is not dropped *)
Definition db_drop (db : database) (name : bytes) : option database :=
  if bytes_eqb name DEFAULT_NAME then None else Some (filter (fun p => negb (bytes_eqb (fst p) name)) db).
