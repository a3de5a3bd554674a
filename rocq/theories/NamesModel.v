(* Names in a branch: db/replica.cc:144-171 WriteName, ReadNames, over the
   RocksDB branches of BranchModel. *)
From Verif Require Import Prelude UuidModel KeyModel CodecModel TextModel MergeModel MergeTextModel StoreModel RocksModel ClockModel ReplicaModel BranchModel.

(* the names are in the LWW object with the id 0 *)
Definition NAMES_KEY : key := key_of NIL LWW_RDT_FORM.

Section Names.
Variable sha : bytes -> bytes.
Variable fbits : bytes -> N.
Variable active : N.
Variable fuel : nat.

(* 144-154 WriteName(key, value) in a commit on the branch, whose base_ is the
   tip of the store: straight into the store. The status returned is the id. *)
Definition b_name (b : branch) (now : N) (readings : list N) (name value : uuid) : res (branch * uuid) :=
  let id := snd (clock_now active now (hd 0 readings) (uorigin (br_tip b))) in
  match one_op id NIL [VUuid name; VUuid value] with
  | None => Aborted
  | Some f => rbind (b_write (br_main b) NAMES_KEY f) (fun '(d, s) => Done (mkBranch d (br_tip b), id))
  end.

(* typename Replica::Names, an unordered_map: a list in which only the first
   entry of a name counts *)
Notation names := (list (uuid * uuid)).
Definition names_get (l : names) (n : uuid) : option uuid := option_map snd (find (fun p => uuid_eqb (fst p) n) l).
(* 160-169: while (c.Next()); a syntax error ends the loop like the end of the
   frame *)
Fixpoint names_loop (m : nat) (c : cursor) (l : names) : res names :=
  match m with
  | O => Fuel
  | S k =>
      match next c with
      | NAbort => Aborted
      | NEnd _ | NBad _ => Done l
      | NOk c' =>
          names_loop k c' (match skipn 2 (c_op c') with
                           | [AUuid n; AUuid v] => (n, v) :: l
                           | _ => l
                           end)
      end
  end.
(* 157-171 ReadNames in a new commit: its in-memory store is empty *)
Definition b_names (b : branch) : res (names * rstatus) :=
  rbind (b_jread fbits fuel (br_main b) [] NAMES_KEY) (fun '(_, _, f, s) =>
  if negb (is_ok s) then Done ([], s)
  else rbind (names_loop fuel (cursor_of f) []) (fun l => Done (l, ROk))).

(* The life of a branch with names assigned. *)
Inductive nevent : Type :=
| NBranch (e : bevent)
| NName (now : N) (readings : list N) (name value : uuid).
Definition n_step (id : uuid) (b : branch) (e : nevent) : res (branch * rstatus) :=
  match e with
  | NBranch e => b_step sha fbits active fuel id b e
  | NName now readings n v => rbind (b_name b now readings n v) (fun '(b', _) => Done (b', ROk))
  end.
Fixpoint n_run (id : uuid) (b : branch) (es : list nevent) : res (branch * list rstatus) :=
  match es with
  | [] => Done (b, [])
  | e :: r => rbind (n_step id b e) (fun '(b1, s) => rbind (n_run id b1 r) (fun '(b2, ss) => Done (b2, s :: ss)))
  end.
End Names.
