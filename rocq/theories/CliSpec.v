(* What the program swarmdb is supposed to do. *)
From Verif Require Import Prelude UuidModel KeyModel CodecModel TextModel TextSpec MergeModel MergeTextModel StoreModel
  RocksModel ClockModel ReplicaModel ReplicaSpec BranchModel BranchSpec ForkModel HostModel HostSpec NamesModel CliModel.

(* ---- the kind of a name, by its letters ---- *)
Definition capital (c : N) : Prop := 65 <= c <= 90 \/ c = 126.
Definition small_letter (c : N) : Prop := c = 95 \/ 97 <= c <= 122.
Inductive kind (t : bytes) : N -> Prop :=
| kind_numeric : ~ Exists capital t -> ~ Exists small_letter t -> kind t NUMERIC
| kind_snake : ~ Exists capital t -> Exists small_letter t -> kind t SNAKE
| kind_caps : Exists capital t -> ~ Exists small_letter t -> kind t CAPS
| kind_camel : Exists capital t -> Exists small_letter t -> kind t CAMEL.

(* ---- the database between two commands ---- *)
Notation world := (list (uuid * family)).
(* every store has its last event on record, of its own yarn; the store of the
   metadata is there, a branch of the yarn 0 is not *)
Definition world_ok (fs : world) : Prop := sound (shut fs) [] /\ ~ In (branch_id 0) (map fst fs).
(* what is asked of a process: the system clock before NEVER, a random yarn that
   is not 0; and its own clock stays before NEVER *)
Definition calm (i : invocation) (p : proc) : Prop := early (i_readings i) /\ 0 < i_random i < 2 ^ 60 /\ p_clock p < NEVER_W.
Definition succeeds (s : cstatus) : Prop := match s with CSays _ => True | _ => False end.
(* all the records but those of the keys ks are the same *)
Definition same_but (ks : list key) (d d' : family) : Prop := forall k, ~ In k ks -> cell_at d' k = cell_at d k.

(* the commands that write *)
Definition changes (i : invocation) : bool :=
  match i_args i with [] => false | verb :: _ => existsb (bytes_eqb verb) [W_create; W_drop; W_hop; W_name] end.

Section Cli.
Variable sha : bytes -> bytes.
Variable fbits : bytes -> N.
Variable fuel : nat.
Variable order : list (uuid * uuid) -> list (uuid * uuid).
Notation cli := (cli sha fbits fuel order).

(* the names in the store of the metadata, as ReadNames gives them (C50) *)
Definition meta_names (fs : world) (l : list (uuid * uuid)) : Prop :=
  exists d, In (NIL, d) fs /\ b_names fbits fuel (mkBranch d NIL) = Done (l, ROk).
(* what a word stands for: an id, or a name given before *)
Inductive means (fs : world) (w : bytes) : uuid -> Prop :=
| means_id : version (parse_uuid w) <> NAME \/ parse_uuid w = NIL -> means fs w (parse_uuid w)
| means_name l id : version (parse_uuid w) = NAME -> parse_uuid w <> NIL -> meta_names fs l -> names_get l (parse_uuid w) = Some id -> means fs w id.

(* what a command may do to the database: nothing if it fails, or if it is not
   one of four *)
Inductive effect (fs : world) (i : invocation) : cstatus -> world -> Prop :=
| ef_none s : (succeeds s -> changes i = false) -> effect fs i s fs
| ef_create args fs' : i_args i = W_create :: args -> ~ In (branch_id (i_random i)) (map fst fs) ->
    map fst fs' = map fst fs ++ [branch_id (i_random i)] ->
    (forall id d, id <> NIL -> In (id, d) fs -> In (id, d) fs') ->
    (forall d, In (NIL, d) fs -> exists d', In (NIL, d') fs' /\ same_but [ACTIVE_KEY; NAMES_KEY] d d') ->
    effect fs i (CSays (branch_id (i_random i))) fs'
| ef_drop w args l1 id d l2 : i_args i = W_drop :: w :: args -> means fs w id -> id <> NIL -> fs = l1 ++ (id, d) :: l2 -> effect fs i cok (l1 ++ l2)
| ef_hop args l1 d d' l2 : i_args i = W_hop :: args -> fs = l1 ++ (NIL, d) :: l2 -> same_but [ACTIVE_KEY] d d' -> effect fs i cok (l1 ++ (NIL, d') :: l2)
| ef_name x n tail l1 id d d' l2 u : i_args i = W_name :: x :: W_as :: n :: tail ->
    (tail = [] /\ id = NIL \/ exists w, tail = [W_on; w] /\ means fs w id) ->
    fs = l1 ++ (id, d) :: l2 -> same_but [NAMES_KEY] d d' -> effect fs i (CSays u) (l1 ++ (id, d') :: l2).

(* ---- the commands over a database, one after another; RocksDB compacts it at
   any moment ---- *)
Inductive session : world -> list (invocation * proc) -> world -> Prop :=
| ses_end fs : session fs [] fs
| ses_run fs i p r fs' : cli fs i = Done p -> session (p_families p) r fs' -> session fs ((i, p) :: r) fs'
| ses_compact fs id k e h s r fs' : h_compact fbits fuel (shut fs) id k e = Done (h, s) -> session (left_by h) r fs' -> session fs r fs'.

(* the same without compactions *)
Inductive runs : world -> list (invocation * proc) -> world -> Prop :=
| runs_end fs : runs fs [] fs
| runs_more fs i p r fs' : cli fs i = Done p -> runs (p_families p) r fs' -> runs fs ((i, p) :: r) fs'.

(* the name given by a command, and what to *)
Definition says_name (i : invocation) : option (uuid * uuid) :=
  match i_args i with
  | [verb; a; n] => if bytes_eqb verb W_create && bytes_eqb a W_as then Some (parse_uuid n, branch_id (i_random i)) else None
  | [verb; x; a; n] => if bytes_eqb verb W_name && bytes_eqb a W_as then Some (parse_uuid n, parse_uuid x) else None
  | [verb; x; a; n; o; b] =>
      if bytes_eqb verb W_name && bytes_eqb a W_as && bytes_eqb o W_on && uuid_eqb (parse_uuid b) NIL then Some (parse_uuid n, parse_uuid x) else None
  | _ => None
  end.
Definition given (x : invocation * proc) : option (uuid * uuid) := match p_status (snd x) with CSays _ => says_name (fst x) | _ => None end.
Fixpoint last_given (n : uuid) (l : list (invocation * proc)) : option uuid :=
  match l with
  | [] => None
  | x :: r =>
      match last_given n r, given x with
      | Some v, _ => Some v
      | None, Some (m, v) => if uuid_eqb m n then Some v else None
      | None, None => None
      end
  end.
(* each process begins two ticks or more after the clocks of all those before it *)
Definition spaced (l : list (invocation * proc)) : Prop := ForallOrdPairs (fun a b => p_clock (snd a) + 1 < hd 0 (i_readings (fst b))) l.
(* the texts of the name and the value are not numbers with an exponent (C16) *)
Definition no_numbers (x : invocation * proc) : Prop :=
  match given x with Some (n, v) => ~ float_like (write_uuid n) /\ ~ float_like (write_uuid v) | None => True end.
End Cli.
