(* What the state of a text object is supposed to be. *)
From Verif Require Import Prelude UuidModel KeyModel TextModel TextSpec BuilderSpec MergeModel MergeSpec TextMergeSpec RocksModel ReplicaSpec DurableSpec YarnSpec.

(* T is a tree of the events that belong to the object o, each once *)
Definition tree_of (all : list uop) (o t : uuid) (T : tree) : Prop :=
  causal T /\ NoDup (ids (listing T)) /\ forall v, In v (map bare (listing T)) <-> belongs all v o t.
(* the text of a merged tree: the ops in the order of the listing, in one chunk;
   the characters that continue one another are written in spans *)
Definition told (f : bytes) (us : list uop) : Prop :=
  frame_marked canon f (chunk_of us) (in_runs origin_op (map UAppend us ++ [UEnd RAW])).
(* what a cell can be read with: the merge of one, two or three frames *)
Definition in_three (c : cell) : Prop := ce_operands c = [] \/ (length (held (ce_value c) ++ ce_operands c) <= 3)%nat.
(* events that can be put into one tree with the root r *)
Definition grown (us : list uop) (r : uop) : Prop :=
  NoDup (map u_id us) /\ In r us /\
  (forall u v, In u us -> In v us -> u_ref u = u_id v -> uuid_ltb (u_id v) (u_id u) = true) /\
  (forall u, In u us -> u = r \/ uuid_ltb (u_id r) (u_id u) = true /\ exists v, In v us /\ u_id v = u_ref u).
(* the events in the chains stored under the object o, as told by the records of
   the chains; at most one chain in a step *)
Definition stored_text (hss : list (list chain)) (o : uuid) : list uop := says_ops (filed (key_of o RGA_RDT_FORM) (concat hss)).
Definition one_a_step (hss : list (list chain)) (o : uuid) : Prop := Forall (fun hs => (length (filed (key_of o RGA_RDT_FORM) hs) <= 1)%nat) hss.
