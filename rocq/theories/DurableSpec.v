(* What a branch is supposed to keep of the events it has accepted. *)
From Verif Require Import Prelude UuidModel KeyModel CodecModel TextModel TextSpec BuilderSpec MergeModel MergeSpec MergeTextModel
  TextMergeSpec StoreModel RocksModel RocksSpec MetaModel ClockModel ReplicaModel ReplicaSpec BranchModel BranchSpec.

(* an op of a frame that is an event with its author, not a query *)
Definition event_op (o : rop) : bool :=
  (version (r_id o) =? TIME) && negb (payload (uorigin (r_id o)) =? 0) && negb (r_term o =? QUERY).
(* the ops a frame says, written canonically *)
Definition frame_says (f : bytes) (d : list rop) : Prop := frame_lit canon f d /\ N.of_nat (length f) < 2 ^ 32.

(* the events of the accepted frames *)
Inductive received : list bevent -> list rstatus -> list rop -> Prop :=
| rv_none : received [] [] []
| rv_frame now rs f d es ss E : frame_says f d -> received es ss E ->
    received (BReceive now rs f :: es) (ROk :: ss) (filter event_op d ++ E)
| rv_refused now rs f s es ss E : s <> ROk -> received es ss E -> received (BReceive now rs f :: es) (s :: ss) E
| rv_open now s es ss E : received es ss E -> received (BOpen now :: es) (s :: ss) E
| rv_compact k e s es ss E : received es ss E -> received (BCompact k e :: es) (s :: ss) E.

(* hs are the chains of the frame: they have all its events and nothing else, in
   order (an event can end a chain and start the next one, but not two) *)
Definition chains_of (frame : bytes) (hs : list chain) : Prop :=
  (forall c, delivered frame c -> stamped c -> In c (flat_map ch_ops hs)) /\
  (exists l, ops_of frame l /\ subl (flat_map ch_ops hs) (twice l)) /\
  Forall (fun h => linked (ch_head h) (ch_rest h)) hs /\
  (exists l, ops_of frame l /\ subl (map ch_head hs) l).
(* What is stored because of an event in the life of the branch. o: the event
   the branch was last opened at; a frame that ends with it is not saved. *)
Definition stores (o : uuid) (e : bevent) (s : rstatus) (hs : list chain) : Prop :=
  match e, s with
  | BReceive _ _ frame, ROk =>
      (exists c, last_event frame c /\ text_id c <> o /\ chains_of frame hs) \/
      (forall c, last_event frame c -> text_id c = o) /\ hs = []
  | _, _ => hs = []
  end.
(* the chains stored in the life of the branch, oldest first; o, u: see recalls *)
Inductive keeps : uuid -> uuid -> list bevent -> list rstatus -> list chain -> Prop :=
| keeps_none o u : keeps o u [] [] []
| keeps_more o u e s o1 u1 hs es ss hs' : recalls o u e s o1 u1 -> stores o e s hs -> keeps o1 u1 es ss hs' ->
    keeps o u (e :: es) (s :: ss) (hs ++ hs').

(* the chains under a key: those of an object are under its log key and under
   its state key *)
Definition filed (k : key) (hs : list chain) : list chain :=
  flat_map (fun h => (if key_eqb (key_of (ch_obj h) LOG_RAW_FORM) k then [h] else []) ++
                     (if key_eqb (key_as (ch_obj h) (ch_rdt h)) k then [h] else [])) hs.
Definition says_ops (hs : list chain) : list uop := map (fun c => bare (rop_of c)) (flat_map ch_ops hs).

(* the records under a key are texts with these ops *)
Definition log_at (d : family) (k : key) (W : list uop) : Prop :=
  exists ds, Forall2 frame_says (held (ce_value (cell_at d k)) ++ ce_operands (cell_at d k)) ds /\ map bare (concat ds) = W.
(* the ops already in the store, W, and the events E that arrive: distinct by id,
   writable one after another, not too many. Each can be written up to four
   times: at the end of a chain, at the start of the next one, both under the
   log key and under the state key. *)
Definition keep_bound (fuel : nat) (W : list uop) (E : list rop) : Prop :=
  mergeable (W ++ map bare E) /\ (length W + 4 * length E < fuel)%nat /\
  2 * N.of_nat (length W + 4 * length E) < 2 ^ 32 /\ N.of_nat (room W + 4 * room (map bare E)) < 2 ^ 32.
(* the same for a key whose frames are merged into one sorted frame: the ops are
   the elements of W; a merged value is one sorted chunk *)
Definition state_at (d : family) (k : key) (W : list uop) : Prop :=
  exists ds, Forall2 (fun f d => frame_says f d /\ sorted_ids d) (held (ce_value (cell_at d k)) ++ ce_operands (cell_at d k)) ds /\
    (forall u, In u (map bare (concat ds)) <-> In u W) /\ (length (concat ds) <= length W)%nat /\ (room (map bare (concat ds)) <= room W)%nat /\
    (ce_value (cell_at d k) <> None -> exists us ds', ds = chunk_of us :: ds' /\ increasing_ids (chunk_of us)).
