(* What the branch is supposed to know of yarns and objects. A yarn: the events
   with one origin, that is, of one author. *)
From Coq Require Import Sorted.
From Verif Require Import Prelude UuidModel KeyModel CodecModel TextModel TextSpec BuilderSpec MergeModel MergeTextModel
  TextMergeSpec StoreModel RocksModel MetaModel ClockModel ReplicaModel ReplicaSpec BranchModel BranchSpec DurableSpec.

(* u is stored before v: if both are of one yarn, u is earlier *)
Definition turn (u v : uop) : Prop := uorigin (u_id u) = uorigin (u_id v) -> uuid_ltb (u_id u) (u_id v) = true.
Definition in_turn (us : list uop) : Prop := StronglySorted turn us.

(* following the references from u, among the events us, one gets to the event
   that created the object obj with the type rdt *)
Inductive belongs (us : list uop) : uop -> uuid -> uuid -> Prop :=
| bl_root u : In u us -> version (u_ref u) = NAME -> belongs us u (u_id u) (u_ref u)
| bl_next u v obj rdt : In u us -> version (u_ref u) = TIME -> u_id v = u_ref u -> belongs us v obj rdt -> belongs us u obj rdt.

(* Events that come before the end of time and do not create objects of the
   types that are the store's own: log, tail, patch, span, chain, graph, meta.
   The id of a created object does not look like a number when it is written
   down as a value: 1e+5 does. *)
Definition calm (us : list uop) : Prop :=
  Forall (fun u => uvalue (u_id u) < NEVER_W) us /\
  Forall (fun u => version (u_ref u) = NAME ->
    (uuid2form (u_ref u) < LOG_RAW_FORM \/ META_META_FORM < uuid2form (u_ref u)) /\ ~ float_like (write_uuid (u_id u))) us.

(* a frame with at most one event *)
Definition solo (frame : bytes) : Prop :=
  forall l1 c l2 d l3, ops_of frame (l1 ++ c :: l2 ++ d :: l3) -> stamped c -> stamped d -> False.
(* a frame in which an event that opens the yarn of an author comes before the
   other events of that author *)
Definition opens_first (frame : bytes) : Prop :=
  forall l1 c l2 d l3, ops_of frame (l1 ++ c :: l2 ++ d :: l3) -> stamped c -> stamped d -> text_ref d = YARN_FORM_UUID -> uorigin (text_id c) <> uorigin (text_id d).

(* hss: for each step in the life of the branch, the chains stored in it, none or
   those of the frame it accepts; their heads are events *)
Definition stored_of (es : list bevent) (ss : list rstatus) (hss : list (list chain)) : Prop :=
  Forall2 (fun x hs => hs = [] \/ exists now rs f, x = (BReceive now rs f, ROk) /\ chains_of f hs /\ Forall (fun h => version (ch_id h) = TIME) hs) (combine es ss) hss.
(* the types whose values are merged by the ids of the events *)
Definition plain_type (rdt : uuid) : Prop := In (uuid2form rdt) [LWW_RDT_FORM; MX_RDT_FORM; YARN_RAW_FORM].
(* all the objects created by the events us are of such types *)
Definition plain_objects (us : list uop) : Prop := Forall (fun u => version (u_ref u) = NAME -> plain_type (u_ref u)) us.
(* The chains of a frame: one that opens the yarn of an author comes before the
   other chains of that author, and all but the last chain are of objects of such
   types, if not all the objects are. So it is with any frame that is stored as
   one chain. us: the events known. *)
Definition apart (us : list uop) (hs : list chain) : Prop :=
  (forall a g b h c, hs = a ++ g :: b ++ h :: c -> text_ref (ch_head h) = YARN_FORM_UUID -> uorigin (ch_id g) <> uorigin (ch_id h)) /\ (Forall (fun h => plain_type (ch_rdt h)) (removelast hs) \/ plain_objects us).
