(* What an index over an LWW object is supposed to give. *)
From Verif Require Import Prelude UuidModel KeyModel CodecModel TextModel TextSpec BuilderSpec MergeModel LwwObjModel.

(* the op sets the field k to v; further values do not matter *)
Definition sets (u : uop) (k : uuid) (v : value) : Prop := exists r, u_vals u = VUuid k :: v :: r.
(* of all the ops W that set the field, the newest one sets it to v *)
Definition field (W : list uop) (k : uuid) (v : value) : Prop :=
  exists u, In u W /\ sets u k v /\ forall u' v', In u' W -> sets u' k v' -> u' = u \/ uuid_ltb (u_id u') (u_id u) = true.
(* the last op in the order of a frame that sets the field sets it to v *)
Definition last_sets (ops : list rop) (k : uuid) (v : value) : Prop :=
  exists a o b r, ops = a ++ o :: b /\ r_vals o = VUuid k :: v :: r /\ forall o' v' r', In o' b -> r_vals o' <> VUuid k :: v' :: r'.
Definition never_set (ops : list rop) (k : uuid) : Prop := forall o v r, In o ops -> r_vals o <> VUuid k :: v :: r.
(* 64 bits read as a signed integer *)
Definition signed (w : N) : Z := if w <? 2 ^ 63 then Z.of_N w else (Z.of_N w - 2 ^ 64)%Z.
(* what an index answers about a field with the value v; fbits gives the bits of
   a float as it is written *)
Definition tells (fbits : bytes -> N) (o : lobj) (k : uuid) (v : value) : Prop :=
  (match v with VUuid u => obj_uuid o k = u | _ => obj_uuid o k = NIL end) /\
  (match v with VFloat t => obj_number o k = Some (signed (fbits t)) | _ => obj_number o k = None end) /\
  (forall cps, v = VStr (Some cps) -> obj_string o k = Done (flat_map utf8append cps)) /\
  ((forall s, v <> VStr s) -> obj_string o k = Aborted).
Definition silent (o : lobj) (k : uuid) : Prop := obj_uuid o k = NIL /\ obj_number o k = None /\ obj_string o k = Aborted.
