(* What names are supposed to mean. *)
From Verif Require Import Prelude UuidModel KeyModel CodecModel TextModel TextSpec BuilderSpec MergeModel MergeTextModel StoreModel RocksModel ClockModel ReplicaModel BranchModel
  DurableSpec NamesModel.

(* the op gives the name n to v *)
Definition gives (u : uop) (n v : uuid) : Prop := u_vals u = [VUuid n; VUuid v].
(* of all the ops W that give the name to something, the last one gives it to v *)
Definition current (W : list uop) (n v : uuid) : Prop :=
  exists u, In u W /\ gives u n v /\ forall u' v', In u' W -> gives u' n v' -> u' = u \/ uuid_ltb (u_id u') (u_id u) = true.

(* the assignments of a history in the yarn of id, by the clock *)
Definition assignment (active : N) (id : uuid) (now : N) (readings : list N) (n v : uuid) : uop :=
  mkUop (snd (clock_now active now (hd 0 readings) (uorigin id))) NIL [VUuid n; VUuid v].
Definition assigned (active : N) (id : uuid) (es : list nevent) : list uop :=
  flat_map (fun e => match e with NBranch _ => [] | NName now rs n v => [assignment active id now rs n v] end) es.
(* the rest of a history *)
Fixpoint others (es : list nevent) (ss : list rstatus) : list (bevent * rstatus) :=
  match es, ss with
  | NBranch e :: es', s :: ss' => (e, s) :: others es' ss'
  | NName _ _ _ _ :: es', _ :: ss' => others es' ss'
  | _, _ => []
  end.
