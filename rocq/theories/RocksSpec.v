(* Specification of the RocksDB store: what has been written under a key, and
   what the frames of the three kinds of forms add up to. *)
From Coq Require Import Sorted.
From Verif Require Import Prelude UuidModel KeyModel CodecModel TextModel TextSpec BuilderSpec MergeModel MergeSpec MergeTextModel
  TextMergeSpec StoreSpec RocksModel.

(* Write refuses a frame for Key::END, a batch does not *)
Definition accepted_by (e : revent) : list (key * bytes) :=
  match e with
  | RWrite k f => if key_eqb k KEY_END then match f with [] => [(k, f)] | _ => [] end else [(k, f)]
  | RBatch l => l
  | RCompact _ _ => []
  end.
Definition accepted (es : list revent) : list (key * bytes) := flat_map accepted_by es.
(* the frames written under a key, oldest first *)
Definition put_under (k : key) (es : list revent) : list bytes := contents (accepted es) k.

(* keys are kept in order, once each *)
Definition in_order (d : list (key * cell)) : Prop := StronglySorted (fun a b => key_lt (fst a) (fst b)) d.

(* the last frame that has ops *)
Definition newest (ds : list (list rop)) : list rop := last (filter (fun l => match l with [] => false | _ => true end) ds) [].
(* no two of the ops share a span *)
Definition spanless (U : list uop) : Prop := forall a b, In a U -> In b U -> continues a b = false.
(* the ops written are distinct by id and can be written one after another, and
   there are not too many of them: the text of all of them stays below 4 GB *)
Definition union_bound (fuel : nat) (W : list (list rop)) : Prop :=
  mergeable (map bare (concat W)) /\ (length (concat W) <= fuel)%nat /\ N.of_nat (length (concat W)) < 2 ^ 32 - 1 /\
  N.of_nat (room (map bare (concat W))) < 2 ^ 32.
Definition log_bound (fuel : nat) (W : list (list rop)) : Prop :=
  mergeable (map bare (concat W)) /\ spanless (map bare (concat W)) /\ (length (concat W) < fuel)%nat /\ 2 * N.of_nat (length (concat W)) < 2 ^ 32 /\
  N.of_nat (room (map bare (concat W))) < 2 ^ 32.

(* iteration: a key and what a read of it returns *)
Definition shown_value (fbits : bytes -> N) (fuel : nat) (d : list (key * cell)) (r : key * got) : Prop :=
  exists f, snd r = GValue f /\ rocks_read fbits fuel d (fst r) = Done (f, KOk).
(* an iterator placed on the best of the keys that are ok: on none, on the key
   with its value, or off the keys with DB_FAIL if the value cannot be had *)
Definition landed (fbits : bytes -> N) (fuel : nat) (d : list (key * cell)) (it : riter) (s : kstatus) (ok best : key -> Prop) : Prop :=
  (s = KOk /\ ri_key it = KEY_END /\ forall y, In y (map fst d) -> ~ ok y) \/
  exists x, In x (map fst d) /\ ok x /\ best x /\
    ((s = KOk /\ ri_key it = x /\ exists f, ri_value fbits fuel it = Done (GValue f) /\ cell_get fbits fuel x (cell_at d x) = Done (GValue f)) \/
     (s = KDbFail /\ ri_key it = KEY_END /\ cell_get fbits fuel x (cell_at d x) = Done GFail)).
