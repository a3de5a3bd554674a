(* What a fork is supposed to have of the original. *)
From Verif Require Import Prelude UuidModel KeyModel CodecModel TextModel MergeModel StoreModel StoreSpec RocksModel BranchModel.

(* The records in turn, each with the text that a read gives; the first one that
   cannot be merged and all after it are left out. *)
Inductive copies (fbits : bytes -> N) (fuel : nat) (orig : family) : family -> list (key * bytes) -> Prop :=
| copies_end : copies fbits fuel orig [] []
| copies_stop k c rest : cell_get fbits fuel k c = Done GFail -> copies fbits fuel orig ((k, c) :: rest) []
| copies_more k c rest f l : rocks_read fbits fuel orig k = Done (f, KOk) -> copies fbits fuel orig rest l ->
    copies fbits fuel orig ((k, c) :: rest) ((k, f) :: l).
(* all records up to the key can be merged *)
Definition readable_to (fbits : bytes -> N) (fuel : nat) (orig : family) (k : key) : Prop :=
  forall k1 c, In (k1, c) orig -> key_lt k k1 \/ cell_get fbits fuel k1 c <> Done GFail.
