(* What slices are for: a slice is a view of some bytes of the memory. *)
From Verif Require Import Prelude MergeModel SliceModel.

(* s shows the bytes bs of mem *)
Definition shows (mem : bytes) (s : slice) (bs : bytes) : Prop :=
  exists pre post, mem = pre ++ bs ++ post
    /\ N.of_nat (length pre) = s_buf s + r_lo (s_range s)
    /\ r_lo (s_range s) + N.of_nat (length bs) = r_hi (s_range s)
    /\ r_hi (s_range s) < 2 ^ 32.
(* and the bytes a before it, from the start of its buffer *)
Definition cut_in (mem : bytes) (s : slice) (a bs : bytes) : Prop :=
  exists pre post, mem = pre ++ a ++ bs ++ post
    /\ N.of_nat (length pre) = s_buf s
    /\ N.of_nat (length a) = r_lo (s_range s)
    /\ r_lo (s_range s) + N.of_nat (length bs) = r_hi (s_range s)
    /\ r_hi (s_range s) < 2 ^ 32.

(* moving the cut between the bytes passed and the bytes left *)
Inductive moved : move -> bytes -> bytes -> bytes -> bytes -> Prop :=
| moved_eat n a x y : N.of_nat (length x) = n -> moved (Eat n) a (x ++ y) (a ++ x) y
| moved_step a x y : moved Step a (x :: y) (a ++ [x]) y
| moved_stop o a x y : N.of_nat (length a + length x) = o -> moved (Stop o) a (x ++ y) a x
| moved_fit n a x y : N.of_nat (length x) = n -> moved (Fit n) a (x ++ y) a x.
Inductive moves_to : list move -> bytes -> bytes -> bytes -> bytes -> Prop :=
| moves_none a b : moves_to [] a b a b
| moves_more m ms a b a1 b1 a2 b2 : moved m a b a1 b1 -> moves_to ms a1 b1 a2 b2 -> moves_to (m :: ms) a b a2 b2.
