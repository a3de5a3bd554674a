(* ron/frames.hpp:104-120 Reserialize: ops copied from cursors to frames. *)
From Verif Require Import Prelude UuidModel CodecModel TextModel MergeModel MergeTextModel.

(* lines 110-113, the do-while loop: the calls on the builder and whether it
   ended with ENDOFFRAME. AppendOp asks for the id and the reference of the op,
   which asserts that there are two atoms (ron/text.hpp:121-122) *)
Fixpoint reser_loop (fuel : nat) (c : cursor) : res (list (mcall cursor) * bool) :=
  match fuel with
  | O => Fuel
  | S f =>
      if Nat.ltb (length (c_op c)) 2 then Aborted
      else match next c with
           | NOk c' => rbind (reser_loop f c') (fun '(r, e) => Done (MAppend c :: r, e))
           | NEnd _ => Done ([MAppend c], true)
           | NBad _ => Done ([MAppend c], false)
           | NAbort => Aborted
           end
  end.
(* Reserialize: the frames, and whether the status is OK *)
Fixpoint reserialize (fuel : nat) (cs : list cursor) : res (list bytes * bool) :=
  match cs with
  | [] => Done ([], true)
  | c :: r =>
      rbind (reser_loop fuel c) (fun '(calls, e) =>
      if (e : bool) then match build (bcalls calls) with
                         | None => Aborted
                         | Some t => rbind (reserialize fuel r) (fun '(ts, ok) => Done (t :: ts, ok))
                         end
      else Done ([], false))
  end.
