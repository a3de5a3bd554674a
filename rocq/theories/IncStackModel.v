(* ron/inc_stack.hpp: a stack that stores runs of consecutive values as spans.
   Generic in the value type, as the template: add is operator+(len_t), eqb is
   operator==. spans_ is kept with its back at the head of the list. *)
From Verif Require Import Prelude.

Section IncStack.
Variable V : Type.
Variable add : V -> N -> V.
Variable eqb : V -> V -> bool.

(* ron/inc_stack.hpp:12-17 *)
Definition span : Type := V * N.
(* ron/inc_stack.hpp:69-70 *)
Record inc_stack : Type := mkStack { spans : list span; ssize : N }.
(* ron/inc_stack.hpp:73 *)
Definition stack0 : inc_stack := mkStack [] 0.
(* uint32_t arithmetic, ron/inc_stack.hpp:10 *)
Definition w32 (n : N) : N := n mod 2 ^ 32.
(* ron/inc_stack.hpp:77-82; None: undefined on an empty vector *)
Definition sempty (s : inc_stack) : bool := ssize s =? 0.
Definition sfront (s : inc_stack) : option V := match rev (spans s) with [] => None | (v, _) :: _ => Some v end.
Definition sback (s : inc_stack) : option V :=
  match spans s with [] => None | (v, n) :: _ => Some (add v (w32 (n + 2 ^ 32 - 1))) end.
(* ron/inc_stack.hpp:93-102 *)
Definition spush (i : V) (s : inc_stack) : inc_stack :=
  mkStack (match spans s with
           | [] => [(i, 1)]
           | (v, n) :: r => if eqb (add v n) i then (v, w32 (n + 1)) :: r else (i, 1) :: (v, n) :: r
           end) (w32 (ssize s + 1)).
(* ron/inc_stack.hpp:104-112; None: the assertion *)
Definition spop (s : inc_stack) : option inc_stack :=
  if sempty s then None
  else match spans s with
       | [] => None
       | (v, n) :: r => Some (mkStack (if n =? 1 then r else (v, w32 (n + 2 ^ 32 - 1)) :: r) (w32 (ssize s + 2 ^ 32 - 1)))
       end.

(* ron/inc_stack.hpp:21-66, 86-91: the iterator, as the spans from the current one on
   and the offset in the current one *)
Record iter : Type := mkIter { irest : list span; ioff : N }.
(* ron/inc_stack.hpp:86-91 *)
Definition sbegin (s : inc_stack) : iter := mkIter (rev (spans s)) 0.
Definition send (s : inc_stack) : iter := mkIter [] 0.
(* ron/inc_stack.hpp:29-36; None: past the end of the vector *)
Definition ideref (i : iter) : option V :=
  match irest i with [] => None | (v, _) :: _ => Some (add v (ioff i)) end.
Definition iinc (i : iter) : option iter :=
  match irest i with
  | [] => None
  | (_, n) :: r => let off := w32 (ioff i + 1) in Some (if off =? n then mkIter r 0 else mkIter (irest i) off)
  end.
(* ron/inc_stack.hpp:43-53; None: out of the vector or out of fuel *)
Fixpoint iadvance (fuel : nat) (n : N) (i : iter) : option iter :=
  if n =? 0 then Some i
  else match fuel with
       | O => None
       | S f =>
           match irest i with
           | [] => None
           | (_, k) :: r => if k <=? n then iadvance f (n - k) (mkIter r (ioff i))
                            else if n <=? N.of_nat (length (irest i))
                                 then Some (mkIter (skipn (N.to_nat n) (irest i)) (ioff i))
                                 else None
           end
       end.
(* ron/inc_stack.hpp:54-65 *)
Definition iskip (max : N) (i : iter) : option (N * iter) :=
  match irest i with
  | [] => None
  | (v, n) :: r => if w32 (ioff i + max) <? n then Some (max, mkIter (irest i) (w32 (ioff i + max)))
                   else Some (w32 (n + 2 ^ 32 - ioff i), mkIter r 0)
  end.
End IncStack.
Arguments mkStack {V} spans ssize.
Arguments spans {V} _.
Arguments ssize {V} _.
Arguments stack0 {V}.
Arguments mkIter {V} irest ioff.
Arguments irest {V} _.
Arguments ioff {V} _.

(* the operations on a stack *)
Inductive stack_op (V : Type) : Type := SPush (v : V) | SPop.
Arguments SPush {V} v.
Arguments SPop {V}.
Definition srun (V : Type) (add : V -> N -> V) (eqb : V -> V -> bool) (ops : list (stack_op V)) : option (inc_stack V) :=
  fold_left (fun s o => match s with
                        | None => None
                        | Some s => match o with SPush v => Some (spush V add eqb v s) | SPop => spop V s end
                        end) ops (Some stack0).
(* reading a stack from the start: dereference and increment until end() *)
Fixpoint iread (V : Type) (add : V -> N -> V) (fuel : nat) (i : iter V) : option (list V) :=
  match irest i with
  | [] => Some []
  | _ => match fuel with
         | O => None
         | S f => match ideref V add i, iinc V i with
                  | Some v, Some j => option_map (cons v) (iread V add f j)
                  | _, _ => None
                  end
         end
  end.
