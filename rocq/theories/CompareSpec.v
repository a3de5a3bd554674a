(* When two frames have the same content. *)
From Verif Require Import Prelude UuidModel CodecModel TextTable TextModel HashSpec.

(* a frame reads as the ops l; after them the end is reported, or an error *)
Definition reads_as (f : bytes) (l : list rop) (bad : bool) : Prop :=
  exists n, scan n (cursor_of f) = (l, if bad then SBad else SEnd).
(* the ops that are not comments *)
Definition content (l : list rop) : list rop := filter (fun o => negb (uuid_eqb (r_id o) COMMENT)) l.

Section Same.
Variable fbits : bytes -> N.
(* IEEE equality of the doubles with these words: no NaN is equal to anything,
   the two zeros are equal *)
Definition is_nan (w : N) : Prop := (w / 2 ^ 52) mod 2 ^ 11 = 2047 /\ w mod 2 ^ 52 <> 0.
Definition is_zero (w : N) : Prop := w mod 2 ^ 63 = 0.
Definition same_value (x y : value) : Prop :=
  match x, y with
  | VFloat s, VFloat t =>
      ~ is_nan (fbits s) /\ ~ is_nan (fbits t) /\ (fbits s = fbits t \/ is_zero (fbits s) /\ is_zero (fbits t))
  | VFloat _, _ | _, VFloat _ => False
  | _, _ => x = y
  end.
(* terminators do not matter *)
Definition same_op (x y : rop) : Prop :=
  r_id x = r_id y /\ r_ref x = r_ref y /\ Forall2 same_value (r_vals x) (r_vals y).
(* values that can be read: strings of code points that UTF-8 can write, floats
   of a 64-bit word *)
Definition readable_value (v : value) : Prop :=
  match v with
  | VStr None => False
  | VStr (Some l) => Forall (fun cp => cp < 2 ^ 21) l
  | VFloat s => fbits s < 2 ^ 64
  | _ => True
  end.
Definition readable_ops (l : list rop) : Prop := Forall (fun o => Forall readable_value (r_vals o)) l.
End Same.
