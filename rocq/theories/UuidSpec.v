(* Independent specification of UUID texts and timestamps. *)
From Verif Require Import Prelude.

(* the base64 alphabet in increasing ASCII order and the digit values *)
Definition digit_value (c : N) : option N :=
  if (48 <=? c) && (c <=? 57) then Some (c - 48)
  else if (65 <=? c) && (c <=? 90) then Some (c - 65 + 10)
  else if c =? 95 then Some 36
  else if (97 <=? c) && (c <=? 122) then Some (c - 97 + 37)
  else if c =? 126 then Some 63
  else None.

Definition is_digit_char (c : N) : Prop := digit_value c <> None.

(* value of a digit string, left aligned in a field of k digits *)
Fixpoint left_aligned (k : nat) (s : list N) : N :=
  match s with
  | [] => 0
  | c :: t => match digit_value c with Some d => d | None => 0 end * 64 ^ N.of_nat (k - 1)
              + left_aligned (k - 1) t
  end.

(* "$" 0, "%" 1, "+" 2, "-" 3 *)
Definition version_value (c : N) : option N :=
  if c =? 36 then Some 0 else if c =? 37 then Some 1
  else if c =? 43 then Some 2 else if c =? 45 then Some 3 else None.

(* s = [X/] value [V origin], the parts of a UUID text:
   variety 0..15, value digits, version 0..3, origin digits.
   A missing value ("", "A/") is tolerated only if nothing follows it;
   an empty origin ("abc+") is tolerated. *)
Definition uuid_text (s : list N) (vrt : N) (value : list N) (vsn : N) (origin : list N) : Prop :=
  exists vp op,
    s = vp ++ value ++ op /\
    ((vp = [] /\ vrt = 0) \/
     (exists h, vp = [h; 47] /\ digit_value h = Some vrt /\ vrt < 16)) /\
    Forall is_digit_char value /\ (length value <= 10)%nat /\
    ((op = [] /\ vsn = 0 /\ origin = []) \/
     (exists v, op = v :: origin /\ version_value v = Some vsn)) /\
    Forall is_digit_char origin /\ (length origin <= 10)%nat /\
    (value = [] -> op = []).

(* calendar fields in range; nanos below one second *)
Definition calendar_ok (y mon mday h m s ns : N) : Prop :=
  y < 341 /\ mon < 12 /\ 1 <= mday <= 31 /\ h < 24 /\ m < 60 /\ s <= 60 /\ ns < 1000000000.

(* lexicographic order of equal-length field lists *)
Fixpoint fields_lt (a b : list N) : Prop :=
  match a, b with
  | x :: a', y :: b' => x < y \/ (x = y /\ fields_lt a' b')
  | _, _ => False
  end.
