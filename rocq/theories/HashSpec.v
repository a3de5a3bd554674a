(* What an op says, for the claims about its hash: its id, reference and
   values, a float literal standing for its 64-bit word. *)
From Verif Require Import Prelude UuidModel TextTable TextModel.

Inductive said : Set :=
| SUuid (u : uuid) | SInt (z : Z) | SStr (s : option (list N)) | SFloat (bits : N).
Definition said_of (fbits : bytes -> N) (v : value) : said :=
  match v with
  | VUuid u => SUuid u
  | VInt z => SInt z
  | VStr s => SStr s
  | VFloat s => SFloat (fbits s)
  end.
Definition says (fbits : bytes -> N) (c : cursor) : list said :=
  map (said_of fbits) (r_vals (rop_of c)).

(* strings that are read without error, of code points UTF-8 can write *)
Definition said_ok (v : said) : Prop :=
  match v with
  | SStr None => False
  | SStr (Some l) => Forall (fun cp => cp < 2 ^ 21) l
  | _ => True
  end.

(* how a value is written: a string of one character may be a character of a
   span; a literal may end beyond the first 2^28 bytes of its frame *)
Definition in_span (a : atom) : bool := match a with AStr cp _ _ _ => negb (cp =? 0) | _ => false end.
Definition ends_at (a : atom) : N :=
  match a with
  | AUuid _ => 0
  | AInt _ e | AFloat _ e => e
  | AStr cp _ _ e => if cp =? 0 then e else 0
  end.
