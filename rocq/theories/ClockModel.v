(* The replica's clock: db/replica.cc Now and See, with the version vector of
   ron/vv.hpp. *)
From Verif Require Import Prelude UuidModel KeyModel MergeModel.

(* ron/uuid.hpp:135 NEVER *)
Definition NEVER_W : N := N.shiftl 63 54.

(* ron/uuid.hpp:70-74 Uuid::Time: the value is not masked *)
Definition uuid_time (v o : N) : uuid :=
  mkUuid v (N.lor (N.land o (2 ^ 60 - 1)) (N.shiftl TIME 60)).

(* ron/uuid.cc:69-85 HybridTime computes 1900U + tm_year - 2010U in 32-bit
   unsigned arithmetic before widening: the tm_year2010 of a calendar year *)
Definition year_field (year : N) : N := (year + 2 ^ 32 - 2010) mod 2 ^ 32.

(* db/replica.cc:179-186 Now. now is the member now_; reading is the
   HybridTime of the system clock, an input; active is active_store().origin *)
Definition clock_now (active now reading origin : N) : N * uuid :=
  let o := if origin =? 0 then active else origin in
  let now' := if now <? reading then reading else (now + 1) mod two64 in
  (now', uuid_time now' o).

(* db/replica.cc:285-299 See *)
Definition clock_see (now : N) (id : uuid) : N * status :=
  if negb (version id =? TIME) then (now, StBadArgs)
  else if uvalue id <? now then (now, StOK)
  else if NEVER_W <=? uvalue id then (now, StBadArgs)
  else (uvalue id, StOK).

(* the uses of the clock, in any order, with what they return *)
Inductive cop : Set :=
| CNow (reading origin : N)
| CSee (id : uuid).
Inductive cev : Set :=
| EIssued (reading origin : N) (u : uuid)
| ESeen (id : uuid) (s : status).
Fixpoint clock_run (active now : N) (ops : list cop) : list cev :=
  match ops with
  | [] => []
  | CNow r o :: ops' =>
      let '(now', u) := clock_now active now r o in EIssued r o u :: clock_run active now' ops'
  | CSee id :: ops' =>
      let '(now', s) := clock_see now id in ESeen id s :: clock_run active now' ops'
  end.

(* ---- ron/vv.hpp:8-22 VV; the unordered_map is a finite map: a list in which
   only the first entry of a key counts ---- *)
Notation vv := (list (N * N)).
Definition vv_get (v : vv) (origin : N) : uuid :=
  match find (fun p => fst p =? origin) v with
  | None => mkUuid 0 origin
  | Some p => mkUuid (snd p) (fst p)
  end.
Definition vv_covers (v : vv) (point : uuid) : bool :=
  uvalue point <=? uvalue (vv_get v (uorigin point)).
