(* A fork of a branch: db/replica.cc:112-131 ForkBranch, over the RocksDB
   branches of BranchModel. The new yarn has no branch yet. *)
From Verif Require Import Prelude UuidModel KeyModel CodecModel TextModel MergeModel StoreModel RocksModel ClockModel ReplicaModel BranchModel.

Section Fork.
Variable sha : bytes -> bytes.
Variable fbits : bytes -> N.
Variable active : N.
Variable fuel : nat.

(* 124-128: while (i.Next()), a status that is not OK ends the loop *)
Fixpoint fork_loop (n : nat) (orig : family) (it : riter) (d : family) : res (family * rstatus) :=
  match n with
  | O => Fuel
  | S m =>
      rbind (ri_next fbits fuel it) (fun '(it', s) =>
      match s with
      | KOk =>
          rbind (b_read fbits fuel orig (ri_key it')) (fun '(_, f, s1) =>
          if negb (is_ok s1) then Done (d, s1)
          else rbind (b_write d (ri_key it') f) (fun '(d', s2) =>
               if negb (is_ok s2) then Done (d', s2) else fork_loop m orig it' d'))
      | _ => Done (d, ROk)
      end)
  end.
(* 118-130; Key{} has the bits of Key::ZERO, db/key.hpp:21-25 *)
Definition b_fork (orig : family) (now : N) (readings : list N) (yarn : N) : res (branch * rstatus) :=
  rbind (b_new sha fbits active fuel now readings yarn false) (fun '(b, s) =>
  if negb (is_ok s) then Done (b, s)
  else rbind (ri_seek fbits fuel (ri_new orig) KEY_ZERO false) (fun '(it, s1) =>
       match s1 with
       | KOk => rbind (fork_loop (S (length orig)) orig it (br_main b)) (fun '(d, s2) => Done (mkBranch d (br_tip b), s2))
       | _ => Done (b, kst s1)
       end)).
End Fork.
