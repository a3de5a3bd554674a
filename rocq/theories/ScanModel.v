(* rdt/rga.hpp:96-239: ScanRGA, the tombstone map of an RGA frame.

   Generic in the cursor type, as the template. path, kills and positions are
   vectors kept with their back at the head of a list; path and positions are
   inc_stacks in the code, which behave as vectors (C35). An access out of the
   bounds of a vector is an outcome of its own. *)
From Verif Require Import Prelude UuidModel KeyModel TextModel MergeModel IncStackModel.

(* rdt/rga.hpp:96-106 *)
Definition META_ENTRY : nat := 0.
Definition ENTRY : nat := 1.
Definition REMOVE : nat := 2.
Definition UNDO : nat := 3.
Definition TRASH : nat := 4.
(* rdt/rga.hpp:108-109 *)
Definition RM_UUID : uuid := mkUuid 986569793370849280 0.
Definition UN_UUID : uuid := mkUuid 1040894463876005888 0.
(* rdt/rga.hpp:113-125 *)
Definition entry_type (o : rop) : nat :=
  match r_vals o with
  | [VUuid v] => if uuid_eqb v RM_UUID then REMOVE else if uuid_eqb v UN_UUID then UNDO else ENTRY
  | _ => ENTRY
  end.

(* rdt/rga.hpp:134-153: the local variables *)
Record scan_st : Type := mkScan {
  s_tombs : list bool; s_state : nat; s_path : list uuid; s_kills : list bool; s_poss : list N;
  s_depth : N; s_pos : N; s_ceil : list N }.
Inductive scan_out : Type := ScanRet (s : status) (tombs : list bool) | ScanUB | ScanAbort | ScanFuel.

Definition ceil (s : scan_st) (i : nat) : N := nth i (s_ceil s) 0.
(* uint32_t subtraction *)
Definition sub32 (a b : N) : N := (a + (2 ^ 32 - b)) mod 2 ^ 32.
(* v[at] = true on a vector with its back at the head; None: out of bounds *)
Definition set_true (l : list bool) (at_ : N) : option (list bool) :=
  if at_ <? N.of_nat (length l) then Some (set_at l (length l - 1 - N.to_nat at_) true) else None.
(* the same, front first *)
Definition set_true_f (l : list bool) (at_ : N) : option (list bool) :=
  if at_ <? N.of_nat (length l) then Some (set_at l (N.to_nat at_) true) else None.

(* while (depth == ceiling[state]) state = dec(state), rdt/rga.hpp:205-207.
   ceiling[META_ENTRY] is 0; state 0 with depth 0 would leave the enum *)
Fixpoint lower (cs : list N) (depth : N) (state : nat) : option nat :=
  if depth =? nth state cs 0 then match state with O => None | S s => lower cs depth s end else Some state.

(* one turn of the unrolling loop, rdt/rga.hpp:176-211 *)
Inductive pop_out : Type := PopOk (s : scan_st) | PopRet (st : status) (tombs : list bool) | PopUB.
Definition pop_once (s : scan_st) : pop_out :=
  match s_path s, s_kills s, s_poss s with
  | _ :: path, k :: kills, p :: poss =>
      let at_ c := sub32 c (sub32 (s_depth s) c) in
      let next (tombs : list bool) (kl : list bool) : pop_out :=
        let depth := sub32 (s_depth s) 1 in
        match lower (s_ceil s) depth (s_state s) with
        | None => PopUB
        | Some state => PopOk (mkScan tombs state path (tl kl) poss depth (s_pos s) (s_ceil s))
        end in
      if (s_state s =? META_ENTRY)%nat then PopRet StCauseBreak (s_tombs s)
      else if (s_state s =? ENTRY)%nat then
        if negb k then next (s_tombs s) (k :: kills)
        else match set_true_f (s_tombs s) p with None => PopUB | Some t => next t (k :: kills) end
      else if (s_state s =? REMOVE)%nat then
        if k then next (s_tombs s) (k :: kills)
        else let a := at_ (ceil s REMOVE) in
             if 0 <? a then match set_true (k :: kills) a with None => PopUB | Some kl => next (s_tombs s) kl end
             else next (s_tombs s) (k :: kills)
      else if (s_state s =? UNDO)%nat then
        let a := at_ (ceil s UNDO) in
        if ceil s REMOVE <? a then match set_true (k :: kills) a with None => PopUB | Some kl => next (s_tombs s) kl end
        else next (s_tombs s) (k :: kills)
      else next (s_tombs s) (k :: kills)
  | _, _, _ => PopUB
  end.
(* while (path.back() != ref), rdt/rga.hpp:176-211; every turn pops, so the
   depth of the path bounds the turns *)
Fixpoint unroll (fuel : nat) (ref : uuid) (s : scan_st) : pop_out :=
  match s_path s with
  | [] => PopUB
  | top :: _ =>
      if uuid_eqb top ref then PopOk s
      else match fuel with
           | O => PopUB
           | S f => match pop_once s with PopOk s' => unroll f ref s' | x => x end
           end
  end.
(* rdt/rga.hpp:215-225 *)
Fixpoint raise (n : nat) (state : nat) (depth : N) (cs : list N) : list N :=
  match n with
  | O => cs
  | S n' => raise n' (S state) depth (set_at cs (S state) depth)
  end.
Definition switch (et : nat) (s : scan_st) : nat * list N :=
  if (et =? s_state s)%nat then (s_state s, s_ceil s)
  else if (et =? S (s_state s))%nat then (et, set_at (s_ceil s) et (s_depth s))
  else ((if (s_state s <? TRASH)%nat then TRASH else s_state s), raise (TRASH - s_state s) (s_state s) (s_depth s) (s_ceil s)).
(* rdt/rga.hpp:169-233, the body of the loop after Next(); None: go on *)
Definition scan_op (id ref : uuid) (et : nat) (s : scan_st) : scan_st + scan_out :=
  let pos := (s_pos s + 1) mod 2 ^ 32 in
  if uuid_ltb id ref then inr (ScanRet StBadArgs (s_tombs s))
  else if negb ((version id =? TIME) && (version ref =? TIME)) then inr (ScanRet StBadArgs (s_tombs s))
  else match unroll (length (s_path s)) ref s with
       | PopUB => inr ScanUB
       | PopRet st t => inr (ScanRet st t)
       | PopOk s1 =>
           let '(state, cs) := switch et s1 in
           let tombs := s_tombs s1 ++ [negb (state =? ENTRY)%nat] in
           let s2 := mkScan tombs state (id :: s_path s1) (false :: s_kills s1) (pos :: s_poss s1)
                       ((s_depth s1 + 1) mod 2 ^ 32) pos cs in
           if ((length (s_path s2) =? length (s_kills s2))%nat && (N.of_nat (length tombs) =? pos + 1))%bool
           then inl s2 else inr ScanAbort
       end.
Definition scan_begin (root : uuid) : scan_st := mkScan [true] META_ENTRY [root] [false] [0] 1 0 [0; 0; 0; 0; 0].
(* tombstones.pop_back(), rdt/rga.hpp:235 *)
Definition scan_finish (s : scan_st) : scan_out := ScanRet StOK (removelast (s_tombs s)).

Section Scan.
Variable C : Type.
Variable cvalid : C -> bool.
Variable cnext : C -> option (bool * C).
Variable cop : C -> rop.

(* rdt/rga.hpp:155-234; the status Next() returns is not looked at *)
Fixpoint scan_loop (fuel : nat) (root : uuid) (c : C) (s : scan_st) : scan_out :=
  match fuel with
  | O => ScanFuel
  | S f =>
      match cnext c with
      | None => ScanAbort
      | Some (_, c') =>
          if cvalid c'
          then match scan_op (r_id (cop c')) (r_ref (cop c')) (entry_type (cop c')) s with
               | inl s' => scan_loop f root c' s'
               | inr x => x
               end
          else match scan_op (Time WORD_NEVER 0) root META_ENTRY s with
               | inl s' => scan_finish s'
               | inr x => x
               end
      end
  end.
(* rdt/rga.hpp:131-142; c is frame.cursor() *)
Definition scan_rga (fuel : nat) (c : C) : scan_out :=
  match cnext c with
  | None => ScanAbort
  | Some (false, _) => ScanRet StOK []
  | Some (true, c') =>
      let root := r_id (cop c') in
      if negb (uuid_eqb (r_ref (cop c')) RGA_FORM_UUID) || negb (version root =? TIME) then ScanRet StBadArgs []
      else scan_loop fuel root c' (scan_begin root)
  end.
End Scan.
