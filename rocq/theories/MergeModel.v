(* The merge machinery of rdt/: the iterator heap, the merge rule of every
   replicated data type and the dispatch on forms.

   The code is a template over Frame; the model is generic in the cursor type
   C in the same way. Only the following of a cursor is used: valid(), Next(),
   id(), ref(), op().size() and atom(2). Next() may abort the process (TextModel,
   C14), so its model returns an option; the boolean is the status as a bool.
   Heap entries are iterators into the vector of inputs; no entry is added twice
   and an added input is only reached through its entry, so the model keeps the
   cursors themselves. Indexes are natural numbers: the number of inputs is far
   below 2^30. *)
From Verif Require Import Prelude UuidModel KeyModel TextModel.

(* running out of fuel is a result of its own, excluded by every theorem *)
Inductive res (X : Type) : Type := Done (x : X) | Aborted | Fuel.
Arguments Done {X} x.
Arguments Aborted {X}.
Arguments Fuel {X}.
Definition rbind {X Y} (r : res X) (f : X -> res Y) : res Y :=
  match r with Done x => f x | Aborted => Aborted | Fuel => Fuel end.

(* ron/status.hpp: the statuses merging and the stores return *)
Inductive status : Set := StOK | StNotImplemented | StCauseBreak | StBadArgs | StBadState.

(* calls on the output builder; AppendOp gets the cursor *)
Inductive mcall (C : Type) : Type := MAppend (c : C) | MEnd (t : N).
Arguments MAppend {C} c.
Arguments MEnd {C} t.

Definition set_at {X : Type} (l : list X) (i : nat) (x : X) : list X :=
  firstn i l ++ match skipn i l with [] => [] | _ :: t => x :: t end.

Section Merge.
Variable C : Type.
Variable cvalid : C -> bool.
Variable cnext : C -> option (bool * C).
Variable cid cref : C -> uuid.
(* MaxRDT: None when op().size() is 2, else atom(2) as a Uuid (value, origin) *)
Variable cval : C -> option (N * N).
(* term() *)
Variable cterm : C -> N.

(* ---- rdt/merge.hpp ---- *)
Section Heap.
Variable less : C -> C -> bool.

(* rdt/merge.hpp:38-42 *)
Definition up (i : nat) : nat := Nat.div (i + 1) 2 - 1.
Definition left (i : nat) : nat := (i + 1) * 2 - 1.
Definition right (i : nat) : nat := (i + 1) * 2.
(* rdt/merge.hpp:48-50; indexes are in range at every use *)
Definition less_than (h : list C) (a b : nat) : bool :=
  match nth_error h a, nth_error h b with Some x, Some y => less x y | _, _ => false end.
(* rdt/merge.hpp:52-54 *)
Definition swap (h : list C) (a b : nat) : list C :=
  match nth_error h a, nth_error h b with
  | Some x, Some y => set_at (set_at h a y) b x
  | _, _ => h
  end.
(* rdt/merge.hpp:56-66 *)
Fixpoint pop (fuel : nat) (h : list C) (idx : nat) : res (list C) :=
  match fuel with
  | O => Fuel
  | S f =>
      match idx with
      | O => Done h
      | _ => let u := up idx in
             if less_than h u idx then Done h else pop f (swap h idx u) u
      end
  end.
(* rdt/merge.hpp:68-83 *)
Fixpoint push (fuel : nat) (h : list C) (idx : nat) : res (list C) :=
  match fuel with
  | O => Fuel
  | S f =>
      let l := left idx in
      let r := right idx in
      if Nat.ltb r (length h) && less_than h r idx then
        if less_than h l r then push f (swap h l idx) l else push f (swap h r idx) r
      else if Nat.ltb l (length h) && less_than h l idx then push f (swap h l idx) l
      else Done h
  end.
(* rdt/merge.hpp:25-29 *)
Definition add (h : list C) (c : C) : res (list C) :=
  if cvalid c then pop (S (length h)) (h ++ [c]) (length h) else Done h.
(* rdt/merge.hpp:85-92 *)
Definition eject (h : list C) : res (list C) :=
  match rev h with
  | [] => Done h
  | b :: _ => let h' := removelast (set_at h 0 b) in push (S (length h')) h' 0
  end.
(* rdt/merge.hpp:94-101; called on a non-empty heap only *)
Definition step (h : list C) : res (list C) :=
  match h with
  | [] => Aborted
  | c :: t => match cnext c with
              | None => Aborted
              | Some (true, c') => push (S (length h)) (c' :: t) 0
              | Some (false, _) => eject h
              end
  end.
(* rdt/merge.hpp:106-111 *)
Fixpoint skip_same (fuel : nat) (id : uuid) (h : list C) : res (list C) :=
  match fuel with
  | O => Fuel
  | S f => rbind (step h) (fun h' =>
             match h' with
             | [] => Done []
             | c :: _ => if uuid_eqb (cid c) id then skip_same f id h' else Done h'
             end)
  end.
Definition heap_next (fuel : nat) (h : list C) : res (list C) :=
  match h with [] => Aborted | c :: _ => skip_same fuel (cid c) h end.
(* rdt/merge.hpp:115-122 *)
Fixpoint merge_loop (fuel : nat) (h : list C) : res (list (mcall C)) :=
  match fuel with
  | O => Fuel
  | S f =>
      match h with
      | [] => Aborted
      | c :: _ =>
          rbind (heap_next fuel h) (fun h' =>
          match h' with
          | [] => Done [MAppend c; MEnd RAW]
          | _ => rbind (merge_loop f h') (fun r => Done (MAppend c :: r))
          end)
      end
  end.
Definition heap_merge (fuel : nat) (h : list C) : res (list (mcall C)) :=
  match h with [] => Done [] | _ => merge_loop fuel h end.
(* rdt/merge.hpp:21-23, MergeCursor(inputs) *)
Fixpoint add_all (h : list C) (cs : list C) : res (list C) :=
  match cs with
  | [] => Done h
  | c :: r => rbind (add h c) (fun h' => add_all h' r)
  end.
Definition merge_all (fuel : nat) (cs : list C) : res (list (mcall C)) :=
  rbind (add_all [] cs) (heap_merge fuel).
End Heap.

(* ---- the merge rules ---- *)
(* rdt/lww.hpp:15-17, rdt/mx.hpp:48-50, rdt/chain.hpp:12 *)
Definition less_id (a b : C) : bool := uuid_ltb (cid a) (cid b).
(* rdt/meta.hpp:18-20 *)
Definition less_meta (a b : C) : bool :=
  if uuid_eqb (cid a) (cid b) then uuid_ltb (cref b) (cref a) else uuid_ltb (cid a) (cid b).
(* rdt/rga.hpp:23-25 *)
Definition less_rga (a b : C) : bool := uuid_ltb (cid b) (cid a).

(* rdt/lww.hpp:21-25, rdt/mx.hpp:55-59, rdt/chain.hpp:20-24 *)
Definition lww_merge (fuel : nat) (cs : list C) : res (list (mcall C) * status) :=
  rbind (merge_all less_id fuel cs) (fun r => Done (r, StOK)).
(* rdt/meta.hpp:24-28 *)
Definition meta_merge (fuel : nat) (cs : list C) : res (list (mcall C) * status) :=
  rbind (merge_all less_meta fuel cs) (fun r => Done (r, StOK)).

(* ron/frames.hpp:187-196 AppendAll *)
Fixpoint append_all (fuel : nat) (c : C) : res (list (mcall C)) :=
  match fuel with
  | O => Fuel
  | S f =>
      if cvalid c then
        match cnext c with
        | None => Aborted
        | Some (_, c') =>
            rbind (append_all f c') (fun r =>
            Done (MAppend c :: (if cterm c =? REDUCED then [] else [MEnd (cterm c)]) ++ r))
        end
      else Done []
  end.
(* rdt/log.hpp:18-23 *)
Fixpoint log_merge (fuel : nat) (cs : list C) : res (list (mcall C) * status) :=
  match cs with
  | [] => Done ([], StOK)
  | c :: r => rbind (append_all fuel c) (fun x =>
              rbind (log_merge fuel r) (fun '(y, s) => Done (x ++ y, s)))
  end.

(* rdt/rga.hpp:55-85. inputs are pairs of a cursor and its bit in added *)
(* std::min_element by id: the first of the minimal ones; only its id is used *)
Fixpoint min_id (m : uuid) (cs : list C) : uuid :=
  match cs with [] => m | c :: r => min_id (if uuid_ltb (cid c) m then cid c else m) r end.
(* the loops at 62-67 and 74-78: add the inputs not yet added that satisfy cond *)
Fixpoint add_where (cond : C -> bool) (h : list C) (ins : list (C * bool))
  : res (list C * list (C * bool)) :=
  match ins with
  | [] => Done (h, [])
  | (c, b) :: r =>
      if negb b && cond c then
        rbind (add less_rga h c) (fun h' =>
        rbind (add_where cond h' r) (fun '(h'', r') => Done (h'', (c, true) :: r')))
      else rbind (add_where cond h r) (fun '(h'', r') => Done (h'', (c, b) :: r'))
  end.
Fixpoint rga_loop (fuel : nat) (h : list C) (ins : list (C * bool))
  : res (list (mcall C) * list (C * bool)) :=
  match h with
  | [] => Done ([], ins)
  | c :: _ =>
      match fuel with
      | O => Fuel
      | S f =>
          rbind (heap_next less_rga fuel h) (fun h1 =>
          rbind (add_where (fun x => uuid_eqb (cref x) (cid c)) h1 ins) (fun '(h2, ins2) =>
          rbind (rga_loop f h2 ins2) (fun '(r, i) => Done (MAppend c :: r, i))))
      end
  end.
Definition rga_merge (fuel : nat) (cs : list C) : res (list (mcall C) * status) :=
  if Nat.ltb 3 (length cs) then Done ([], StNotImplemented)       (* MergeBig, 35-53 *)
  else
    let m := match cs with [] => NIL | c :: r => min_id (cid c) r end in
    rbind (add_where (fun x => uuid_eqb (cid x) m) [] (map (fun c => (c, false)) cs)) (fun '(h, ins) =>
    rbind (rga_loop fuel h ins) (fun '(r, i) =>
    Done (r ++ [MEnd RAW], if forallb snd i then StOK else StCauseBreak))).

(* rdt/max.hpp:16-23 *)
Definition less_max (a b : C) : bool :=
  match cval a, cval b with
  | None, Some _ => true
  | None, None => uuid_ltb (cid a) (cid b)
  | Some _, None => false
  | Some (va, oa), Some (vb, ob) => (va <? vb) || ((va =? vb) && (oa <? ob))
  end.
(* the inner loop 39-44 on one input *)
Fixpoint max_scan (fuel : nat) (m c : C) : res C :=
  match fuel with
  | O => Fuel
  | S f =>
      if cvalid c then
        match cnext c with
        | None => Aborted
        | Some (_, c') => max_scan f (if less_max m c then c else m) c'
        end
      else Done m
  end.
(* the inputs are scanned from the last to the first *)
Fixpoint max_loop (fuel : nat) (m : C) (cs : list C) : res C :=
  match cs with
  | [] => Done m
  | c :: r => rbind (max_scan fuel m c) (fun m' => max_loop fuel m' r)
  end.
(* rdt/max.hpp:26-46 *)
Definition max_merge (fuel : nat) (cs : list C) : res (list (mcall C) * status) :=
  match cs with
  | [] => Done ([], StOK)
  | c :: r =>
      let header := cvalid c && uuid_eqb (cref c) MAX_FORM_UUID in
      let head := if header then match cnext c with None => Aborted | Some (_, c') => Done c' end
                  else Done c in
      rbind head (fun c1 =>
      match rev (c1 :: r) with
      | [] => Aborted
      | m :: before =>
          match cnext m with
          | None => Aborted
          | Some (_, m') =>
              rbind (max_loop fuel m (m' :: before)) (fun x =>
              Done ((if header then [MAppend c] else []) ++ [MAppend x; MEnd RAW], StOK))
          end
      end)
  end.

(* ---- rdt/rdt.hpp ---- *)
(* rdt/rdt.hpp:40-44 and 54-58 *)
Definition last_merge (fuel : nat) (cs : list C) : res (list (mcall C) * status) :=
  match rev cs with
  | [] => Done ([], StOK)
  | c :: _ => rbind (append_all fuel c) (fun r => Done (r, StOK))
  end.
(* rdt/rdt.hpp:33-61 MasterRDT::Merge *)
Definition master_merge (fuel : nat) (form : N) (cs : list C) : res (list (mcall C) * status) :=
  if form =? LOG_RAW_FORM then log_merge fuel cs
  else if form =? ZERO_RAW_FORM then last_merge fuel cs
  else if form =? META_META_FORM then meta_merge fuel cs
  else if form =? YARN_RAW_FORM then lww_merge fuel cs
  else if form =? LWW_RDT_FORM then lww_merge fuel cs
  else if form =? MX_RDT_FORM then lww_merge fuel cs
  else if form =? RGA_RDT_FORM then rga_merge fuel cs
  else if form =? MAX_RDT_FORM then max_merge fuel cs
  else if form =? ERROR_NO_FORM then last_merge fuel cs
  else Done ([], StNotImplemented).

(* rdt/rdt.hpp:73-85 GetForm *)
Fixpoint get_form_loop (form : uuid) (cs : list C) : option uuid :=
  match cs with
  | [] => Some form
  | c :: r =>
      if negb (cvalid c) || negb (version (cref c) =? NAME) then get_form_loop form r
      else if uuid_zero form then get_form_loop (cref c) r
      else if negb (uuid_eqb form (cref c)) then None
      else get_form_loop form r
  end.
Definition get_form (cs : list C) : option N := option_map uuid2form (get_form_loop NIL cs).

(* rdt/rdt.hpp:140-147 with 88-96: form, merge; the output is released only
   if the merge succeeded *)
Definition merge_cursors (fuel : nat) (cs : list C) : res (option (list (mcall C)) * status) :=
  match get_form cs with
  | None => Done (None, StBadArgs)
  | Some form =>
      rbind (master_merge fuel form cs) (fun '(r, s) =>
      Done (match s with StOK => Some r | _ => None end, s))
  end.
End Merge.
