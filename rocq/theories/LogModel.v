(* Object logs: a log frame is split into chains of ops, each op referring to
   the one before it; the chains are merged into the object's state. A cutoff
   stops the replay at a version. *)
From Verif Require Import Prelude UuidModel KeyModel CodecModel TextModel MergeModel MergeTextModel.

(* ron/slice.hpp:117-120, 183 EndAt on the cursor's data_: the end of the range
   moves; the assertion is begin <= end *)
Definition end_at (c : cursor) (at_ : N) : res cursor :=
  if at_ <? c_pos c then Aborted
  else Done (mkCursor (firstn (N.to_nat at_) (c_buf c)) (c_pos c) (c_op c) (c_term c) (c_state c) (c_span c)).

(* rdt/rdt.hpp:181-185, the inner do-while loop from the op cur stands on: the
   last id, where its text ends, and the outcome of the last Next *)
Fixpoint chain_end (fuel : nat) (cutoff : uuid) (cur : cursor) : res (uuid * N * next_res) :=
  match fuel with
  | O => Fuel
  | S k =>
      let prev := text_id cur in
      match next cur with
      | NAbort => Aborted
      | NOk c => if uuid_eqb (text_ref c) prev && negb (uuid_eqb prev cutoff)
                 then chain_end k cutoff c else Done (prev, c_pos cur, NOk c)
      | r => Done (prev, c_pos cur, r)
      end
  end.

(* rdt/rdt.hpp:179-193, the outer loop; nxt is cur whenever the loop test is
   evaluated. The flag: false for the status BADSYNTAX. *)
Fixpoint split_loop (fuel : nat) (cutoff prev : uuid) (cur : cursor) : res (list cursor * bool) :=
  match fuel with
  | O => Fuel
  | S k =>
      if negb (valid cur) || uuid_eqb prev cutoff then Done ([], true)
      else
        rbind (chain_end fuel cutoff cur) (fun '(p, at_, r) =>
        match r with
        | NOk c => rbind (end_at cur at_) (fun ch =>
                   rbind (split_loop k cutoff p c) (fun '(rest, ok) => Done (ch :: rest, ok)))
        | NEnd _ => Done ([cur], true)
        | NBad _ => Done ([cur], false)
        | NAbort => Aborted
        end)
  end.

(* rdt/rdt.hpp:168-195 SplitLogIntoChains; a log whose first Next fails, for
   whatever reason, has no chains *)
Definition split_log (fuel : nat) (input : bytes) (cutoff : uuid) : res (list cursor * bool) :=
  match next (cursor_of input) with
  | NAbort => Aborted
  | NOk c => split_loop fuel cutoff NIL c
  | NEnd _ | NBad _ => Done ([], true)
  end.

(* the status of a replay: of the split, or of the merge *)
Inductive log_status : Set := LBadSyntax | LMerge (s : status).

(* rdt/rdt.hpp:197-222 ObjectLogIntoState and ObjectLogToState; the frame is
   assigned only on success (Some) *)
Definition log_state (fbits : bytes -> N) (fuel : nat) (input : bytes) (cutoff : uuid) : res (option bytes * log_status) :=
  rbind (split_log fuel input cutoff) (fun '(chains, ok) =>
  if negb ok then Done (None, LBadSyntax)
  else match chains with
       | [] => Done (Some [], LMerge StOK)
       | c :: _ => rbind (merge_opened fbits fuel (uuid2form (text_ref c)) chains) (fun '(f, s) => Done (f, LMerge s))
       end).

(* db/replica.hpp:254-260 GetObjectVersion, the log already read, with
   rdt/rdt.hpp:72-106 (the form is found by GetForm) *)
Definition log_version (fbits : bytes -> N) (fuel : nat) (input : bytes) (version : uuid) : res (option bytes * log_status) :=
  rbind (split_log fuel input version) (fun '(chains, ok) =>
  if negb ok then Done (None, LBadSyntax)
  else match get_form cursor valid text_ref chains with
       | None => Done (None, LMerge StBadArgs)
       | Some form => rbind (merge_opened fbits fuel form chains) (fun '(f, s) => Done (f, LMerge s))
       end).
