(* Merging text frames: the merge machinery of MergeModel run on the cursors of
   TextModel, with the output builder. *)
From Verif Require Import Prelude UuidModel KeyModel CodecModel TextModel MergeModel.

(* ron/text.hpp:95 valid() after Next(): TextModel.valid *)
(* TextFrame::Cursor::Next as a generic cursor step: the status as a bool *)
Definition text_next (c : cursor) : option (bool * cursor) :=
  match next c with
  | NOk c' => Some (true, c')
  | NEnd c' | NBad c' => Some (false, c')
  | NAbort => None
  end.
Definition text_id (c : cursor) : uuid := op_id (c_op c).
Definition text_ref (c : cursor) : uuid := op_ref (c_op c).

(* the two words of a parsed atom: ron/uuid.hpp:14-30 (Word), 162-192 (Atom),
   ron/slice.hpp:53-67 (Range, little endian), ron/text.hpp:48-62 (ParseAtom).
   strtod is not modelled: fbits gives the bits of the double a text denotes. *)
Definition range_word (b e : N) : N := e * 2 ^ 32 + b.
Definition atom_words (fbits : bytes -> N) (buf : bytes) (a : atom) : N * N :=
  match a with
  | AUuid u => (uvalue u, uorigin u)
  | AInt b e => (Z.to_N (Z.modulo (parse_integer (sub buf b e)) (2 ^ 64)), 1 * 2 ^ 62 + range_word b e)
  | AStr cp n b e => if cp =? 0 then (n * 2 ^ 32, 2 * 2 ^ 62 + range_word b e) else (cp, 2 * 2 ^ 62)
  | AFloat b e => (fbits (sub buf b e), 3 * 2 ^ 62 + range_word b e)
  end.
(* rdt/max.hpp:17-22: None when op().size() == 2 *)
Definition text_val (fbits : bytes -> N) (c : cursor) : option (N * N) :=
  match skipn 2 (c_op c) with [] => None | a :: _ => Some (atom_words fbits (c_buf c) a) end.

(* rdt/rdt.hpp:130-136: a cursor per frame, moved to the first op; frames
   without a readable first op are dropped *)
Fixpoint open_cursors (fs : list bytes) : option (list cursor) :=
  match fs with
  | [] => Some []
  | f :: r =>
      match text_next (cursor_at f 0), open_cursors r with
      | None, _ | _, None => None
      | Some (true, c), Some cs => Some (c :: cs)
      | Some (false, _), Some cs => Some cs
      end
  end.
(* the calls on the builder; AppendOp writes the cursor's op. Appending may
   fail an assertion (C16). *)
Definition bcalls (calls : list (mcall cursor)) : list bcmd :=
  map (fun x => match x with MAppend c => BAppend (wop_of_cursor c) | MEnd t => BEnd t end) calls.
(* rdt/rdt.hpp:88-96 MergeCursors with a form: the text is assigned only if the
   merge succeeded; None for the frame: not assigned *)
Definition merge_opened (fbits : bytes -> N) (fuel : nat) (form : N) (cs : list cursor) : res (option bytes * status) :=
  rbind (master_merge cursor valid text_next text_id text_ref (text_val fbits) c_term fuel form cs)
    (fun '(calls, s) =>
       match build (bcalls calls) with
       | None => Aborted
       | Some f => Done (match s with StOK => Some f | _ => None end, s)
       end).
(* db/mem_store.hpp:30-42 InMemoryStore::Merge: as MergeFrames, the form given *)
Definition merge_as (fbits : bytes -> N) (fuel : nat) (form : N) (fs : list bytes) : res (option bytes * status) :=
  match open_cursors fs with
  | None => Aborted
  | Some cs => merge_opened fbits fuel form cs
  end.
(* rdt/rdt.hpp:128-147 MergeFrames with 98-106 *)
Definition merge_frames (fbits : bytes -> N) (fuel : nat) (fs : list bytes) : res (option bytes * status) :=
  match open_cursors fs with
  | None => Aborted
  | Some cs =>
      match get_form cursor valid text_ref cs with
      | None => Done (None, StBadArgs)
      | Some form => merge_opened fbits fuel form cs
      end
  end.
