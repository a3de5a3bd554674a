(* Independent specification of what a sequence of builder calls denotes. *)
From Verif Require Import Prelude UuidModel UuidSpec CodecModel CodecSpec TextModel TextSpec.

(* API calls: append an op, end a chunk with a terminator *)
Record uop : Set := mkUop { u_id : uuid; u_ref : uuid; u_vals : list value }.
Inductive ucmd : Set := UAppend (o : uop) | UEnd (t : N).

(* an op without its terminator *)
Definition bare (o : rop) : uop := mkUop (r_id o) (r_ref o) (r_vals o).

(* the calls on a text Builder, given struct Ops *)
Fixpoint calls_of (cs : list ucmd) : option (list bcmd) :=
  match cs with
  | [] => Some []
  | c :: r =>
      match (match c with
             | UAppend o => option_map BAppend (wop_of_op (u_id o) (u_ref o) (u_vals o))
             | UEnd t => Some (BEnd t)
             end), calls_of r with
      | Some x, Some y => Some (x :: y)
      | _, _ => None
      end
  end.
(* build a frame by a sequence of calls: a fresh Builder, the calls, Release *)
Definition build_calls (cs : list ucmd) : option bytes :=
  match calls_of cs with Some bs => build bs | None => None end.

(* two ops that share a span: consecutive ids, chained references, and the
   same single non-zero UUID or two single characters *)
Definition same_kind (a b : list value) : bool :=
  match a, b with
  | [VUuid u], [VUuid v] => uuid_eqb u v && negb (uuid_eqb u NIL)
  | [VStr (Some [_])], [VStr (Some [_])] => true
  | _, _ => false
  end.
Definition continues (a b : uop) : bool :=
  uuid_eqb (u_id b) (inc (u_id a)) && uuid_eqb (u_ref b) (u_id a) && same_kind (u_vals a) (u_vals b).

(* the terminator an op gets: that of the EndChunk call that follows it;
   REDUCED before another op, RAW at the end of the frame; the members of a
   span share the terminator of its last op *)
Fixpoint term_after (o : uop) (r : list ucmd) : N :=
  match r with
  | [] => RAW
  | UEnd t :: _ => t
  | UAppend o' :: r' => if continues o o' then term_after o' r' else REDUCED
  end.
Fixpoint denote (cs : list ucmd) : list rop :=
  match cs with
  | [] => []
  | UEnd _ :: r => denote r
  | UAppend o :: r => mkRop (u_id o) (u_ref o) (u_vals o) (term_after o r) :: denote r
  end.

(* values whose text the parser reads back *)
Definition value_ok (v : value) : Prop :=
  match v with
  | VUuid u => uuid_wf u /\ uorigin u < 2 ^ 62 /\ ~ float_like (write_uuid u)
  | VInt z => (- 922337203685477580 <= z < 2 ^ 63)%Z
  | VStr (Some s) => Forall (fun cp => cp < 2 ^ 21 /\ cp <> 0 /\ cp <> 12) s
  | VStr None => False
  | VFloat t => float_lit t /\ (length t <= 24)%nat
  end.
Definition id_ok (u : uuid) : Prop := uuid_wf u /\ uorigin u < 2 ^ 62.
Definition uop_ok (o : uop) : Prop := id_ok (u_id o) /\ id_ok (u_ref o) /\ Forall value_ok (u_vals o).

(* characters that are written as themselves in one byte *)
Definition plain_char (cp : N) : Prop := cp < 128 /\ ~ In cp [0; 8; 9; 10; 12; 13; 34; 39; 92].
Definition plain_string (o : uop) : Prop :=
  match u_vals o with [VStr (Some [cp])] => plain_char cp | _ => True end.

(* the op the builder starts from: id 0 and a value that is the error UUID *)
Definition origin_op : uop := mkUop NIL NIL [VUuid FATAL].

(* the last op appended *)
Fixpoint last_uop (last : uop) (cs : list ucmd) : uop :=
  match cs with
  | [] => last
  | UEnd _ :: r => last_uop last r
  | UAppend u :: r => last_uop u r
  end.

(* call sequences on which the builder is faithful.
   last: the previous op; opn: its chunk is still open;
   ext: it continued a span *)
Fixpoint good_calls (last : uop) (opn ext : bool) (cs : list ucmd) : Prop :=
  match cs with
  | [] => True
  | UEnd t :: r => In t [RAW; HEADER; QUERY] /\ good_calls last false ext r
  | UAppend o :: r =>
      uop_ok o /\
      (* an id right after the previous one goes with a reference to it *)
      (u_id o = inc (u_id last) -> u_ref o = u_id last) /\
      (* no span is interrupted by the end of a chunk; a span of characters
         begins with a plain one *)
      (continues last o = true -> opn = true /\ (ext = true \/ plain_string last)) /\
      good_calls o true (continues last o) r
  end.

(* whether each op appended is written inside a span of characters: it is a
   single character, and it shares a span with the op before or after it *)
Definition single_char (o : uop) : bool := match u_vals o with [VStr (Some [_])] => true | _ => false end.
Definition goes_on (o : uop) (r : list ucmd) : bool := match r with UAppend o' :: _ => continues o o' | _ => false end.
Fixpoint in_runs (last : uop) (cs : list ucmd) : list bool :=
  match cs with
  | [] => []
  | UEnd _ :: r => in_runs last r
  | UAppend o :: r => single_char o && (continues last o || goes_on o r) :: in_runs o r
  end.
