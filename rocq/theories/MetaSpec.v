(* Histories of events as trees of dependencies, for the claims about op
   metadata. Every event has a predecessor in its yarn; an event that creates an
   object references a name, any other references an event. *)
From Verif Require Import Prelude UuidModel CodecModel TextTable TextModel MergeModel MergeTextModel HashModel HashSpec HashTheorems MetaModel.

Inductive hist : Set :=
| HNil                                       (* the empty yarn *)
| HRoot (c : cursor) (prev : hist)           (* an object is created *)
| HStep (c : cursor) (prev refd : hist).     (* an object is edited *)

(* what is in a history: ids, references and values of all events *)
Definition told : Set := (uuid * uuid * list said)%type.
Inductive tale : Set := TNil | TRoot (o : told) (prev : tale) | TStep (o : told) (prev refd : tale).
Definition tell (fbits : bytes -> N) (c : cursor) : told := (text_id c, text_ref c, says fbits c).
Fixpoint tells (fbits : bytes -> N) (h : hist) : tale :=
  match h with
  | HNil => TNil
  | HRoot c p => TRoot (tell fbits c) (tells fbits p)
  | HStep c p r => TStep (tell fbits c) (tells fbits p) (tells fbits r)
  end.

(* the yarn, newest event first *)
Fixpoint yarn (h : hist) : list cursor :=
  match h with HNil => [] | HRoot c p | HStep c p _ => c :: yarn p end.
Definition last_id (h : hist) : uuid := match yarn h with [] => NIL | c :: _ => text_id c end.
(* the event that created the object *)
Fixpoint creation (h : hist) : option cursor :=
  match h with HNil => None | HRoot c _ => Some c | HStep _ _ r => creation r end.

(* events are read from frames, without errors in their strings *)
Definition readable (fbits : bytes -> N) (c : cursor) : Prop :=
  (exists buf, delivers buf c) /\ Forall said_ok (says fbits c).
(* creations reference names, edits the event they depend on *)
Fixpoint causal (fbits : bytes -> N) (h : hist) : Prop :=
  match h with
  | HNil => True
  | HRoot c p => readable fbits c /\ version (text_id c) = TIME /\ version (text_ref c) = NAME /\ causal fbits p
  | HStep c p r => readable fbits c /\ version (text_id c) = TIME /\ r <> HNil /\ text_ref c = last_id r /\
                   causal fbits p /\ causal fbits r
  end.

(* an event that references its predecessor continues a chain *)
Fixpoint chained (l : list cursor) (before : list cursor) : Prop :=
  match l with
  | [] => True
  | c :: r => (match r ++ before with [] => False | d :: _ => text_ref c = text_id d end) /\ chained r before
  end.

Section Hash.
Variable sha : bytes -> bytes.
Variable fbits : bytes -> N.

(* metadata of the last event, as Commit::SaveChain makes it, db/replica.cc:409-424 *)
Fixpoint meta_of (h : hist) : res meta :=
  match h with
  | HNil => Done meta_nil
  | HRoot c p => rbind (meta_of p) (meta_root sha fbits c)
  | HStep c p r => rbind (meta_of p) (fun m => rbind (meta_of r) (fun refd => meta_next sha fbits m c refd))
  end.
Definition hash_of (h : hist) : sha2 := match meta_of h with Done m => m_hash m | _ => SHA2_ZERO end.

(* the byte strings that are hashed on the way *)
Definition image_of (c : cursor) (prev refh : sha2) : list bytes :=
  match hash_image fbits c prev refh with Done img => [img] | _ => [] end.
Fixpoint hashed (h : hist) : list bytes :=
  match h with
  | HNil => []
  | HRoot c p => image_of c (hash_of p) (sha_uuid sha (text_ref c)) ++ hashed p
  | HStep c p r => image_of c (hash_of p) (hash_of r) ++ hashed p ++ hashed r
  end.
(* two of them with the same hash; one whose hash is zero *)
Definition collision (a b : list bytes) : Prop := exists x y, In x a /\ In y b /\ x <> y /\ sha x = sha y.
Definition zero_hash (a : list bytes) : Prop := exists x, In x a /\ sha x = repeat 0 32.
End Hash.
