(* What the parts of a test script are, and when a script passes. *)
From Verif Require Import Prelude UuidModel CodecModel TextTable TextModel TextSpec BuilderSpec MergeModel TextMergeSpec ReplicaModel
  ReplicaSpec BranchModel BranchSpec DurableSpec AnswerSpec AnswerModel HostModel CompareSpec ScriptModel.

(* a comment that ends with ! or ? begins a part *)
Definition header (o : rop) : Prop := r_id o = COMMENT /\ In (r_term o) [HEADER; QUERY].
(* the parts of a script: the comment a part begins with, the rest *)
Definition parted (ops : list rop) (parts : list (rop * list rop)) : Prop :=
  ops = concat (map (fun p => fst p :: snd p) parts) /\
  Forall (fun p => Forall (fun o => ~ header o) (snd p)) parts /\
  Forall (fun p => header (fst p)) (tl parts).

(* an op of the script and the same op in a frame of its own part: the
   terminator is kept if the op has one of its own *)
Definition retold_op (o x : rop) : Prop := bare x = bare o /\ (r_term o <> REDUCED -> r_term x = r_term o).
(* the comment a part begins with may lose its reference *)
Definition retold_head (o x : rop) : Prop :=
  r_id x = r_id o /\ r_vals x = r_vals o /\ r_term x = r_term o /\ (r_ref x = r_ref o \/ r_ref x = NIL).
Definition retold (p : rop * list rop) (l : list rop) : Prop :=
  exists h t, l = h :: t /\ retold_head (fst p) h /\ Forall2 retold_op (snd p) t.

(* ---- when a script passes ---- *)
Section Plays.
Variable sha : bytes -> bytes.
Variable fbits : bytes -> N.
Variable fuel : nat.

(* a response has the ops a part asks for: the same ones in the same order,
   comments and terminators aside; a response without ops never has *)
Definition as_asked (re asked : list rop) : Prop := re <> [] /\ Forall2 (same_op fbits) (content re) (content asked).
(* how the comment ends that a part begins with *)
Definition ends_with (l : list rop) (ts : list N) : Prop := match l with o :: _ => In (r_term o) ts | [] => False end.

(* the parts of a script, each with the ops it has, on a replica with the calls
   made on the response since the last comparison; true: all is as asked. A
   part ending with ! or ; is received by the test branch, a part ending with ?
   is compared with the response. *)
Inductive plays : host -> list (list N) -> list bcmd -> list (bytes * list rop) -> bool -> Prop :=
| plays_end h rs a : plays h rs a [] true
| plays_write h rs a f l r h' a' re v : ends_with l [HEADER; RAW] -> h_ask sha fbits fuel h (hd [] rs) TEST_YARN f = Done (h', ROk, a') ->
    build (a ++ a') = Some re -> plays h' (tl rs) (a ++ a') r v -> plays h rs a ((f, l) :: r) v
| plays_refused h rs a f l r h' s a' re : ends_with l [HEADER; RAW] -> h_ask sha fbits fuel h (hd [] rs) TEST_YARN f = Done (h', s, a') -> s <> ROk ->
    build (a ++ a') = Some re -> plays h rs a ((f, l) :: r) false
| plays_same h rs a f l r re lr bad v : ends_with l [QUERY] -> build a = Some re -> reads_as re lr bad -> readable_ops fbits lr -> (length lr < fuel)%nat ->
    as_asked lr l -> plays h rs [] r v -> plays h rs a ((f, l) :: r) v
| plays_differs h rs a f l r re lr bad : ends_with l [QUERY] -> build a = Some re -> reads_as re lr bad -> readable_ops fbits lr -> (length lr < fuel)%nat ->
    ~ as_asked lr l -> plays h rs a ((f, l) :: r) false.
(* frames received one after another by the test branch, all accepted *)
Inductive accepts : host -> list (list N) -> list bytes -> host -> Prop :=
| accepts_none h rs : accepts h rs [] h
| accepts_more h rs f fs h1 h2 : h_receive sha fbits fuel h (hd [] rs) TEST_YARN f = Done (h1, ROk) -> accepts h1 (tl rs) fs h2 -> accepts h rs (f :: fs) h2.
End Plays.
(* the test branch, not opened since it was made *)
Definition unopened (h : host) (b : branch) : Prop := h_open h = true /\ find_store (h_stores h) (branch_id TEST_YARN) = Some b /\ br_tip b = NIL.
(* the chains a frame is stored as *)
Definition chained (f : bytes) (hs : list chain) : Prop := (exists c, last_event f c) /\ chains_of f hs \/ no_event f /\ hs = [].
