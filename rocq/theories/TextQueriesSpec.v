(* What several queries in one frame are supposed to be answered with. *)
From Verif Require Import Prelude UuidModel KeyModel CodecModel TextModel TextSpec BuilderSpec TextMergeSpec StoreModel MergeModel RocksModel MergeSpec ScanSpec
  DurableSpec AnswerSpec TextAnswerSpec ClockModel.

(* The text of the object a query asks for, as the elements kept of it tell: what
   is not hidden, up to the first element not written in a span. *)
Definition text_kept (read : key -> res (bytes * kstatus)) (fuel : nat) (q : rop) (cps : list N) : Prop :=
  exists state T ms hs, read (text_key q) = Done (state, KOk) /\ frame_marked canon state (listing T) ms /\ N.of_nat (length state) < 2 ^ 32 /\
    rga_tree T /\ (length (listing T) < fuel)%nat /\ N.of_nat (length (listing T)) < 2 ^ 30 /\
    (forall p, In p (places [] T) -> ~ stray p) /\ (forall p, In p (places [] T) -> hidden p \/ piece (root (snd p))) /\
    Forall2 (fun p (h : bool) => h = true <-> hidden p) (places [] T) hs /\ cps = spelled (listing T) hs ms.

(* The calls that answer queries for states and texts one after another: the ops
   of the state, none of which refers to a derived id, or one op with the text. *)
Inductive replied (read : key -> res (bytes * kstatus)) (fuel : nat) (form : uuid) : list rop -> list ucmd -> Prop :=
| replied_none : replied read fuel form [] []
| replied_state q text ops qs us : state_query q -> read (state_key q) = Done (text, KOk) -> frame_says text ops -> (length ops < fuel)%nat ->
    Forall (fun o => version (r_ref o) <> DERIVED) ops -> replied read fuel form qs us -> replied read fuel form (q :: qs) (replay ops ++ us)
| replied_text q cps qs us : text_query q -> id_ok (r_id q) -> text_kept read fuel q cps -> replied read fuel form qs us ->
    replied read fuel form (q :: qs) (UAppend (mkUop (r_id q) form [VStr (Some cps)]) :: us).

(* the answers to queries for texts: one op for each query, in their order *)
Fixpoint text_answers (form : uuid) (qs : list rop) (texts : list (list N)) : list rop :=
  match qs, texts with
  | [q], [cps] => [mkRop (r_id q) form [VStr (Some cps)] RAW]
  | q :: qs, cps :: texts => mkRop (r_id q) form [VStr (Some cps)] REDUCED :: text_answers form qs texts
  | _, _ => []
  end.

(* no query has the id right after that of the query before it *)
Fixpoint spread (qs : list rop) : Prop :=
  match qs with q :: ((q' :: _) as r) => r_id q' <> inc (r_id q) /\ spread r | _ => True end.
