(* What a replica is supposed to do with a received frame, in terms of the ops
   of the frame, the reads of the store and the records written to it. *)
From Verif Require Import Prelude UuidModel KeyModel CodecModel TextTable TextModel MergeModel MergeTextModel
  StoreModel HashModel MetaModel ClockModel ReplicaModel.

(* ---- the ops of a frame ---- *)
(* Next has delivered the ops l, in order, since c0; c is where it is now *)
Inductive run_to (c0 : cursor) : list cursor -> cursor -> Prop :=
| run_here : run_to c0 [] c0
| run_next l c c' : run_to c0 l c -> next c = NOk c' -> run_to c0 (l ++ [c']) c'.
Definition delivered (frame : bytes) (c : cursor) : Prop := exists l, run_to (cursor_of frame) (l ++ [c]) c.
(* all the ops: after them Next reports the end of the frame or an error *)
Definition ops_of (frame : bytes) (l : list cursor) : Prop :=
  exists c d, run_to (cursor_of frame) l c /\ (next c = NEnd d \/ next c = NBad d).
(* an event with its author, not a query *)
Definition stamped (c : cursor) : Prop :=
  version (text_id c) = TIME /\ payload (uorigin (text_id c)) <> 0 /\ c_term c <> QUERY.
(* what Next gives after c, comments skipped *)
Inductive lands (c : cursor) : next_res -> Prop :=
| lands_here : (forall d, next c = NOk d -> text_id d <> COMMENT) -> lands c (next c)
| lands_comment d o : next c = NOk d -> text_id d = COMMENT -> lands d o -> lands c o.
(* the op is followed neither by a syntax error nor by a check: an annotation of
   the op, such as its hash *)
Definition clean (c : cursor) : Prop := forall o, lands c o ->
  (forall d, o <> NBad d) /\ (forall d, o = NOk d -> version (text_id d) = NAME -> text_ref d <> text_id c).
(* an op that gives a name to the current version *)
Definition naming (c : cursor) : Prop := text_id c = NAME_UUID.

(* some of the elements of a list, in the same order *)
Inductive subl {T : Type} : list T -> list T -> Prop :=
| subl_none : subl [] []
| subl_skip x a b : subl a b -> subl a (x :: b)
| subl_take x a b : subl a b -> subl (x :: a) (x :: b).
Definition twice {T : Type} (l : list T) : list T := flat_map (fun x => [x; x]) l.

(* ---- chains ---- *)
(* each op is of the same yarn and directly references the previous one, which
   is earlier *)
Fixpoint linked (c : cursor) (rest : list cursor) : Prop :=
  match rest with
  | [] => True
  | d :: r =>
      uorigin (text_id d) = uorigin (text_id c) /\ uuid_ltb (text_id c) (text_id d) = true /\
      text_ref d = text_id c /\ linked d r
  end.
Definition same_yarn (u : uuid) (c : cursor) : bool := uorigin (text_id c) =? uorigin u.

(* a chain as it is stored: its ops, the object, the object's type, the chain
   record and the text of the ops *)
Record chain : Type := mkChain {
  ch_head : cursor; ch_rest : list cursor; ch_obj : uuid; ch_rdt : uuid; ch_record : bytes; ch_text : bytes }.
Definition ch_ops (h : chain) : list cursor := ch_head h :: ch_rest h.
Definition ch_id (h : chain) : uuid := text_id (ch_head h).
Definition ch_tip (h : chain) : uuid := text_id (last (ch_rest h) (ch_head h)).
(* the chain's text is what a builder makes of its ops *)
Definition ops_text (l : list cursor) : option bytes := build (map (fun x => BAppend (wop_of_cursor x)) l).
(* the records of a chain *)
Definition ch_records (h : chain) : list (key * bytes) :=
  [ (key_as (ch_id h) META_FORM_UUID, ch_record h);
    (key_as (ch_obj h) LOG_FORM_UUID, ch_text h);
    (key_as (ch_obj h) (ch_rdt h), ch_text h) ].
(* a chain record: one op, @id :meta object rdt 'hash'; the hash: 256 bits in
   base 64 *)
Definition is_record (f : bytes) (id obj rdt : uuid) : Prop :=
  exists raw h, sha2_base64 (mkSha2 256 raw) = Some h /\
    one_op id META_FORM_UUID [VUuid obj; VUuid rdt; VStr (Some h)] = Some f.

Section Store.
Variable S : Type.
Notation mem := (list (key * bytes)).
Variable jread : S -> mem -> key -> res (S * mem * bytes * rstatus).
Variable jprev : S -> mem -> key -> res (bytes * rstatus).
Variable mwrite : S -> key -> bytes -> res (S * rstatus).

(* ---- what a commit does to the two stores ---- *)
Inductive act : Type := AWrite (k : key) (f : bytes) | AName (f : bytes).
(* x becomes y by reads of the join, writes to the in-memory store, in the order
   of ws, and writes to the names of the branch *)
Inductive acts (x : S * mem) : list act -> S * mem -> Prop :=
| acts_none : acts x [] x
| acts_read ws m w k m' w' f s : acts x ws (m, w) -> jread m w k = Done (m', w', f, s) -> acts x ws (m', w')
| acts_write ws m w k f w' : acts x ws (m, w) -> write bytes w k f = (w', StOK) -> acts x (ws ++ [AWrite k f]) (m, w')
| acts_name ws m w f m' s : acts x ws (m, w) -> mwrite m (key_of NIL LWW_RDT_FORM) f = Done (m', s) ->
    acts x (ws ++ [AName f]) (m', w).
Definition writes_of (ws : list act) : list (key * bytes) :=
  flat_map (fun a => match a with AWrite k f => [(k, f)] | AName _ => [] end) ws.
(* a name record: the name is taken from a naming op of the frame *)
Definition name_from (frame : bytes) (a : act) : Prop :=
  match a with
  | AWrite _ _ => True
  | AName f => exists c tag id tip, delivered frame c /\ naming c /\ uuid_at c 2 = Some tag /\ version tag = NAME /\
                 version id = TIME /\ one_op id NIL [VUuid tag; VUuid tip] = Some f
  end.

(* ---- what the stores say about events ---- *)
(* the chain record at or before id: the chain head, its object and its type *)
Definition record_before (m : S) (w : mem) (id head obj rdt : uuid) : Prop :=
  exists f c, jprev m w (key_as id META_FORM_UUID) = Done (f, ROk) /\ next (cursor_of f) = NOk c /\
    text_id c = head /\ uorigin head = uorigin id /\ text_ref c = META_FORM_UUID /\
    uuid_at c 2 = Some obj /\ uuid_at c 3 = Some rdt.
Definition log_is (m : S) (w : mem) (obj : uuid) (log : bytes) (s : rstatus) : Prop :=
  exists m' w', jread m w (key_of obj LOG_RAW_FORM) = Done (m', w', log, s).
(* among the ops l there is one with the id head, and the later ones of its yarn
   make a chain that ends with e *)
Definition leads (l : list cursor) (head e : uuid) : Prop :=
  exists l1 c l2, l = l1 ++ c :: l2 /\ text_id c = head /\
    linked c (filter (same_yarn head) l2) /\ text_id (last (filter (same_yarn head) l2) c) = e.
(* the event e, of the object obj of type rdt, is in the stores: it is the head
   of a chain, or the log of the object leads to it from the head of a chain *)
Definition known (m : S) (w : mem) (e obj rdt : uuid) : Prop :=
  exists head, record_before m w e head obj rdt /\
    (e = head \/ exists log l c, log_is m w obj log ROk /\ run_to (cursor_of log) l c /\ leads l head e).
(* e is the last event of its yarn: the whole log leads to it from the head of
   the last chain of the yarn *)
Definition yarn_tip (m : S) (w : mem) (origin : N) (e obj rdt : uuid) : Prop :=
  exists head, record_before m w (mkUuid NEVER_W origin) head obj rdt /\
    (e = mkUuid NEVER_W origin \/
     exists log l, log_is m w obj log ROk /\ ops_of log l /\ leads l head e).
(* no such event: there is no chain record of the yarn, or the log of the last
   one is not found, lacks the head, or has an op of the yarn after it that does
   not continue the chain *)
Definition no_tip (m : S) (w : mem) (origin : N) : Prop :=
  (exists f, jprev m w (key_as (mkUuid NEVER_W origin) META_FORM_UUID) = Done (f, RNotFound)) \/
  (exists f c, jprev m w (key_as (mkUuid NEVER_W origin) META_FORM_UUID) = Done (f, ROk) /\
     next (cursor_of f) = NOk c /\ (uorigin (text_id c) <> origin \/ text_ref c <> META_FORM_UUID)) \/
  (exists head obj rdt log, record_before m w (mkUuid NEVER_W origin) head obj rdt /\
     (log_is m w obj log RNotFound \/
      log_is m w obj log ROk /\ (forall c, delivered log c -> text_id c <> head) \/
      log_is m w obj log ROk /\ exists l c e, run_to (cursor_of log) (l ++ [c]) c /\ leads l head e /\
        uorigin (text_id c) = origin /\ text_ref c <> e)).

(* ---- when a chain is accepted ---- *)
Definition creates (h : chain) : Prop := ch_obj h = ch_id h /\ ch_rdt h = text_ref (ch_head h).
Definition admitted (m : S) (w : mem) (h : chain) : Prop :=
  let ref := text_ref (ch_head h) in
  let origin := uorigin (ch_id h) in
  version (ch_id h) = TIME /\ linked (ch_head h) (ch_rest h) /\
  (version ref = TIME -> uuid_ltb ref (ch_id h) = true) /\
  is_record (ch_record h) (ch_id h) (ch_obj h) (ch_rdt h) /\
  ops_text (ch_ops h) = Some (ch_text h) /\
  ( (* the first event of a yarn *)
    (ref = YARN_FORM_UUID /\ no_tip m w origin /\ creates h) \/
    (* any other: later than the last event of the yarn *)
    (ref <> YARN_FORM_UUID /\ exists e obj rdt, yarn_tip m w origin e obj rdt /\ uuid_ltb e (ch_id h) = true /\
       ( (* it references that event *)
         (ref = e /\ ch_obj h = obj /\ ch_rdt h = rdt) \/
         (* it creates an object of a known type *)
         (version ref = NAME /\ uuid2form ref <> ZERO_RAW_FORM /\ uuid2form ref <> ERROR_NO_FORM /\ creates h) \/
         (* it references some other known event, of the same object; the time
            NEVER stands for the last event of a yarn *)
         (version ref = TIME /\ exists m' w', acts (m, w) [] (m', w') /\
            (known m' w' ref (ch_obj h) (ch_rdt h) \/
             uvalue ref = NEVER_W /\ exists e', yarn_tip m' w' (uorigin ref) e' (ch_obj h) (ch_rdt h)))))).
(* the chains are accepted one after another, each on top of the previous ones *)
Inductive accepted (x : S * mem) : list chain -> list act -> S * mem -> Prop :=
| acc_none : accepted x [] [] x
| acc_other hs ws m w ws' y : accepted x hs ws (m, w) -> acts (m, w) ws' y -> writes_of ws' = [] -> accepted x hs (ws ++ ws') y
| acc_chain hs ws m w h ws' y : accepted x hs ws (m, w) -> admitted m w h ->
    acts (m, w) ws' y -> writes_of ws' = ch_records h -> accepted x (hs ++ [h]) (ws ++ ws') y.
End Store.
