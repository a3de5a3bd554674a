(* The RocksDB store: db/rocks_store.cc, one column family, text frames.

   RocksDB itself is not modelled but for what it promises: a key has a value,
   or none, and merge operands on top of it, oldest first; keys are sorted by
   their bytes, which is the order of keys (C07); a read hands the value and the
   operands to the merge operator; at any time (flush, compaction) neighbouring
   operands may be replaced by their partial merge, and the value with the
   oldest operands by their full merge; nothing happens if the operator fails
   then. An iterator sees the state in which it was made. The database is open;
   its own failures and the trace output (LOG) are not modelled. fbits: strtod,
   fuel: a bound on the ops merged. *)
From Verif Require Import Prelude UuidModel KeyModel CodecModel TextModel MergeModel MergeTextModel.

Record cell : Set := mkCell { ce_value : option bytes; ce_operands : list bytes }.
Definition cell0 : cell := mkCell None [].
Definition held (v : option bytes) : list bytes := match v with Some f => [f] | None => [] end.
(* compaction of a key: n neighbouring operands after the first i; the value
   with the first n operands *)
Inductive compaction : Set := CPartial (i n : nat) | CFull (n : nat).

Section Rocks.
Variable fbits : bytes -> N.
Variable fuel : nat.

(* db/rocks_store.cc:59-81 FullMergeV2, 83-103 PartialMergeMulti; None: the
   operator returns false. swap of a Builder and a String is Release,
   ron/text.hpp:396-398. *)
Definition operator_merge (form : N) (fs : list bytes) : res (option bytes) :=
  rbind (merge_as fbits fuel form fs) (fun '(f, s) => Done (match s with StOK => f | _ => None end)).
Definition full_merge (k : key) (v : option bytes) (ops : list bytes) : res (option bytes) :=
  operator_merge (key_form k) (held v ++ ops).
Definition partial_merge (k : key) (ops : list bytes) : res (option bytes) := operator_merge (key_form k) ops.

(* what DB::Get finds *)
Inductive got : Set := GNotFound | GValue (f : bytes) | GFail.
Definition cell_get (k : key) (c : cell) : res got :=
  match ce_operands c, ce_value c with
  | [], None => Done GNotFound
  | [], Some f => Done (GValue f)
  | ops, v => rbind (full_merge k v ops) (fun r => Done (match r with Some f => GValue f | None => GFail end))
  end.
Definition cell_compact (k : key) (e : compaction) (c : cell) : res cell :=
  match e with
  | CPartial i n =>
      let ops := ce_operands c in
      match firstn n (skipn i ops) with
      | [] => Done c
      | some => rbind (partial_merge k some) (fun r =>
                Done (match r with
                      | Some f => mkCell (ce_value c) (firstn i ops ++ f :: skipn n (skipn i ops))
                      | None => c
                      end))
      end
  | CFull n =>
      match firstn n (ce_operands c) with
      | [] => Done c
      | some => rbind (full_merge k (ce_value c) some) (fun r =>
                Done (match r with Some f => mkCell (Some f) (skipn n (ce_operands c)) | None => c end))
      end
  end.

(* the column family *)
Notation family := (list (key * cell)).
Fixpoint cell_at (d : family) (k : key) : cell :=
  match d with [] => cell0 | (k', c) :: r => if key_eqb k' k then c else cell_at r k end.
Fixpoint put (d : family) (k : key) (c : cell) : family :=
  match d with
  | [] => [(k, c)]
  | (k', c') :: r => if key_ltb k k' then (k, c) :: d else if key_eqb k' k then (k, c) :: r else (k', c') :: put r k c
  end.
(* DB::Merge *)
Definition add_operand (d : family) (k : key) (f : bytes) : family :=
  let c := cell_at d k in put d k (mkCell (ce_value c) (ce_operands c ++ [f])).
Definition compact (d : family) (k : key) (e : compaction) : res family :=
  if existsb (fun r => key_eqb (fst r) k) d
  then rbind (cell_compact k e (cell_at d k)) (fun c => Done (put d k c))
  else Done d.

(* db/rocks_store.cc:193-206 Write; KDbFail is Status::DB_FAIL, KEnd ENDOFINPUT *)
Inductive kstatus : Set := KOk | KBadArgs | KDbFail | KEnd.
Definition rocks_write (d : family) (k : key) (f : bytes) : family * kstatus :=
  if key_eqb k KEY_END && negb (match f with [] => true | _ => false end) then (d, KBadArgs)
  else (add_operand d k f, KOk).
(* 234-248 Write(batch): no check of the keys *)
Definition rocks_batch (d : family) (l : list (key * bytes)) : family * kstatus :=
  (fold_left (fun d r => add_operand d (fst r) (snd r)) l d, KOk).
(* 208-232 Read *)
Definition rocks_read (d : family) (k : key) : res (bytes * kstatus) :=
  if key_eqb k KEY_END then Done ([], KOk)
  else rbind (cell_get k (cell_at d k)) (fun g =>
       Done (match g with GNotFound => ([], KOk) | GValue f => (f, KOk) | GFail => ([], KDbFail) end)).

(* 252-315 Iterator: a snapshot and a position in it; None: not Valid() *)
Record riter : Type := mkRiter { ri_snap : family; ri_at : option nat }.
Definition ri_new (d : family) : riter := mkRiter d None.
(* 269-275 key *)
Definition ri_key (it : riter) : key :=
  match ri_at it with
  | None => KEY_END
  | Some i => match nth_error (ri_snap it) i with Some (k, _) => k | None => KEY_END end
  end.
(* 277-284 value: the frame of the cursor *)
Definition ri_value (it : riter) : res got :=
  match ri_at it with
  | None => Done (GValue [])
  | Some i => match nth_error (ri_snap it) i with Some (k, c) => cell_get k c | None => Done (GValue []) end
  end.
(* the operands of a key are merged when the iterator gets there; it is not
   valid if that fails *)
Definition settle (it : riter) : res (riter * kstatus) :=
  rbind (ri_value it) (fun g => Done (match g with GFail => (mkRiter (ri_snap it) None, KDbFail) | _ => (it, KOk) end)).
(* rocksdb::Iterator::Seek, SeekForPrev *)
Fixpoint first_from (d : family) (k : key) (i : nat) : option nat :=
  match d with [] => None | (k', _) :: r => if key_ltb k' k then first_from r k (S i) else Some i end.
Fixpoint last_upto (d : family) (k : key) (i : nat) (found : option nat) : option nat :=
  match d with [] => found | (k', _) :: r => if key_ltb k k' then found else last_upto r k (S i) (Some i) end.
(* 300-309 SeekTo *)
Definition ri_seek (it : riter) (k : key) (prev : bool) : res (riter * kstatus) :=
  settle (mkRiter (ri_snap it) (if prev then last_upto (ri_snap it) k 0 None else first_from (ri_snap it) k 0)).
(* 286-298 Next; of an iterator that is not valid it is undefined *)
Definition ri_next (it : riter) : res (riter * kstatus) :=
  match ri_at it with
  | None => Aborted
  | Some i => if Nat.ltb (S i) (length (ri_snap it)) then settle (mkRiter (ri_snap it) (Some (S i)))
              else Done (mkRiter (ri_snap it) None, KEnd)
  end.
(* while key() is not Key::END: key(), value(), Next() *)
Fixpoint ri_walk (n : nat) (it : riter) : res (list (key * got)) :=
  match n with
  | O => Fuel
  | S m =>
      if key_eqb (ri_key it) KEY_END then Done []
      else rbind (ri_value it) (fun g =>
           rbind (ri_next it) (fun '(it', _) =>
           rbind (ri_walk m it') (fun l => Done ((ri_key it, g) :: l))))
  end.

(* a history of the family *)
Inductive revent : Set := RWrite (k : key) (f : bytes) | RBatch (l : list (key * bytes)) | RCompact (k : key) (e : compaction).
Definition rstep (d : family) (e : revent) : res family :=
  match e with
  | RWrite k f => Done (fst (rocks_write d k f))
  | RBatch l => Done (fst (rocks_batch d l))
  | RCompact k e => compact d k e
  end.
Fixpoint rrun (d : family) (es : list revent) : res family :=
  match es with [] => Done d | e :: r => rbind (rstep d e) (fun d' => rrun d' r) end.
End Rocks.
