(* Op metadata: ron/opmeta.hpp, with the op hashes of ron/hash.hpp:160-200.
   sha is Botan's SHA-512/256, fbits is strtod: both are parameters. *)
From Verif Require Import Prelude UuidModel KeyModel CodecModel TextTable TextModel MergeModel MergeTextModel HashModel.

(* ron/hash.cc:5 SHA2::ZERO, ParseHex of 32 digits *)
Definition SHA2_ZERO : sha2 := mkSha2 128 (repeat 0 32).
(* ron/uuid.hpp:244-247 operator> *)
Definition uuid_gtb (a b : uuid) : bool := uuid_ltb b a.

(* ron/opmeta.hpp:17-30 *)
Record meta : Set := mkMeta {
  m_id : uuid; m_rdt : uuid; m_obj : uuid; m_hash : sha2; m_prev : N; m_chain : N }.
(* ron/opmeta.hpp:34-41 OpMeta() *)
Definition meta_nil : meta := mkMeta NIL NIL NIL SHA2_ZERO 0 0.

(* ron/opmeta.hpp:58-62 is_next, 64-67 is_check *)
Definition meta_is_next (m : meta) (c : cursor) : bool :=
  (version (text_id c) =? TIME) && (uorigin (text_id c) =? uorigin (m_id m)) &&
  uuid_gtb (text_id c) (m_id m) && uuid_eqb (text_ref c) (m_id m).
Definition meta_is_check (m : meta) (c : cursor) : bool :=
  (version (text_id c) =? NAME) && uuid_eqb (text_ref c) (m_id m).

(* ron/opmeta.hpp:90-110 Check *)
Definition meta_check (c : cursor) : status :=
  let f := uuid2form (text_ref c) in
  if (f =? META_META_FORM) || (f =? PREV_META_FORM) || (f =? OBJ_META_FORM) || (f =? SHA3_META_FORM)
  then StOK else StBadArgs.

Section Hash.
Variable sha : bytes -> bytes.
Variable fbits : bytes -> N.

(* ron/hash.hpp:160-164 SHA2(Uuid) *)
Definition sha_uuid (u : uuid) : sha2 := mkSha2 256 (sha (write_id u)).
(* ron/hash.hpp:192-200 OpMerkleHash *)
Definition op_hash (c : cursor) (prev refh : sha2) : res sha2 :=
  rbind (hash_image fbits c prev refh) (fun img => Done (mkSha2 256 (sha img))).

(* ron/opmeta.hpp:43-56 OpMeta(op, prev) *)
Definition meta_root (c : cursor) (prev : meta) : res meta :=
  if negb (version (text_id c) =? TIME) then Aborted
  else if negb (version (text_ref c) =? NAME) then Aborted
  else rbind (op_hash c (m_hash prev) (sha_uuid (text_ref c))) (fun h =>
       Done (mkMeta (text_id c) (text_ref c) (text_id c) h (uvalue (m_id prev)) (uvalue (text_id c)))).

(* ron/opmeta.hpp:74-88 Next; refd may be the same object, whose id, prev and
   chain are then overwritten before its rdt, object and hash are read: the
   latter are what they were *)
Definition meta_next (m : meta) (c : cursor) (refd : meta) : res meta :=
  if negb ((uorigin (text_id c) =? uorigin (m_id m)) && uuid_gtb (text_id c) (m_id m)) then Aborted
  else
    let prev := uvalue (m_id m) in
    let id := text_id c in
    let ref := text_ref c in
    let chain := if negb (uorigin ref =? uorigin id) || negb (prev =? uvalue ref) then uvalue id else m_chain m in
    rbind (op_hash c (m_hash m) (m_hash refd)) (fun h =>
    Done (mkMeta id (m_rdt refd) (m_obj refd) h prev chain)).

(* ron/opmeta.hpp:112-115 Save, into an empty builder, and Builder::Release *)
Definition meta_save (m : meta) : option bytes :=
  match sha2_base64 (m_hash m) with
  | None => None
  | Some s =>
      match wop_of_op (m_id m) META_FORM_UUID [VUuid (m_obj m); VUuid (m_rdt m); VStr (Some s)] with
      | None => None
      | Some o => build [BAppend o]
      end
  end.
(* ron/frames.hpp:168-171 HasValue(cur, UUID, i) with Uuid{cur.atom(i)} *)
Definition uuid_at (c : cursor) (i : nat) : option uuid :=
  match nth_error (c_op c) i with Some (AUuid u) => Some u | _ => None end.
End Hash.

(* ron/opmeta.hpp:117-137 Load. The hash stays what it was. *)
Inductive load_res : Set := LOk | LBadArgs | LBadSyntax.
Definition meta_load (m : meta) (c : cursor) : meta * load_res :=
  let m1 := mkMeta (text_id c) (m_rdt m) (m_obj m) (m_hash m) (N.shiftl 63 54) (uvalue (text_id c)) in
  if negb (uuid_eqb (text_ref c) META_FORM_UUID) then (m1, LBadArgs)
  else match uuid_at c 2 with
       | None => (m1, LBadSyntax)
       | Some obj =>
           let m2 := mkMeta (m_id m1) (m_rdt m1) obj (m_hash m1) (m_prev m1) (m_chain m1) in
           match uuid_at c 3 with
           | None => (m2, LBadSyntax)
           | Some rdt => (mkMeta (m_id m1) rdt obj (m_hash m1) (m_prev m1) (m_chain m1), LOk)
           end
       end.
