(* Concrete cases for C32. *)
From Coq Require Import String.
From Verif Require Import Prelude UuidModel UuidSpec KeyModel CodecModel CodecSpec TextTable TextModel TextSpec TextTheorems BuilderSpec
  MergeModel MergeTextModel HashModel HashSpec HashProofs HashTheorems HashCases Txt MetaModel MetaSpec MetaTheorems.
Open Scope string_scope.
Open Scope N_scope.
Open Scope list_scope.

(* 32 bytes that depend on all bytes: only for examples *)
Definition toy_sha (s : bytes) : bytes :=
  be64 (fold_left (fun a b => (a * 257 + b + 1) mod (2 ^ 61 - 1)) s 7) ++ repeat 1 24.

(* a yarn with an object, an edit of it, an edit of the edit, and another
   edit of the object *)
Definition mtext : string := "@1+A :yarn; @2+A :lww; @3+A :2+A 'key' 1; @4+A :3+A 'key' 2; @5+A :2+A 'other' 3;".
Definition mop (n : nat) : cursor := at_op n mtext.
Definition h1 : hist := HRoot (mop 1) HNil.
Definition h2 : hist := HRoot (mop 2) h1.
Definition h3 : hist := HStep (mop 3) h2 h2.
Definition h4 : hist := HStep (mop 4) h3 h3.
Definition h5 : hist := HStep (mop 5) h4 h2.

Lemma mop_readable n : (1 <= n <= 5)%nat -> readable one_float (mop n).
Proof.
  intro L. assert (R : forall k, (k <= 4)%nat -> reachable (txt mtext) (at_op k mtext) /\ next (at_op k mtext) = NOk (at_op (S k) mtext)).
  { assert (Q : forall k, (k <= 4)%nat -> next (at_op k mtext) = NOk (at_op (S k) mtext)).
    { intros k K. destruct k as [|[|[|[|[|]]]]]; try lia; vm_compute; reflexivity. }
    intros k K. split; [|exact (Q k K)]. induction k as [|k IH]; [apply reach0|].
    eapply reach_ok; [apply IH; lia|]. apply Q. lia. }
  destruct n as [|n]; [lia|]. destruct (R n ltac:(lia)) as [R1 R2]. split.
  - exists (txt mtext). split; [vm_compute; reflexivity|]. exists (at_op n mtext). split; assumption.
  - apply said_okb_ok. destruct n as [|[|[|[|[|]]]]]; try lia; vm_compute; reflexivity.
Qed.
Example C32_case : causal one_float h5 /\
  (exists m, meta_of toy_sha one_float h4 = Done m /\ m_obj m = text_id (mop 2) /\ m_rdt m = LWW_FORM_UUID /\
     m_chain m = uvalue (text_id (mop 2)) /\ m_prev m = uvalue (text_id (mop 3))) /\
  (exists m, meta_of toy_sha one_float h5 = Done m /\ m_obj m = text_id (mop 2) /\
     m_chain m = uvalue (text_id (mop 5)) /\ m_prev m = uvalue (text_id (mop 4))) /\
  hash_of toy_sha one_float h4 <> hash_of toy_sha one_float h5 /\
  List.length (hashed toy_sha one_float h5) = 14%nat /\ (forall s, List.length (toy_sha s) = 32%nat).
Proof.
  split.
  { assert (R : forall n, (1 <= n <= 5)%nat -> readable one_float (mop n)) by exact mop_readable.
    unfold h5, h4, h3, h2, h1. cbn [causal].
    repeat match goal with
    | |- _ /\ _ => split
    | |- readable _ _ => apply R; lia
    | |- True => exact I
    | |- _ <> _ => discriminate
    | |- _ = _ => vm_compute; reflexivity
    end. }
  split; [eexists; split; [vm_compute; reflexivity|]; repeat split|].
  split; [eexists; split; [vm_compute; reflexivity|]; repeat split|].
  split; [vm_compute; discriminate|]. split; [vm_compute; reflexivity|].
  intro s. unfold toy_sha. rewrite app_length, repeat_length. reflexivity.
Qed.

(* the condition on the object's id in C32_save_load is needed: the record of an
   object whose id looks like a number cannot be loaded *)
Definition float_id : uuid := mkUuid (1 * 2 ^ 54 + 41 * 2 ^ 48) (2 * 2 ^ 60 + 2 * 2 ^ 54).
Theorem C32_number_id_refuted : exists m text c,
  m_obj m = float_id /\ version float_id = TIME /\ write_uuid float_id = txt "1e+2" /\
  meta_save m = Some text /\ next (cursor_of text) = NOk c /\ snd (meta_load meta_nil c) = LBadSyntax.
Proof.
  exists (mkMeta (mkUuid (2 ^ 55) (uorigin float_id)) LWW_FORM_UUID float_id (mkSha2 256 (repeat 7 32)) 0 0).
  eexists _, _. split; [reflexivity|]. split; [vm_compute; reflexivity|]. split; [vm_compute; reflexivity|].
  split; [vm_compute; reflexivity|]. split; [vm_compute; reflexivity|]. vm_compute. reflexivity.
Qed.
Print Assumptions C32_number_id_refuted.
