(* C80: concrete cases and a counterexample. *)
From Coq Require Import String.
From Verif Require Import Prelude UuidModel UuidSpec KeyModel CodecModel TextModel TextSpec BuilderSpec BuilderProofs MergeModel MergeSpec MergeTextModel
  TextMergeSpec TextCursors TextMerge TextMergeTheorems Txt MergeCases TextMergeCases GcTheorems GcCases CompareModel CompareSpec CompareCases ReserModel ReserTheorems.
Open Scope string_scope.
Open Scope N_scope.
Open Scope list_scope.

Definition first_of (f : bytes) : cursor := match next (cursor_of f) with NOk c => c | _ => cursor_of f end.
Lemma writable_of us : mergeable us -> writable (chunk_of us).
Proof.
  intro M. unfold writable, chunk_of. rewrite bare_denote. apply good_open. apply (mergeable_good us us M). apply incl_refl.
Qed.
(* the hypotheses of C80_same and C80_equal: two frames *)
Example C80_case :
  Forall2 (frame_lit canon) [text_for gcA; text_for gcB] [chunk_of gcA; chunk_of gcB] /\
  Forall2 at_first [text_for gcA; text_for gcB] [first_of (text_for gcA); first_of (text_for gcB)] /\
  Forall writable [chunk_of gcA; chunk_of gcB] /\ readable_ops no_floats (chunk_of gcA) /\
  reserialize 100 [first_of (text_for gcA); first_of (text_for gcB)] = Done ([text_for gcA; text_for gcB], true).
Proof.
  assert (MA : mergeable gcA) by (apply (mergeable_incl _ _ gc_mergeable); intros u I; apply in_or_app; tauto).
  assert (MB : mergeable gcB) by (apply (mergeable_incl _ _ gc_mergeable); intros u I; apply in_or_app; tauto).
  split; [|split; [|split; [|split]]].
  - constructor; [apply text_for_ok; [exact MA|vm_compute; discriminate|vm_compute; reflexivity]|].
    constructor; [apply text_for_ok; [exact MB|vm_compute; discriminate|vm_compute; reflexivity]|constructor].
  - constructor; [vm_compute; reflexivity|constructor; [vm_compute; reflexivity|constructor]].
  - constructor; [apply writable_of; exact MA|constructor; [apply writable_of; exact MB|constructor]].
  - apply readable_opsb. vm_compute. reflexivity.
  - vm_compute. reflexivity.
Qed.
(* a text with a span and a query, written anew; a syntax error in the second
   frame; a cursor as it was made *)
Example C80_other_cases :
  reserialize 100 [first_of (txt "@1+A :rga! @2+A :1+A ('abc') ? @5+B :1+A 4,")] = Done ([txt "@1+A :rga,
@2+A ('abc'),
@5+B :1+A 4;
"], true) /\
  reserialize 100 [first_of (txt "@1+A :lww;"); first_of (txt "@2+A :1+A 'x', }"); first_of (txt "@3+A :lww;")] = Done ([txt "@1+A :lww;
"], false) /\
  reads_as (txt "@2+A :1+A 'x', }") (opsf (txt "@2+A :1+A 'x', }")) true /\
  reserialize 100 [cursor_of (txt "@1+A :lww;")] = Aborted.
Proof. do 2 (split; [vm_compute; reflexivity|]). split; [exists 100%nat; vm_compute; reflexivity|vm_compute; reflexivity]. Qed.
(* the terminators are lost: a query is not one any more *)
Theorem C80_terms_refuted : exists f c t, at_first f c /\ reserialize 100 [c] = Done ([t], true) /\
  map r_term (opsf f) = [QUERY] /\ map r_term (opsf t) = [RAW].
Proof.
  exists (txt "@1+A :lww?"), (first_of (txt "@1+A :lww?")), (txt "@1+A :lww;
"). do 3 (split; [vm_compute; reflexivity|]). vm_compute. reflexivity.
Qed.
Print Assumptions C80_same.
Print Assumptions C80_equal.
Print Assumptions C80_bad.
Print Assumptions C80_unmoved.
Print Assumptions C80_terms_refuted.
