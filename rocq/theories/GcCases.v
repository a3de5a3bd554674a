(* C78: concrete cases and counterexamples. *)
From Coq Require Import String Sorted.
From Verif Require Import Prelude UuidModel UuidSpec UuidProofs KeyModel CodecModel TextModel TextSpec BuilderSpec BuilderProofs MergeModel MergeSpec MergeTextModel
  MergeProofs RgaProofs MergeTheorems TextMergeSpec TextCursors TextMerge SizeProofs TextMergeTheorems Txt MergeCases TextMergeCases SliceModel GcModel GcSpec GcProofs GcTheorems.
Open Scope string_scope.
Open Scope N_scope.
Open Scope list_scope.

Definition named (n : N) : value := VUuid (mkUuid (n * 2 ^ 54) 0).
Definition gcA : list uop := [mkUop (A 1) LWW_FORM_UUID []; mkUop (A 2) (A 1) [named 37; VInt 1]; mkUop (A 3) (A 2) [named 38; VInt 2]].
Definition gcB : list uop := [mkUop (A 1) LWW_FORM_UUID []; mkUop (A 4) (A 1) [named 37; VInt 3]; mkUop (A 5) (A 4) []].
Lemma gc_mergeable : mergeable (gcA ++ gcB)%list.
Proof.
  apply mergeableb_ok; [vm_compute; reflexivity|]. intros a b IA IB. cbn [gcA gcB app In] in IA, IB.
  repeat (destruct IA as [<-|IA]; [repeat (destruct IB as [<-|IB]; [cbn [u_id]; intro E; first [reflexivity | discriminate E]|]); destruct IB|]). destruct IA.
Qed.
(* the hypotheses of C78_gc and C78_plain: a = 1, b = 2; b = 2 only is kept *)
Example C78_case :
  frame_lit canon (text_for gcA) (chunk_of gcA) /\ mergeable (map bare (chunk_of gcA)) /\ Forall plain_key (chunk_of gcA) /\ NoDup (map r_id (chunk_of gcA)) /\
  map sets (chunk_of gcA) = [false; true; true] /\
  gc_frame no_floats 100 (text_for gcA) = Done (text_for [mkUop (A 3) (A 2) [named 38; VInt 2]]).
Proof.
  split; [|split; [|split; [|split; [|split]]]].
  - apply text_for_ok; [|vm_compute; discriminate|vm_compute; reflexivity]. apply (mergeable_incl _ _ gc_mergeable). intros u I. apply in_or_app. tauto.
  - unfold chunk_of. rewrite bare_denote. apply (mergeable_incl _ _ gc_mergeable). intros u I. apply in_or_app. tauto.
  - repeat (apply Forall_cons; [vm_compute; first [reflexivity | exact Logic.I]|]). apply Forall_nil.
  - vm_compute. repeat constructor; cbn; intuition discriminate.
  - vm_compute. reflexivity.
  - vm_compute. reflexivity.
Qed.
(* those of C78_merge: a = 1 and b = 2 in one frame, a = 3 in the other *)
Example C78_merge_case : exists cs,
  open_cursors [text_for gcA; text_for gcB] = Some cs /\
  Forall2 (frame_lit canon) [text_for gcA; text_for gcB] [chunk_of gcA; chunk_of gcB] /\ Forall sorted_ids [chunk_of gcA; chunk_of gcB] /\
  N.of_nat (room (map bare (List.concat [chunk_of gcA; chunk_of gcB]))) < 2 ^ 30 /\ Forall plain_key (List.concat [chunk_of gcA; chunk_of gcB]) /\
  merge_gc no_floats 100 cs = Done (text_for [mkUop (A 4) (A 1) [named 37; VInt 3]]).
Proof.
  destruct (open_cursors [text_for gcA; text_for gcB]) as [cs|] eqn:O; [|exfalso; revert O; vm_compute; discriminate].
  exists cs. split; [reflexivity|]. split; [|split; [|split; [|split]]].
  - constructor; [|constructor; [|constructor]]; (apply text_for_ok; [|vm_compute; discriminate|vm_compute; reflexivity]);
      (apply (mergeable_incl _ _ gc_mergeable); intros u I; apply in_or_app; tauto).
  - apply (ssb_ok id_le (fun a b => negb (uuid_ltb (r_id b) (r_id a)))); [|vm_compute; reflexivity].
    intros a b E. apply negb_true_iff in E. exact E.
  - vm_compute. reflexivity.
  - repeat (apply Forall_cons; [vm_compute; first [reflexivity | exact Logic.I]|]). apply Forall_nil.
  - assert (E : match open_cursors [text_for gcA; text_for gcB] with Some l => merge_gc no_floats 100 l | None => Aborted end =
        Done (text_for [mkUop (A 4) (A 1) [named 37; VInt 3]])) by (vm_compute; reflexivity).
    rewrite O in E. exact E.
Qed.
(* keys that are strings (as in rdt/test/lww.cc), a header alone, cursors not
   moved, keys that are scoped names *)
Example C78_other_cases :
  gc_frame no_floats 100 (text_for lwwA) = Aborted /\ gc_frame no_floats 100 (txt "@1+A :lww;") = Done [] /\
  merge_gc no_floats 100 [cursor_of (text_for gcA)] = Done [] /\
  gc_frame no_floats 100 (txt "@1+A :lww; @2+A :1+A a$0000A 1;") = Aborted /\
  meta_gc 100 (txt "@1+A :meta; @2+A :1+A 'x';") = Done [].
Proof. do 4 (split; [vm_compute; reflexivity|]). vm_compute. reflexivity. Qed.

Definition opsf (f : bytes) : list rop := fst (scan 100 (cursor_of f)).
(* that the last write of every key is kept is false; so is that the header is *)
Theorem C78_last_refuted : exists f text o, In o (opsf f) /\ r_vals o <> [] /\
  (forall o', In o' (opsf f) -> key_of o' = key_of o -> o' = o) /\
  gc_frame no_floats 100 f = Done text /\ ~ In (bare o) (map bare (opsf text)).
Proof.
  exists (text_for gcA), (text_for [mkUop (A 3) (A 2) [named 38; VInt 2]]), (mkRop (A 2) (A 1) [named 37; VInt 1] REDUCED).
  assert (E : opsf (text_for gcA) = chunk_of gcA) by (vm_compute; reflexivity). rewrite E.
  split; [vm_compute; auto|]. split; [discriminate|]. split.
  - intros o' I K. unfold gcA, chunk_of in I. cbn [map app denote term_after In] in I.
    destruct I as [<-|[<-|[<-|[]]]]; [discriminate K|vm_compute; reflexivity|discriminate K].
  - split; [vm_compute; reflexivity|]. 
    assert (E2 : map bare (opsf (text_for [mkUop (A 3) (A 2) [named 38; VInt 2]])) = [mkUop (A 3) (A 2) [named 38; VInt 2]]) by (vm_compute; reflexivity).
    rewrite E2. intros [H|[]]. apply (f_equal u_ref) in H. vm_compute in H. discriminate H.
Qed.
Print Assumptions C78_last_refuted.
(* nor is garbage collection safe on every readable frame *)
Theorem C78_safe_refuted : exists f, opsf f <> [] /\ gc_frame no_floats 100 f = Aborted.
Proof. exists (text_for lwwA). split; [vm_compute; discriminate|vm_compute; reflexivity]. Qed.
Print Assumptions C78_safe_refuted.
