(* The joined store: concrete cases and counterexamples for C36. *)
From Coq Require Import String Sorted Permutation.
From Verif Require Import Prelude UuidModel UuidSpec UuidProofs KeyModel CodecModel TextModel TextSpec BuilderSpec BuilderProofs MergeModel MergeSpec MergeTextModel
  MergeProofs RgaProofs MergeTheorems TextMergeSpec TextCursors TextMerge TextMergeTheorems StoreModel StoreSpec StoreProofs StoreTheorems JoinProofs JoinTheorems
  Txt MergeCases TextMergeCases StoreCases.
Open Scope string_scope.
Open Scope N_scope.
Open Scope list_scope.

Definition ma := merge_frames no_floats 100.
(* db/joined_store.hpp:113: OneOp(code, FATAL); the status codes are not modelled: a single op *)
Definition err (_ : status) : bytes := text_for [mkUop NIL FATAL []].
Definition sa : list (key * bytes) := fst (write_batch bytes opened [(kA, text_for lwwA); (kB, txt "@5+A :lww; @6+A :5+A 'p' 1;")]).
Definition sb : list (key * bytes) := fst (write_batch bytes opened [(kA, text_for lwwB)]).

Lemma no_two_total (st : list (key * bytes)) m : forallb (fun k => Nat.ltb (List.length (contents st k)) 2) (map fst st) = true -> total m st.
Proof.
  intros H k L. exfalso. rewrite forallb_forall in H. destruct (contents st k) as [|f fs] eqn:C; [cbn [List.length] in L; lia|].
  assert (I : In k (map fst st)).
  { unfold contents in C. destruct (filter _ st) as [|z r] eqn:Q; [discriminate|]. assert (J : In z (z :: r)) by (left; reflexivity). rewrite <- Q in J.
    apply filter_In in J as [J K]. apply key_eqb_eq in K. rewrite <- K. apply in_map. exact J. }
  specialize (H k I). apply Nat.ltb_lt in H. rewrite C in H. lia.
Qed.

Definition both : bytes := text_for (lwwA ++ skipn 1 lwwB).
Example C36_case : sorted_store sa /\ Forall key64 (map fst sa) /\ sorted_store sb /\ Forall key64 (map fst sb) /\ key64 kA /\
  total mf sa /\ total mf sb /\ jtotal [] mf ma sa sb /\
  j_walk bytes [] empty_text mf ma err sa sb kA [true; true; true] = Done (sa, sb, [(kA, Some both); (kB, Some (txt "@5+A :lww; @6+A :5+A 'p' 1;"))]) /\
  j_read bytes [] empty_text mf ma sa sb kA [] = Done (sa, sb, both, StOK) /\
  j_read bytes [] empty_text mf ma sa sb kB [] = Done (sa, sb, txt "@5+A :lww; @6+A :5+A 'p' 1;", StOK).
Proof.
  split; [apply sorted_storeb; vm_compute; reflexivity|]. split; [apply key64b; vm_compute; reflexivity|].
  split; [apply sorted_storeb; vm_compute; reflexivity|]. split; [apply key64b; vm_compute; reflexivity|]. split; [split; vm_compute; reflexivity|].
  split; [apply no_two_total; vm_compute; reflexivity|]. split; [apply no_two_total; vm_compute; reflexivity|]. split.
  - (* the keys of both stores: zero, kA, END *)
    intros k fa fb NA NB SA SB.
    assert (KIN : forall st : list (key * bytes), contents st k <> [] -> In k (map fst st)).
    { clear. intros st C. unfold contents in C. destruct (filter _ st) as [|z r] eqn:Q; [contradiction|]. assert (J : In z (z :: r)) by (left; reflexivity). rewrite <- Q in J.
      apply filter_In in J as [J K]. apply key_eqb_eq in K. rewrite <- K. apply in_map. exact J. }
    pose proof (KIN sb NB) as IB. assert (EB : map fst sb = [KEY_ZERO; kA; KEY_END]) by (vm_compute; reflexivity). rewrite EB in IB.
    assert (CASES : forall k ca cb, contents sa k = [ca] -> contents sb k = [cb] -> shows [] mf k (contents sa k) fa -> shows [] mf k (contents sb k) fb -> fa = ca /\ fb = cb).
    { clear. intros k ca cb -> -> A B. exact (conj A B). }
    destruct IB as [<-|[<-|[<-|[]]]].
    + destruct (CASES KEY_ZERO (text_for [mkUop (A 9) YARN_FORM_UUID []]) (text_for [mkUop (A 9) YARN_FORM_UUID []])) as [-> ->];
        [vm_compute; reflexivity|vm_compute; reflexivity|exact SA|exact SB|]. eexists. vm_compute. reflexivity.
    + destruct (CASES kA (text_for lwwA) (text_for lwwB)) as [-> ->]; [vm_compute; reflexivity|vm_compute; reflexivity|exact SA|exact SB|]. eexists. vm_compute. reflexivity.
    + destruct (CASES KEY_END [] []) as [-> ->]; [vm_compute; reflexivity|vm_compute; reflexivity|exact SA|exact SB|]. eexists. vm_compute. reflexivity.
  - do 2 (split; [vm_compute; reflexivity|]). vm_compute. reflexivity.
Qed.

(* the hypotheses of C36_text_read *)
Example C36_text_case : holds_ops sa kA (chunk_of lwwA) /\ holds_ops sb kA (chunk_of lwwB) /\ In (key_form kA) [LWW_RDT_FORM; MX_RDT_FORM; YARN_RAW_FORM; META_META_FORM] /\
  headed (key_form kA) (chunk_of lwwA) /\ headed (key_form kA) (chunk_of lwwB) /\ mergeable (map bare (chunk_of lwwA ++ chunk_of lwwB)).
Proof.
  assert (TF : forall us, In us [lwwA; lwwB] -> text_frame (text_for us) (chunk_of us)).
  { intros us I. split; [|split].
    - apply text_for_ok; [apply (mergeable_incl _ _ lww_mergeable)|..].
      + intros u J. apply in_or_app. destruct I as [<-|[<-|[]]]; tauto.
      + destruct I as [<-|[<-|[]]]; vm_compute; discriminate.
      + destruct I as [<-|[<-|[]]]; vm_compute; reflexivity.
    - assert (Forall sorted_ids [chunk_of lwwA; chunk_of lwwB]) as Q.
      { apply (ssb_ok id_le (fun a b => negb (uuid_ltb (r_id b) (r_id a)))); [|vm_compute; reflexivity].
        intros a b E. apply negb_true_iff in E. exact E. }
      rewrite Forall_forall in Q. apply Q. destruct I as [<-|[<-|[]]]; [left|right; left]; reflexivity.
    - destruct I as [<-|[<-|[]]]; vm_compute; reflexivity. }
  assert (HO : forall (st : list (key * bytes)) us, In us [lwwA; lwwB] -> contents st kA = [text_for us] -> holds_ops st kA (chunk_of us)).
  { intros st us I C. exists [chunk_of us]. rewrite C. cbn [List.concat]. rewrite app_nil_r. split; [constructor; [apply TF; exact I|constructor]|].
    split; [reflexivity|lia]. }
  split; [apply HO; [left; reflexivity|vm_compute; reflexivity]|]. split; [apply HO; [right; left; reflexivity|vm_compute; reflexivity]|].
  split; [left; vm_compute; reflexivity|].
  assert (HD : forall us, In us [lwwA; lwwB] -> headed (key_form kA) (chunk_of us)).
  { intros us I. exists (mkUop (A 1) LWW_FORM_UUID []). unfold chunk_of. rewrite bare_denote. split; [destruct I as [<-|[<-|[]]]; left; reflexivity|].
    split; [vm_compute; reflexivity|]. intros u J. destruct I as [<-|[<-|[]]]; cbn [lwwA lwwB In] in J; destruct J as [<-|[<-|[]]]; vm_compute; reflexivity. }
  split; [apply HD; left; reflexivity|]. split; [apply HD; right; left; reflexivity|].
  unfold chunk_of. rewrite map_app, !bare_denote. exact lww_mergeable.
Qed.

(* after SeekTo with prev, Next goes back: the iterator of one store is behind *)
Theorem C36_prev_refuted : exists (a b : list (key * bytes)) k it a2 b2 it2,
  j_seek bytes [] a b (new_jiter bytes []) k true = Done it /\
  j_next bytes [] empty_text a b it = Done (a2, b2, it2, StOK) /\
  ~ key_lt (j_at bytes it2) KEY_ZERO /\ key_lt (j_at bytes it2) (j_at bytes it).
Proof.
  exists [(kA, text_for lwwA)], [(kB, text_for lwwB)], (key_of (A 7) LWW_RDT_FORM).
  do 4 eexists. split; [vm_compute; reflexivity|]. split; [vm_compute; reflexivity|]. split; vm_compute; [discriminate|reflexivity].
Qed.

(* a read merges by the form found in the frames, not by the key's: without the
   header, the ops of the first store are lost, though one store with both
   records returns the union *)
Theorem C36_no_header_refuted : exists (a b : list (key * bytes)) k fa fb,
  contents a k = [fa] /\ contents b k = [fb] /\ fa <> fb /\ key_form k = LWW_RDT_FORM /\
  j_read bytes [] empty_text mf ma a b k [] = Done (a, b, fb, StOK) /\
  exists st' f, read bytes [] mf (a ++ b) k [] = Done (st', f, StOK) /\ f = text_for [mkUop (A 2) (A 1) [VInt 1]; mkUop (A 4) (A 1) [VInt 2]].
Proof.
  exists [(kA, text_for [mkUop (A 2) (A 1) [VInt 1]])], [(kA, text_for [mkUop (A 4) (A 1) [VInt 2]])], kA, (text_for [mkUop (A 2) (A 1) [VInt 1]]), (text_for [mkUop (A 4) (A 1) [VInt 2]]).
  do 2 (split; [vm_compute; reflexivity|]). split; [vm_compute; discriminate|]. do 2 (split; [vm_compute; reflexivity|]).
  do 2 eexists. split; [vm_compute; reflexivity|]. vm_compute. reflexivity.
Qed.
