(* Stores of text frames: concrete cases and counterexamples for C28-C30. *)
From Coq Require Import String Sorted Permutation.
From Verif Require Import Prelude UuidModel UuidSpec UuidProofs KeyModel CodecModel TextModel TextSpec BuilderSpec BuilderProofs MergeModel MergeSpec MergeTextModel
  MergeProofs RgaProofs MergeTheorems TextMergeSpec TextCursors TextMerge TextMergeTheorems StoreModel StoreSpec StoreProofs StoreTheorems Txt MergeCases TextMergeCases.
Open Scope string_scope.
Open Scope N_scope.
Open Scope list_scope.

Definition mf := merge_as no_floats 100.
Definition kA : key := key_of (A 1) LWW_RDT_FORM.
Definition kB : key := key_of (A 5) LWW_RDT_FORM.
Definition kR : key := key_of (A 1) RGA_RDT_FORM.
Definition kC : key := key_of (A 1) CHAIN_RAW_FORM.
(* db/mem_store.hpp:50-56: a store opened with the id A 9 *)
Definition opened : list (key * bytes) := open_store bytes [] [] (text_for [mkUop (A 9) YARN_FORM_UUID []]).

Lemma sorted_storeb (st : list (key * bytes)) :
  (fix go (l : list (key * bytes)) := match l with [] => true | x :: r => forallb (fun y => negb (key_ltb (fst y) (fst x))) r && go r end) st = true -> sorted_store st.
Proof.
  induction st as [|x l IH]; intro H; constructor; apply andb_prop in H as [H1 H2]; [apply IH; exact H2|].
  apply Forall_forall. intros y I. rewrite forallb_forall in H1. specialize (H1 y I). apply negb_true_iff in H1. unfold key_lt. congruence.
Qed.
Lemma key64b (l : list key) : forallb (fun k => (kfirst k <? 2 ^ 64) && (ksecond k <? 2 ^ 64)) l = true -> Forall key64 l.
Proof.
  intro H. rewrite forallb_forall in H. apply Forall_forall. intros k I. specialize (H k I). apply andb_prop in H as [H1 H2].
  split; apply N.ltb_lt; assumption.
Qed.
Lemma smallb (l : list bytes) : forallb (fun f => N.of_nat (List.length f) <? 2 ^ 32) l = true -> Forall small l.
Proof. intro H. rewrite forallb_forall in H. apply Forall_forall. intros f I. apply N.ltb_lt, H, I. Qed.

(* ---- C28 ---- *)
Definition history : list (sop bytes) :=
  [SWrite _ kA (text_for lwwA); SRead _ kA []; SBatch _ [(kB, text_for lwwA); (kA, text_for lwwB)];
   SWalk _ KEY_ZERO [true; true; true; true]; SWrite _ KEY_END [1]; SWrite _ kA (text_for lwwA)].
Definition after : list (key * bytes) * list (sout bytes) :=
  match srun bytes [] empty_text mf opened history with Done x => x | _ => ([], []) end.
Example C28_case :
  sorted_store opened /\ Forall key64 (map fst opened) /\ contents opened kA = [] /\ Forall key64 (flat_map op_keys history) /\
  Forall2 text_frame (written kA history) [chunk_of lwwA; chunk_of lwwB; chunk_of lwwA] /\
  srun bytes [] empty_text mf opened history = Done after /\
  N.of_nat (room (map bare (List.concat [chunk_of lwwA; chunk_of lwwB; chunk_of lwwA]))) < 2 ^ 32 /\
  In (key_form kA) [LWW_RDT_FORM; MX_RDT_FORM; YARN_RAW_FORM; META_META_FORM] /\
  mergeable (map bare (List.concat [chunk_of lwwA; chunk_of lwwB; chunk_of lwwA])) /\
  List.length (contents (fst after) kA) = 2%nat /\
  exists st', read bytes [] mf (fst after) kA [] =
    Done (st', text_for (lwwA ++ [mkUop (A 3) (A 1) [VStr (Some [104; 233]); VInt (-2)]]), StOK).
Proof.
  split; [apply sorted_storeb; vm_compute; reflexivity|]. split; [apply key64b; vm_compute; reflexivity|]. split; [vm_compute; reflexivity|].
  split; [apply key64b; vm_compute; reflexivity|]. split.
  - change (written kA history) with [text_for lwwA; text_for lwwB; text_for lwwA].
    assert (TF : forall us, In us [lwwA; lwwB] -> text_frame (text_for us) (chunk_of us)).
    { intros us I. split; [|split].
      - apply text_for_ok; [apply (mergeable_incl _ _ lww_mergeable)|..].
        + intros u J. apply in_or_app. destruct I as [<-|[<-|[]]]; tauto.
        + destruct I as [<-|[<-|[]]]; vm_compute; discriminate.
        + destruct I as [<-|[<-|[]]]; vm_compute; reflexivity.
      - assert (Forall sorted_ids [chunk_of lwwA; chunk_of lwwB]) as Q.
        { apply (ssb_ok id_le (fun a b => negb (uuid_ltb (r_id b) (r_id a)))); [|vm_compute; reflexivity].
          intros a b E. apply negb_true_iff in E. exact E. }
        rewrite Forall_forall in Q. apply Q. destruct I as [<-|[<-|[]]]; [left|right; left]; reflexivity.
      - destruct I as [<-|[<-|[]]]; vm_compute; reflexivity. }
    constructor; [apply TF; left; reflexivity|]. constructor; [apply TF; right; left; reflexivity|]. constructor; [apply TF; left; reflexivity|]. constructor.
  - split; [vm_compute; reflexivity|]. split; [vm_compute; reflexivity|]. split; [left; vm_compute; reflexivity|]. split.
    + unfold chunk_of. cbn [List.concat]. rewrite app_nil_r, !map_app, !bare_denote. apply (mergeable_incl _ _ lww_mergeable).
      intros u I. rewrite !in_app_iff in *. tauto.
    + split; [vm_compute; reflexivity|]. eexists. vm_compute. reflexivity.
Qed.

(* ---- C29 ---- *)
Definition two_each : list (key * bytes) :=
  fst (write_batch bytes opened [(kA, text_for lwwA); (kB, txt "@5+A :lww; @6+A :5+A 'p' 1;"); (kA, text_for lwwB); (kB, txt "@5+A :lww; @7+A :5+A 'q' 2;")]).
Example C29_case : sorted_store two_each /\ Forall key64 (map fst two_each) /\
  walk bytes [] empty_text mf two_each kA [true; false; true] =
    Done (fst (write_batch bytes opened [(kA, text_for (lwwA ++ skipn 1 lwwB)); (kB, txt "@5+A :lww; @6+A :5+A 'p' 1;"); (kB, txt "@5+A :lww; @7+A :5+A 'q' 2;")]),
          [(kA, Some (text_for (lwwA ++ skipn 1 lwwB))); (kB, None)]) /\
  it_key bytes two_each (it_seek bytes two_each (new_iter bytes []) (key_of (A 4) LWW_RDT_FORM) false) = Done kB /\
  it_key bytes two_each (it_seek bytes two_each (new_iter bytes []) (key_of (A 4) LWW_RDT_FORM) true) = Done kA.
Proof.
  split; [apply sorted_storeb; vm_compute; reflexivity|]. split; [apply key64b; vm_compute; reflexivity|].
  do 2 (split; [vm_compute; reflexivity|]). vm_compute. reflexivity.
Qed.

(* an iterator that is reused: SeekTo past the last record leaves the length of
   the run it was on, and key() reads the end of the map *)
Theorem C29_reseek_refuted : exists (st : list (key * bytes)) k1 k2, sorted_store st /\
  let it := it_seek bytes st (new_iter bytes []) k1 false in
  it_key bytes st it = Done k1 /\
  it_key bytes st (it_seek bytes st it k2 false) = Aborted /\
  it_key bytes st (it_seek bytes st (new_iter bytes []) k2 false) = Done KEY_END.
Proof.
  exists [(kA, text_for lwwA)], kA, kB. split; [apply sorted_storeb; vm_compute; reflexivity|].
  do 2 (split; [vm_compute; reflexivity|]). vm_compute. reflexivity.
Qed.

(* an iterator that has shown a merge, moved by SeekTo to another key: Next
   throws the records of that key away and stores the merge of the first key *)
Theorem C29_stale_merge_refuted : exists (st : list (key * bytes)) k1 k2 m it1 st2 it3, sorted_store st /\ k1 <> k2 /\
  it_value bytes [] mf st (it_seek bytes st (new_iter bytes []) k1 false) = Done (m, it1) /\
  it_next bytes [] empty_text st (it_seek bytes st it1 k2 false) = Done (st2, it3, StOK) /\
  List.length (contents st k2) = 2%nat /\ contents st2 k2 = [m].
Proof.
  exists two_each, kA, kB, (text_for (lwwA ++ skipn 1 lwwB)).
  do 3 eexists. split; [apply sorted_storeb; vm_compute; reflexivity|]. split; [vm_compute; discriminate|].
  do 3 (split; [vm_compute; reflexivity|]). vm_compute. reflexivity.
Qed.

(* SeekTo with prev lands on the last record of a run, and value() shows that
   record only *)
Theorem C29_prev_value_refuted : exists (st : list (key * bytes)) k1 k2 f it1, sorted_store st /\
  let it := it_seek bytes st (new_iter bytes []) k2 true in
  it_key bytes st it = Done k1 /\ it_value bytes [] mf st it = Done (f, it1) /\
  f = text_for lwwB /\ contents st k1 = [text_for lwwA; text_for lwwB].
Proof.
  exists two_each, kA, (key_of (A 4) LWW_RDT_FORM). do 2 eexists. split; [apply sorted_storeb; vm_compute; reflexivity|].
  do 3 (split; [vm_compute; reflexivity|]). vm_compute. reflexivity.
Qed.

(* ---- C30 ---- *)
Definition rgas : list (list uop) :=
  [[mkUop (A 1) RGA_FORM_UUID []]; [mkUop (A 3) (A 1) [VStr (Some [97])]]; [mkUop (A 5) (A 1) [VStr (Some [98])]]; [mkUop (A 7) (A 1) [VStr (Some [99])]]].
Definition lossy : list (key * bytes) :=
  fst (write_batch bytes opened (map (fun us => (kR, text_for us)) rgas ++ [(kC, text_for lwwA); (kC, text_for lwwB)])).
Definition left_by (st : list (key * bytes)) (k : key) (old : bytes) : list (key * bytes) :=
  match read bytes [] mf st k old with Done (st', _, _) => st' | _ => [] end.
Example C30_case : sorted_store lossy /\ contents lossy kR = map text_for rgas /\ contents lossy kC = [text_for lwwA; text_for lwwB] /\
  Forall2 (frame_lit canon) (contents lossy kR) (map chunk_of rgas) /\ (3 < List.length (filter nonempty (map chunk_of rgas)))%nat /\
  key_form kR = RGA_RDT_FORM /\ key_form kC = CHAIN_RAW_FORM /\
  (exists st', read bytes [] mf lossy kR [] = Done (st', [], StNotImplemented) /\ read bytes [] mf st' kR [7] = Done (st', [], StOK)) /\
  (exists st', read bytes [] mf lossy kC [7] = Done (st', [7], StNotImplemented) /\ contents st' kC = [[7]]).
Proof.
  split; [apply sorted_storeb; vm_compute; reflexivity|]. do 2 (split; [vm_compute; reflexivity|]). split.
  - assert (CE : contents lossy kR = map text_for rgas) by (vm_compute; reflexivity). rewrite CE. clear CE.
    assert (MM : mergeable (List.concat rgas)).
    { apply mergeableb_ok; [vm_compute; reflexivity|]. intros a b IA IB. unfold rgas in IA, IB. cbn [List.concat app In] in IA, IB.
      repeat (destruct IA as [<-|IA]; [repeat (destruct IB as [<-|IB]; [cbn [u_id]; intro E; first [reflexivity | discriminate E]|]); destruct IB|]). destruct IA. }
    assert (TF : forall us, In us rgas -> frame_lit canon (text_for us) (chunk_of us)).
    { intros us I. apply text_for_ok.
      - apply (mergeable_incl _ _ MM). intros u J. apply in_concat. exists us. auto.
      - cbn [rgas In] in I. repeat (destruct I as [<-|I]; [vm_compute; discriminate|]). destruct I.
      - cbn [rgas In] in I. repeat (destruct I as [<-|I]; [vm_compute; reflexivity|]). destruct I. }
    unfold rgas in *. cbn [map]. repeat (constructor; [apply TF; cbn [In]; tauto|]). constructor.
  - split; [vm_compute; lia|]. do 2 (split; [vm_compute; reflexivity|]). split.
    + exists (left_by lossy kR []). split; vm_compute; reflexivity.
    + exists (left_by lossy kC [7]). split; vm_compute; reflexivity.
Qed.
