(* Local writes: concrete cases and counterexamples for C54. *)
From Coq Require Import String Sorted Permutation.
From Verif Require Import Prelude UuidModel UuidProofs KeyModel CodecModel TextTable TextModel TextSpec BuilderSpec BuilderProofs MergeModel MergeSpec MergeTextModel TextMergeSpec TextCursors TextMerge TextMergeTheorems
  StoreModel HashModel MetaModel ClockModel ReplicaModel ReplicaSpec ReplicaProofs ReplicaTheorems StoreSpec StoreTheorems RocksModel RocksSpec RocksProofs
  HashCases MetaCases Txt MergeCases TextMergeCases StoreCases JoinCases ReplicaCases BranchModel BranchSpec BranchProofs BranchTheorems BranchCases
  DurableSpec DurableProofs DurableTheorems DurableCases AnswerModel AnswerSpec AnswerTheorems AnswerCases LogSpec LogCases ScanModel ScanSpec ScanTheorems TextAnswerSpec TextAnswerTheorems TextAnswerCases WriteSpec WriteTheorems.
Open Scope string_scope.
Open Scope N_scope.
Open Scope list_scope.

Definition quietb (e : bevent) : bool :=
  match e with
  | BReceive _ _ f => match all_ops 100 (cursor_of f) with
                      | Some l => forallb (fun c => negb (stampedb c) && negb (uuid_eqb (text_id c) NAME_UUID)) l
                      | None => false
                      end
  | BOpen _ => true
  | BCompact _ _ => false
  end.
Lemma quietb_ok es : forallb quietb es = true -> Forall quiet es.
Proof.
  intro H. apply Forall_forall. intros e I. rewrite forallb_forall in H. specialize (H e I). clear I.
  destruct e as [n r f|n|k e]; cbn [quietb quiet] in *; [|exact Logic.I|discriminate].
  destruct (all_ops 100 (cursor_of f)) as [l|] eqn:A; [|discriminate]. apply all_ops_ok in A.
  assert (K : forall c, delivered f c -> ~ stamped c /\ ~ naming c).
  { intros c D. pose proof (ops_complete _ _ _ A D) as I. rewrite forallb_forall in H. specialize (H c I). apply andb_true_iff in H as [H1 H2].
    split; [intro X; apply stampedb_iff in X; rewrite X in H1; discriminate|]. intro X. unfold naming in X. apply uuid_eqb_eq in X. rewrite X in H2. discriminate. }
  split; intros c D; apply (K c D).
Qed.

(* an object of a user, with a field; a text of theirs *)
Definition new_us := [mkUop (ev "5+0") LWW_FORM_UUID []; mkUop (ev "6+0") (ev "5+0") [VStr (Some [107]); VInt 1]].
Definition text_us := [mkUop (derived (ev "2+A")) TXT_MAP_ID [VStr (Some [104; 105])]].
Definition new_text := BReceive (at_time "9+A") [at_time "Z+A"] (text_for text_us).
Definition local_writes := [BReceive (at_time "9+A") [] (text_for new_us); BOpen 0; new_text; rec "9+A" "@7+0 :3+A 'z'; @2+A :lww?"; BOpen 0; BReceive (at_time "9+A") [] (text_for new_us)].
Definition openb : branch := branch_of (runA openA (written ++ [BOpen 0])).

Lemma openA_healthy : healthy idA openA (ev "1+A").
Proof. apply C48_event_case. Qed.
Lemma writtenb_order : in_order (br_main writtenb).
Proof.
  destruct (C47_opens toy_sha one_float 0 100 idA openA (ev "1+A") written writtenb [ROk; ROk; ROk; ROk; ROk]) as (_ & t & H);
    [vm_compute; reflexivity|exact openA_healthy|apply clocksb_ok; vm_compute; reflexivity|vm_compute; reflexivity|]. apply H.
Qed.
Lemma new_us_mergeable : mergeable new_us.
Proof.
  apply mergeableb_ok; [vm_compute; reflexivity|]. intros a b IA IB E. unfold new_us in IA, IB. cbn [In] in IA, IB.
  repeat (destruct IA as [<-|IA]; [repeat (destruct IB as [<-|IB]; [first [reflexivity | vm_compute in E; discriminate E]|]); destruct IB|]). destruct IA.
Qed.
Lemma text_us_mergeable : mergeable text_us.
Proof.
  apply mergeableb_ok; [vm_compute; reflexivity|]. intros a b IA IB E. unfold text_us in IA, IB. cbn [In] in IA, IB.
  destruct IA as [<-|[]]. destruct IB as [<-|[]]. reflexivity.
Qed.

(* six events of a user's, all with OK; the branch had and has the one text *)
Example C54_lost_case :
  in_order (br_main writtenb) /\ Forall quiet local_writes /\
  runA writtenb local_writes = Done (branch_of (runA writtenb local_writes), [ROk; ROk; ROk; ROk; ROk; ROk]) /\
  untxt (text_for new_us) = "@5+0 :lww,
@6+0 'k' 1;
" /\ untxt (text_for text_us) = "@2-A :txt 'hi';
" /\
  told (askA (branch_of (runA writtenb local_writes)) (txt "@2-A :txt?")) = Some (ROk, Some (untxt answer1)) /\
  told (askA (branch_of (runA writtenb local_writes)) (txt "@2+A :lww?")) = Some (ROk, Some "").
Proof.
  split; [exact writtenb_order|]. split; [apply quietb_ok; vm_compute; reflexivity|]. do 4 (split; [vm_compute; reflexivity|]). vm_compute. reflexivity.
Qed.

(* the hypotheses of C54_new *)
Example C54_new_case :
  frame_marked canon (text_for new_us) (chunk_of new_us) (repeat false (List.length (chunk_of new_us))) /\ N.of_nat (List.length (text_for new_us)) < 2 ^ 32 /\
  new_events (chunk_of new_us) /\ (List.length (chunk_of new_us) < 100)%nat /\
  b_receive toy_sha one_float 0 100 writtenb (at_time "9+A") [] (text_for new_us) = Done (writtenb, ROk).
Proof.
  split.
  { assert (E : in_runs origin_op (map UAppend new_us ++ [UEnd RAW]) = repeat false (List.length (chunk_of new_us))) by (vm_compute; reflexivity). rewrite <- E.
    apply text_for_marked; [exact new_us_mergeable|vm_compute; reflexivity]. }
  split; [vm_compute; reflexivity|]. split.
  { assert (E : chunk_of new_us = [mkRop (ev "5+0") LWW_FORM_UUID [] REDUCED; mkRop (ev "6+0") (ev "5+0") [VStr (Some [107]); VInt 1] RAW]) by (vm_compute; reflexivity). rewrite E.
    split; [|split].
    - apply Forall_cons; [|apply Forall_cons; [|apply Forall_nil]]; (split; [vm_compute; reflexivity|split; [vm_compute; reflexivity|vm_compute; discriminate]]).
    - apply Forall_cons; [apply Forall_nil|apply Forall_cons; [|apply Forall_nil]]. apply Forall_cons; [discriminate|apply Forall_cons; [discriminate|apply Forall_nil]].
    - eexists _, _. split; [reflexivity|]. right. split; [vm_compute; reflexivity|vm_compute; tauto]. }
  split; [vm_compute; lia|]. vm_compute. reflexivity.
Qed.

(* the hypotheses of C54_text: a text is written over a kept one *)
Definition text_op_of : rop := mkRop (derived (ev "2+A")) TXT_MAP_ID [VStr (Some [104; 105])] RAW.
Example C54_text_case :
  version idA = TIME /\ (exists t, healthy idA openb t) /\ clocks new_text /\
  snd (clock_now 0 (at_time "9+A") (at_time "Z+A") (uorigin (br_tip openb))) = ev "Z+A" /\ uvalue (br_tip openb) < uvalue (ev "Z+A") /\
  frame_lit canon (text_for text_us) [text_op_of] /\ N.of_nat (List.length (text_for text_us)) < 2 ^ 32 /\ text_write text_op_of /\
  rocks_read one_float 100 (br_main openb) (text_key text_op_of) = Done (text_for whole, KOk) /\
  scan_frame 100 (text_for whole) = ScanRet StOK [true; true; true; false; false; false; false].
Proof.
  split; [vm_compute; reflexivity|]. split.
  { destruct (C47_opens toy_sha one_float 0 100 idA openA (ev "1+A") (written ++ [BOpen 0]) openb [ROk; ROk; ROk; ROk; ROk; ROk]) as (_ & t & H);
      [vm_compute; reflexivity|exact openA_healthy|apply clocksb_ok; vm_compute; reflexivity|vm_compute; reflexivity|]. exists t. exact H. }
  split; [assert (C : Forall clocks [new_text]) by (apply clocksb_ok; vm_compute; reflexivity); exact (Forall_inv C)|].
  split; [vm_compute; reflexivity|]. split; [vm_compute; reflexivity|]. split.
  { assert (E : [text_op_of] = chunk_of text_us) by (vm_compute; reflexivity). rewrite E. apply text_for_ok; [exact text_us_mergeable|vm_compute; discriminate|vm_compute; reflexivity]. }
  split; [vm_compute; reflexivity|]. split.
  { split; [vm_compute; reflexivity|]. split; [vm_compute; reflexivity|]. split; [discriminate|]. split; [discriminate|]. eexists _, _. reflexivity. }
  split; vm_compute; reflexivity.
Qed.

(* The event the branch remembers then does not exist: a query for it finds
   nothing. The next event of the author, stamped before the made-up one, is
   accepted without the write and refused after it. *)
Theorem C54_ghost_refuted : exists es next,
  statuses (es ++ [next]) = [ROk; ROk; ROk; ROk; ROk; ROk; ROk] /\
  statuses (es ++ [new_text; BOpen 0; next]) = [ROk; ROk; ROk; ROk; ROk; ROk; ROk; ROk; RBadState] /\
  br_tip (branch_of (runA openA (es ++ [new_text; BOpen 0]))) = ev "Z+A" /\
  told_text (es ++ [new_text; BOpen 0]) "@2-A :txt?" = Some (ROk, Some (untxt answer1)) /\
  told_text (es ++ [new_text; BOpen 0]) "@Z+A :log?" = Some (RNotFound, Some "") /\
  told_text (es ++ [new_text; BOpen 0]) "@9+A :log?" = told_text es "@9+A :log?" /\ told_text es "@9+A :log?" <> Some (RNotFound, Some "").
Proof.
  exists (written ++ [BOpen 0]), (rec "C+A" "@C+A :9+A 'z';"). do 6 (split; [vm_compute; reflexivity|]). vm_compute. discriminate.
Qed.
Print Assumptions C54_ghost_refuted.

(* a new event with an empty string, or a span of characters: the write is
   undefined *)
Theorem C54_abort_refuted : exists f g,
  runA openA [f] = Aborted /\ runA openA [g] = Aborted /\
  f = rec "9+A" "@5+0 :lww; @6+0 :5+0 'k' '';" /\ g = rec "9+A" "@5+0 :rga; @6+0 :5+0 ('ab');".
Proof. eexists _, _. split; [|split; [|split; reflexivity]]; vm_compute; reflexivity. Qed.
Print Assumptions C54_abort_refuted.
