(* Several queries in one frame: concrete cases and a counterexample for C53. *)
From Coq Require Import String Sorted Permutation.
From Verif Require Import Prelude UuidModel UuidProofs KeyModel CodecModel TextTable TextModel TextSpec BuilderSpec BuilderProofs MergeModel MergeSpec MergeTextModel TextMergeSpec TextCursors TextMerge TextMergeTheorems
  StoreModel HashModel MetaModel ClockModel ReplicaModel ReplicaSpec ReplicaProofs ReplicaTheorems StoreSpec StoreTheorems RocksModel RocksSpec RocksProofs
  HashCases MetaCases Txt MergeCases TextMergeCases StoreCases JoinCases ReplicaCases BranchModel BranchSpec BranchProofs BranchTheorems BranchCases
  DurableSpec DurableProofs DurableTheorems DurableCases AnswerModel AnswerSpec AnswerTheorems AnswerCases LogSpec LogCases ScanModel ScanSpec TextAnswerSpec TextAnswerTheorems TextQueriesSpec TextQueries ForkCases FrameProofs ScanTheorems TextAnswerCases ScanTheorems.
Open Scope string_scope.
Open Scope N_scope.
Open Scope list_scope.

Notation writ := TextAnswerCases.written.
Definition lq : uop := mkUop (ev "B+A") LWW_FORM_UUID [].
Definition lk : uop := mkUop (ev "C+A") (ev "B+A") [VStr (Some [107]); VInt 1].
Definition more : list bevent := writ ++ [BOpen 0; rec "9+A" "@B+A :lww; @C+A :B+A 'k' 1;"].
Definition moreb : branch := branch_of (runA openA more).
Definition stateq : rop := query (ev "B+A") LWW_FORM_UUID.
Definition asked : list rop := [textq; stateq; textq].
Definition asking : bytes := txt "@2-A :txt?
@B+A :lww?
@2-A :txt?
".
Definition told3 : list ucmd := UAppend (mkUop (r_id textq) TXT_MAP_ID [VStr (Some (txt "bcxy"))]) ::
  (replay (chunk_of [lq; lk]) ++ [UAppend (mkUop (r_id textq) TXT_MAP_ID [VStr (Some (txt "bcxy"))])]).
Lemma kept_bcxy b : rocks_read one_float 100 (br_main b) (text_key textq) = Done (text_for whole, KOk) -> text_kept (rocks_read one_float 100 (br_main b)) 100 textq (txt "bcxy").
Proof.
  intro R. destruct C53_case as (_ & _ & _ & _ & _ & _ & _ & FM & SS & RT & NS & VP & _ & _).
  destruct (C26_flags (text_for whole) trV 100 (says_frame_ops canon _ _ (frame_erase _ _ _ FM) SS) RT ltac:(vm_compute; repeat constructor) ltac:(vm_compute; reflexivity) NS) as (_ & hs & SC & FH).
  assert (E : scan_frame 100 (text_for whole) = ScanRet StOK [true; true; true; false; false; false; false]) by (vm_compute; reflexivity).
  assert (EH : hs = [true; true; true; false; false; false; false]) by congruence. subst hs.
  exists (text_for whole), trV, [false; false; false; true; true; true; true], [true; true; true; false; false; false; false].
  split; [exact R|]. split; [exact FM|]. split; [exact SS|]. split; [exact RT|]. split; [vm_compute; repeat constructor|]. split; [vm_compute; reflexivity|].
  split; [exact NS|]. split; [exact VP|]. split; [exact FH|]. vm_compute. reflexivity.
Qed.
Lemma textq_id : id_ok (r_id textq).
Proof. split; [vm_compute; repeat split|vm_compute; reflexivity]. Qed.
Lemma textq_text : text_query textq.
Proof. split; [vm_compute; reflexivity|]. split; [reflexivity|vm_compute; reflexivity]. Qed.
Lemma asking_lit : frame_lit canon asking asked.
Proof.
  destruct (build_calls_frame (flat_map (fun q => [UAppend (bare q); UEnd QUERY]) asked) canon_writes) as (t & E & F).
  - apply plain_calls. vm_compute. reflexivity.
  - reflexivity.
  - assert (X : build_calls (flat_map (fun q => [UAppend (bare q); UEnd QUERY]) asked) = Some asking) by (vm_compute; reflexivity).
    rewrite X in E. injection E as <-. exact F.
Qed.
Lemma state_says : frame_says (text_for [lq; lk]) (chunk_of [lq; lk]).
Proof.
  split; [|vm_compute; reflexivity]. apply text_for_ok; [|vm_compute; discriminate|vm_compute; reflexivity].
  apply mergeableb_ok; [vm_compute; reflexivity|]. intros a b IA IB E. cbn [In] in IA, IB.
  destruct IA as [<-|[<-|[]]], IB as [<-|[<-|[]]]; first [reflexivity | vm_compute in E; discriminate E].
Qed.
(* the hypotheses of C53_queries and C53_texts, and the answers *)
Example C53_queries_case :
  runA openA more = Done (moreb, [ROk; ROk; ROk; ROk; ROk; ROk; ROk]) /\ frame_lit canon asking asked /\
  replied (rocks_read one_float 100 (br_main moreb)) 100 TXT_MAP_ID asked told3 /\ good_calls origin_op false false told3 /\
  askA moreb asking = Done (moreb, ROk, Some (txt "@2-A :txt 'bcxy',
@B+A :lww,
@C+A 'k' 1;
@2-A :txt 'bcxy';
")) /\
  Forall text_query [textq; textq] /\ spread [textq; textq] /\ Forall2 (text_kept (rocks_read one_float 100 (br_main moreb)) 100) [textq; textq] [txt "bcxy"; txt "bcxy"] /\
  askA moreb (txt "@2-A :txt? @2-A :txt?") = Done (moreb, ROk, Some (txt "@2-A :txt 'bcxy',
@2-A :txt 'bcxy';
")).
Proof.
  assert (K : text_kept (rocks_read one_float 100 (br_main moreb)) 100 textq (txt "bcxy")) by (apply kept_bcxy; vm_compute; reflexivity).
  split; [vm_compute; reflexivity|]. split; [exact asking_lit|]. split.
  { unfold asked, told3. apply replied_text; [exact textq_text|exact textq_id|exact K|].
    apply (replied_state _ _ _ stateq (text_for [lq; lk])); [|vm_compute; reflexivity|exact state_says|vm_compute; repeat constructor| |].
    - split; [vm_compute; reflexivity|]. split; [reflexivity|]. vm_compute. tauto.
    - apply Forall_cons; [vm_compute; discriminate|]. apply Forall_cons; [vm_compute; discriminate|apply Forall_nil].
    - apply replied_text; [exact textq_text|exact textq_id|exact K|apply replied_none]. }
  split; [apply plain_calls; vm_compute; reflexivity|]. split; [vm_compute; reflexivity|].
  split; [repeat apply Forall_cons; try exact textq_text; apply Forall_nil|]. split; [split; [vm_compute; discriminate|exact Logic.I]|].
  split; [apply Forall2_cons; [exact K|apply Forall2_cons; [exact K|apply Forall2_nil]]|]. vm_compute. reflexivity.
Qed.
(* The texts of two objects of which one was made right after the other: the
   answer has both and cannot be read beyond the first. *)
Theorem C53_next_refuted : exists es, statuses es = [ROk; ROk; ROk] /\
  told_text es "@2-A :txt?" = Some (ROk, Some "@2-A :txt 'abc';
") /\ told_text es "@2000000001-A :txt?" = Some (ROk, Some "@2000000001-A :txt 'xyz';
") /\ exists answer, told_text es "@2-A :txt? @2000000001-A :txt?" = Some (ROk, Some answer) /\
    fst (scan 10 (cursor_of (txt answer))) = [mkRop (r_id textq) TXT_MAP_ID [VStr (Some (txt "abc"))] REDUCED] /\ snd (scan 10 (cursor_of (txt answer))) = SBad.
Proof.
  exists [rec "1+A" "@2+A :rga; @2000000001+A :rga;"; rec "2000000001+A" "@3+A :2+A ('abc');"; rec "3000000002+A" "@4+A :2000000001+A ('xyz');"].
  split; [vm_compute; reflexivity|]. split; [vm_compute; reflexivity|]. split; [vm_compute; reflexivity|]. exists "@2-A :txt 'abc',
:txt 'xyz';
". split; [vm_compute; reflexivity|]. split; vm_compute; reflexivity.
Qed.
Print Assumptions C53_next_refuted.
