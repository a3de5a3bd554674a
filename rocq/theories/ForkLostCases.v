(* C49: a fork that lacks a text and what comes after it. *)
From Coq Require Import String Sorted Permutation.
From Verif Require Import Prelude UuidModel UuidProofs KeyModel CodecModel TextTable TextModel TextSpec BuilderSpec BuilderProofs MergeModel MergeSpec MergeTextModel TextMergeSpec TextMerge TextMergeTheorems
  StoreModel HashModel MetaModel ClockModel ReplicaModel ReplicaSpec ReplicaProofs ReplicaTheorems StoreSpec StoreTheorems RocksModel RocksSpec RocksProofs
  HashCases MetaCases Txt MergeCases TextMergeCases StoreCases JoinCases ReplicaCases BranchModel BranchSpec BranchProofs BranchTheorems BranchCases
  DurableSpec DurableProofs DurableTheorems DurableCases ForkModel ForkSpec ForkTheorems CodecTheorems LogCases YarnSpec YarnTheorems YarnCases AnswerModel AnswerCases ScanModel ScanSpec TextAnswerSpec TextObjSpec TextObjTheorems TextAnswerCases TextObjCases
  StepsStore TextRecover TextRecoverCases ForkText ForkTextCases ForkLost.
Open Scope string_scope.
Open Scope N_scope.
Open Scope list_scope.

Lemma doneX_tipped : exists t, tipped (br_main doneX) t.
Proof.
  assert (HO : healthy idA openA (ev "1+A")) by apply C48_event_case.
  destruct (C47_opens toy_sha one_float 0 100 idA openA (ev "1+A") (textN ++ [rec "C+A" "@E+A :mx; @F+A :E+A 5;"]) doneX [ROk; ROk; ROk; ROk; ROk; ROk]) as (_ & t & H & _);
    [vm_compute; reflexivity|exact HO|apply clocksb_ok; vm_compute; reflexivity|vm_compute; reflexivity|]. exists t. exact H.
Qed.
(* the text in four pieces is not in the fork, nor is the matrix after it *)
Example C49_lost_case :
  (exists t, tipped (br_main doneX) t) /\ yarnD <> 0 /\ uvalue (first_event 0 0 [at_time "E+D"] yarnD false) < NEVER_W /\ forkD doneX = Done (branch_of (forkD doneX), ROk) /\
  In text2 (map fst (br_main doneX)) /\ rocks_read one_float 100 (br_main doneX) text2 = Done ([], KDbFail) /\ text2 <> KEY_ZERO /\
  ~ key_lt text2 text2 /\ ~ key_lt (key_of (ev "E+A") MX_RDT_FORM) text2 /\
  cell_at (br_main (branch_of (forkD doneX))) (key_of (ev "E+A") MX_RDT_FORM) = cell0 /\ cell_at (br_main doneX) (key_of (ev "E+A") MX_RDT_FORM) <> cell0.
Proof.
  split; [exact doneX_tipped|]. split; [vm_compute; discriminate|]. split; [vm_compute; reflexivity|]. split; [vm_compute; reflexivity|].
  split; [vm_compute; auto 30|]. split; [vm_compute; reflexivity|]. split; [vm_compute; discriminate|].
  split; [vm_compute; discriminate|]. split; [vm_compute; discriminate|]. split; [vm_compute; reflexivity|]. intro E. apply (f_equal ce_operands) in E. vm_compute in E. discriminate E.
Qed.
