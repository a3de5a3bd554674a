(* C49: a fork of a branch with a text, and one that loses the text. *)
From Coq Require Import String Sorted Permutation.
From Verif Require Import Prelude UuidModel UuidProofs KeyModel CodecModel TextTable TextModel TextSpec BuilderSpec BuilderProofs MergeModel MergeSpec MergeTextModel TextMergeSpec TextMerge TextMergeTheorems
  StoreModel HashModel MetaModel ClockModel ReplicaModel ReplicaSpec ReplicaProofs ReplicaTheorems StoreSpec StoreTheorems RocksModel RocksSpec RocksProofs
  HashCases MetaCases Txt MergeCases TextMergeCases StoreCases JoinCases ReplicaCases BranchModel BranchSpec BranchProofs BranchTheorems BranchCases
  DurableSpec DurableProofs DurableTheorems DurableCases ForkModel ForkSpec ForkTheorems CodecTheorems LogCases YarnSpec YarnTheorems YarnCases AnswerModel AnswerCases ScanModel ScanSpec TextAnswerSpec TextObjSpec TextObjTheorems TextAnswerCases TextObjCases
  StepsStore TextRecover TextRecoverCases ForkText.
From Verif Require ForkCases.
Open Scope string_scope.
Open Scope N_scope.
Open Scope list_scope.

Definition yarnD : N := uorigin (ev "1+D").
Definition forkD (b : branch) := b_fork toy_sha one_float 0 100 (br_main b) 0 [at_time "E+D"] yarnD.
Definition reads (b : branch) (k : key) : option (kstatus * string) := match rocks_read one_float 100 (br_main b) k with Done (t, s) => Some (s, untxt t) | _ => None end.
(* the hypotheses of C49_text besides those of C72_case, and what is read *)
Example C49_text_case :
  readable_to one_float 100 (br_main doneA) (key_of o2 RGA_RDT_FORM) /\ yarnD <> 0 /\ uvalue (first_event 0 0 [at_time "E+D"] yarnD false) < NEVER_W /\
  (exists b, forkD doneA = Done (b, ROk)) /\ reads (branch_of (forkD doneA)) text2 = reads doneA text2 /\ option_map fst (reads doneA text2) = Some KOk /\
  ce_operands (cell_at (br_main (branch_of (forkD doneA))) text2) <> ce_operands (cell_at (br_main doneA) text2).
Proof.
  split; [apply ForkCases.readb_ok; vm_compute; reflexivity|]. split; [vm_compute; discriminate|]. split; [vm_compute; reflexivity|].
  split; [exists (branch_of (forkD doneA)); vm_compute; reflexivity|]. split; [vm_compute; reflexivity|]. split; [vm_compute; reflexivity|].
  intro E. apply (f_equal (@List.length bytes)) in E. vm_compute in E. discriminate E.
Qed.

(* the hypotheses of C49_answer are those of C72_case and C49_text_case; the fork
   answers as the original *)
Example C49_answer_case :
  readable_to one_float 100 (br_main doneA) (key_of o2 RGA_RDT_FORM) /\ forkD doneA = Done (branch_of (forkD doneA), ROk) /\
  AnswerCases.told (askA doneA (txt "@2-A :txt?
")) = Some (ROk, Some "@2-A :txt 'bcxy';
") /\ AnswerCases.told (askA (branch_of (forkD doneA)) (txt "@2-A :txt?
")) = Some (ROk, Some "@2-A :txt 'bcxy';
").
Proof. split; [apply ForkCases.readb_ok; vm_compute; reflexivity|]. do 2 (split; [vm_compute; reflexivity|]). vm_compute. reflexivity. Qed.

(* A text in four pieces: the fork is reported as made, but has neither the text nor
   the records after it (later texts, matrices); a fork made after the pieces are
   compacted has both. *)
Definition doneX : branch := branch_of (runA doneN [rec "C+A" "@E+A :mx; @F+A :E+A 5;"]).
Theorem C49_text_refuted : exists b es b' b2 k t,
  runA branchA (BOpen 0 :: textN ++ [rec "C+A" "@E+A :mx; @F+A :E+A 5;"]) = Done (b, repeat ROk 7) /\ runA b es = Done (b2, [ROk; ROk; ROk; ROk]) /\ option_map fst (reads b k) = Some KOk /\ reads b text2 = Some (KDbFail, "") /\
  forkD b = Done (b', ROk) /\ reads b' text2 = Some (KOk, "") /\ reads b' k = Some (KOk, "") /\
  (exists b3, forkD b2 = Done (b3, ROk) /\ reads b3 text2 = Some (KOk, t) /\ t <> "" /\ reads b3 k = reads b k).
Proof.
  exists doneX, (repeat (BCompact text2 (CFull 1)) 4), (branch_of (forkD doneX)), (branch_of (runA doneX (repeat (BCompact text2 (CFull 1)) 4))), (key_of (ev "E+A") MX_RDT_FORM),
    (match reads (branch_of (forkD (branch_of (runA doneX (repeat (BCompact text2 (CFull 1)) 4))))) text2 with Some (_, t) => t | None => "" end).
  do 7 (split; [vm_compute; reflexivity|]). exists (branch_of (forkD (branch_of (runA doneX (repeat (BCompact text2 (CFull 1)) 4))))).
  split; [vm_compute; reflexivity|]. split; [vm_compute; reflexivity|]. split; [vm_compute; discriminate|vm_compute; reflexivity].
Qed.
Print Assumptions C49_text_refuted.
