(* Recalling versions in a branch: a concrete case for C51_recall and
   C51_present. *)
From Coq Require Import String.
From Verif Require Import Prelude UuidModel UuidProofs KeyModel CodecModel TextTable TextModel TextSpec BuilderSpec BuilderProofs MergeModel MergeTextModel TextMergeSpec TextMerge TextMergeTheorems
  StoreModel HashModel MetaModel ClockModel ReplicaModel ReplicaSpec ReplicaProofs ReplicaTheorems StoreSpec StoreTheorems RocksModel RocksSpec RocksProofs
  HashCases MetaCases Txt MergeCases TextMergeCases StoreCases JoinCases ReplicaCases BranchModel BranchSpec BranchProofs BranchTheorems BranchCases
  DurableSpec DurableProofs DurableTheorems DurableCases LogModel RecallTheorems.
Open Scope string_scope.
Open Scope N_scope.
Open Scope list_scope.

Definition log_text : bytes := txt "@2+A :lww,
@3+A 'k' 1;
@6+A 'y' 2,
@7+A 'é' 3;
".
(* the branch of C48_case; the version 6+A, in the middle of the second frame *)
Example C51_recall_case :
  version idA = TIME /\ healthy idA openA (ev "1+A") /\ Forall clocks kept_life /\ (forall n r f, In (BReceive n r f) kept_life -> events_only f) /\
  runA openA kept_life = Done (branch_of kept_end, [ROk; ROk; ROk; RNotFound; ROk; ROk; ROk; ROk; ROk]) /\
  received kept_life [ROk; ROk; ROk; RNotFound; ROk; ROk; ROk; ROk; ROk] events12 /\
  log_at (br_main openA) log2 [] /\ state_at (br_main openA) state2 [] /\ keep_bound 100 [] events12 /\ spanless (map bare events12) /\
  rocks_read one_float 100 (br_main (branch_of kept_end)) log2 = Done (log_text, KOk) /\
  log_state one_float 100 log_text (ev "6+A") = Done (Some (txt "@2+A :lww,
@3+A 'k' 1,
@6+A 'y' 2;
"), LMerge StOK) /\
  log_version one_float 100 log_text (ev "3+A") = Done (Some (txt "@2+A :lww,
@3+A 'k' 1;
"), LMerge StOK) /\
  log_state one_float 100 log_text (ev "9+A") = Done (Some (text_for (frame1 ++ frame2)), LMerge StOK) /\
  rocks_read one_float 100 (br_main (branch_of kept_end)) state2 = Done (text_for (frame1 ++ frame2), KOk).
Proof.
  destruct C48_case as (_ & _ & _ & _ & C & EO & _ & RV & _ & KB & SP & RL & RS).
  split; [vm_compute; reflexivity|]. split; [apply C47_restart_case|]. split; [exact C|]. split; [exact EO|]. split; [vm_compute; reflexivity|].
  split; [exact RV|]. split; [exact (proj2 (proj2 (proj2 (proj2 C48_event_case))))|].
  split.
  { exists []. assert (E : cell_at (br_main openA) state2 = cell0) by (vm_compute; reflexivity). rewrite E. split; [constructor|]. split; [intro u; split; intro H; exact H|].
    split; [apply le_n|]. split; [apply le_n|]. intro H. destruct H. reflexivity. }
  split; [exact KB|]. split; [exact SP|]. split; [exact RL|]. do 3 (split; [vm_compute; reflexivity|]). exact RS.
Qed.
Print Assumptions C51_recall_case.
