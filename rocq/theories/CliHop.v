(* C67: hop without the word on. *)
From Coq Require Import String.
From Verif Require Import Prelude UuidModel UuidProofs KeyModel CodecModel CodecSpec TextTable TextModel TextSpec BuilderSpec BuilderProofs MergeModel MergeTextModel MergeKeeps
  StoreModel StoreProofs HashModel MetaModel ClockModel ReplicaModel ReplicaSpec ReplicaProofs RocksModel RocksSpec RocksProofs
  HashCases MetaCases Txt ReplicaCases BranchModel BranchSpec BranchCases ForkModel HostModel HostSpec HostProofs HostTheorems HostCases YarnCases NamesModel
  CliModel CliSpec CliNames CliProofs CliTheorems CliHistory CliListing CliCases CodecTheorems.
Open Scope string_scope.
Open Scope N_scope.
Open Scope list_scope.

Section Hop.
Variable sha : bytes -> bytes.
Variable fbits : bytes -> N.
Variable fuel : nat.
Variable order : list (uuid * uuid) -> list (uuid * uuid).
Hypothesis FB : 2 * N.of_nat fuel < ROOM.
Notation cli := (cli sha fbits fuel order).

(* Whatever is said after hop, unless it is the word on, the command does what
   hop on 0 does: the metadata are made the active store. *)
Theorem C67_hop fs i j args : world_ok fs -> i_args i = W_hop :: args -> hd [] args <> W_on -> i_args j = [W_hop; W_on; [48]] -> i_readings j = i_readings i -> cli fs i = cli fs j.
Proof.
  intros WO IA NO JA RE. unfold CliModel.cli. rewrite IA, JA. destruct (h_reopen fbits fuel (shut fs)) as [[h s]| |] eqn:R; [|reflexivity|reflexivity].
  destruct (reopen_ok sha _ _ FB _ _ _ WO R) as (-> & OH & LF). cbn [rbind is_ok negb]. pose proof OH as (_ & _ & AC & _).
  assert (CI : CliModel.command sha fbits fuel order h i = acting (cmd_hop fbits fuel h (i_readings i) args)) by (unfold CliModel.command; rewrite IA; reflexivity).
  assert (CJ : CliModel.command sha fbits fuel order h j = acting (cmd_hop fbits fuel h (i_readings i) [W_on; [48]])) by (unfold CliModel.command; rewrite JA, RE; reflexivity).
  rewrite CI, CJ. assert (Q : cmd_hop fbits fuel h (i_readings i) args = cmd_hop fbits fuel h (i_readings i) [W_on; [48]]); [|rewrite Q; reflexivity].
  unfold cmd_hop. assert (SJ : scan_on fbits fuel h [W_on; [48]] = Done (NIL, [], ROk)) by reflexivity. rewrite SJ.
  destruct args as [|a r].
  - cbn [scan_on]. rewrite AC. reflexivity.
  - cbn [hd] in NO. unfold scan_on. destruct (bytes_eqb a W_on) eqn:E; [apply bytes_eqb_eq in E; contradiction|]. reflexivity.
Qed.
End Hop.
Print Assumptions C67_hop.
(* hop Abc, hop and hop on 0, with a branch of that name; hop on Abc does another thing *)
Example C67_hop_case : let fs := log_w hop_log in let go s := cl fs (line "6+A" "A" s) in
  go "hop Abc" = go "hop on 0" /\ go "hop" = go "hop on 0" /\ go "hop on Abc" <> go "hop on 0" /\ p_status (answer fs (line "6+A" "A" "hop Abc")) = cok.
Proof. cbv zeta. split; [vm_compute; reflexivity|]. split; [vm_compute; reflexivity|]. split; [vm_compute; discriminate|vm_compute; reflexivity]. Qed.
