(* The command recall: concrete cases and a counterexample for C67. *)
From Coq Require Import String Permutation.
From Verif Require Import Prelude UuidModel UuidProofs KeyModel CodecModel CodecSpec TextTable TextModel TextSpec BuilderSpec BuilderProofs MergeModel MergeTextModel
  StoreModel StoreSpec StoreProofs StoreCases HashModel MetaModel ClockModel ReplicaModel ReplicaSpec RocksModel RocksSpec RocksProofs
  HashCases MetaCases Txt ReplicaCases BranchModel BranchSpec BranchCases ForkModel HostModel HostSpec HostProofs HostTheorems HostCases YarnCases NamesModel
  CliModel CliSpec CliNames CliProofs CliTheorems CliHistory CliListing CliCases InitModel InitTheorems InitHistory InitCases DumpSpec DumpTheorems LogModel RecallCommand DumpCases.
Open Scope string_scope.
Open Scope N_scope.

Definition rooted := Eval vm_compute in log_of wd [line "8+0" "E" "name 5+0 as root"].
Definition wr : world := Eval vm_compute in log_w rooted.
Lemma rooted_is : log_of wd [line "8+0" "E" "name 5+0 as root"] = rooted. Proof. vm_compute. reflexivity. Qed.
Lemma life_rooted : lives r5 wr.
Proof.
  apply (life_session _ _ _ _ _ wd (log_l rooted) wr life_busy); [|apply calmb_all; vm_compute; reflexivity].
  pose proof (logged_ses [line "8+0" "E" "name 5+0 as root"] wd) as K. rewrite rooted_is in K. apply K. reflexivity.
Qed.
Definition store_of (fs : world) (id : uuid) : family := match find (fun p => uuid_eqb (fst p) id) fs with Some (_, d) => d | None => [] end.
Definition log_in (fs : world) (id obj : uuid) : bytes := match rocks_read one_float 100 (store_of fs id) (key_of obj LOG_RAW_FORM) with Done (f, _) => f | _ => [] end.
Definition recall_root : invocation := line "9+0" "F" "recall 7+0 of root".
Example C67_recall_case : world_ok wr /\ i_args recall_root = [W_recall; txt "7+0"; W_of; txt "root"] /\ cl wr recall_root = Done (answer wr recall_root) /\
  p_status (answer wr recall_root) = cok /\ p_out (answer wr recall_root) = lines ["@5+0 :yarn;"] /\
  means one_float 100 wr (txt "root") (word "5+0") /\ base64_case (uvalue (parse_uuid (txt "root"))) = SNAKE /\ is_error (parse_uuid (txt "root")) = false /\
  version (word "5+0") = TIME /\ version (word "7+0") = TIME /\ uuid_ltb (word "7+0") (word "5+0") = false /\
  metadata_version one_float 100 wr (word "5+0") (word "7+0") (lines ["@5+0 :yarn;"]).
Proof.
  split; [exact (C74_life _ _ _ _ small _ _ at5 life_rooted)|]. do 4 (split; [vm_compute; reflexivity|]). split.
  { eapply means_name; [vm_compute; reflexivity|discriminate|eexists; split; [left; reflexivity|vm_compute; reflexivity]|vm_compute; reflexivity]. }
  do 5 (split; [vm_compute; reflexivity|]). exists (store_of wr NIL), (log_in wr NIL (word "5+0")). split; [left; reflexivity|]. split; vm_compute; reflexivity.
Qed.
(* A version before the object is refused. *)
Example C67_early_case : p_status (answer wr (line "9+0" "F" "recall 4+0 of root")) = CFails RBadArgs.
Proof. vm_compute. reflexivity. Qed.
(* An object that a branch has is not found: recall says OK and prints nothing. *)
Theorem C67_recall_refuted : exists fs id d log obj p, world_ok fs /\ In (id, d) fs /\ rocks_read one_float 100 d (key_of obj LOG_RAW_FORM) = Done (log, KOk) /\ untxt log = "@6+D :yarn;
" /\ obj = word "6+D" /\ cl fs (line "9+0" "F" "recall 6+D of 6+D") = Done p /\ p_status p = cok /\ p_out p = [].
Proof.
  remember (answer wr (line "9+0" "F" "recall 6+D of 6+D")) as p eqn:P. exists wr, (word "~+D"). exists (store_of wr (word "~+D")), (log_in wr (word "~+D") (word "6+D")), (word "6+D"), p. split; [exact (C74_life _ _ _ _ small _ _ at5 life_rooted)|].
  split; [right; left; vm_compute; reflexivity|]. split; [vm_compute; reflexivity|]. split; [vm_compute; reflexivity|]. split; [reflexivity|]. subst p. split; [vm_compute; reflexivity|]. split; vm_compute; reflexivity.
Qed.
Print Assumptions C67_recall_refuted.
