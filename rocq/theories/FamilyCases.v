(* Column families: concrete cases and counterexamples for C76. *)
From Coq Require Import String Permutation.
From Verif Require Import Prelude UuidModel UuidProofs KeyModel CodecModel CodecSpec TextTable TextModel TextSpec BuilderSpec BuilderProofs MergeModel MergeTextModel
  StoreModel StoreSpec StoreProofs StoreCases HashModel MetaModel ClockModel ReplicaModel ReplicaSpec RocksModel RocksSpec RocksProofs
  HashCases MetaCases Txt ReplicaCases BranchModel BranchSpec BranchCases ForkModel HostModel HostSpec HostProofs HostTheorems ForkCases HostCases FamilyModel FamilyTheorems.
Open Scope string_scope.
Open Scope N_scope.
Open Scope list_scope.

(* two branches made, one of them filled and forked, another dropped *)
Definition busy_es : list hevent := (madeA ++ [HCreate [at_time "3+A"] yarnB true; got yarnA "@5+A :lww;"; HDrop idB; HRestart; HOpen; HFork [at_time "9+A"] yarnB yarnA])%list.
Definition hb : host := Eval vm_compute in host_of (hrun h0 busy_es).
Definition ssb : list rstatus := Eval vm_compute in match hrun h0 busy_es with Done (_, l) => l | _ => [] end.
Example C76_case : at_time "1+A" < NEVER_W /\ hnew = Done (h0, ROk) /\ hrun h0 busy_es = Done (hb, ssb) /\ Forall (fun s => s = ROk) ssb /\
  map (fun p => untxt (fst p)) (rev (on_disk (h_stores hb))) = ["~+B"; "~+A"; "default"] /\
  map fst (opened (rev (on_disk (h_stores hb)))) = [idB; branch_id yarnA; NIL] /\ Permutation (on_disk (h_stores hb)) (rev (on_disk (h_stores hb))) /\
  db_create (on_disk (h_stores hb)) (family_name idB) [] = None /\ db_create (on_disk (h_stores hb)) (family_name (branch_id 1)) [] <> None.
Proof.
  do 3 (split; [vm_compute; reflexivity|]). split; [repeat constructor|]. do 2 (split; [vm_compute; reflexivity|]). split; [apply Permutation_rev|]. split; [vm_compute; reflexivity|]. vm_compute. discriminate.
Qed.
(* The name default would be the family of the metadata: no store has it. *)
Theorem C76_default_refuted : exists id, id <> NIL /\ uuid_wf id /\ uorigin id < 2 ^ 62 /\ family_name id = family_name NIL /\
  forall db d, In (family_name NIL) (map fst db) -> db_create db (family_name id) d = None.
Proof.
  exists (parse_uuid (txt "default")). split; [vm_compute; discriminate|]. split; [split; vm_compute; reflexivity|]. split; [vm_compute; reflexivity|]. assert (E : family_name (parse_uuid (txt "default")) = family_name NIL) by (vm_compute; reflexivity).
  split; [exact E|]. intros db d I. unfold db_create. rewrite E. apply in_map_iff in I as (p & Q & I).
  assert (X : existsb (fun p => bytes_eqb (fst p) (family_name NIL)) db = true) by (apply existsb_exists; exists p; split; [exact I|]; rewrite Q; apply CodecTheorems.bytes_eqb_eq; reflexivity). rewrite X. reflexivity.
Qed.
(* A store with the upper two bits of the origin set is found under another id. *)
Theorem C76_bits_refuted : exists id d, uuid_wf id /\ map fst (opened [(family_name id, d)]) <> [id].
Proof. exists (mkUuid 1 (2 ^ 62)), []. split; [split; vm_compute; reflexivity|]. vm_compute. discriminate. Qed.
Print Assumptions C76_default_refuted.
Print Assumptions C76_bits_refuted.
