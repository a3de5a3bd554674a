(* init in the directory of a replica: concrete cases and counterexamples for C74. *)
From Coq Require Import String Permutation.
From Verif Require Import Prelude UuidModel UuidProofs KeyModel CodecModel CodecSpec TextTable TextModel TextSpec BuilderSpec BuilderProofs MergeModel MergeTextModel
  StoreModel StoreProofs HashModel MetaModel ClockModel ReplicaModel ReplicaSpec RocksModel RocksSpec RocksProofs
  HashCases MetaCases Txt ReplicaCases BranchModel BranchSpec BranchCases ForkModel HostModel HostSpec HostProofs HostTheorems HostCases YarnCases NamesModel
  CliModel CliSpec CliNames CliProofs CliTheorems CliHistory CliListing CliCases InitModel InitTheorems InitHistory.
Open Scope string_scope.
Open Scope N_scope.
Open Scope list_scope.

Notation over := (init_over toy_sha one_float 100).
Notation lives := (InitHistory.life toy_sha one_float 100 ident).
Definition over_w (r : res (world * rstatus)) : world := match r with Done (w, _) => w | _ => [] end.
Definition reopened (fs : world) : host := match h_reopen one_float 100 (shut fs) with Done (h, _) => h | _ => shut fs end.
(* a replica made at the time 5, with the name x for its only store *)
Definition r5 : N := at_time "5+0".
Definition new5 : world := Eval vm_compute in over_w (init toy_sha one_float 100 r5).
Lemma init5 : init toy_sha one_float 100 r5 = Done (new5, ROk). Proof. vm_compute. reflexivity. Qed.
Definition named5 := Eval vm_compute in log_of new5 [line "6+0" "A" "name 1+A as x"].
Definition old5 : world := Eval vm_compute in log_w named5.
Definition again5 : world := Eval vm_compute in over_w (over old5 (at_time "2+0")).
Definition made (fs : world) : world := match cl fs (line "3+0" "B" "create") with Done p => p_families p | _ => [] end.
Definition made5 : world := Eval vm_compute in made old5.
Lemma at5 : r5 < NEVER_W. Proof. vm_compute. reflexivity. Qed.
Lemma life_new : lives r5 new5. Proof. eapply life_first. exact init5. Qed.
Lemma named5_is : log_of new5 [line "6+0" "A" "name 1+A as x"] = named5. Proof. vm_compute. reflexivity. Qed.
Lemma life_old : lives r5 old5.
Proof.
  apply (life_session _ _ _ _ _ new5 (log_l named5) old5 life_new); [|apply calmb_all; vm_compute; reflexivity].
  pose proof (logged_ses [line "6+0" "A" "name 1+A as x"] new5) as K. rewrite named5_is in K. apply K. reflexivity.
Qed.
Lemma over5 : over old5 (at_time "2+0") = Done (again5, ROk). Proof. vm_compute. reflexivity. Qed.
Lemma life_again : lives r5 again5. Proof. eapply life_init; [exact life_old| |exact over5]. vm_compute. reflexivity. Qed.

(* the theorems apply: the clock is set back to 2, and init is given again; with a
   branch it is refused *)
Example C74_case : r5 < NEVER_W /\ ~ float_like (write_uuid (uuid_time r5 0)) /\ (2 <= 100)%nat /\ lives r5 old5 /\ at_time "2+0" < NEVER_W /\ world_ok old5 /\
  over old5 (at_time "2+0") = Done (again5, ROk) /\ meta_names one_float 100 old5 [(parse_uuid (txt "x"), ev "1+A")] /\
  tips (reopened old5) = [ev "5+0"] /\ tips (reopened again5) = [NIL] /\
  lives r5 again5 /\ over again5 (at_time "2+0") <> Done (again5, ROk) /\
  over made5 (at_time "2+0") = Done (made5, RDbFail) /\ map fst made5 = [NIL; branch_id (at_time "B")].
Proof.
  split; [exact at5|]. split; [apply no_float_ok; vm_compute; reflexivity|]. split; [lia|]. split; [exact life_old|]. split; [vm_compute; reflexivity|].
  split; [exact (C74_life _ _ _ _ small _ _ at5 life_old)|]. split; [exact over5|]. split; [eexists; split; [left; reflexivity|vm_compute; reflexivity]|].
  do 2 (split; [vm_compute; reflexivity|]). split; [exact life_again|].
  split; [|split; vm_compute; reflexivity]. assert (E : match over again5 (at_time "2+0") with Done ([(_, d)], _) => Nat.eqb (List.length (ce_operands (cell_at d KEY_ZERO))) 4 | _ => false end = true) by (vm_compute; reflexivity).
  intro Q. rewrite Q in E. vm_compute in E. discriminate E.
Qed.
(* init is not refused in the directory of a replica, and it is not without effect *)
Theorem C74_refusal_refuted : exists fs fs', lives r5 fs /\ over fs (at_time "2+0") = Done (fs', ROk) /\ fs' <> fs.
Proof.
  exists old5, again5. split; [exact life_old|]. split; [exact over5|]. intro Q. assert (E : tips (reopened again5) = tips (reopened old5)) by (rewrite Q; reflexivity). vm_compute in E. discriminate E.
Qed.
(* after it a new branch may begin before the events on record: without it the
   branch begins after 5+0, the first event of the replica *)
Theorem C74_order_refuted : exists fs fs' p p', lives r5 fs /\ over fs (at_time "2+0") = Done (fs', ROk) /\
  cl fs (line "3+0" "B" "create") = Done p /\ tips (reopened (p_families p)) = [ev "5+0"; ev "5000000001+B"] /\
  cl fs' (line "3+0" "B" "create") = Done p' /\ tips (reopened (p_families p')) = [NIL; ev "3+B"].
Proof.
  destruct (cl old5 (line "3+0" "B" "create")) as [p| |] eqn:E1; [|vm_compute in E1; discriminate E1..]. destruct (cl again5 (line "3+0" "B" "create")) as [p'| |] eqn:E2; [|vm_compute in E2; discriminate E2..].
  exists old5, again5, p, p'. split; [exact life_old|]. split; [exact over5|]. split; [exact E1|].
  assert (F1 : p_families p = made old5) by (unfold made; rewrite E1; reflexivity). assert (F2 : p_families p' = made again5) by (unfold made; rewrite E2; reflexivity).
  rewrite F1, F2. split; [vm_compute; reflexivity|]. split; [exact E2|]. vm_compute. reflexivity.
Qed.
Print Assumptions C74_refusal_refuted.
Print Assumptions C74_order_refuted.
