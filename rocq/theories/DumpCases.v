(* The command dump: concrete cases and counterexamples for C75. *)
From Coq Require Import String Permutation.
From Verif Require Import Prelude UuidModel UuidProofs KeyModel CodecModel CodecSpec TextTable TextModel TextSpec BuilderSpec BuilderProofs MergeModel MergeTextModel
  StoreModel StoreSpec StoreProofs StoreCases HashModel MetaModel ClockModel ReplicaModel ReplicaSpec RocksModel RocksSpec RocksProofs
  HashCases MetaCases Txt ReplicaCases BranchModel BranchSpec BranchCases ForkModel HostModel HostSpec HostProofs HostTheorems HostCases YarnCases NamesModel
  CliModel CliSpec CliNames CliProofs CliTheorems CliHistory CliListing CliCases InitModel InitTheorems InitHistory InitCases DumpSpec DumpTheorems.
Open Scope string_scope.
Open Scope N_scope.
Open Scope list_scope.

(* a branch and a name *)
Definition busy : list invocation := [line "6+0" "D" "create as Abc"; line "7+0" "E" "name 5+X as thing"].
Definition busy_log := Eval vm_compute in log_of new5 busy.
Definition wd : world := Eval vm_compute in log_w busy_log.
Definition dump_all : invocation := line "9+0" "F" "dump".
Definition dump_abc : invocation := line "9+0" "F" "dump Abc".
Lemma busy_is : log_of new5 busy = busy_log. Proof. vm_compute. reflexivity. Qed.
Lemma life_busy : lives r5 wd.
Proof.
  apply (life_session _ _ _ _ _ new5 (log_l busy_log) wd life_new); [|apply calmb_all; vm_compute; reflexivity].
  pose proof (logged_ses busy new5) as K. rewrite busy_is in K. apply K. reflexivity.
Qed.
Definition keys_of (fs : world) (id : uuid) : list key := match find (fun p => uuid_eqb (fst p) id) fs with Some (_, d) => map fst d | None => [] end.

Example C75_case : r5 < NEVER_W /\ ~ float_like (write_uuid (uuid_time r5 0)) /\ (2 <= 100)%nat /\ lives r5 wd /\ i_args dump_all = [W_dump] /\
  cl wd dump_all = Done (answer wd dump_all) /\ p_status (answer wd dump_all) = cok /\
  p_out (answer wd dump_all) = lines
    ["*zero#0+0	@5+0 :zero;"; "*zero#0000active+0	@6000000001+0 :~+D;"; "*yarn#5+0	@5+0 :yarn;"; "*log#5+0	@5+0 :yarn;";
     "*meta#5+0	@5+0 :meta 5+0 yarn '3B4dy2xY31d10G410G410G410G410G410G410G410G4';"; "*lww#0+0	@6000000002+0 Abc ~+D,"; "@7+0 :0 thing 5+X;"].
Proof.
  split; [exact at5|]. split; [apply no_float_ok; vm_compute; reflexivity|]. split; [lia|]. split; [exact life_busy|]. do 3 (split; [vm_compute; reflexivity|]). vm_compute. reflexivity.
Qed.
Example C75_branch_case : world_ok wd /\ asks one_float 100 wd dump_abc (word "~+D") /\ In (word "~+D") (map fst wd) /\
  Forall key64 (keys_of wd (word "~+D")) /\ ~ In KEY_END (keys_of wd (word "~+D")) /\ Forall (fun k => never_fails (key_form k)) (keys_of wd (word "~+D")) /\
  cl wd dump_abc = Done (answer wd dump_abc) /\ p_status (answer wd dump_abc) = cok /\
  p_out (answer wd dump_abc) = lines ["*zero#0+0	@6+D :zero;"; "*yarn#6+D	@6+D :yarn;"; "*log#6+D	@6+D :yarn;"; "*meta#6+D	@6+D :meta 6+D yarn '7BjvsphX~5t10G410G410G410G410G410G410G410G4';"].
Proof.
  split; [exact (C74_life _ _ _ _ small _ _ at5 life_busy)|]. split.
  { right. exists (txt "Abc"), []. split; [vm_compute; reflexivity|]. split; [vm_compute; reflexivity|]. split; [|right; right; vm_compute; reflexivity].
    eapply means_name; [vm_compute; reflexivity|discriminate|eexists; split; [left; reflexivity|vm_compute; reflexivity]|vm_compute; reflexivity]. }
  split; [vm_compute; auto|]. split; [apply key64b; vm_compute; reflexivity|]. split; [intro H; vm_compute in H; intuition discriminate|].
  split; [repeat (apply Forall_cons; [vm_compute; auto 20|]); constructor|]. do 2 (split; [vm_compute; reflexivity|]). vm_compute. reflexivity.
Qed.
(* The id shown is not always that of the object: the names and the active branch
   are kept under names (0 and 0000active), which are shown as ids of events. *)
Theorem C75_ids_refuted : exists k t f, k = ACTIVE_KEY /\ shown_as (k, f) t /\ exists u, key_of u ZERO_RAW_FORM = k /\ version u = NAME /\
  t = txt "*zero#0000active+0	" ++ f /\ version (parse_uuid (txt "0000active+0")) = TIME /\ parse_uuid (txt "0000active") = u.
Proof.
  exists ACTIVE_KEY, (txt "*zero#0000active+0	"), []. split; [reflexivity|]. split.
  { exists (parse_uuid (txt "0000active+0")), 0, (form_uuid 0). split; [split; [vm_compute; reflexivity|exists 0; split; vm_compute; reflexivity]|]. split; [vm_compute; reflexivity|]. split; [apply name_known; reflexivity|vm_compute; reflexivity]. }
  exists (parse_uuid (txt "0000active")). do 4 (split; [vm_compute; reflexivity|]). vm_compute. reflexivity.
Qed.
(* The id of an event instead of that of a branch: the process crashes. *)
Theorem C75_crash_refuted : exists w i p, lives r5 w /\ i_args i = [W_dump; txt "5+D"] /\ In (branch_id (at_time "D")) (map fst w) /\ cl w i = Done p /\ p_status p = CCrash.
Proof.
  exists wd, (line "9+0" "F" "dump 5+D"), (answer wd (line "9+0" "F" "dump 5+D")). split; [exact life_busy|]. split; [vm_compute; reflexivity|]. split; [vm_compute; auto|]. split; vm_compute; reflexivity.
Qed.
(* A text written in four pieces cannot be read (C45); dump reports success and
   does not show it, nor the text after it, which can be read. *)
Definition one_more (y : string) (f : string) : hevent := HReceive [at_time "B+0"; at_time "B+0"] (at_time y) (txt f).
Definition pieces : list hevent :=
  [one_more "D" "@7+D :rga;"; one_more "D" "@8+D :7+D 'a';"; one_more "D" "@9+D :8+D 'b';"; one_more "D" "@A+D :9+D 'c';"; one_more "D" "@B+D :rga;"].
Definition with_pieces : host := Eval vm_compute in match h_run toy_sha one_float 100 (reopened wd) pieces with Done (h, _) => h | _ => shut wd end.
Definition wp : world := Eval vm_compute in left_by with_pieces.
Definition family_of (fs : world) (id : uuid) := match find (fun p => uuid_eqb (fst p) id) fs with Some (_, d) => d | None => [] end.
(* C75_all with C75_branch_case: all records of that branch can be read, and not
   all of the one with the pieces *)
Definition all_read (d : list (key * cell)) : bool := forallb (fun k => match rocks_read one_float 100 d k with Done ([], KDbFail) => false | _ => true end) (map fst d).
Example C75_all_case : all_read (family_of wd (word "~+D")) = true /\ all_read (family_of wp (word "~+D")) = false /\
  forall d, all_read d = true -> forall k, In k (map fst d) -> rocks_read one_float 100 d k <> Done ([], KDbFail).
Proof.
  split; [vm_compute; reflexivity|]. split; [vm_compute; reflexivity|]. intros d A k IK RD. unfold all_read in A. rewrite forallb_forall in A. specialize (A k IK). rewrite RD in A. discriminate A.
Qed.
Theorem C75_hidden_refuted : exists h p d f, h_run toy_sha one_float 100 (reopened wd) pieces = Done (h, [ROk; ROk; ROk; ROk; ROk]) /\
  In (word "~+D", d) (left_by h) /\ cl (left_by h) dump_abc = Done p /\ p_status p = cok /\
  rocks_read one_float 100 d (key_of (word "B+D") RGA_RDT_FORM) = Done (f, KOk) /\ f <> [] /\
  forall l rest, shows one_float 100 d l rest -> prints l (p_out p) -> In (key_of (word "B+D") RGA_RDT_FORM) rest.
Proof.
  exists with_pieces, (answer wp dump_abc), (family_of wp (word "~+D")), (txt "@B+D :rga;" ++ [10]). split; [vm_compute; reflexivity|]. split; [vm_compute; auto|].
  do 3 (split; [vm_compute; reflexivity|]). split; [discriminate|].
  intros l rest (KS & FR & _) _.
  assert (BAD : rocks_read one_float 100 (family_of wp (word "~+D")) (key_of (word "7+D") RGA_RDT_FORM) = Done ([], KDbFail)) by (vm_compute; reflexivity).
  assert (KD : exists a, map fst (family_of wp (word "~+D")) = a ++ [key_of (word "7+D") RGA_RDT_FORM; key_of (word "B+D") RGA_RDT_FORM]) by (exists (firstn 11 (map fst (family_of wp (word "~+D")))); vm_compute; reflexivity).
  destruct KD as (a & KD). rewrite KD in KS. remember (key_of (word "7+D") RGA_RDT_FORM) as k7 eqn:E7. remember (key_of (word "B+D") RGA_RDT_FORM) as kB eqn:EB. clear E7 EB KD.
  assert (N7 : ~ In k7 (map fst l)).
  { intro J. apply in_map_iff in J as ([k f] & E & J). cbn [fst] in E. subst k. rewrite Forall_forall in FR. specialize (FR _ J). cbn [fst snd] in FR. rewrite BAD in FR. discriminate FR. }
  clear -KS N7. destruct rest as [|r rest] using rev_ind.
  - exfalso. rewrite app_nil_r in KS. apply N7. rewrite <- KS. apply in_or_app. right. left. reflexivity.
  - clear IHrest. apply in_or_app. right. left. apply (f_equal (@rev key)) in KS. rewrite !rev_app_distr in KS. cbn [rev app] in KS. congruence.
Qed.
Print Assumptions C75_case.
Print Assumptions C75_branch_case.
Print Assumptions C75_ids_refuted.
Print Assumptions C75_crash_refuted.
Print Assumptions C75_hidden_refuted.
