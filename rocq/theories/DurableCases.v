(* Saved events stay readable: concrete cases and counterexamples for C48. *)
From Coq Require Import String.
From Verif Require Import Prelude UuidModel UuidProofs KeyModel CodecModel TextTable TextModel TextSpec BuilderSpec BuilderProofs MergeModel MergeTextModel TextMergeSpec TextMerge TextMergeTheorems
  StoreModel HashModel MetaModel ClockModel ReplicaModel ReplicaSpec ReplicaProofs ReplicaTheorems StoreSpec StoreTheorems RocksModel RocksSpec RocksProofs
  HashCases MetaCases Txt MergeCases TextMergeCases StoreCases JoinCases ReplicaCases BranchModel BranchSpec BranchProofs BranchTheorems BranchCases
  DurableSpec DurableProofs DurableTheorems.
Open Scope string_scope.
Open Scope N_scope.
Open Scope list_scope.

Definition frame1 : list uop := [mkUop (ev "2+A") LWW_FORM_UUID []; mkUop (ev "3+A") (ev "2+A") [VStr (Some [107]); VInt 1]].
Definition frame2 : list uop := [mkUop (ev "6+A") (ev "3+A") [VStr (Some [121]); VInt 2]; mkUop (ev "7+A") (ev "6+A") [VStr (Some [233]); VInt 3]].
Definition bytes_in (now : string) (us : list uop) : bevent := BReceive (at_time now) [] (text_for us).
Definition log2 : key := key_of (ev "2+A") LOG_RAW_FORM.
Definition state2 : key := key_of (ev "2+A") LWW_RDT_FORM.
Definition kept_life : list bevent :=
  [ bytes_in "1+A" frame1; BCompact log2 (CFull 1); BOpen 0; rec "3+A" "@4+A :3+A 'x' 1; @6+A :5+A 'y' 2;"; bytes_in "3+A" frame2;
    BCompact log2 (CPartial 0 1); BCompact state2 (CFull 2); BOpen 5; BCompact log2 (CFull 1) ].
Definition kept_end : res (branch * list rstatus) := runA branchA (BOpen 0 :: kept_life).
Lemma kept_mergeable : mergeable (frame1 ++ frame2).
Proof.
  apply mergeableb_ok; [vm_compute; reflexivity|]. intros a b IA IB. cbn [frame1 frame2 app In] in IA, IB.
  repeat (destruct IA as [<-|IA]; [repeat (destruct IB as [<-|IB]; [cbn [u_id]; intro E; first [reflexivity | vm_compute in E; discriminate E]|]); destruct IB|]). destruct IA.
Qed.
Lemma says1 us : incl us (frame1 ++ frame2) -> build_calls (map UAppend us ++ [UEnd RAW])%list <> None -> N.of_nat (List.length us) < 2 ^ 32 - 1 ->
  N.of_nat (List.length (text_for us)) < 2 ^ 32 -> frame_says (text_for us) (chunk_of us).
Proof. intros I B L S. split; [|exact S]. apply text_for_ok; [eapply mergeable_incl; [exact kept_mergeable|exact I]|exact B|exact L]. Qed.
Definition spanlessb (U : list uop) : bool := forallb (fun a => forallb (fun b => negb (continues a b)) U) U.
Lemma spanlessb_ok U : spanlessb U = true -> spanless U.
Proof. intros H a b IA IB. unfold spanlessb in H. rewrite forallb_forall in H. specialize (H a IA). rewrite forallb_forall in H. specialize (H b IB). apply negb_true_iff in H. exact H. Qed.
Definition events12 : list rop := filter event_op (chunk_of frame1) ++ filter event_op (chunk_of frame2) ++ [].
Lemma events_bare : map bare events12 = frame1 ++ frame2. Proof. vm_compute. reflexivity. Qed.
(* the life of a branch: frames, one of them refused, restarts, compactions *)
Example C48_case :
  first_event 0 0 [at_time "1+A"] yarnA false = ev "1+A" /\ uvalue (ev "1+A") < NEVER_W /\ yarnA <> 0 /\ newA = Done (branchA, ROk) /\
  Forall clocks kept_life /\ (forall n r f, In (BReceive n r f) kept_life -> events_only f) /\
  runA branchA (BOpen 0 :: kept_life) = Done (branch_of kept_end, [ROk; ROk; ROk; ROk; RNotFound; ROk; ROk; ROk; ROk; ROk]) /\
  received kept_life [ROk; ROk; ROk; RNotFound; ROk; ROk; ROk; ROk; ROk] events12 /\
  first_ops log2 (ev "1+A") = [] /\ keep_bound 100 [] events12 /\ spanless (map bare events12) /\
  rocks_read one_float 100 (br_main (branch_of kept_end)) log2 = Done (txt "@2+A :lww,
@3+A 'k' 1;
@6+A 'y' 2,
@7+A 'é' 3;
", KOk) /\
  rocks_read one_float 100 (br_main (branch_of kept_end)) state2 = Done (text_for (frame1 ++ frame2), KOk).
Proof.
  do 2 (split; [vm_compute; reflexivity|]). split; [discriminate|]. split; [vm_compute; reflexivity|].
  split; [apply clocksb_ok; vm_compute; reflexivity|]. split; [apply frames_only; vm_compute; reflexivity|]. split; [vm_compute; reflexivity|].
  split.
  { unfold kept_life, bytes_in, rec, events12.
    apply rv_frame; [apply says1; [intros u I; apply in_or_app; left; exact I|vm_compute; discriminate|vm_compute; reflexivity|vm_compute; reflexivity]|].
    apply rv_compact, rv_open. apply rv_refused; [discriminate|].
    apply rv_frame; [apply says1; [intros u I; apply in_or_app; right; exact I|vm_compute; discriminate|vm_compute; reflexivity|vm_compute; reflexivity]|].
    apply rv_compact, rv_compact, rv_open, rv_compact, rv_none. }
  split; [vm_compute; reflexivity|]. split.
  { unfold keep_bound. rewrite events_bare. split; [exact kept_mergeable|]. split; [vm_compute; repeat constructor|]. split; vm_compute; reflexivity. }
  split; [rewrite events_bare; apply spanlessb_ok; vm_compute; reflexivity|]. split; vm_compute; reflexivity.
Qed.
(* the same frame, with the hypotheses of C48_event *)
Example C48_event_case : version idA = TIME /\ healthy idA openA (ev "1+A") /\ text_id (at_op 2 "@2+A :lww; @3+A :2+A 'k' 1;") <> br_tip openA /\
  (exists c, last_event (text_for frame1) c /\ text_id c = ev "3+A") /\ log_at (br_main openA) log2 [].
Proof.
  split; [vm_compute; reflexivity|]. split; [apply C47_restart_case|]. split; [vm_compute; discriminate|]. split.
  { assert (E : exists a b, all_ops 4 (cursor_of (text_for frame1)) = Some [a; b] /\ stampedb b = true /\ text_id b = ev "3+A").
    { eexists. eexists. split; [vm_compute; reflexivity|]. split; vm_compute; reflexivity. }
    destruct E as (a & b & E & SB & IB). exists b. split; [|exact IB]. exists [a], []. split; [apply (all_ops_ok 4); exact E|]. split; [apply stampedb_iff; exact SB|constructor]. }
  exists []. split; [|reflexivity]. assert (E : cell_at (br_main openA) log2 = cell0) by (vm_compute; reflexivity). rewrite E. constructor.
Qed.

Definition is_b (c : cursor) : bool := match r_vals (rop_of c) with [VStr (Some [98])] => true | _ => false end.
Lemma lacks f l x : ReplicaSpec.ops_of f l -> existsb is_b l = false -> is_b x = true -> forall y, delivered f y -> rop_of y <> rop_of x.
Proof.
  intros O F B y D E. pose proof (ops_complete _ _ _ O D) as I. assert (Y : is_b y = true) by (unfold is_b in *; rewrite E; exact B).
  assert (X : existsb is_b l = true) by (apply existsb_exists; exists y; auto). congruence.
Qed.
(* A text inserted as one span is accepted and saved. Once the log has another
   record, a read of it gives a UUID for the second character: the log no longer
   has the event (its state does). *)
Theorem C48_span_refuted : exists b frame x text,
  runA openA [BReceive (at_time "1+A") [] frame; BOpen 0; rec "5+A" "@7+A :3000000001+A 'c';"] = Done (b, [ROk; ROk; ROk]) /\
  delivered frame x /\ stamped x /\ r_vals (rop_of x) = [VStr (Some [98])] /\
  rocks_read one_float 100 (br_main b) log2 = Done (text, KOk) /\
  (exists y, delivered text y /\ text_id y = text_id x /\ r_vals (rop_of y) = [VUuid (mkUuid 684547143360315392 0)]) /\
  (forall y, delivered text y -> rop_of y <> rop_of x) /\
  exists state, rocks_read one_float 100 (br_main b) (key_of (ev "2+A") RGA_RDT_FORM) = Done (state, KOk) /\
    exists y, delivered state y /\ bare (rop_of y) = bare (rop_of x).
Proof.
  exists (branch_of (runA openA [rec "1+A" "@2+A :rga; @3+A :2+A ('ab');"; BOpen 0; rec "5+A" "@7+A :3000000001+A 'c';"])),
    (txt "@2+A :rga; @3+A :2+A ('ab');"), (at_op 3 "@2+A :rga; @3+A :2+A ('ab');"), (txt "@2+A :rga,
@3+A 'a';
b;
@7+A 'c';
").
  split; [vm_compute; reflexivity|]. split; [at_op_tac 2%nat|]. split; [vm_compute; repeat split; discriminate|]. split; [vm_compute; reflexivity|].
  split; [vm_compute; reflexivity|]. split.
  { exists (at_op 3 "@2+A :rga,
@3+A 'a';
b;
@7+A 'c';
"). split; [at_op_tac 2%nat|]. split; vm_compute; reflexivity. }
  split.
  { apply (lacks _ (match all_ops 9 (cursor_of (txt "@2+A :rga,
@3+A 'a';
b;
@7+A 'c';
")) with Some l => l | None => [] end)); [apply (all_ops_ok 9); vm_compute; reflexivity|vm_compute; reflexivity|vm_compute; reflexivity]. }
  exists (txt "@2+A :rga,
@3+A ('ab'),
@7+A 'c';
"). split; [vm_compute; reflexivity|]. exists (at_op 3 "@2+A :rga,
@3+A ('ab'),
@7+A 'c';
"). split; [at_op_tac 2%nat|vm_compute; reflexivity].
Qed.
Print Assumptions C48_case.
Print Assumptions C48_event_case.
Print Assumptions C48_span_refuted.
