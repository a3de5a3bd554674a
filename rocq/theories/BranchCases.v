(* A branch over RocksDB: concrete cases and counterexamples for C47 and C37. *)
From Coq Require Import String.
From Verif Require Import Prelude UuidModel UuidProofs KeyModel CodecModel TextTable TextModel BuilderSpec MergeModel MergeTextModel
  StoreModel HashModel MetaModel ClockModel ReplicaModel ReplicaSpec ReplicaProofs ReplicaTheorems StoreSpec StoreTheorems RocksModel RocksSpec RocksProofs
  HashCases MetaCases Txt MergeCases TextMergeCases StoreCases JoinCases ReplicaCases BranchModel BranchSpec BranchProofs BranchTheorems.
Open Scope string_scope.
Open Scope N_scope.
Open Scope list_scope.

(* the ops of a frame *)
Fixpoint all_ops (n : nat) (c : cursor) : option (list cursor) :=
  match n with
  | O => None
  | Datatypes.S k => match next c with
           | NOk c' => option_map (cons c') (all_ops k c')
           | NEnd _ | NBad _ => Some []
           | NAbort => None
           end
  end.
Lemma all_ops_run n : forall c0 l0 c l, run_to c0 l0 c -> all_ops n c = Some l -> exists e d, run_to c0 (l0 ++ l) e /\ (next e = NEnd d \/ next e = NBad d).
Proof.
  induction n as [|n IH]; intros c0 l0 c l R H; [discriminate|]. cbn [all_ops] in H. destruct (next c) as [c'|c'|c'|] eqn:N; try discriminate.
  - destruct (all_ops n c') as [l'|] eqn:A; [|discriminate]. injection H as <-.
    destruct (IH c0 (l0 ++ [c']) c' l' (run_next _ _ _ _ R N) A) as (e & d & E). exists e, d. rewrite <- app_assoc in E. exact E.
  - injection H as <-. rewrite app_nil_r. exists c, c'. auto.
  - injection H as <-. rewrite app_nil_r. exists c, c'. auto.
Qed.
Lemma all_ops_ok n f l : all_ops n (cursor_of f) = Some l -> ReplicaSpec.ops_of f l.
Proof. intro H. destruct (all_ops_run n _ [] _ _ (run_here _) H) as (e & d & E). exists e, d. exact E. Qed.
Definition events_onlyb (f : bytes) : bool :=
  match all_ops 100 (cursor_of f) with
  | Some l => forallb (fun c => stampedb c || uuid_eqb (text_id c) COMMENT) l
  | None => false
  end.
Lemma events_onlyb_ok f : events_onlyb f = true -> events_only f.
Proof.
  unfold events_onlyb. destruct (all_ops 100 (cursor_of f)) as [l|] eqn:A; [|discriminate]. apply all_ops_ok in A.
  intros H c D. pose proof (ops_complete _ _ _ A D) as I. rewrite forallb_forall in H. specialize (H c I). apply orb_true_iff in H as [H|H].
  - left. apply stampedb_iff. exact H.
  - right. apply uuid_eqb_eq. exact H.
Qed.
Definition frames_onlyb (es : list bevent) : bool := forallb (fun e => match e with BReceive _ _ f => events_onlyb f | _ => true end) es.
Lemma frames_only es : frames_onlyb es = true -> forall n r f, In (BReceive n r f) es -> events_only f.
Proof. intros H n r f I. unfold frames_onlyb in H. rewrite forallb_forall in H. apply events_onlyb_ok. exact (H _ I). Qed.
Definition clocksb (e : bevent) : bool :=
  match e with BReceive now rs _ => (now <? 2 ^ 64) && forallb (fun r => r <? 2 ^ 64) rs | _ => true end.
Lemma clocksb_ok es : forallb clocksb es = true -> Forall clocks es.
Proof.
  intro H. apply Forall_forall. intros e I. rewrite forallb_forall in H. specialize (H e I). destruct e as [n r f|n|k c]; cbn in *; auto.
  apply andb_true_iff in H as [H1 H2]. apply N.ltb_lt in H1. split; [exact H1|]. apply Forall_forall. intros x X. rewrite forallb_forall in H2. apply N.ltb_lt. exact (H2 x X).
Qed.

Lemma new_open sha fbits active fuel now rs yarn tr b s now1 b1 s1 e id : yarn <> 0 ->
  uvalue e < NEVER_W -> first_event active now rs yarn tr = e -> branch_id yarn = id -> b_new sha fbits active fuel now rs yarn tr = Done (b, s) ->
  b_step sha fbits active fuel id b (BOpen now1) = Done (b1, s1) -> healthy id b1 e.
Proof. intros Y L <- <- E. destruct (C47_created sha fbits active fuel _ _ _ _ _ _ (or_intror Y) L E) as (_ & _ & _ & K). intro H. apply (K _ _ _ H). Qed.

Definition idA : uuid := branch_id yarnA.
Definition newA := b_new toy_sha one_float 0 100 0 [at_time "1+A"] yarnA false.
Definition runA (b : branch) (es : list bevent) := b_run toy_sha one_float 0 100 idA b es.
Definition branch_of {X} (r : res (branch * X)) : branch := match r with Done (b, _) => b | _ => mkBranch [] NIL end.
Definition said {X} (r : res (branch * X)) : option X := match r with Done (_, s) => Some s | _ => None end.
Definition branchA : branch := branch_of newA.
Definition rec (now : string) (s : string) : bevent := BReceive (at_time now) [] (txt s).

(* ---- C47 ---- *)
(* compactions of the tip record, of the log and of the chain records; a frame that
   is refused; restarts *)
Definition life : list bevent :=
  [ rec "1+A" "@2+A :lww; @3+A :2+A 'key' 1;"; BCompact KEY_ZERO (CPartial 1 2); rec "3+A" "@4+A :3+A 'x' 1; @6+A :5+A 'y' 2;"; BOpen 0;
    BCompact (key_of (ev "2+A") LOG_RAW_FORM) (CFull 1); rec "3+A" good; BCompact KEY_ZERO (CFull 1); BCompact KEY_ZERO (CFull 9); BOpen 5 ].
Example C47_case :
  first_event 0 0 [at_time "1+A"] yarnA false = ev "1+A" /\ uvalue (ev "1+A") < NEVER_W /\ yarnA <> 0 /\
  newA = Done (branchA, ROk) /\ Forall clocks life /\ (forall n r f, In (BReceive n r f) life -> events_only f) /\
  runA branchA (BOpen 0 :: life) = Done (branch_of (runA branchA (BOpen 0 :: life)), [ROk; ROk; ROk; RNotFound; ROk; ROk; ROk; ROk; ROk; ROk]) /\
  br_tip (branch_of (runA branchA (BOpen 0 :: life))) = ev "7+A".
Proof.
  split; [vm_compute; reflexivity|]. split; [vm_compute; reflexivity|]. split; [discriminate|]. split; [vm_compute; reflexivity|].
  split; [apply clocksb_ok; vm_compute; reflexivity|]. split; [apply frames_only; vm_compute; reflexivity|].
  split; vm_compute; reflexivity.
Qed.
(* its first restart, with the hypotheses of C47_restart *)
Definition openA : branch := branch_of (runA branchA [BOpen 0]).
Example C47_restart_case :
  version idA = TIME /\ healthy idA openA (ev "1+A") /\
  events_only (txt "@2+A :lww; @3+A :2+A 'key' 1;") /\
  (exists c, last_event (txt "@2+A :lww; @3+A :2+A 'key' 1;") c /\ text_id c = ev "3+A") /\
  said (runA openA [rec "1+A" "@2+A :lww; @3+A :2+A 'key' 1;"; BOpen 0]) = Some [ROk; ROk] /\
  br_tip (branch_of (runA openA [rec "1+A" "@2+A :lww; @3+A :2+A 'key' 1;"; BOpen 0])) = ev "3+A".
Proof.
  split; [vm_compute; reflexivity|]. split.
  { apply (new_open toy_sha one_float 0 100 0 [at_time "1+A"] yarnA false branchA ROk 0 openA ROk (ev "1+A") idA).
    - discriminate.
    - vm_compute. reflexivity.
    - vm_compute. reflexivity.
    - reflexivity.
    - vm_compute. reflexivity.
    - vm_compute. reflexivity. }
  split; [apply events_onlyb_ok; vm_compute; reflexivity|]. split.
  { exists (at_op 2 "@2+A :lww; @3+A :2+A 'key' 1;"). split; [|vm_compute; reflexivity].
    exists [at_op 1 "@2+A :lww; @3+A :2+A 'key' 1;"], []. split; [apply (all_ops_ok 3); vm_compute; reflexivity|]. split; [vm_compute; repeat split; discriminate|constructor]. }
  split; vm_compute; reflexivity.
Qed.

(* A new branch is not of its yarn until it is opened: it takes a chain of
   another yarn as its last, and cannot be opened any more. *)
Theorem C47_unopened_refuted : exists b b' ss, newA = Done (b, ROk) /\
  runA b [rec "1+A" "@2+B :yarn;"; BOpen 0] = Done (b', ss) /\ ss = [ROk; RBadFrame].
Proof.
  exists branchA, (branch_of (runA branchA [rec "1+A" "@2+B :yarn;"; BOpen 0])), [ROk; RBadFrame].
  split; [vm_compute; reflexivity|]. split; vm_compute; reflexivity.
Qed.
(* the failed opening of C47_unopened_refuted, as in C47_reopen *)
Example C47_reopen_case :
  b_step toy_sha one_float 0 100 idA (branch_of (runA branchA [rec "1+A" "@2+B :yarn;"])) (BOpen 0) = Done (branch_of (runA branchA [rec "1+A" "@2+B :yarn;"]), RBadFrame).
Proof. vm_compute. reflexivity. Qed.
(* Writing a text makes a time of the clock the last event, though there is no
   such event. When the event with that id comes, it is accepted but not saved. *)
Definition textA : branch := branch_of (runA openA [rec "1+A" "@2+A :lww; @3+A :2+A 'key' 1;"; BOpen 0]).
Definition phantom : list bevent := [BReceive 0 [at_time "6+A"; at_time "7+A"] (txt "@2-A :txt 'hello';"); BOpen 0].
Definition logA (b : branch) : option bytes :=
  match b_read one_float 100 (br_main b) (key_of (ev "2+A") LOG_RAW_FORM) with Done (_, f, ROk) => Some f | _ => None end.
Theorem C47_phantom_refuted : exists b b1 b2 f,
  runA b phantom = Done (b1, [ROk; ROk]) /\ logA b = Some f /\ logA b1 = Some f /\
  br_tip b1 = ev "6+A" /\
  runA b1 [rec "7+A" "@6+A :3+A 'x' 1;"] = Done (b2, [ROk]) /\ b2 = b1 /\
  (forall c, delivered f c -> text_id c <> ev "6+A").
Proof.
  exists textA, (branch_of (runA textA phantom)), (branch_of (runA textA phantom)), (txt "@2+A :lww,
@3+A 'key' 1;
").
  split; [vm_compute; reflexivity|]. split; [vm_compute; reflexivity|]. split; [vm_compute; reflexivity|].
  split; [vm_compute; reflexivity|]. split; [vm_compute; reflexivity|]. split; [reflexivity|].
  intros c D. assert (A : exists l, ReplicaSpec.ops_of (txt "@2+A :lww,
@3+A 'key' 1;
") l /\ forallb (fun c => negb (uuid_eqb (text_id c) (ev "6+A"))) l = true).
  { eexists. split; [apply (all_ops_ok 9); vm_compute; reflexivity|]. vm_compute. reflexivity. }
  destruct A as (l & O & F). pose proof (ops_complete _ _ _ O D) as I. rewrite forallb_forall in F. specialize (F c I). intro K. apply uuid_eqb_eq in K. rewrite K in F. discriminate.
Qed.

(* a commit's own records can be unreadable: two chains of a type without a
   merge. The read fails, nothing of the branch's record is given instead. *)
Example C36_branch_case :
  b_jread one_float 100 (br_main openA) [(key_of (ev "1+A") YARN_RAW_FORM, txt "@2+A :1+A 1;")] (key_of (ev "1+A") YARN_RAW_FORM) =
    Done (br_main openA, [(key_of (ev "1+A") YARN_RAW_FORM, txt "@2+A :1+A 1;")], txt "@1+A :yarn,
@2+A 1;
", ROk) /\
  b_jread one_float 100 (br_main openA) [(key_of (ev "1+A") TXT_MAP_FORM, txt "@2+A :txt;"); (key_of (ev "1+A") TXT_MAP_FORM, txt "@3+A :txt;")] (key_of (ev "1+A") TXT_MAP_FORM) =
    Done (br_main openA, [(key_of (ev "1+A") TXT_MAP_FORM, [])], [], RNotImplemented).
Proof. split; vm_compute; reflexivity. Qed.

(* ---- C37 ---- *)
(* a query right after an event of the same yarn, referencing it, is taken for an
   event and stored as such *)
Theorem C37_query_refuted : exists b b' c f, runA openA [rec "1+A" "@2+A :lww; @3+A :2+A?"] = Done (b, [ROk]) /\
  delivered (txt "@2+A :lww; @3+A :2+A?") c /\ c_term c = QUERY /\ text_id c = ev "3+A" /\
  runA b [BOpen 0] = Done (b', [ROk]) /\ br_tip b' = ev "3+A" /\
  logA b' = Some f /\ exists d, delivered f d /\ text_id d = ev "3+A".
Proof.
  exists (branch_of (runA openA [rec "1+A" "@2+A :lww; @3+A :2+A?"])), (branch_of (runA openA [rec "1+A" "@2+A :lww; @3+A :2+A?"; BOpen 0])),
    (at_op 2 "@2+A :lww; @3+A :2+A?"), (txt "@2+A :lww,
@3+A;
").
  split; [vm_compute; reflexivity|]. split; [at_op_tac 1%nat|]. do 5 (split; [vm_compute; reflexivity|]).
  exists (at_op 2 "@2+A :lww,
@3+A;
"). split; [at_op_tac 1%nat|vm_compute; reflexivity].
Qed.
Print Assumptions C47_case.
Print Assumptions C47_restart_case.
Print Assumptions C47_unopened_refuted.
Print Assumptions C47_phantom_refuted.
Print Assumptions C36_branch_case.
Print Assumptions C47_reopen_case.
Print Assumptions C37_query_refuted.
