(* Answers to queries: concrete cases and counterexamples for C52. *)
From Coq Require Import String.
From Verif Require Import Prelude UuidModel UuidProofs KeyModel CodecModel TextTable TextModel TextSpec BuilderSpec BuilderProofs MergeModel MergeSpec MergeTextModel TextMergeSpec TextCursors TextMerge TextMergeTheorems
  StoreModel HashModel MetaModel ClockModel ReplicaModel ReplicaSpec ReplicaProofs ReplicaTheorems StoreSpec StoreTheorems RocksModel RocksSpec RocksProofs
  HashCases MetaCases Txt MergeCases TextMergeCases StoreCases JoinCases ReplicaCases BranchModel BranchSpec BranchProofs BranchTheorems BranchCases
  DurableSpec DurableProofs DurableTheorems DurableCases AnswerModel AnswerSpec AnswerTheorems.
Open Scope string_scope.
Open Scope N_scope.
Open Scope list_scope.

Definition askA (b : branch) (f : bytes) : res (branch * rstatus * option bytes) := b_ask toy_sha one_float 0 100 b 0 [] f.
(* the status and the text of an answer, the ops of the text *)
Definition told (r : res (branch * rstatus * option bytes)) : option (rstatus * option string) :=
  match r with Done (_, s, t) => Some (s, option_map untxt t) | _ => None end.
Definition answer_text (r : res (branch * rstatus * option bytes)) : bytes :=
  match r with Done (_, _, Some t) => t | _ => [] end.
Definition read_ops (t : bytes) : list uop := map bare (fst (scan 20 (cursor_of t))).
Definition ask_for (id form : uuid) : bytes := match build_calls [UAppend (mkUop id form []); UEnd QUERY] with Some t => t | None => [] end.
Definition query (id form : uuid) : rop := mkRop id form [] QUERY.
Lemma ask_for_ok id form : id_ok id -> id_ok form -> id <> inc NIL -> frame_lit canon (ask_for id form) [query id form].
Proof.
  intros I1 I2 NI. destruct (build_calls_frame [UAppend (mkUop id form []); UEnd QUERY] canon_writes) as (t & E & F).
  - cbn [good_calls]. split; [split; [exact I1|split; [exact I2|constructor]]|]. split; [intro Q; contradiction|]. split; [|split; [cbn; tauto|exact Logic.I]].
    unfold continues. cbn [u_id u_ref u_vals origin_op same_kind]. rewrite andb_false_r. discriminate.
  - reflexivity.
  - unfold ask_for. rewrite E. exact F.
Qed.

(* a life of a branch, then a query for its object: the hypotheses of
   C52_history, the answer, and that of the log query *)
Definition askq : rop := query (ev "2+A") LWW_FORM_UUID.
Example C52_case :
  version idA = TIME /\ healthy idA openA (ev "1+A") /\ Forall clocks kept_life /\ (forall n r f, In (BReceive n r f) kept_life -> events_only f) /\
  runA openA kept_life = Done (branch_of kept_end, [ROk; ROk; ROk; RNotFound; ROk; ROk; ROk; ROk; ROk]) /\
  received kept_life [ROk; ROk; ROk; RNotFound; ROk; ROk; ROk; ROk; ROk] events12 /\
  state_query askq /\ uuid2form (r_ref askq) <> RGA_RDT_FORM /\ state_at (br_main openA) (state_key askq) [] /\ keep_bound 100 [] events12 /\
  frame_lit canon (ask_for (ev "2+A") LWW_FORM_UUID) [askq] /\ N.of_nat (List.length (ask_for (ev "2+A") LWW_FORM_UUID)) < 2 ^ 32 /\
  ~ ends_in_span (frame1 ++ frame2) /\ ask_for (ev "2+A") LWW_FORM_UUID = txt "@2+A :lww?
" /\
  askA (branch_of kept_end) (ask_for (ev "2+A") LWW_FORM_UUID) = Done (branch_of kept_end, ROk, Some (txt "@2+A :lww,
@3+A 'k' 1,
@6+A 'y' 2,
@7+A 'é' 3;
")) /\
  told (askA (branch_of kept_end) (txt "@6+A :log?")) = Some (ROk, Some "@2+A :lww,
@3+A 'k' 1;
") /\
  told (askA (branch_of kept_end) (txt "@9+A :lww?")) = Some (ROk, Some "") /\
  told (askA (branch_of kept_end) (txt "@9+A :log?")) = Some (RNotFound, Some "") /\
  b_get toy_sha one_float 0 100 (branch_of kept_end) 0 [] (ev "2+A") LWW_FORM_UUID = Done (ROk, Some []).
Proof.
  pose proof C48_case as (_ & _ & _ & _ & C1 & C2 & _ & C3 & _ & C4 & _).
  split; [vm_compute; reflexivity|]. split; [apply C48_event_case|]. split; [exact C1|]. split; [exact C2|]. split; [vm_compute; reflexivity|]. split; [exact C3|].
  split; [split; [vm_compute; reflexivity|split; [reflexivity|vm_compute; tauto]]|]. split; [vm_compute; discriminate|]. split.
  { exists []. assert (E : cell_at (br_main openA) (state_key askq) = cell0) by (vm_compute; reflexivity). rewrite E.
    split; [constructor|]. split; [intro u; reflexivity|]. split; [apply le_n|]. split; [apply le_n|]. intro N. exfalso. apply N. reflexivity. }
  split; [exact C4|]. split.
  { apply ask_for_ok; [split; [vm_compute; repeat split|vm_compute; reflexivity]|split; [vm_compute; repeat split|vm_compute; reflexivity]|vm_compute; discriminate]. }
  split; [vm_compute; reflexivity|]. split.
  { intros (l & a & b & E & K). unfold frame1, frame2 in E. cbn [app] in E.
    destruct l as [|x1 l]; cbn [app] in E; [discriminate|]. destruct l as [|x2 l]; cbn [app] in E; [discriminate|].
    destruct l as [|x3 l]; cbn [app] in E.
    - assert (Q : a = mkUop (ev "6+A") (ev "3+A") [VStr (Some [121]); VInt 2]) by congruence. rewrite Q in K. unfold continues in K.
      cbn [u_vals same_kind] in K. rewrite andb_false_r in K. discriminate.
    - pose proof (f_equal (@List.length _) E) as L. cbn [List.length] in L. rewrite app_length in L. cbn [List.length] in L. lia. }
  split; [vm_compute; reflexivity|]. split; [vm_compute; reflexivity|]. do 3 (split; [vm_compute; reflexivity|]). vm_compute. reflexivity.
Qed.

(* a log query, with the hypotheses of C52_log and C52_older *)
Definition logq : rop := query (ev "6+A") LOG_FORM_UUID.
Lemma kept_state : state_at (br_main (branch_of kept_end)) state2 (frame1 ++ frame2).
Proof.
  assert (E : cell_at (br_main (branch_of kept_end)) state2 = mkCell (Some (text_for (frame1 ++ frame2))) []) by (vm_compute; reflexivity).
  assert (I : increasing_ids (chunk_of (frame1 ++ frame2))).
  { assert (F : Forall increasing_ids [chunk_of (frame1 ++ frame2)]).
    { apply (ssb_ok id_lt (fun a b => uuid_ltb (r_id a) (r_id b))); [intros a b K; exact K|vm_compute; reflexivity]. }
    exact (Forall_inv F). }
  exists [chunk_of (frame1 ++ frame2)]. rewrite E. cbn [ce_value ce_operands held app List.concat]. split; [|split; [|split; [|split]]].
  - constructor; [|constructor]. split; [apply says1; [apply incl_refl|vm_compute; discriminate|vm_compute; reflexivity|vm_compute; reflexivity]|].
    assert (F : Forall sorted_ids [chunk_of (frame1 ++ frame2)]).
    { apply (ssb_ok id_le (fun a b => negb (uuid_ltb (r_id b) (r_id a)))); [|vm_compute; reflexivity]. intros a b K. apply negb_true_iff in K. exact K. }
    exact (Forall_inv F).
  - intro u. unfold chunk_of. rewrite app_nil_r, bare_denote. tauto.
  - vm_compute. repeat constructor.
  - apply Nat.leb_le. vm_compute. reflexivity.
  - intros _. exists (frame1 ++ frame2), []. split; [reflexivity|exact I].
Qed.
Example C52_log_case :
  frame_lit canon (ask_for (ev "6+A") LOG_FORM_UUID) [logq] /\ N.of_nat (List.length (ask_for (ev "6+A") LOG_FORM_UUID)) < 2 ^ 32 /\ log_query logq /\ uvalue (r_id logq) <> NEVER_W /\
  askA (branch_of kept_end) (ask_for (ev "6+A") LOG_FORM_UUID) = Done (branch_of kept_end, ROk, Some (text_for frame1)) /\
  key_as (ev "2+A") LWW_FORM_UUID = state2 /\ state_at (br_main (branch_of kept_end)) state2 (frame1 ++ frame2) /\ keep_bound 100 (frame1 ++ frame2) [] /\
  In (r_id logq) (map u_id (frame1 ++ frame2)) /\ r_id logq <> ev "2+A".
Proof.
  split.
  { apply ask_for_ok; [split; [vm_compute; repeat split|vm_compute; reflexivity]|split; [vm_compute; repeat split|vm_compute; reflexivity]|vm_compute; discriminate]. }
  split; [vm_compute; reflexivity|]. split; [split; [vm_compute; reflexivity|split; [reflexivity|vm_compute; reflexivity]]|]. split; [vm_compute; discriminate|].
  split; [vm_compute; reflexivity|]. split; [vm_compute; reflexivity|]. split; [exact kept_state|]. split.
  { split; [exact kept_mergeable|]. split; [vm_compute; repeat constructor|]. split; vm_compute; reflexivity. }
  split; [vm_compute; tauto|vm_compute; discriminate].
Qed.

(* The events of a text inserted as a span are saved, and the state has them. A
   query for the object is answered with a frame that is readable and does not
   have them. *)
Theorem C52_span_refuted : exists b text,
  runA openA [rec "1+A" "@2+A :rga; @3+A :2+A ('abc');"] = Done (b, [ROk]) /\
  rocks_read one_float 100 (br_main b) (key_of (ev "2+A") RGA_RDT_FORM) = Done (txt "@2+A :rga,
@3+A ('abc');
", KOk) /\
  askA b (txt "@2+A :rga?") = Done (b, ROk, Some text) /\ text = txt "@2+A :rga,
@3+A 'a';
b;
c;
" /\
  read_ops text = [mkUop (ev "2+A") RGA_FORM_UUID []; mkUop (ev "3+A") (ev "2+A") [VStr (Some [97])];
    mkUop (ev "3000000001+A") (ev "3+A") [VUuid (ev "b")]; mkUop (ev "3000000002+A") (ev "3000000001+A") [VUuid (ev "c")]].
Proof.
  exists (branch_of (runA openA [rec "1+A" "@2+A :rga; @3+A :2+A ('abc');"])), (answer_text (askA (branch_of (runA openA [rec "1+A" "@2+A :rga; @3+A :2+A ('abc');"])) (txt "@2+A :rga?"))).
  do 4 (split; [vm_compute; reflexivity|]). vm_compute. reflexivity.
Qed.
(* Two removals, 'c' and 'b'. The state has both, the answer to a query has one. *)
Definition two_removals : list bevent := [rec "1+A" "@2+A :rga; @3+A :2+A ('abc');"; BOpen 0; rec "5+A" "@7+A :3000000002+A rm(2);"].
Theorem C52_removal_refuted : exists b text,
  runA openA two_removals = Done (b, [ROk; ROk; ROk]) /\
  rocks_read one_float 100 (br_main b) (key_of (ev "2+A") RGA_RDT_FORM) = Done (txt "@2+A :rga,
@3+A ('abc'),
@7+A rm(2);
", KOk) /\
  askA b (txt "@2+A :rga?") = Done (b, ROk, Some text) /\ text = txt "@2+A :rga,
@3+A ('abc'),
@7+A rm;
;
" /\
  read_ops text = [mkUop (ev "2+A") RGA_FORM_UUID []; mkUop (ev "3+A") (ev "2+A") [VStr (Some [97])];
    mkUop (ev "3000000001+A") (ev "3+A") [VStr (Some [98])]; mkUop (ev "3000000002+A") (ev "3000000001+A") [VStr (Some [99])];
    mkUop (ev "7+A") (ev "3000000002+A") [VUuid (ev "rm")]; mkUop (ev "7000000001+A") (ev "7+A") []].
Proof.
  exists (branch_of (runA openA two_removals)), (answer_text (askA (branch_of (runA openA two_removals)) (txt "@2+A :rga?"))).
  do 4 (split; [vm_compute; reflexivity|]). vm_compute. reflexivity.
Qed.
(* Two objects, the second created right after the last event of the first. Each
   query alone is answered right; in one frame, in this order, the second answer
   has no readable head. *)
Definition neighbours : list bevent := [rec "1+A" "@2+A :lww; @3+A :2+A 'k' 1; @3000000001+A :lww; @4+A :3000000001+A 'k' 2;"].
Theorem C52_neighbours_refuted : exists b,
  runA openA neighbours = Done (b, [ROk]) /\
  told (askA b (txt "@2+A :lww?")) = Some (ROk, Some "@2+A :lww,
@3+A 'k' 1;
") /\
  told (askA b (txt "@3000000001+A :lww?")) = Some (ROk, Some "@3000000001+A :lww,
@4+A 'k' 2;
") /\
  told (askA b (txt "@2+A :lww? @3000000001+A :lww?")) = Some (ROk, Some "@2+A :lww,
@3+A 'k' 1;
:lww,
@4+A 'k' 2;
") /\
  scan 20 (cursor_of (answer_text (askA b (txt "@2+A :lww? @3000000001+A :lww?")))) =
    ([mkRop (ev "2+A") LWW_FORM_UUID [] REDUCED; mkRop (ev "3+A") (ev "2+A") [VStr (Some [107]); VInt 1] RAW], SBad).
Proof.
  exists (branch_of (runA openA neighbours)). do 4 (split; [vm_compute; reflexivity|]). vm_compute. reflexivity.
Qed.
(* The log of a text up to a version: it lacks the ops that were there before the
   version, and has one that came after another version. *)
Definition three_edits : list bevent :=
  [rec "1+A" "@2+A :rga; @3+A :2+A ('abc');"; BOpen 0; rec "5+A" "@7+A :3000000002+A 'd';"; BOpen 0; rec "7+A" "@8+A :3+A 'e';"].
Theorem C52_log_refuted : exists b,
  runA openA three_edits = Done (b, [ROk; ROk; ROk; ROk; ROk]) /\
  told (askA b (txt "@8+A :log?")) = Some (ROk, Some "@2+A :rga,
@3+A 'a';
") /\
  told (askA b (txt "@7+A :log?")) = Some (ROk, Some "@2+A :rga,
@3+A 'a',
@8+A 'e',
@3000000001+A :3+A ('bc');
").
Proof. exists (branch_of (runA openA three_edits)). split; [vm_compute; reflexivity|]. split; vm_compute; reflexivity. Qed.
Print Assumptions C52_case.
Print Assumptions C52_log_case.
Print Assumptions C52_span_refuted.
Print Assumptions C52_removal_refuted.
Print Assumptions C52_neighbours_refuted.
Print Assumptions C52_log_refuted.
