(* Yarns and objects in a branch: concrete cases and counterexamples for C60, C61
   and C62. *)
From Coq Require Import String Sorted.
From Verif Require Import Prelude UuidModel UuidProofs KeyModel CodecModel TextTable TextModel TextSpec BuilderSpec BuilderProofs MergeModel MergeTextModel TextMergeSpec TextMerge TextMergeTheorems
  StoreModel HashModel MetaModel ClockModel ReplicaModel ReplicaSpec ReplicaProofs ReplicaTheorems StoreSpec StoreTheorems RocksModel RocksSpec RocksProofs
  HashCases MetaCases Txt MergeCases TextMergeCases StoreCases JoinCases ReplicaCases BranchModel BranchSpec BranchProofs BranchTheorems BranchCases
  DurableSpec DurableProofs DurableTheorems DurableCases CodecTheorems LogCases YarnSpec YarnTheorems.
Open Scope string_scope.
Open Scope N_scope.
Open Scope list_scope.

(* ---- deciders ---- *)
Definition no_exp (s : bytes) : bool := forallb (fun c => negb ((c =? 69) || (c =? 101))) s.
Lemma no_exp_ok s : no_exp s = true -> ~ float_like s.
Proof.
  intros H (a & e & b & -> & _ & _ & X & _). unfold no_exp in H. rewrite forallb_forall in H. specialize (H e ltac:(apply in_or_app; right; left; reflexivity)).
  destruct X as [->| ->]; discriminate H.
Qed.
Definition calmb (us : list uop) : bool :=
  forallb (fun u => (uvalue (u_id u) <? NEVER_W) &&
    (negb (version (u_ref u) =? NAME) || ((uuid2form (u_ref u) <? LOG_RAW_FORM) || (META_META_FORM <? uuid2form (u_ref u))) && no_exp (write_uuid (u_id u)))) us.
Lemma calmb_ok us : calmb us = true -> calm us.
Proof.
  intro H. unfold calmb in H. rewrite forallb_forall in H. split; apply Forall_forall; intros u I; specialize (H u I); apply andb_prop in H as [H1 H2].
  - apply N.ltb_lt. exact H1.
  - intro V. apply orb_prop in H2 as [H2|H2]; [apply negb_true_iff, N.eqb_neq in H2; contradiction|]. apply andb_prop in H2 as [H2 H3]. split; [|apply no_exp_ok; exact H3].
    apply orb_prop in H2 as [H2|H2]; apply N.ltb_lt in H2; auto.
Qed.
Definition plainb (u : uuid) : bool := existsb (N.eqb (uuid2form u)) [LWW_RDT_FORM; MX_RDT_FORM; YARN_RAW_FORM].
Lemma plain_objectsb us : forallb (fun u => negb (version (u_ref u) =? NAME) || plainb (u_ref u)) us = true -> plain_objects us.
Proof.
  intro H. rewrite forallb_forall in H. apply Forall_forall. intros u I V. specialize (H u I). apply orb_prop in H as [H|H]; [apply negb_true_iff, N.eqb_neq in H; contradiction|].
  unfold plainb in H. apply existsb_exists in H as (x & J & E). apply N.eqb_eq in E. unfold plain_type. rewrite E. exact J.
Qed.
Fixpoint openersb (seen : list N) (l : list cursor) : bool :=
  match l with
  | [] => true
  | c :: r => negb (uuid_eqb (text_ref c) YARN_FORM_UUID && existsb (N.eqb (uorigin (text_id c))) seen) && openersb (uorigin (text_id c) :: seen) r
  end.
Lemma openersb_ok l : forall seen, openersb seen l = true -> forall l1 d l3, l = l1 ++ d :: l3 -> text_ref d = YARN_FORM_UUID ->
  forall y, In y seen \/ (exists c, In c l1 /\ uorigin (text_id c) = y) -> y <> uorigin (text_id d).
Proof.
  induction l as [|x l IH]; intros seen H l1 d l3 E R y Y; [destruct l1; discriminate E|]. cbn [openersb] in H. apply andb_prop in H as [H1 H2]. destruct l1 as [|z l1].
  - injection E as -> ->. destruct Y as [Y|(c & [] & _)]. intros ->. apply negb_true_iff in H1. rewrite R, (proj2 (uuid_eqb_eq _ _) eq_refl) in H1. cbn [andb] in H1.
    assert (Q : existsb (N.eqb (uorigin (text_id d))) seen = true) by (apply existsb_exists; exists (uorigin (text_id d)); split; [exact Y|apply N.eqb_refl]). congruence.
  - injection E as -> ->. apply (IH _ H2 l1 d l3 eq_refl R). destruct Y as [Y|(c & [->|I] & Y)]; [left; right; exact Y|left; left; exact Y|right; eauto].
Qed.
Definition opens_firstb (f : bytes) : bool := match all_ops 100 (cursor_of f) with Some l => openersb [] l | None => false end.
Lemma opens_firstb_ok f : opens_firstb f = true -> opens_first f.
Proof.
  unfold opens_firstb. destruct (all_ops 100 (cursor_of f)) as [l|] eqn:A; [|discriminate]. apply all_ops_ok in A. intros H l1 c l2 d l3 O _ _ R.
  rewrite (ops_unique _ _ _ A O) in H. apply (openersb_ok _ _ H (l1 ++ c :: l2) d l3); [rewrite <- app_assoc; reflexivity|exact R|]. right. exists c. split; [apply in_or_app; right; left; reflexivity|reflexivity].
Qed.
Lemma all_open_first es : forallb (fun e => match e with BReceive _ _ f => opens_firstb f | _ => true end) es = true ->
  forall n r f, In (BReceive n r f) es -> opens_first f.
Proof. intros H n r f I. rewrite forallb_forall in H. apply opens_firstb_ok. exact (H _ I). Qed.

(* ---- two authors, two branches ---- *)
Definition yarnB : N := uorigin (ev "1+B").
Definition newB := b_new toy_sha one_float 0 100 0 [at_time "1+B"] yarnB false.
Definition branchB : branch := match newB with Done (b, _) => b | _ => branchA end.
Definition runB (b : branch) (es : list bevent) := b_run toy_sha one_float 0 100 (branch_id yarnB) b es.
Definition e1A := mkUop (ev "1+A") YARN_FORM_UUID [].
Definition e1B := mkUop (ev "1+B") YARN_FORM_UUID [].
Definition e2A := mkUop (ev "2+A") LWW_FORM_UUID [].
Definition e3B := mkUop (ev "3+B") (ev "2+A") [VStr (Some [107]); VInt 1].
Definition e4A := mkUop (ev "4+A") (ev "2+A") [VStr (Some [109]); VInt 2].
Definition e5B := mkUop (ev "5+B") (ev "3+B") [VStr (Some [107]); VInt 3].
Definition e6A := mkUop (ev "6+A") (ev "4+A") [VStr (Some [109]); VInt 4].
Definition seven : list uop := [e1A; e1B; e2A; e3B; e4A; e5B; e6A].
Lemma seven_mergeable : mergeable seven.
Proof.
  apply mergeableb_ok; [vm_compute; reflexivity|]. intros a b IA IB. cbn [seven In] in IA, IB.
  repeat (destruct IA as [<-|IA]; [repeat (destruct IB as [<-|IB]; [cbn [u_id]; intro E; first [reflexivity | vm_compute in E; discriminate E]|]); destruct IB|]). destruct IA.
Qed.
Lemma says7 us : incl us seven -> build_calls (map UAppend us ++ [UEnd RAW])%list <> None -> N.of_nat (List.length us) < 2 ^ 32 - 1 ->
  N.of_nat (List.length (text_for us)) < 2 ^ 32 -> frame_says (text_for us) (chunk_of us).
Proof. intros I B L Q. split; [|exact Q]. apply text_for_ok; [eapply mergeable_incl; [exact seven_mergeable|exact I]|exact B|exact L]. Qed.
Definition lifeA : list bevent := [bytes_in "1+A" [e1B; e2A]; BOpen 0; bytes_in "2+A" [e3B; e4A]; rec "4+A" "@5+B :yarn; @6+A :4+A 'm' 4;"; BCompact log2 (CFull 2); bytes_in "4+A" [e5B; e6A]; BOpen 7].
Definition lifeB : list bevent := [bytes_in "1+A" [e1A; e2A; e3B]; bytes_in "3+B" [e4A; e6A; e5B]; BOpen 0; BCompact log2 (CPartial 0 2)].
Definition eventsA : list rop := filter event_op (chunk_of [e1B; e2A]) ++ filter event_op (chunk_of [e3B; e4A]) ++ filter event_op (chunk_of [e5B; e6A]) ++ [].
Definition eventsB : list rop := filter event_op (chunk_of [e1A; e2A; e3B]) ++ filter event_op (chunk_of [e4A; e6A; e5B]) ++ [].
Lemma bareA : map bare eventsA = [e1B; e2A; e3B; e4A; e5B; e6A]. Proof. vm_compute. reflexivity. Qed.
Lemma bareB : map bare eventsB = [e1A; e2A; e3B; e4A; e6A; e5B]. Proof. vm_compute. reflexivity. Qed.
Definition endA : res (branch * list rstatus) := runA branchA (BOpen 0 :: lifeA).
Definition endB : res (branch * list rstatus) := runB branchB (BOpen 0 :: lifeB).
Notation livesT := (lives toy_sha one_float 0 100).
Ltac in_seven := let u := fresh "u" in let I := fresh "I" in intros u I; unfold seven; cbn [In app] in *; repeat (destruct I as [<-|I]; [solve [auto 12]|]); destruct I.
Ltac say := apply says7; [in_seven|vm_compute; discriminate|vm_compute; reflexivity|vm_compute; reflexivity].
Lemma live_A : livesT 0 [at_time "1+A"] yarnA false lifeA [ROk; ROk; ROk; RConflict; ROk; ROk; ROk] eventsA (branch_of endA).
Proof.
  unfold lives. assert (FE : first_event 0 0 [at_time "1+A"] yarnA false = ev "1+A") by (vm_compute; reflexivity). rewrite FE.
  split; [right; discriminate|]. split; [vm_compute; reflexivity|]. split; [apply clocksb_ok; vm_compute; reflexivity|]. split; [apply frames_only; vm_compute; reflexivity|].
  split; [exists branchA, ROk, 0, ROk; split; vm_compute; reflexivity|]. split.
  { unfold lifeA, bytes_in, rec, eventsA. apply rv_frame; [say|]. apply rv_open. apply rv_frame; [say|]. apply rv_refused; [discriminate|]. apply rv_compact. apply rv_frame; [say|]. apply rv_open, rv_none. }
  split; [|split; [rewrite bareA; apply spanlessb_ok; vm_compute; reflexivity|rewrite bareA; apply calmb_ok; vm_compute; reflexivity]].
  unfold keep_bound. rewrite bareA. split; [eapply mergeable_incl; [exact seven_mergeable|fold e1A; in_seven]|]. split; [vm_compute; repeat constructor|]. split; vm_compute; reflexivity.
Qed.
Lemma live_B : livesT 0 [at_time "1+B"] yarnB false lifeB [ROk; ROk; ROk; ROk] eventsB (branch_of endB).
Proof.
  unfold lives. assert (FE : first_event 0 0 [at_time "1+B"] yarnB false = ev "1+B") by (vm_compute; reflexivity). rewrite FE.
  split; [right; discriminate|]. split; [vm_compute; reflexivity|]. split; [apply clocksb_ok; vm_compute; reflexivity|]. split; [apply frames_only; vm_compute; reflexivity|].
  split; [exists branchB, ROk, 0, ROk; split; vm_compute; reflexivity|]. split.
  { unfold lifeB, bytes_in, eventsB. apply rv_frame; [say|]. apply rv_frame; [say|]. apply rv_open, rv_compact, rv_none. }
  split; [|split; [rewrite bareB; apply spanlessb_ok; vm_compute; reflexivity|rewrite bareB; apply calmb_ok; vm_compute; reflexivity]].
  unfold keep_bound. rewrite bareB. split; [eapply mergeable_incl; [exact seven_mergeable|fold e1B; in_seven]|]. split; [vm_compute; repeat constructor|]. split; vm_compute; reflexivity.
Qed.
(* two authors, frames with chains of both, a frame refused because it opens a
   yarn again *)
Example C60_case : livesT 0 [at_time "1+A"] yarnA false lifeA [ROk; ROk; ROk; RConflict; ROk; ROk; ROk] eventsA (branch_of endA) /\
  (forall n r f, In (BReceive n r f) lifeA -> opens_first f) /\ plain_objects (mkUop (ev "1+A") YARN_FORM_UUID [] :: map bare eventsA) /\
  in_turn [e1A; e1B; e2A; e3B; e4A; e5B; e6A].
Proof.
  split; [exact live_A|]. split; [apply all_open_first; vm_compute; reflexivity|]. split; [rewrite bareA; apply plain_objectsb; vm_compute; reflexivity|].
  repeat (apply SSorted_cons; [|repeat (apply Forall_cons; [intro E; first [vm_compute; reflexivity|vm_compute in E; discriminate E]|]); apply Forall_nil]). constructor.
Qed.
(* the log of the object 2+A has its events in the order of arrival, its state
   has them in the order of ids *)
Example C61_case : belongs seven e6A (ev "2+A") LWW_FORM_UUID /\ belongs seven e5B (ev "2+A") LWW_FORM_UUID /\ belongs seven e1B (ev "1+B") YARN_FORM_UUID /\
  livesT 0 [at_time "1+B"] yarnB false lifeB [ROk; ROk; ROk; ROk] eventsB (branch_of endB) /\
  rocks_read one_float 100 (br_main (branch_of endB)) log2 = Done (txt "@2+A :lww;
@3+B 'k' 1;
@4+A :2+A 'm' 2,
@6+A 'm' 4;
@5+B :3+B 'k' 3;
", KOk) /\
  rocks_read one_float 100 (br_main (branch_of endB)) state2 = Done (txt "@2+A :lww,
@3+B 'k' 1,
@4+A :2+A 'm' 2,
@5+B :3+B 'k' 3,
@6+A :4+A 'm' 4;
", KOk).
Proof.
  assert (B2 : belongs seven e2A (ev "2+A") LWW_FORM_UUID) by (apply (bl_root seven e2A); [unfold seven; cbn [In]; auto|vm_compute; reflexivity]).
  assert (NX : forall u v, In u seven -> version (u_ref u) = TIME -> u_id v = u_ref u -> belongs seven v (ev "2+A") LWW_FORM_UUID -> belongs seven u (ev "2+A") LWW_FORM_UUID) by (intros u v; apply bl_next).
  split. { apply (NX e6A e4A); [unfold seven; cbn [In]; auto 9|vm_compute; reflexivity|reflexivity|]. apply (NX e4A e2A); [unfold seven; cbn [In]; auto 9|vm_compute; reflexivity|reflexivity|exact B2]. }
  split. { apply (NX e5B e3B); [unfold seven; cbn [In]; auto 9|vm_compute; reflexivity|reflexivity|]. apply (NX e3B e2A); [unfold seven; cbn [In]; auto 9|vm_compute; reflexivity|reflexivity|exact B2]. }
  split. { apply (bl_root seven e1B); [unfold seven; cbn [In]; auto|vm_compute; reflexivity]. }
  split; [exact live_B|]. split; vm_compute; reflexivity.
Qed.
(* the same events come to the branches A and B in different frames and in
   different order *)
Example C62_case : 
  livesT 0 [at_time "1+A"] yarnA false lifeA [ROk; ROk; ROk; RConflict; ROk; ROk; ROk] eventsA (branch_of endA) /\
  livesT 0 [at_time "1+B"] yarnB false lifeB [ROk; ROk; ROk; ROk] eventsB (branch_of endB) /\
  NoDup (map u_id (e1A :: map bare eventsA)) /\ NoDup (map u_id (e1B :: map bare eventsB)) /\ (forall u, In u (e1A :: map bare eventsA) <-> In u (e1B :: map bare eventsB)) /\
  plain_objects (e1A :: map bare eventsA) /\ (forall n r f, In (BReceive n r f) (lifeA ++ lifeB) -> opens_first f) /\
  rocks_read one_float 100 (br_main (branch_of endA)) state2 = rocks_read one_float 100 (br_main (branch_of endB)) state2 /\
  rocks_read one_float 100 (br_main (branch_of endA)) log2 <> rocks_read one_float 100 (br_main (branch_of endB)) log2.
Proof.
  split; [exact live_A|]. split; [exact live_B|]. rewrite bareA, bareB.
  split; [apply nodupb_ok; vm_compute; reflexivity|]. split; [apply nodupb_ok; vm_compute; reflexivity|].
  split. { intro u. cbn [In]. tauto. }
  split; [apply plain_objectsb; vm_compute; reflexivity|]. split; [apply all_open_first; vm_compute; reflexivity|]. split; [vm_compute; reflexivity|].
  assert (E1 : exists t1 t2, rocks_read one_float 100 (br_main (branch_of endA)) log2 = Done (t1, KOk) /\ rocks_read one_float 100 (br_main (branch_of endB)) log2 = Done (t2, KOk) /\ bytes_eqb t1 t2 = false).
  { eexists. eexists. split; [vm_compute; reflexivity|]. split; vm_compute; reflexivity. }
  destruct E1 as (t1 & t2 & -> & -> & NE). intro Q. injection Q as ->. rewrite (proj2 (bytes_eqb_eq _ _) eq_refl) in NE. discriminate.
Qed.

(* ---- where it fails ---- *)
(* A frame that goes on with a yarn and then opens it again is accepted, once the
   log of the object has events with greater ids than the new ones: here two
   different events are stored with the id 7+B. In a frame of its own the second
   one is refused. *)
Definition pre52 : list bevent :=
  [ rec "1+A" "@2+B :yarn; @3+C :yarn; @4+A :lww;"; rec "K+A" "@K+C :4+A 'c' 1; @L+A :4+A 'a' 0;"; rec "L+A" "@5+B :4+A 'b' 1; @M+A :L+A 'a' 1;" ].
Theorem C60_reopened_refuted : exists b log1 log2 x y,
  runA openA (pre52 ++ [rec "M+A" "@7+B :5+B 'b' 2; @7+B :yarn; @O+A :M+A 'a' 3;"]) = Done (b, [ROk; ROk; ROk; ROk]) /\
  rocks_read one_float 100 (br_main b) (key_of (ev "4+A") LOG_RAW_FORM) = Done (log1, KOk) /\ delivered log1 x /\
  rocks_read one_float 100 (br_main b) (key_of (ev "7+B") LOG_RAW_FORM) = Done (log2, KOk) /\ delivered log2 y /\
  text_id x = ev "7+B" /\ text_id y = ev "7+B" /\ text_ref x = ev "5+B" /\ text_ref y = YARN_FORM_UUID /\
  said (runA openA (pre52 ++ [rec "M+A" "@7+B :5+B 'b' 2; @N+A :M+A 'a' 2;"; rec "N+A" "@7+B :yarn; @O+A :N+A 'a' 3;"])) = Some [ROk; ROk; ROk; ROk; RRepeat].
Proof.
  exists (branch_of (runA openA (pre52 ++ [rec "M+A" "@7+B :5+B 'b' 2; @7+B :yarn; @O+A :M+A 'a' 3;"]))), (txt "@4+A :lww;
@K+C 'c' 1;
@L+A :4+A 'a' 0;
@5+B :4+A 'b' 1;
@M+A :L+A 'a' 1;
@7+B :5+B 'b' 2;
@O+A :M+A 'a' 3;
"), (txt "@7+B :yarn;
"), (at_op 6 "@4+A :lww;
@K+C 'c' 1;
@L+A :4+A 'a' 0;
@5+B :4+A 'b' 1;
@M+A :L+A 'a' 1;
@7+B :5+B 'b' 2;
@O+A :M+A 'a' 3;
"), (at_op 1 "@7+B :yarn;
").
  split; [vm_compute; reflexivity|]. split; [vm_compute; reflexivity|]. split; [at_op_tac 5%nat|]. split; [vm_compute; reflexivity|]. split; [at_op_tac 0%nat|]. do 4 (split; [vm_compute; reflexivity|]). vm_compute. reflexivity.
Qed.
(* Events of MAX objects: the pieces of a log are joined by value, so that a frame
   that first adds to the object hides the events after its greatest one. A stored
   event is accepted again with another value; then its author can write no more.
   Alone it is refused. *)
Definition pre51 : list bevent :=
  [ rec "1+A" "@2+B :yarn; @3+C :yarn; @4+A :max;"; rec "4+A" "@5+B :4+A 10; @6+B :5+B 1; @7+A :lww;" ].
Theorem C60_max_refuted : exists b log x y,
  runA openA (pre51 ++ [rec "7+A" "@8+C :4+A 2; @6+B :5+B 7; @9+A :7+A 'k' 1;"]) = Done (b, [ROk; ROk; ROk]) /\
  rocks_read one_float 100 (br_main b) (key_of (ev "4+A") LOG_RAW_FORM) = Done (log, KOk) /\ delivered log x /\ delivered log y /\
  text_id x = ev "6+B" /\ text_id y = ev "6+B" /\ r_vals (rop_of x) = [VInt 1] /\ r_vals (rop_of y) = [VInt 7] /\
  said (runA openA (pre51 ++ [rec "7+A" "@8+C :4+A 2; @6+B :5+B 7; @9+A :7+A 'k' 1;"; BOpen 0; rec "9+A" "@G+B :6+B 3; @H+A :9+A 'k' 2;"])) = Some [ROk; ROk; ROk; ROk; RNotFound] /\
  said (runA openA (pre51 ++ [rec "7+A" "@6+B :5+B 7; @9+A :7+A 'k' 1;"])) = Some [ROk; ROk; RCauseBreak].
Proof.
  exists (branch_of (runA openA (pre51 ++ [rec "7+A" "@8+C :4+A 2; @6+B :5+B 7; @9+A :7+A 'k' 1;"]))), (txt "@4+A :max;
@5+B 10,
@6+B 1;
@8+C :4+A 2;
@6+B :5+B 7;
"), (at_op 3 "@4+A :max;
@5+B 10,
@6+B 1;
@8+C :4+A 2;
@6+B :5+B 7;
"), (at_op 5 "@4+A :max;
@5+B 10,
@6+B 1;
@8+C :4+A 2;
@6+B :5+B 7;
").
  split; [vm_compute; reflexivity|]. split; [vm_compute; reflexivity|]. split; [at_op_tac 2%nat|]. split; [at_op_tac 4%nat|]. do 5 (split; [vm_compute; reflexivity|]). vm_compute. reflexivity.
Qed.
(* Frames with two chains of one author: accepted as two frames, refused as one.
   An LWW object and an RGA. *)
Theorem C60_joined_refuted :
  said (runA openA (pre52 ++ [rec "M+A" "@7+B :5+B 'b' 2; @N+A :M+A 'a' 2;"; rec "N+A" "@8+B :7+B 'b' 3; @O+A :N+A 'a' 3;"])) = Some [ROk; ROk; ROk; ROk; ROk] /\
  said (runA openA (pre52 ++ [rec "M+A" "@7+B :5+B 'b' 2; @N+A :M+A 'a' 2; @8+B :7+B 'b' 3; @O+A :N+A 'a' 3;"])) = Some [ROk; ROk; ROk; RNotFound] /\
  exists pre, said (runA openA (pre ++ [rec "5+A" "@5+A :2+A 'x';"; rec "5+A" "@6+A :3+A 'y';"])) = Some [ROk; ROk; ROk; ROk] /\
    said (runA openA (pre ++ [rec "5+A" "@5+A :2+A 'x'; @6+A :3+A 'y';"])) = Some [ROk; ROk; RNotFound].
Proof.
  split; [vm_compute; reflexivity|]. split; [vm_compute; reflexivity|]. exists [rec "1+A" "@2+A :rga; @3+A :2+A 'a'; @4+A :3+A 'b';"; BOpen 0]. split; vm_compute; reflexivity.
Qed.
(* Objects of the store's own types. After an object of type log its author cannot
   write, but can open the yarn again; after an object of type meta nothing is
   accepted. With lww instead all is well. *)
Theorem C61_own_types_refuted :
  said (runA openA [rec "1+A" "@2+A :log;"; BOpen 0; rec "3+A" "@4+A :2+A 1;"; rec "3+A" "@5+A :lww;"; rec "3+A" "@6+A :yarn;"]) = Some [ROk; ROk; RNotFound; RNotFound; ROk] /\
  said (runA openA [rec "1+A" "@2+A :meta;"; BOpen 0; rec "3+A" "@4+A :2+A 1;"; rec "3+A" "@5+A :lww;"; rec "3+A" "@6+A :yarn;"]) = Some [ROk; ROk; RBadSyntax; RBadSyntax; RBadSyntax] /\
  said (runA openA [rec "1+A" "@2+A :lww;"; BOpen 0; rec "3+A" "@4+A :2+A 1;"; rec "3+A" "@5+A :lww;"; rec "3+A" "@6+A :yarn;"]) = Some [ROk; ROk; ROk; ROk; RConflict].
Proof. split; [vm_compute; reflexivity|]. split; vm_compute; reflexivity. Qed.
(* An id that looks like a number: the record of the chain is written with it as a
   value, and read back as a number. No further event of that author is accepted. *)
Theorem C61_number_refuted :
  said (runA openA [rec "1+A" "@1e+5 :yarn; @2+A :lww;"; BOpen 0; rec "3+A" "@2e+5 :1e+5 'k' 1; @5+A :2+A 2;"]) = Some [ROk; ROk; RBadSyntax] /\
  said (runA openA [rec "1+A" "@1e+B :yarn; @2+A :lww;"; BOpen 0; rec "3+A" "@2e+B :1e+B 'k' 1; @5+A :2+A 2;"]) = Some [ROk; ROk; ROk].
Proof. split; vm_compute; reflexivity. Qed.
(* Events written as a span of characters. Once the log of the object has another
   record, the characters after the first are written into it without quotes, so
   that punctuation in a text breaks the log. Texts are typed as ('a.b'). *)
Definition typed (s : string) : list bevent := [rec "1+A" ("@2+A :rga; @3+A :2+A ('" ++ s ++ "');")%string; BOpen 0; rec "5+A" "@7+A :3+A 'x';"; BOpen 0].
Notation after s f := (said (runA openA (typed s ++ f))).
(* a point, a quote, a line end, a colon: the author's next event is refused, of
   whatever object, though all before were accepted; with a letter it is not *)
Theorem C61_punctuation_refuted :
  Forall (fun s => after s [rec "8+A" "@9+A :lww;"] = Some [ROk; ROk; ROk; ROk; RNotFound]) ["a.b"; "a\'b"; "a\nb"; "a:b"; "a-b"; "a)b"] /\
  after "acb" [rec "8+A" "@9+A :lww;"] = Some [ROk; ROk; ROk; ROk; ROk].
Proof. split; [repeat (apply Forall_cons; [vm_compute; reflexivity|]); apply Forall_nil|vm_compute; reflexivity]. Qed.
(* a semicolon: the log gets an event that nobody wrote, 3000000003+A, and events
   that refer to it are accepted and stored *)
Theorem C61_phantom_refuted : exists b log x,
  runA openA (typed "a;b" ++ [rec "8+A" "@9+A :3000000003+A 'z';"; BOpen 0]) = Done (b, [ROk; ROk; ROk; ROk; ROk; ROk]) /\
  rocks_read one_float 100 (br_main b) (key_of (ev "2+A") LOG_RAW_FORM) = Done (log, KOk) /\ delivered log x /\ text_id x = ev "9+A" /\ text_ref x = ev "3000000003+A" /\
  (forall f e, In f ["@2+A :rga; @3+A :2+A ('a;b');"; "@7+A :3+A 'x';"; "@9+A :3000000003+A 'z';"] -> delivered (txt f) e -> text_id e <> ev "3000000003+A") /\
  after "acb" [rec "8+A" "@9+A :3000000003+A 'z';"] = Some [ROk; ROk; ROk; ROk; RNotFound].
Proof.
  exists (branch_of (runA openA (typed "a;b" ++ [rec "8+A" "@9+A :3000000003+A 'z';"; BOpen 0]))), (txt "@2+A :rga,
@3+A 'a';
;;
b;
@7+A :3+A 'x';
@9+A :3000000003+A 'z';
"), (at_op 7 "@2+A :rga,
@3+A 'a';
;;
b;
@7+A :3+A 'x';
@9+A :3000000003+A 'z';
").
  split; [vm_compute; reflexivity|]. split; [vm_compute; reflexivity|]. split; [apply (at_delivered _ 6%nat); [reflexivity|]; intros k K; do 7 (destruct k as [|k]; [vm_compute; reflexivity|]); lia|]. split; [vm_compute; reflexivity|]. split; [vm_compute; reflexivity|].
  split; [|vm_compute; reflexivity].
  assert (K : forall f e, match all_ops 100 (cursor_of (txt f)) with Some l => forallb (fun c => negb (uuid_eqb (text_id c) (ev "3000000003+A"))) l | None => false end = true -> delivered (txt f) e -> text_id e <> ev "3000000003+A").
  { intros f e H D. destruct (all_ops 100 (cursor_of (txt f))) as [l|] eqn:A; [|discriminate]. apply all_ops_ok in A. pose proof (ops_complete _ _ _ A D) as I. rewrite forallb_forall in H. specialize (H e I).
    intro E. apply uuid_eqb_eq in E. rewrite E in H. discriminate. }
  intros f e I. cbn [In] in I. destruct I as [<-|[<-|[<-|[]]]]; apply K; vm_compute; reflexivity.
Qed.
Print Assumptions C60_case.
Print Assumptions C61_case.
Print Assumptions C62_case.
Print Assumptions C60_reopened_refuted.
Print Assumptions C60_max_refuted.
Print Assumptions C60_joined_refuted.
Print Assumptions C61_own_types_refuted.
Print Assumptions C61_number_refuted.
Print Assumptions C61_punctuation_refuted.
Print Assumptions C61_phantom_refuted.
