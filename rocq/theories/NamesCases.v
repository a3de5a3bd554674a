(* Names of a branch: concrete cases and counterexamples for C50. *)
From Coq Require Import String.
From Verif Require Import Prelude UuidModel UuidProofs KeyModel CodecModel TextTable TextModel TextSpec BuilderSpec BuilderProofs MergeModel MergeTextModel TextMergeSpec TextMerge TextMergeTheorems
  StoreModel StoreProofs HashModel MetaModel ClockModel ReplicaModel ReplicaSpec ReplicaProofs ReplicaTheorems StoreSpec StoreTheorems RocksModel RocksSpec RocksProofs
  HashCases MetaCases Txt MergeCases TextMergeCases StoreCases JoinCases ReplicaCases BranchModel BranchSpec BranchProofs BranchTheorems BranchCases
  DurableSpec DurableProofs DurableTheorems DurableCases NamesModel NamesSpec NamesTheorems.
Open Scope string_scope.
Open Scope N_scope.
Open Scope list_scope.

Definition name (s : string) : uuid := parse_uuid (txt s).
Definition runN (b : branch) (es : list nevent) := n_run toy_sha one_float 0 100 idA b es.
Definition namesN (b : branch) := b_names one_float 100 b.
(* name s at the time t, the clock being at now *)
Definition call (now t n v : string) : nevent := NName (at_time now) [at_time t] (name n) (ev v).
Definition named_life : list nevent :=
  [ call "1+A" "15+A" "readme" "1+B"; NBranch (bytes_in "15+A" frame1); call "3+A" "5+A" "todo" "2+B"; NBranch (BCompact NAMES_KEY (CFull 1));
    NBranch (BOpen 0); call "5+A" "8+A" "readme" "3+B"; NBranch (BCompact NAMES_KEY (CPartial 0 2)) ].
Definition named_end : res (branch * list rstatus) := runN branchA (NBranch (BOpen 0) :: named_life).

Definition named_ops : list uop := assigned 0 idA named_life.
Definition events1 : list rop := filter event_op (chunk_of frame1) ++ [].
Lemma named_bare : map bare events1 = frame1. Proof. vm_compute. reflexivity. Qed.
Definition named_set : list uop :=
  [ mkUop (ev "15+A") NIL [VUuid (name "readme"); VUuid (ev "1+B")]; mkUop (ev "5+A") NIL [VUuid (name "todo"); VUuid (ev "2+B")];
    mkUop (ev "8+A") NIL [VUuid (name "readme"); VUuid (ev "3+B")] ].
Lemma named_mergeable : mergeable (named_set ++ frame1).
Proof.
  apply mergeableb_ok; [vm_compute; reflexivity|]. intros a b IA IB. cbn [named_set frame1 app In] in IA, IB.
  repeat (destruct IA as [<-|IA]; [repeat (destruct IB as [<-|IB]; [cbn [u_id]; intro E; first [reflexivity | vm_compute in E; discriminate E]|]); destruct IB|]). destruct IA.
Qed.
Definition branch_events (es : list nevent) : list bevent := flat_map (fun e => match e with NBranch e => [e] | _ => [] end) es.
Lemma branch_event es e : In (NBranch e) es -> In e (branch_events es).
Proof. intro I. apply in_flat_map. exists (NBranch e). split; [exact I|left; reflexivity]. Qed.
(* two names, one assigned twice, between frames, restarts and compactions *)
Example C50_case :
  first_event 0 0 [at_time "1+A"] yarnA false = ev "1+A" /\ uvalue (ev "1+A") < NEVER_W /\ yarnA <> 0 /\ newA = Done (branchA, ROk) /\
  (forall e, In (NBranch e) named_life -> clocks e) /\ (forall n r f, In (NBranch (BReceive n r f)) named_life -> events_only f) /\
  runN branchA (NBranch (BOpen 0) :: named_life) = Done (branch_of named_end, [ROk; ROk; ROk; ROk; ROk; ROk; ROk; ROk]) /\
  received (map fst (others named_life [ROk; ROk; ROk; ROk; ROk; ROk; ROk])) (map snd (others named_life [ROk; ROk; ROk; ROk; ROk; ROk; ROk])) events1 /\
  assigned 0 idA named_life = named_set /\ keep_bound 100 (assigned 0 idA named_life) events1 /\
  exists l, namesN (branch_of named_end) = Done (l, ROk) /\ names_get l (name "readme") = Some (ev "3+B") /\ names_get l (name "todo") = Some (ev "2+B") /\
    names_get l (name "other") = None.
Proof.
  do 2 (split; [vm_compute; reflexivity|]). split; [discriminate|]. split; [vm_compute; reflexivity|].
  split; [intros e I; apply branch_event in I; assert (C : Forall clocks (branch_events named_life)) by (apply clocksb_ok; vm_compute; reflexivity); rewrite Forall_forall in C; apply C, I|].
  split; [intros n r f I; apply branch_event in I; revert I; apply (frames_only (branch_events named_life)); vm_compute; reflexivity|].
  split; [vm_compute; reflexivity|]. split.
  { cbn [named_life others map fst snd bytes_in call]. unfold bytes_in, events1. apply rv_frame; [|apply rv_compact, rv_open, rv_compact, rv_none].
    apply says1; [intros u I; apply in_or_app; left; exact I|vm_compute; discriminate|vm_compute; reflexivity|vm_compute; reflexivity]. }
  assert (E : assigned 0 idA named_life = named_set) by (vm_compute; reflexivity). split; [exact E|]. split.
  { rewrite E. unfold keep_bound. rewrite named_bare. split; [exact named_mergeable|]. split; [vm_compute; repeat constructor|]. split; vm_compute; reflexivity. }
  eexists. split; [vm_compute; reflexivity|]. split; [vm_compute; reflexivity|]. split; vm_compute; reflexivity.
Qed.

(* Two names given within one tick of the clock: the ids follow one another. The
   record of the names then has an op without its id that is not a
   continuation, and the parser stops there: the second name and all names
   given later are lost. *)
Definition hasty : list nevent := [call "1+A" "2+A" "readme" "1+B"; call "2+A" "2+A" "todo" "2+B"; call "2000000001+A" "6+A" "notes" "3+B"].
Theorem C50_tick_refuted : exists b l, runN openA hasty = Done (b, [ROk; ROk; ROk]) /\
  current (assigned 0 idA hasty) (name "todo") (ev "2+B") /\ current (assigned 0 idA hasty) (name "notes") (ev "3+B") /\
  namesN b = Done (l, ROk) /\ names_get l (name "readme") = Some (ev "1+B") /\ names_get l (name "todo") = None /\ names_get l (name "notes") = None.
Proof.
  assert (E : assigned 0 idA hasty = [mkUop (ev "2+A") NIL [VUuid (name "readme"); VUuid (ev "1+B")]; mkUop (ev "2000000001+A") NIL [VUuid (name "todo"); VUuid (ev "2+B")];
    mkUop (ev "6+A") NIL [VUuid (name "notes"); VUuid (ev "3+B")]]) by (vm_compute; reflexivity).
  exists (branch_of (runN openA hasty)). eexists. split; [vm_compute; reflexivity|]. rewrite E. split.
  { eexists. split; [right; left; reflexivity|]. split; [reflexivity|]. intros u v [<-|[<-|[<-|[]]]] G; [|left; reflexivity|]; exfalso; revert G; vm_compute; discriminate. }
  split.
  { eexists. split; [right; right; left; reflexivity|]. split; [reflexivity|]. intros u v [<-|[<-|[<-|[]]]] G; [| |left; reflexivity]; exfalso; revert G; vm_compute; discriminate. }
  split; [vm_compute; reflexivity|]. split; [vm_compute; reflexivity|]. split; vm_compute; reflexivity.
Qed.
(* A name is not an event the branch remembers: after a restart the clock can
   give the same id again, and one of the two assignments is lost. *)
Definition rushed : list nevent := [call "1+A" "2+A" "readme" "1+B"; NBranch (BOpen 0); call "1+A" "2+A" "todo" "2+B"].
Theorem C50_restart_refuted : exists b l, runN openA rushed = Done (b, [ROk; ROk; ROk]) /\
  current (assigned 0 idA rushed) (name "readme") (ev "1+B") /\ current (assigned 0 idA rushed) (name "todo") (ev "2+B") /\
  namesN b = Done (l, ROk) /\ List.length l = 1%nat.
Proof.
  assert (E : assigned 0 idA rushed = [mkUop (ev "2+A") NIL [VUuid (name "readme"); VUuid (ev "1+B")]; mkUop (ev "2+A") NIL [VUuid (name "todo"); VUuid (ev "2+B")]]) by (vm_compute; reflexivity).
  exists (branch_of (runN openA rushed)). eexists. split; [vm_compute; reflexivity|]. rewrite E. split.
  { eexists. split; [left; reflexivity|]. split; [reflexivity|]. intros u v [<-|[<-|[]]] G; [left; reflexivity|]; exfalso; revert G; vm_compute; discriminate. }
  split.
  { eexists. split; [right; left; reflexivity|]. split; [reflexivity|]. intros u v [<-|[<-|[]]] G; [|left; reflexivity]; exfalso; revert G; vm_compute; discriminate. }
  split; vm_compute; reflexivity.
Qed.
Print Assumptions C50_case.
Print Assumptions C50_tick_refuted.
Print Assumptions C50_restart_refuted.
