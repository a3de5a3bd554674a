(* Forks: concrete cases and a counterexample for C49. *)
From Coq Require Import String.
From Verif Require Import Prelude UuidModel UuidProofs KeyModel CodecModel TextTable TextModel TextSpec BuilderSpec BuilderProofs MergeModel MergeTextModel TextMergeSpec TextMerge TextMergeTheorems
  StoreModel StoreProofs HashModel MetaModel ClockModel ReplicaModel ReplicaSpec ReplicaProofs ReplicaTheorems StoreSpec StoreTheorems RocksModel RocksSpec RocksProofs
  HashCases MetaCases Txt MergeCases TextMergeCases StoreCases JoinCases ReplicaCases BranchModel BranchSpec BranchProofs BranchTheorems BranchCases
  DurableSpec DurableProofs DurableTheorems DurableCases ForkModel ForkSpec ForkTheorems.
Open Scope string_scope.
Open Scope N_scope.
Open Scope list_scope.

Definition yarnB : N := uorigin (ev "1+B").
Definition forkB (b : branch) := b_fork toy_sha one_float 0 100 (br_main b) 0 [at_time "9+B"] yarnB.
Definition runB (b : branch) (es : list bevent) := b_run toy_sha one_float 0 100 (branch_id yarnB) b es.
Definition origin : branch := branch_of kept_end.
Definition forked : branch := branch_of (forkB origin).
Definition readb (d : family) (k : key) : bool :=
  forallb (fun r => key_ltb k (fst r) || match cell_get one_float 100 (fst r) (snd r) with Done GFail => false | _ => true end) d.
Lemma readb_ok d k : readb d k = true -> readable_to one_float 100 d k.
Proof.
  intros H k1 c I. unfold readb in H. rewrite forallb_forall in H. specialize (H _ I). cbn [fst snd] in H. apply orb_true_iff in H as [H|H]; [left; exact H|right].
  intro E. rewrite E in H. discriminate.
Qed.
(* texts of several chunks, for ops that do not continue one another *)
Fixpoint plain_callsb (last : uop) (cs : list ucmd) : bool :=
  match cs with
  | [] => true
  | UAppend o :: r => uop_okb o && fit last o && negb (continues last o) && plain_callsb o r
  | UEnd t :: r => existsb (N.eqb t) [RAW; HEADER; QUERY] && plain_callsb last r
  end.
Lemma plain_calls cs : forall last opn ext, plain_callsb last cs = true -> good_calls last opn ext cs.
Proof.
  induction cs as [|[o|t] cs IH]; intros last opn ext H; cbn [good_calls plain_callsb] in *; [exact Logic.I| |].
  - apply andb_true_iff in H as [H H4]. apply andb_true_iff in H as [H H3]. apply andb_true_iff in H as [H1 H2]. apply negb_true_iff in H3.
    split; [apply uop_okb_ok; exact H1|]. split; [|split; [congruence|apply IH; exact H4]]. intro E. unfold fit in H2. apply uuid_eqb_eq in E. rewrite E in H2. apply uuid_eqb_eq. exact H2.
  - apply andb_true_iff in H as [H1 H2]. split; [|apply IH; exact H2]. apply existsb_exists in H1 as (x & I & E). apply N.eqb_eq in E. subst. exact I.
Qed.
Lemma calls_say cs text : plain_callsb origin_op cs = true -> N.of_nat (List.length cs) < 2 ^ 32 -> build_calls cs = Some text -> N.of_nat (List.length text) < 2 ^ 32 ->
  frame_says text (denote cs).
Proof. intros P L B S. destruct (build_calls_frame cs TextCursors.canon_writes (plain_calls cs _ _ _ P) L) as (t & E & F). split; [congruence|exact S]. Qed.
Definition in_orderb (d : family) : bool := forallb (fun p => key_ltb (fst p) (snd p)) (combine (map fst d) (tl (map fst d))).
Lemma in_orderb_ok d : in_orderb d = true -> in_order d.
Proof.
  intro H. apply Sorted.Sorted_StronglySorted; [intros a b c; apply key_lt_trans|]. unfold in_orderb in H. induction d as [|[k c] d IH]; [constructor|].
  destruct d as [|[k1 c1] d]; [repeat constructor|]. cbn [map fst snd tl combine forallb] in H. apply andb_true_iff in H as [H1 H2]. constructor; [apply IH; exact H2|constructor; exact H1].
Qed.
(* the branch of C48_case forked; an event of the new yarn on top of the old ones *)
Example C49_case :
  tipped (br_main origin) (ev "7+A") /\ yarnB <> 0 /\ first_event 0 0 [at_time "9+B"] yarnB false = ev "9+B" /\ uvalue (ev "9+B") < NEVER_W /\
  forkB origin = Done (forked, ROk) /\ readable_to one_float 100 (br_main origin) log2 /\
  (exists W, log_at (br_main origin) log2 W /\ W = frame1 ++ frame2 /\ keep_bound 100 (first_ops log2 (ev "9+B") ++ W) [] /\ spanless (first_ops log2 (ev "9+B") ++ W)) /\
  rocks_read one_float 100 (br_main forked) log2 = rocks_read one_float 100 (br_main origin) log2 /\
  exists b, runB forked [BOpen 0; rec "9+B" "@A+B :7+A 'z' 1;"; BOpen 1] = Done (b, [ROk; ROk; ROk]) /\ br_tip b = ev "A+B" /\
    rocks_read one_float 100 (br_main b) log2 = Done (txt "@2+A :lww,
@3+A 'k' 1;
@6+A 'y' 2,
@7+A 'é' 3;
@A+B 'z' 1;
", KOk).
Proof.
  split.
  { split; [apply in_orderb_ok; vm_compute; reflexivity|]. split; [split; [exact (proj1 (uop_okb_ok (mkUop (ev "7+A") (ev "7+A") []) eq_refl))|vm_compute; discriminate]|].
    exists (txt "@7+A :zero;
"), [txt "@0 :zero;
"; txt "@1+A :zero;
"; txt "@3+A :zero;
"]. split; vm_compute; reflexivity. }
  split; [discriminate|]. split; [vm_compute; reflexivity|]. split; [vm_compute; reflexivity|]. split; [vm_compute; reflexivity|]. split; [apply readb_ok; vm_compute; reflexivity|]. split.
  { exists (frame1 ++ frame2). split; [|split; [reflexivity|]].
    - exists [denote (map UAppend frame1 ++ UEnd RAW :: map UAppend frame2 ++ [UEnd RAW])%list]. split; [|vm_compute; reflexivity].
      assert (E : cell_at (br_main origin) log2 = mkCell (Some (txt "@2+A :lww,
@3+A 'k' 1;
@6+A 'y' 2,
@7+A 'é' 3;
")) []) by (vm_compute; reflexivity). rewrite E. cbn [ce_value ce_operands held app]. constructor; [|constructor]. apply calls_say; vm_compute; reflexivity.
    - assert (E : first_ops log2 (ev "9+B") = []) by (vm_compute; reflexivity). rewrite E. cbn [app]. split; [|apply spanlessb_ok; vm_compute; reflexivity].
      unfold keep_bound. cbn [map]. rewrite app_nil_r. split; [exact kept_mergeable|]. split; [vm_compute; repeat constructor|]. split; vm_compute; reflexivity. }
  split; [vm_compute; reflexivity|]. exists (branch_of (runB forked [BOpen 0; rec "9+B" "@A+B :7+A 'z' 1;"; BOpen 1])).
  split; [vm_compute; reflexivity|]. split; vm_compute; reflexivity.
Qed.
(* One object of a type without a merge, with two chains: the fork succeeds but
   lacks the chain records and the objects after it, so that events on top of
   the original's are refused. *)
Definition tails : list bevent := [rec "1+A" "@2+A :tail; @3+A :2+A 1;"; rec "3+A" "@4+A :3+A 2;"; rec "4+A" "@5+A :lww; @6+A :5+A 'x' 1;"; BOpen 0].
Definition original : branch := branch_of (runA openA tails).
Definition part : branch := branch_of (forkB original).
Theorem C49_part_refuted : exists b b' k f,
  runA openA tails = Done (b, [ROk; ROk; ROk; ROk]) /\ forkB b = Done (b', ROk) /\
  k = key_of (ev "5+A") LWW_RDT_FORM /\ rocks_read one_float 100 (br_main b) k = Done (f, KOk) /\ f = txt "@5+A :lww,
@6+A 'x' 1;
" /\ rocks_read one_float 100 (br_main b') k = Done ([], KOk) /\
  said (runA b [rec "7+A" "@7+A :6+A 'y' 1;"]) = Some [ROk] /\
  said (runB b' [BOpen 0; rec "9+B" "@A+B :6+A 'y' 1;"]) = Some [ROk; RNotFound].
Proof.
  exists original, part, (key_of (ev "5+A") LWW_RDT_FORM), (txt "@5+A :lww,
@6+A 'x' 1;
").
  split; [vm_compute; reflexivity|]. split; [vm_compute; reflexivity|]. split; [reflexivity|]. split; [vm_compute; reflexivity|]. split; [reflexivity|].
  do 2 (split; [vm_compute; reflexivity|]). vm_compute. reflexivity.
Qed.
Print Assumptions C49_case.
Print Assumptions C49_part_refuted.
