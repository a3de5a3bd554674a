(* The index over an LWW object: concrete cases and counterexamples for C59. *)
From Coq Require Import String.
From Verif Require Import Prelude UuidModel UuidProofs KeyModel CodecModel TextTable TextModel TextSpec BuilderSpec BuilderProofs MergeModel MergeSpec MergeTextModel TextMergeSpec TextCursors TextMerge TextMergeTheorems
  StoreModel HashModel MetaModel ClockModel ReplicaModel ReplicaSpec ReplicaProofs ReplicaTheorems StoreSpec StoreTheorems RocksModel RocksSpec RocksProofs
  HashCases MetaCases Txt MergeCases TextMergeCases StoreCases JoinCases ReplicaCases BranchModel BranchSpec BranchProofs BranchTheorems BranchCases
  DurableSpec DurableProofs DurableTheorems DurableCases LwwObjModel LwwObjSpec LwwObjTheorems.
Open Scope string_scope.
Open Scope N_scope.
Open Scope list_scope.

Definition set_to (id ref k : string) (v : value) : uop := mkUop (ev id) (ev ref) [VUuid (ev k); v].
Definition str (s : string) : value := VStr (Some (txt s)).
Definition oframe1 : list uop := [mkUop (ev "2+A") LWW_FORM_UUID []; set_to "3+A" "2+A" "name" (str "bob"); set_to "5+A" "3+A" "color" (VUuid (ev "red"))].
Definition oframe2 : list uop := [set_to "8+A" "5+A" "name" (str "amy")].
Definition life59 : list bevent :=
  [ bytes_in "1+A" oframe1; BCompact state2 (CFull 1); BOpen 0; rec "5+A" "@6+A :5+A name 'x'; @8+A :7+A name 'y';"; bytes_in "5+A" oframe2; BCompact log2 (CPartial 0 1); BOpen 8 ].
Definition end59 : res (branch * list rstatus) := runA branchA (BOpen 0 :: life59).
Lemma mergeable59 : mergeable (oframe1 ++ oframe2).
Proof.
  apply mergeableb_ok; [vm_compute; reflexivity|]. intros a b IA IB. cbn [oframe1 oframe2 app In] in IA, IB.
  repeat (destruct IA as [<-|IA]; [repeat (destruct IB as [<-|IB]; [cbn [u_id set_to]; intro E; first [reflexivity | vm_compute in E; discriminate E]|]); destruct IB|]). destruct IA.
Qed.
Lemma says59 us : incl us (oframe1 ++ oframe2) -> build_calls (map UAppend us ++ [UEnd RAW])%list <> None -> N.of_nat (List.length us) < 2 ^ 32 - 1 ->
  N.of_nat (List.length (text_for us)) < 2 ^ 32 -> frame_says (text_for us) (chunk_of us).
Proof. intros I B L S. split; [|exact S]. apply text_for_ok; [eapply mergeable_incl; [exact mergeable59|exact I]|exact B|exact L]. Qed.
Definition events59 : list rop := filter event_op (chunk_of oframe1) ++ filter event_op (chunk_of oframe2) ++ [].
Lemma bare59 : map bare events59 = oframe1 ++ oframe2. Proof. vm_compute. reflexivity. Qed.
Definition text59 : bytes := text_for (oframe1 ++ oframe2).
Definition obj_of (r : res lobj) : lobj := match r with Done o => o | _ => mkObj [] [] NIL end.
Definition index (s : bytes) : res lobj := obj_new one_float 100 s.
Definition updated (o : lobj) (s : string) : res lobj := obj_update one_float 100 o (txt s).
Definition string_of (o : lobj) (k : string) : option string := match obj_string o (ev k) with Done b => Some (untxt b) | _ => None end.

(* the newest of two ops that set a field *)
Example field_case : field (oframe1 ++ oframe2) (ev "name") (str "amy") /\ field (oframe1 ++ oframe2) (ev "color") (VUuid (ev "red")).
Proof.
  split.
  - exists (set_to "8+A" "5+A" "name" (str "amy")). split; [right; right; right; left; reflexivity|]. split; [exists []; reflexivity|]. intros u v I _. cbn [oframe1 oframe2 app In] in I.
    destruct I as [<-|[<-|[<-|[<-|[]]]]]; first [left; reflexivity|right; vm_compute; reflexivity].
  - exists (set_to "5+A" "3+A" "color" (VUuid (ev "red"))). split; [right; right; left; reflexivity|]. split; [exists []; reflexivity|]. intros u v I (r & Q). cbn [oframe1 oframe2 app In] in I.
    destruct I as [<-|[<-|[<-|[<-|[]]]]]; first [left; reflexivity|right; vm_compute; reflexivity|vm_compute in Q; discriminate Q].
Qed.
(* a life of a branch, then the index over the object read from it: the
   hypotheses of C59_history, those of C59_newest, and the answers *)
Example C59_case :
  version idA = TIME /\ healthy idA openA (ev "1+A") /\ Forall clocks life59 /\ (forall n r f, In (BReceive n r f) life59 -> events_only f) /\
  runA openA life59 = Done (branch_of end59, [ROk; ROk; ROk; RNotFound; ROk; ROk; ROk]) /\ received life59 [ROk; ROk; ROk; RNotFound; ROk; ROk; ROk] events59 /\
  key_form state2 = LWW_RDT_FORM /\ state_at (br_main openA) state2 [] /\ keep_bound 100 [] events59 /\
  rocks_read one_float 100 (br_main (branch_of end59)) state2 = Done (text59, KOk) /\
  frame_lit canon text59 (chunk_of (oframe1 ++ oframe2)) /\ N.of_nat (List.length text59) < 2 ^ 32 /\ increasing_ids (chunk_of (oframe1 ++ oframe2)) /\
  string_of (obj_of (index text59)) "name" = Some "amy" /\ obj_uuid (obj_of (index text59)) (ev "color") = ev "red" /\
  obj_number (obj_of (index text59)) (ev "name") = None /\ obj_uuid (obj_of (index text59)) (ev "size") = NIL.
Proof.
  split; [vm_compute; reflexivity|]. split; [apply C48_event_case|]. split; [apply clocksb_ok; vm_compute; reflexivity|]. split; [apply frames_only; vm_compute; reflexivity|].
  split; [vm_compute; reflexivity|]. split.
  { unfold life59, bytes_in, rec, events59.
    apply rv_frame; [apply says59; [intros u I; apply in_or_app; left; exact I|vm_compute; discriminate|vm_compute; reflexivity|vm_compute; reflexivity]|].
    apply rv_compact, rv_open. apply rv_refused; [discriminate|].
    apply rv_frame; [apply says59; [intros u I; apply in_or_app; right; exact I|vm_compute; discriminate|vm_compute; reflexivity|vm_compute; reflexivity]|].
    apply rv_compact, rv_open, rv_none. }
  split; [vm_compute; reflexivity|]. split.
  { exists []. assert (E : cell_at (br_main openA) state2 = cell0) by (vm_compute; reflexivity). rewrite E.
    split; [constructor|]. split; [intro u; reflexivity|]. split; [apply le_n|]. split; [apply le_n|]. intro N. exfalso. apply N. reflexivity. }
  split. { unfold keep_bound. rewrite bare59. split; [exact mergeable59|]. split; [vm_compute; repeat constructor|]. split; vm_compute; reflexivity. }
  split; [vm_compute; reflexivity|].
  destruct (says59 (oframe1 ++ oframe2)) as [FL SM]; [apply incl_refl|vm_compute; discriminate|vm_compute; reflexivity|vm_compute; reflexivity|].
  split; [exact FL|]. split; [exact SM|]. split.
  { assert (F : Forall increasing_ids [chunk_of (oframe1 ++ oframe2)]).
    { apply (ssb_ok id_lt (fun a b => uuid_ltb (r_id a) (r_id b))); [intros a b K; exact K|vm_compute; reflexivity]. }
    exact (Forall_inv F). }
  do 3 (split; [vm_compute; reflexivity|]). vm_compute. reflexivity.
Qed.

Definition base59 : bytes := txt "@2+A :lww, @3+A color red, @9+A color blue, @A+A name 'bob the builder';".
(* An update that comes late overrides a newer value: the value depends on the
   order the updates come in. *)
Theorem C59_old_refuted : exists o o', index base59 = Done o /\ obj_uuid o (ev "color") = ev "blue" /\
  updated o "@4+B :3+A color green;" = Done o' /\ obj_uuid o' (ev "color") = ev "green" /\ uuid_ltb (ev "4+B") (ev "9+A") = true.
Proof. exists (obj_of (index base59)), (obj_of (updated (obj_of (index base59)) "@4+B :3+A color green;")). do 4 (split; [vm_compute; reflexivity|]). vm_compute. reflexivity. Qed.
(* The string of an update is read from the frame the index was made from: other
   characters, or ones beyond its end. *)
Definition short59 : bytes := txt "@2+A :lww;".
Theorem C59_foreign_refuted : exists o1 o2 o3, updated (obj_of (index base59)) "@B+A :A+A job 'carpenter';" = Done o1 /\ string_of o1 "job" = Some " color re" /\
  updated (obj_of (index short59)) "@B+A :A+A job 'carpenter';" = Done o2 /\ obj_string o2 (ev "job") = Aborted /\
  updated (obj_of (index short59)) "@B+A :A+A job 'c';" = Done o3 /\ obj_string o3 (ev "job") = Aborted.
Proof.
  exists (obj_of (updated (obj_of (index base59)) "@B+A :A+A job 'carpenter';")), (obj_of (updated (obj_of (index short59)) "@B+A :A+A job 'carpenter';")),
    (obj_of (updated (obj_of (index short59)) "@B+A :A+A job 'c';")).
  do 5 (split; [vm_compute; reflexivity|]). vm_compute. reflexivity.
Qed.
(* A number is given as the integer that has the bits of the float: 1.0 is
   4607182418800017408. *)
Theorem C59_number_refuted : exists o, index (txt "@2+A :lww, @3+A size 1.0;") = Done o /\ obj_number o (ev "size") = Some 4607182418800017408%Z.
Proof. exists (obj_of (index (txt "@2+A :lww, @3+A size 1.0;"))). split; vm_compute; reflexivity. Qed.
(* Asking for a string that is not there, or is not one, fails an assert. *)
Theorem C59_missing_refuted : exists o, index text59 = Done o /\ obj_string o (ev "size") = Aborted /\ obj_string o (ev "color") = Aborted.
Proof. exists (obj_of (index text59)). split; [vm_compute; reflexivity|]. split; vm_compute; reflexivity. Qed.

(* frames with the hypotheses of C59_last and C59_update *)
Definition ops59 (s : bytes) : list cursor := match all_ops 10 (cursor_of s) with Some l => l | None => [] end.
Definition new59 : bytes := txt "@B+A :A+A size 1.0, @C+A :B+A color red;".
Definition setsb (k : uuid) (o : rop) : bool := match r_vals o with VUuid k' :: _ :: _ => uuid_eqb k' k | _ => false end.
Lemma neverb_ok ops k : existsb (setsb k) ops = false -> never_set ops k.
Proof.
  intros H o v r I Q. assert (E : existsb (setsb k) ops = true) by (apply existsb_exists; exists o; split; [exact I|]; unfold setsb; rewrite Q; apply uuid_eqb_eq; reflexivity). congruence.
Qed.
Lemma lastb_ok ops k v i o : nth_error ops i = Some o -> r_vals o = [VUuid k; v] -> existsb (setsb k) (skipn (Datatypes.S i) ops) = false -> last_sets ops k v.
Proof.
  intros N E H. exists (firstn i ops), o, (skipn (Datatypes.S i) ops), []. split; [|split; [exact E|apply neverb_ok; exact H]].
  clear -N. revert ops N. induction i as [|i IH]; intros [|x ops] N; try discriminate N; cbn in N |- *; [congruence|]. f_equal. apply IH. exact N.
Qed.
Example C59_update_case : ReplicaSpec.ops_of base59 (ops59 base59) /\ ReplicaSpec.ops_of new59 (ops59 new59) /\
  last_sets (map rop_of (ops59 base59)) (ev "color") (VUuid (ev "blue")) /\ never_set (map rop_of (ops59 new59)) (ev "name") /\
  last_sets (map rop_of (ops59 new59)) (ev "color") (VUuid (ev "red")) /\
  exists o, obj_update one_float 100 (obj_of (index base59)) new59 = Done o /\ obj_uuid o (ev "color") = ev "red" /\ string_of o "name" = Some "bob the builder" /\
    obj_number o (ev "size") = Some 4607182418800017408%Z.
Proof.
  split; [apply (all_ops_ok 10); vm_compute; reflexivity|]. split; [apply (all_ops_ok 10); vm_compute; reflexivity|].
  split; [apply (lastb_ok _ _ _ 2 (nth 2 (map rop_of (ops59 base59)) (rop_of (cursor_of [])))); vm_compute; reflexivity|].
  split; [apply neverb_ok; vm_compute; reflexivity|].
  split; [apply (lastb_ok _ _ _ 1 (nth 1 (map rop_of (ops59 new59)) (rop_of (cursor_of [])))); vm_compute; reflexivity|].
  exists (obj_of (obj_update one_float 100 (obj_of (index base59)) new59)). do 3 (split; [vm_compute; reflexivity|]). vm_compute; reflexivity.
Qed.
(* a write through the index, on a branch that would take the op if it referred
   to the last one *)
Definition write59 : lobj * option bytes := obj_write (obj_of (index text59)) (ev "9+A") (ev "name") [str "zoe"].
Example C59_write_case : exists f, snd write59 = Some f /\ tip_ok (ev "9+A") /\ version (ev "9+A") = TIME /\ payload (uorigin (ev "9+A")) <> 0 /\
  Forall value_ok [VUuid (ev "name"); str "zoe"] /\ N.of_nat (List.length f) < 2 ^ 32 /\ untxt f = "@9+A :9+A name 'zoe';
" /\ said (runA (branch_of end59) [BReceive (at_time "8+A") [] f]) = Some [RCauseBreak] /\
  said (runA (branch_of end59) [rec "8+A" "@9+A :8+A name 'zoe';"]) = Some [ROk].
Proof.
  exists (match snd write59 with Some f => f | None => [] end). split; [vm_compute; reflexivity|].
  split; [split; [split; [vm_compute; repeat split|vm_compute; reflexivity]|vm_compute; discriminate]|]. split; [vm_compute; reflexivity|]. split; [vm_compute; discriminate|].
  split; [exact (proj2 (proj2 (uop_okb_ok (mkUop (ev "9+A") (ev "9+A") [VUuid (ev "name"); str "zoe"]) eq_refl)))|].
  do 3 (split; [vm_compute; reflexivity|]). vm_compute; reflexivity.
Qed.
