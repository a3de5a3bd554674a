(* Fields of an LWW object on two branches: concrete cases for C81. *)
From Coq Require Import String Sorted.
From Verif Require Import Prelude UuidModel UuidProofs KeyModel CodecModel TextTable TextModel TextSpec BuilderSpec BuilderProofs MergeModel MergeTextModel TextMergeSpec TextMerge TextMergeTheorems
  StoreModel HashModel MetaModel ClockModel ReplicaModel ReplicaSpec ReplicaProofs ReplicaTheorems StoreSpec StoreTheorems RocksModel RocksSpec RocksProofs
  HashCases MetaCases Txt MergeCases TextMergeCases StoreCases JoinCases ReplicaCases BranchModel BranchSpec BranchProofs BranchTheorems BranchCases
  DurableSpec DurableProofs DurableTheorems DurableCases CodecTheorems LogCases LwwObjModel LwwObjSpec LwwObjTheorems LwwObjCases YarnSpec YarnTheorems YarnCases FieldTheorems.
Open Scope string_scope.
Open Scope N_scope.
Open Scope list_scope.

(* two authors write the name of the object 2+A, one of them its color too *)
Definition w3B := set_to "3+B" "2+A" "name" (str "bob").
Definition w4A := set_to "4+A" "2+A" "color" (VUuid (ev "red")).
Definition w5B := set_to "5+B" "3+B" "name" (str "amy").
Definition w6A := set_to "6+A" "4+A" "name" (str "ann").
Definition w7 : list uop := [e1A; e1B; e2A; w3B; w4A; w5B; w6A].
Lemma w7_mergeable : mergeable w7.
Proof.
  apply mergeableb_ok; [vm_compute; reflexivity|]. intros a b IA IB. cbn [w7 In] in IA, IB.
  repeat (destruct IA as [<-|IA]; [repeat (destruct IB as [<-|IB]; [cbn [u_id]; intro E; first [reflexivity | vm_compute in E; discriminate E]|]); destruct IB|]). destruct IA.
Qed.
Lemma saysw us : incl us w7 -> build_calls (map UAppend us ++ [UEnd RAW])%list <> None -> N.of_nat (List.length us) < 2 ^ 32 - 1 ->
  N.of_nat (List.length (text_for us)) < 2 ^ 32 -> frame_says (text_for us) (chunk_of us).
Proof. intros I B L Q. split; [|exact Q]. apply text_for_ok; [eapply mergeable_incl; [exact w7_mergeable|exact I]|exact B|exact L]. Qed.
Definition lifeV : list bevent := [bytes_in "1+A" [e1B; e2A]; BOpen 0; bytes_in "2+A" [w3B; w4A]; BCompact state2 (CFull 2); bytes_in "4+A" [w5B; w6A]; BOpen 7].
(* the older write of the name comes after the newer one *)
Definition lifeW : list bevent := [bytes_in "1+A" [e1A; e2A; w3B]; bytes_in "3+B" [w4A; w6A; w5B]; BOpen 0; BCompact log2 (CPartial 0 2)].
Definition eventsV : list rop := filter event_op (chunk_of [e1B; e2A]) ++ filter event_op (chunk_of [w3B; w4A]) ++ filter event_op (chunk_of [w5B; w6A]) ++ [].
Definition eventsW : list rop := filter event_op (chunk_of [e1A; e2A; w3B]) ++ filter event_op (chunk_of [w4A; w6A; w5B]) ++ [].
Lemma bareV : map bare eventsV = [e1B; e2A; w3B; w4A; w5B; w6A]. Proof. vm_compute. reflexivity. Qed.
Lemma bareW : map bare eventsW = [e1A; e2A; w3B; w4A; w6A; w5B]. Proof. vm_compute. reflexivity. Qed.
Definition endV : res (branch * list rstatus) := runA branchA (BOpen 0 :: lifeV).
Definition endW : res (branch * list rstatus) := runB branchB (BOpen 0 :: lifeW).
Ltac in_w7 := let u := fresh "u" in let I := fresh "I" in intros u I; unfold w7; cbn [In app] in *; repeat (destruct I as [<-|I]; [solve [auto 12]|]); destruct I.
Ltac sayw := apply saysw; [in_w7|vm_compute; discriminate|vm_compute; reflexivity|vm_compute; reflexivity].
Lemma live_V : livesT 0 [at_time "1+A"] yarnA false lifeV [ROk; ROk; ROk; ROk; ROk; ROk] eventsV (branch_of endV).
Proof.
  unfold lives. assert (FE : first_event 0 0 [at_time "1+A"] yarnA false = ev "1+A") by (vm_compute; reflexivity). rewrite FE.
  split; [right; discriminate|]. split; [vm_compute; reflexivity|]. split; [apply clocksb_ok; vm_compute; reflexivity|]. split; [apply frames_only; vm_compute; reflexivity|].
  split; [exists branchA, ROk, 0, ROk; split; vm_compute; reflexivity|]. split.
  { unfold lifeV, bytes_in, eventsV. apply rv_frame; [sayw|]. apply rv_open. apply rv_frame; [sayw|]. apply rv_compact. apply rv_frame; [sayw|]. apply rv_open, rv_none. }
  split; [|split; [rewrite bareV; apply spanlessb_ok; vm_compute; reflexivity|rewrite bareV; apply calmb_ok; vm_compute; reflexivity]].
  unfold keep_bound. rewrite bareV. split; [eapply mergeable_incl; [exact w7_mergeable|fold e1A; in_w7]|]. split; [vm_compute; repeat constructor|]. split; vm_compute; reflexivity.
Qed.
Lemma live_W : livesT 0 [at_time "1+B"] yarnB false lifeW [ROk; ROk; ROk; ROk] eventsW (branch_of endW).
Proof.
  unfold lives. assert (FE : first_event 0 0 [at_time "1+B"] yarnB false = ev "1+B") by (vm_compute; reflexivity). rewrite FE.
  split; [right; discriminate|]. split; [vm_compute; reflexivity|]. split; [apply clocksb_ok; vm_compute; reflexivity|]. split; [apply frames_only; vm_compute; reflexivity|].
  split; [exists branchB, ROk, 0, ROk; split; vm_compute; reflexivity|]. split.
  { unfold lifeW, bytes_in, eventsW. apply rv_frame; [sayw|]. apply rv_frame; [sayw|]. apply rv_open, rv_compact, rv_none. }
  split; [|split; [rewrite bareW; apply spanlessb_ok; vm_compute; reflexivity|rewrite bareW; apply calmb_ok; vm_compute; reflexivity]].
  unfold keep_bound. rewrite bareW. split; [eapply mergeable_incl; [exact w7_mergeable|fold e1B; in_w7]|]. split; [vm_compute; repeat constructor|]. split; vm_compute; reflexivity.
Qed.
Lemma w_of_2 u : In u [e2A; w3B; w4A; w5B; w6A] -> belongs w7 u (ev "2+A") LWW_FORM_UUID.
Proof.
  assert (B2 : belongs w7 e2A (ev "2+A") LWW_FORM_UUID) by (apply (bl_root w7 e2A); [unfold w7; cbn [In]; auto|vm_compute; reflexivity]).
  assert (NX : forall u v, In u w7 -> version (u_ref u) = TIME -> u_id v = u_ref u -> belongs w7 v (ev "2+A") LWW_FORM_UUID -> belongs w7 u (ev "2+A") LWW_FORM_UUID) by (intros a b; apply bl_next).
  assert (B3 : belongs w7 w3B (ev "2+A") LWW_FORM_UUID) by (apply (NX w3B e2A); [unfold w7; cbn [In]; auto 9|vm_compute; reflexivity|reflexivity|exact B2]).
  assert (B4 : belongs w7 w4A (ev "2+A") LWW_FORM_UUID) by (apply (NX w4A e2A); [unfold w7; cbn [In]; auto 9|vm_compute; reflexivity|reflexivity|exact B2]).
  intros [<-|[<-|[<-|[<-|[<-|[]]]]]]; [exact B2|exact B3|exact B4| |].
  - apply (NX w5B w3B); [unfold w7; cbn [In]; auto 9|vm_compute; reflexivity|reflexivity|exact B3].
  - apply (NX w6A w4A); [unfold w7; cbn [In]; auto 9|vm_compute; reflexivity|reflexivity|exact B4].
Qed.
Lemma belongs_in us u o t : belongs us u o t -> In u us.
Proof. intro B. inversion B; assumption. Qed.
(* the name is that of the newest write *)
Example C81_newest_case : newest_write w7 (ev "2+A") LWW_FORM_UUID (ev "name") (str "ann") /\ newest_write w7 (ev "2+A") LWW_FORM_UUID (ev "color") (VUuid (ev "red")) /\
  no_write w7 (ev "2+A") LWW_FORM_UUID (ev "size").
Proof.
  split; [|split].
  - exists w6A. split; [apply w_of_2; cbn [In]; auto 9|]. split; [exists []; reflexivity|]. intros u v B (r & Q). apply belongs_in in B.
    cbn [w7 In] in B. repeat (destruct B as [<-|B]; [first [left; reflexivity|right; vm_compute; reflexivity]|]). destruct B.
  - exists w4A. split; [apply w_of_2; cbn [In]; auto 9|]. split; [exists []; reflexivity|]. intros u v B (r & Q). apply belongs_in in B.
    cbn [w7 In] in B. repeat (destruct B as [<-|B]; [first [left; reflexivity|right; vm_compute; reflexivity|vm_compute in Q; discriminate Q]|]). destruct B.
  - intros u v B (r & Q). apply belongs_in in B. cbn [w7 In] in B. repeat (destruct B as [<-|B]; [vm_compute in Q; discriminate Q|]). destruct B.
Qed.
Definition index_of (b : branch) : res lobj := match rocks_read one_float 100 (br_main b) state2 with Done (f, _) => index f | _ => Aborted end.
Example C81_case :
  livesT 0 [at_time "1+A"] yarnA false lifeV [ROk; ROk; ROk; ROk; ROk; ROk] eventsV (branch_of endV) /\
  livesT 0 [at_time "1+B"] yarnB false lifeW [ROk; ROk; ROk; ROk] eventsW (branch_of endW) /\
  NoDup (map u_id (e1A :: map bare eventsV)) /\ NoDup (map u_id (e1B :: map bare eventsW)) /\
  (forall u, In u (e1A :: map bare eventsV) <-> In u (e1B :: map bare eventsW)) /\ (forall u, In u (e1A :: map bare eventsV) <-> In u w7) /\
  plain_objects (e1A :: map bare eventsV) /\ (forall n r f, In (BReceive n r f) (lifeV ++ lifeW) -> opens_first f) /\
  state2 = key_as (ev "2+A") LWW_FORM_UUID /\ uuid2form LWW_FORM_UUID = LWW_RDT_FORM /\
  Forall (fun b => string_of (obj_of (index_of b)) "name" = Some "ann" /\ obj_uuid (obj_of (index_of b)) (ev "color") = ev "red" /\ string_of (obj_of (index_of b)) "size" = None)
    [branch_of endV; branch_of endW].
Proof.
  split; [exact live_V|]. split; [exact live_W|]. rewrite bareV, bareW.
  split; [apply nodupb_ok; vm_compute; reflexivity|]. split; [apply nodupb_ok; vm_compute; reflexivity|].
  split. { intro u. cbn [In]. tauto. }
  split. { intro u. unfold w7. cbn [In]. tauto. }
  split; [apply plain_objectsb; vm_compute; reflexivity|]. split; [apply all_open_first; vm_compute; reflexivity|]. split; [vm_compute; reflexivity|]. split; [vm_compute; reflexivity|].
  apply Forall_cons; [|apply Forall_cons; [|apply Forall_nil]]; (split; [vm_compute; reflexivity|]; split; vm_compute; reflexivity).
Qed.
Print Assumptions C81_newest_case.
Print Assumptions C81_case.
