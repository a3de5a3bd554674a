(* A text object that is read again after compactions: a concrete case for C72. *)
From Coq Require Import String Sorted Permutation.
From Verif Require Import Prelude UuidModel UuidProofs KeyModel CodecModel TextTable TextModel TextSpec BuilderSpec BuilderProofs MergeModel MergeSpec MergeTextModel TextMergeSpec TextMerge TextMergeTheorems
  StoreModel HashModel MetaModel ClockModel ReplicaModel ReplicaSpec ReplicaProofs ReplicaTheorems StoreSpec StoreTheorems RocksModel RocksSpec RocksProofs
  HashCases MetaCases Txt MergeCases TextMergeCases StoreCases JoinCases ReplicaCases BranchModel BranchSpec BranchProofs BranchTheorems BranchCases
  DurableSpec DurableProofs DurableTheorems DurableCases CodecTheorems LogCases YarnSpec YarnTheorems YarnCases AnswerModel AnswerCases ScanModel ScanSpec TextAnswerSpec TextObjSpec TextObjTheorems TextAnswerCases TextObjCases StepsStore TextRecover.
Open Scope string_scope.
Open Scope N_scope.
Open Scope list_scope.

(* a text that came in four pieces *)
Definition tc := mkUop (ev "B+A") (ev "7+A") (ch 99).
Definition six : list uop := [e1A; w2; ta; tb; tr; tc].
Lemma six_mergeable : mergeable six.
Proof.
  apply mergeableb_ok; [vm_compute; reflexivity|]. intros a b IA IB. cbn [six In] in IA, IB.
  repeat (destruct IA as [<-|IA]; [repeat (destruct IB as [<-|IB]; [cbn [u_id]; intro E; first [reflexivity | vm_compute in E; discriminate E]|]); destruct IB|]). destruct IA.
Qed.
Lemma says6 us : incl us six -> build_calls (map UAppend us ++ [UEnd RAW])%list <> None -> N.of_nat (List.length us) < 2 ^ 32 - 1 ->
  N.of_nat (List.length (text_for us)) < 2 ^ 32 -> frame_says (text_for us) (chunk_of us).
Proof. intros I B L Q. split; [|exact Q]. apply text_for_ok; [eapply mergeable_incl; [exact six_mergeable|exact I]|exact B|exact L]. Qed.
Definition evM : list rop := filter event_op (chunk_of [w2; ta]) ++ filter event_op (chunk_of [tb]) ++ filter event_op (chunk_of [tr]) ++ filter event_op (chunk_of [tc]) ++ [].
Lemma bare_evM : map bare evM = [w2; ta; tb; tr; tc]. Proof. vm_compute. reflexivity. Qed.
Definition textM4 : list bevent := [bytes_in "1+A" [w2; ta]; bytes_in "6+A" [tb]; BOpen 0; bytes_in "8+A" [tr]; bytes_in "A+A" [tc]].
Definition doneM : branch := branch_of (runA branchA (BOpen 0 :: textM4)).
Ltac in_six := let u := fresh "u" in let I := fresh "I" in intros u I; unfold six in *; cbn [In app] in *; repeat (destruct I as [<-|I]; [solve [auto 15]|]); destruct I.
Ltac say6 := apply says6; [in_six|vm_compute; discriminate|vm_compute; reflexivity|vm_compute; reflexivity].
Lemma lives_M : livesT 0 [at_time "1+A"] yarnA false textM4 [ROk; ROk; ROk; ROk; ROk] evM doneM.
Proof.
  unfold lives. assert (FE : first_event 0 0 [at_time "1+A"] yarnA false = ev "1+A") by (vm_compute; reflexivity). rewrite FE.
  split; [right; discriminate|]. split; [vm_compute; reflexivity|]. split; [apply clocksb_ok; vm_compute; reflexivity|]. split; [apply frames_only; vm_compute; reflexivity|].
  split; [exists branchA, ROk, 0, ROk; split; vm_compute; reflexivity|]. split.
  { unfold textM4, bytes_in, evM. apply rv_frame; [say6|]. apply rv_frame; [say6|]. apply rv_open. apply rv_frame; [say6|]. apply rv_frame; [say6|]. apply rv_none. }
  split; [|split; [rewrite bare_evM; apply spanlessb_ok; vm_compute; reflexivity|rewrite bare_evM; apply calmb_ok; vm_compute; reflexivity]].
  unfold keep_bound. rewrite bare_evM. split; [eapply mergeable_incl; [exact six_mergeable|fold e1A; in_six]|]. split; [vm_compute; repeat constructor|]. split; vm_compute; reflexivity.
Qed.
Definition hssM : list (list chain) := [chains (text_for [w2; ta]) [(2%nat, o2, RGA_FORM_UUID)]; chains (text_for [tb]) p2; []; chains (text_for [tr]) p2; chains (text_for [tc]) p2].
Lemma stored_M : stored_of textM4 [ROk; ROk; ROk; ROk; ROk] hssM.
Proof. unfold stored_of, textM4, hssM. cbn [combine]. stored_frame. stored_frame. stored_none. stored_frame. stored_frame. apply Forall2_nil. Qed.
(* the hypotheses of C72_recovers: the text cannot be read, and four compactions
   make it readable *)
Example C72_recovers_case :
  livesT 0 [at_time "1+A"] yarnA false textM4 [ROk; ROk; ROk; ROk; ROk] evM doneM /\
  stored_of textM4 [ROk; ROk; ROk; ROk; ROk] hssM /\ Forall (apart (e1A :: map bare evM)) hssM /\
  e1A :: says_ops (List.concat hssM) = six /\ belongs six tc o2 RGA_FORM_UUID /\ uuid2form RGA_FORM_UUID = RGA_RDT_FORM /\
  rocks_read one_float 100 (br_main doneM) (key_as o2 RGA_FORM_UUID) = Done ([], KDbFail) /\
  rocks_read one_float 100 (br_main (branch_of (runA doneM (repeat (BCompact (key_as o2 RGA_FORM_UUID) (CFull 1)) 4)))) (key_as o2 RGA_FORM_UUID) = Done (txt "@2+A :rga,
@7+A 'b',
@B+A 'c',
@3+A :2+A 'a',
@9+A rm;
", KOk).
Proof.
  split; [exact lives_M|]. split; [exact stored_M|]. split; [apply apart_shorts; vm_compute; reflexivity|]. split; [vm_compute; reflexivity|]. split.
  { apply (bl_next six tc tb); [unfold six; cbn [In]; auto 9|vm_compute; reflexivity|reflexivity|]. apply (bl_next six tb w2); [unfold six; cbn [In]; auto 9|vm_compute; reflexivity|reflexivity|].
    apply (bl_root six w2); [unfold six; cbn [In]; auto|vm_compute; reflexivity]. }
  split; [vm_compute; reflexivity|]. split; vm_compute; reflexivity.
Qed.
Print Assumptions C72_recovers_case.

(* the same events in other frames, with a compaction on the way *)
Definition textK : list bevent := [bytes_in "1+A" [w2]; bytes_in "2+A" [ta]; BCompact text2 (CFull 2); bytes_in "6+A" [tb]; bytes_in "8+A" [tr]; bytes_in "A+A" [tc]].
Definition evK : list rop := filter event_op (chunk_of [w2]) ++ filter event_op (chunk_of [ta]) ++ filter event_op (chunk_of [tb]) ++ filter event_op (chunk_of [tr]) ++ filter event_op (chunk_of [tc]) ++ [].
Lemma bare_evK : map bare evK = [w2; ta; tb; tr; tc]. Proof. vm_compute. reflexivity. Qed.
Definition doneK : branch := branch_of (runA branchA (BOpen 0 :: textK)).
Lemma lives_K : livesT 0 [at_time "1+A"] yarnA false textK [ROk; ROk; ROk; ROk; ROk; ROk] evK doneK.
Proof.
  unfold lives. assert (FE : first_event 0 0 [at_time "1+A"] yarnA false = ev "1+A") by (vm_compute; reflexivity). rewrite FE.
  split; [right; discriminate|]. split; [vm_compute; reflexivity|]. split; [apply clocksb_ok; vm_compute; reflexivity|]. split; [apply frames_only; vm_compute; reflexivity|].
  split; [exists branchA, ROk, 0, ROk; split; vm_compute; reflexivity|]. split.
  { unfold textK, bytes_in, evK. apply rv_frame; [say6|]. apply rv_frame; [say6|]. apply rv_compact. apply rv_frame; [say6|]. apply rv_frame; [say6|]. apply rv_frame; [say6|]. apply rv_none. }
  split; [|split; [rewrite bare_evK; apply spanlessb_ok; vm_compute; reflexivity|rewrite bare_evK; apply calmb_ok; vm_compute; reflexivity]].
  unfold keep_bound. rewrite bare_evK. split; [eapply mergeable_incl; [exact six_mergeable|fold e1A; in_six]|]. split; [vm_compute; repeat constructor|]. split; vm_compute; reflexivity.
Qed.
Definition hssK : list (list chain) := [chains (text_for [w2]) p2; chains (text_for [ta]) p2; []; chains (text_for [tb]) p2; chains (text_for [tr]) p2; chains (text_for [tc]) p2].
Lemma stored_K : stored_of textK [ROk; ROk; ROk; ROk; ROk; ROk] hssK.
Proof. unfold stored_of, textK, hssK. cbn [combine]. stored_frame. stored_frame. stored_none. stored_frame. stored_frame. stored_frame. apply Forall2_nil. Qed.
(* the hypotheses of C72_agree_recovered; both texts *)
Example C72_agree_recovered_case :
  livesT 0 [at_time "1+A"] yarnA false textM4 [ROk; ROk; ROk; ROk; ROk] evM doneM /\ livesT 0 [at_time "1+A"] yarnA false textK [ROk; ROk; ROk; ROk; ROk; ROk] evK doneK /\
  stored_of textK [ROk; ROk; ROk; ROk; ROk; ROk] hssK /\ Forall (apart (e1A :: map bare evK)) hssK /\ e1A :: says_ops (List.concat hssK) = e1A :: says_ops (List.concat hssM) /\
  cell_at (br_main doneK) text2 <> cell_at (br_main doneM) text2 /\ rocks_read one_float 100 (br_main doneK) text2 = Done ([], KDbFail) /\
  rocks_read one_float 100 (br_main (branch_of (runA doneK (repeat (BCompact text2 (CFull 1)) 4)))) text2 =
  rocks_read one_float 100 (br_main (branch_of (runA doneM (repeat (BCompact text2 (CFull 1)) 4)))) text2.
Proof.
  split; [exact lives_M|]. split; [exact lives_K|]. split; [exact stored_K|]. split; [apply apart_shorts; vm_compute; reflexivity|]. split; [vm_compute; reflexivity|].
  split; [|split; vm_compute; reflexivity].
  intro E. apply (f_equal (fun c => match ce_value c with Some _ => true | None => false end)) in E. vm_compute in E. discriminate E.
Qed.
Print Assumptions C72_agree_recovered_case.

(* ---- the text of two authors, in four pieces ---- *)
Definition inw := [w2].
Definition inabc := [wa; wb; wc].
Definition textN : list bevent := [bytes_in "1+A" inw; bytes_in "2+A" inabc; BOpen 0; bytes_in "8+A" in2; bytes_in "9+A" in3].
Definition evN : list rop := filter event_op (chunk_of inw) ++ filter event_op (chunk_of inabc) ++ filter event_op (chunk_of in2) ++ filter event_op (chunk_of in3) ++ [].
Lemma bare_evN : map bare evN = inw ++ inabc ++ in2 ++ in3. Proof. vm_compute. reflexivity. Qed.
Definition doneN : branch := branch_of (runA branchA (BOpen 0 :: textN)).
Ltac in_n := unfold inw, inabc in *; in_twelve.
Ltac sayn := apply says12; [in_n|vm_compute; discriminate|vm_compute; reflexivity|vm_compute; reflexivity].
Lemma lived_N : livedT 0 [at_time "1+A"] yarnA false textN [ROk; ROk; ROk; ROk; ROk] evN doneN.
Proof.
  unfold lived. assert (FE : first_event 0 0 [at_time "1+A"] yarnA false = ev "1+A") by (vm_compute; reflexivity). rewrite FE.
  split; [right; discriminate|]. split; [vm_compute; reflexivity|]. split; [apply clocksb_ok; vm_compute; reflexivity|]. split; [apply frames_only; vm_compute; reflexivity|].
  split; [exists branchA, ROk, 0, ROk; split; vm_compute; reflexivity|]. split.
  { unfold textN, bytes_in, evN. apply rv_frame; [sayn|]. apply rv_frame; [sayn|]. apply rv_open. apply rv_frame; [sayn|]. apply rv_frame; [sayn|]. apply rv_none. }
  unfold keep_bound. rewrite bare_evN. split; [eapply mergeable_incl; [exact twelve_mergeable|in_n]|]. split; [vm_compute; repeat constructor|]. split; vm_compute; reflexivity.
Qed.
Definition hssN : list (list chain) := [chains (text_for inw) p2; chains (text_for inabc) [(3%nat, o2, RGA_FORM_UUID)]; []; chains (text_for in2) p2; chains (text_for in3) p3].
Lemma stored_N : stored_of textN [ROk; ROk; ROk; ROk; ROk] hssN.
Proof. unfold stored_of, textN, hssN. cbn [combine]. stored_frame. stored_frame. stored_none. stored_frame. stored_frame. apply Forall2_nil. Qed.
Lemma text_N : stored_text hssN o2 = [w2; wa; wb; wc; wr; bx; by_]. Proof. vm_compute. reflexivity. Qed.
Definition hangb (us new : list uop) : bool := match us with [] => true | _ => forallb (fun u => existsb (fun v => uuid_eqb (u_id v) (u_ref u)) (us ++ new)) new end.
Fixpoint each_hangsb (seen hss : list (list chain)) (o : uuid) : bool :=
  match hss with [] => true | hs :: r => hangb (stored_text seen o) (stored_text [hs] o) && each_hangsb (seen ++ [hs]) r o end.
Lemma hangb_ok us new : hangb us new = true -> hang us new.
Proof.
  destruct us as [|x us]; [left; reflexivity|]. intro H. right. intros u I. unfold hangb in H. rewrite forallb_forall in H. specialize (H u I). apply existsb_exists in H as (v & J & E).
  apply uuid_eqb_eq in E. rewrite <- E. apply in_map. exact J.
Qed.
Lemma each_hangsb_ok hss o : forall seen, each_hangsb seen hss o = true -> forall a hs b, hss = a ++ hs :: b -> hang (stored_text (seen ++ a) o) (stored_text [hs] o).
Proof.
  induction hss as [|h hss IH]; intros seen H a hs b E; [destruct a; discriminate|]. cbn [each_hangsb] in H. apply andb_prop in H as [H1 H2].
  destruct a as [|x a]; cbn [app] in E; injection E as E1 E2.
  - rewrite app_nil_r, <- E1. apply hangb_ok. exact H1.
  - rewrite <- E1. replace (seen ++ h :: a) with ((seen ++ [h]) ++ a) by (rewrite <- app_assoc; reflexivity). apply (IH _ H2 a hs b E2).
Qed.
(* the hypotheses of C72_text_recovered, and the answers: an error before the
   compactions, the text after *)
Example C72_text_recovered_case :
  livedT 0 [at_time "1+A"] yarnA false textN [ROk; ROk; ROk; ROk; ROk] evN doneN /\ stored_of textN [ROk; ROk; ROk; ROk; ROk] hssN /\
  one_a_step hssN o2 /\ grown (stored_text hssN o2) w2 /\ each_hangs hssN o2 /\
  u_ref w2 = RGA_FORM_UUID /\ Forall (fun u => version (u_id u) = TIME /\ uvalue (u_id u) < NEVER_W) (stored_text hssN o2) /\
  causal trS /\ Permutation (map bare (listing trS)) (stored_text hssN o2) /\ listing trS = chunk_of (map bare (listing trS)) /\
  (forall p, In p (places [] trS) -> ~ stray p /\ (hidden p \/ piece (root (snd p)))) /\ text_query textq /\ object_of textq = o2 /\
  AnswerCases.told (askA doneN (txt "@2-A :txt?
")) = Some (RDbFail, Some "") /\
  AnswerCases.told (askA (branch_of (runA doneN (repeat (BCompact text2 (CFull 1)) 4))) (txt "@2-A :txt?
")) = Some (ROk, Some "@2-A :txt 'bcxy';
").
Proof.
  split; [exact lived_N|]. split; [exact stored_N|]. split; [apply one_a_stepb_ok; vm_compute; reflexivity|]. rewrite text_N. split; [apply grownb_ok; vm_compute; reflexivity|].
  split; [intros a hs b E; apply (each_hangsb_ok hssN o2 []) with (b := b); [vm_compute; reflexivity|exact E]|]. split; [reflexivity|].
  split; [repeat (apply Forall_cons; [split; vm_compute; reflexivity|]); apply Forall_nil|].
  assert (BS : map bare (listing trS) = shared) by (vm_compute; reflexivity). split.
  { unfold trS. repeat first [apply causal_node | apply SSorted_nil | apply SSorted_cons | apply Forall_nil | apply Forall_cons | split; [|split; vm_compute; reflexivity] | vm_compute; reflexivity]. }
  split; [rewrite BS; do 2 apply perm_skip; exact (Permutation_middle [wb; wc] [bx; by_] wr)|]. split; [rewrite BS; vm_compute; reflexivity|].
  split; [intros p IP; split; [apply trS_stray; exact IP|]; pose proof trS_hidden as H; rewrite Forall_forall in H; apply H; exact IP|].
  split; [split; [vm_compute; reflexivity|split; [reflexivity|vm_compute; reflexivity]]|]. split; [vm_compute; reflexivity|].
  split; vm_compute; reflexivity.
Qed.
Print Assumptions C72_text_recovered_case.
