(* Text objects in branches: concrete cases and counterexamples for C72. *)
From Coq Require Import String Sorted Permutation.
From Verif Require Import Prelude UuidModel UuidProofs KeyModel CodecModel TextTable TextModel TextSpec BuilderSpec BuilderProofs MergeModel MergeSpec MergeTextModel TextMergeSpec TextMerge TextMergeTheorems
  StoreModel HashModel MetaModel ClockModel ReplicaModel ReplicaSpec ReplicaProofs ReplicaTheorems StoreSpec StoreTheorems RocksModel RocksSpec RocksProofs
  HashCases MetaCases Txt MergeCases TextMergeCases StoreCases JoinCases ReplicaCases BranchModel BranchSpec BranchProofs BranchTheorems BranchCases
  DurableSpec DurableProofs DurableTheorems DurableCases CodecTheorems LogCases YarnSpec YarnTheorems YarnCases AnswerModel AnswerCases ScanModel ScanSpec TextAnswerSpec TextObjSpec TextObjTheorems TextAnswerCases.
Open Scope string_scope.
Open Scope N_scope.
Open Scope list_scope.
Notation chain := ReplicaSpec.chain.

(* ---- chains of a frame in which all ops are events ---- *)
Fixpoint cut (l : list cursor) (parts : list (nat * uuid * uuid)) : list chain :=
  match parts with
  | [] => []
  | (n, o, t) :: r => match firstn n l with c :: rest => mkChain c rest o t [] [] :: cut (skipn n l) r | [] => [] end
  end.
Definition cursors (f : bytes) : list cursor := match all_ops 100 (cursor_of f) with Some l => l | None => [] end.
Definition chains (f : bytes) parts : list chain := cut (cursors f) parts.
Fixpoint linkedb (c : cursor) (rest : list cursor) : bool :=
  match rest with
  | [] => true
  | d :: r => uuid_eqb (text_ref d) (text_id c) && (uorigin (text_id d) =? uorigin (text_id c)) && uuid_ltb (text_id c) (text_id d) && linkedb d r
  end.
Definition cut_okb (f : bytes) parts : bool :=
  match all_ops 100 (cursor_of f) with
  | Some l => (List.length (flat_map ch_ops (cut l parts)) =? List.length l)%nat && forallb (fun h => linkedb (ch_head h) (ch_rest h) && (version (ch_id h) =? TIME)) (cut l parts)
  | None => false
  end.
Lemma linkedb_ok rest : forall c, linkedb c rest = true -> ReplicaSpec.linked c rest.
Proof.
  induction rest as [|d r IH]; intros c H; [exact I|]. cbn [linkedb] in H. apply andb_prop in H as [H H4]. apply andb_prop in H as [H H3]. apply andb_prop in H as [H1 H2].
  split; [apply N.eqb_eq; exact H2|]. split; [exact H3|]. split; [apply uuid_eqb_eq; exact H1|apply IH; exact H4].
Qed.
Lemma cut_prefix parts : forall l, exists r, l = flat_map ch_ops (cut l parts) ++ r.
Proof.
  induction parts as [|[[n o] t] parts IH]; intro l; cbn [cut]; [exists l; reflexivity|]. destruct (firstn n l) as [|c rest] eqn:E; [exists l; reflexivity|].
  destruct (IH (skipn n l)) as (r & Q). exists r. cbn [flat_map]. unfold ch_ops at 1. cbn [ch_head ch_rest]. rewrite <- E, <- app_assoc, <- Q, firstn_skipn. reflexivity.
Qed.
Lemma subl_heads hs : subl (map ch_head hs) (flat_map ch_ops hs).
Proof.
  induction hs as [|h hs IH]; [constructor|]. cbn [map flat_map]. unfold ch_ops at 1. cbn [app]. apply subl_take. induction (ch_rest h) as [|c r IR]; [exact IH|]. cbn [app]. apply subl_skip. exact IR.
Qed.
Lemma subl_twice {A} (l : list A) : subl l (twice l).
Proof. induction l as [|x l IH]; [constructor|]. cbn. apply subl_take, subl_skip. exact IH. Qed.
Lemma cut_ok f parts : cut_okb f parts = true -> chains_of f (chains f parts) /\ Forall (fun h => version (ch_id h) = TIME) (chains f parts).
Proof.
  unfold cut_okb, chains, cursors. destruct (all_ops 100 (cursor_of f)) as [l|] eqn:A; [|discriminate]. apply all_ops_ok in A. intro H. apply andb_prop in H as [H1 H2]. apply Nat.eqb_eq in H1.
  destruct (cut_prefix parts l) as (r & E). assert (Q : flat_map ch_ops (cut l parts) = l).
  { assert (r = []) as ->; [|rewrite app_nil_r in E; congruence]. apply length_zero_iff_nil. apply (f_equal (@List.length cursor)) in E. rewrite app_length in E. lia. }
  clear E H1. rewrite forallb_forall in H2. split.
  - split; [intros c D _; rewrite Q; eapply ops_complete; eassumption|]. split; [exists l; split; [exact A|rewrite Q; apply subl_twice]|].
    split; [apply Forall_forall; intros h I; apply linkedb_ok; specialize (H2 h I); apply andb_prop in H2; apply H2|]. exists l. split; [exact A|]. rewrite <- Q at 2. apply subl_heads.
  - apply Forall_forall. intros h I. specialize (H2 h I). apply andb_prop in H2 as [_ H2]. apply N.eqb_eq. exact H2.
Qed.

(* ---- two authors of one text, two branches ---- *)
(* A writes abc and takes a away, B goes on with xy after c *)
Definition bx := mkUop (ev "7+B") (ev "3000000002+A") (ch 120).
Definition by_ := mkUop (ev "7000000001+B") (ev "7+B") (ch 121).
Definition f4B := mkUop (ev "4+B") LWW_FORM_UUID [].
Definition fCA := mkUop (ev "C+A") LWW_FORM_UUID [].
Definition fDB := mkUop (ev "D+B") (ev "4+B") [VStr (Some [107]); VInt 1].
Definition text2 : key := key_of (ev "2+A") RGA_RDT_FORM.
Definition twelve : list uop := [e1A; e1B; w2; wa; wb; wc; wr; bx; by_; f4B; fCA; fDB].
Definition shared : list uop := [w2; wa; wr; wb; wc; bx; by_].
Lemma twelve_mergeable : mergeable twelve.
Proof.
  apply mergeableb_ok; [vm_compute; reflexivity|]. intros a b IA IB. cbn [twelve In] in IA, IB.
  repeat (destruct IA as [<-|IA]; [repeat (destruct IB as [<-|IB]; [cbn [u_id]; intro E; first [reflexivity | vm_compute in E; discriminate E]|]); destruct IB|]). destruct IA.
Qed.
Lemma says12 us : incl us twelve -> build_calls (map UAppend us ++ [UEnd RAW])%list <> None -> N.of_nat (List.length us) < 2 ^ 32 - 1 ->
  N.of_nat (List.length (text_for us)) < 2 ^ 32 -> frame_says (text_for us) (chunk_of us).
Proof. intros I B L Q. split; [|exact Q]. apply text_for_ok; [eapply mergeable_incl; [exact twelve_mergeable|exact I]|exact B|exact L]. Qed.
Definition in1 := [w2; wa; wb; wc].
Definition in2 := [wr].
Definition in3 := [e1B; f4B; bx; by_; fCA].
Definition on1 := [e1A; w2; wa; wb; wc; f4B].
Definition on2 := [bx; by_].
Definition on3 := [wr; fDB].
Definition textA : list bevent := [bytes_in "1+A" in1; BOpen 0; bytes_in "8+A" in2; BCompact text2 (CPartial 0 2); bytes_in "9+A" in3; BOpen 7].
Definition textB : list bevent := [bytes_in "1+B" on1; bytes_in "6+B" on2; BCompact text2 (CFull 2); BOpen 0; bytes_in "8+B" on3].
Definition evA : list rop := filter event_op (chunk_of in1) ++ filter event_op (chunk_of in2) ++ filter event_op (chunk_of in3) ++ [].
Definition evB : list rop := filter event_op (chunk_of on1) ++ filter event_op (chunk_of on2) ++ filter event_op (chunk_of on3) ++ [].
Lemma bare_evA : map bare evA = in1 ++ in2 ++ in3. Proof. vm_compute. reflexivity. Qed.
Lemma bare_evB : map bare evB = on1 ++ on2 ++ on3. Proof. vm_compute. reflexivity. Qed.
Definition doneA : branch := branch_of (runA branchA (BOpen 0 :: textA)).
Definition doneB : branch := branch_of (runB branchB (BOpen 0 :: textB)).
Notation livedT := (lived toy_sha one_float 0 100).
Ltac in_twelve := let u := fresh "u" in let I := fresh "I" in intros u I; unfold in1, in2, in3, on1, on2, on3, twelve in *; cbn [In app] in *; repeat (destruct I as [<-|I]; [solve [auto 15]|]); destruct I.
Ltac say12 := apply says12; [in_twelve|vm_compute; discriminate|vm_compute; reflexivity|vm_compute; reflexivity].
Lemma lived_A : livedT 0 [at_time "1+A"] yarnA false textA [ROk; ROk; ROk; ROk; ROk; ROk] evA doneA.
Proof.
  unfold lived. assert (FE : first_event 0 0 [at_time "1+A"] yarnA false = ev "1+A") by (vm_compute; reflexivity). rewrite FE.
  split; [right; discriminate|]. split; [vm_compute; reflexivity|]. split; [apply clocksb_ok; vm_compute; reflexivity|]. split; [apply frames_only; vm_compute; reflexivity|].
  split; [exists branchA, ROk, 0, ROk; split; vm_compute; reflexivity|]. split.
  { unfold textA, bytes_in, evA. apply rv_frame; [say12|]. apply rv_open. apply rv_frame; [say12|]. apply rv_compact. apply rv_frame; [say12|]. apply rv_open, rv_none. }
  unfold keep_bound. rewrite bare_evA. split; [eapply mergeable_incl; [exact twelve_mergeable|in_twelve]|]. split; [vm_compute; repeat constructor|]. split; vm_compute; reflexivity.
Qed.
Lemma lived_B : livedT 0 [at_time "1+B"] yarnB false textB [ROk; ROk; ROk; ROk; ROk] evB doneB.
Proof.
  unfold lived. assert (FE : first_event 0 0 [at_time "1+B"] yarnB false = ev "1+B") by (vm_compute; reflexivity). rewrite FE.
  split; [right; discriminate|]. split; [vm_compute; reflexivity|]. split; [apply clocksb_ok; vm_compute; reflexivity|]. split; [apply frames_only; vm_compute; reflexivity|].
  split; [exists branchB, ROk, 0, ROk; split; vm_compute; reflexivity|]. split.
  { unfold textB, bytes_in, evB. apply rv_frame; [say12|]. apply rv_frame; [say12|]. apply rv_compact, rv_open. apply rv_frame; [say12|]. apply rv_none. }
  unfold keep_bound. rewrite bare_evB. split; [eapply mergeable_incl; [exact twelve_mergeable|in_twelve]|]. split; [vm_compute; repeat constructor|]. split; vm_compute; reflexivity.
Qed.
(* the chains of the frames *)
Definition o2 := ev "2+A".
Definition p1 := [(4%nat, o2, RGA_FORM_UUID)].
Definition p2 := [(1%nat, o2, RGA_FORM_UUID)].
Definition p3 := [(1%nat, ev "1+B", YARN_FORM_UUID); (1%nat, ev "4+B", LWW_FORM_UUID); (2%nat, o2, RGA_FORM_UUID); (1%nat, ev "C+A", LWW_FORM_UUID)].
Definition q1 := [(1%nat, ev "1+A", YARN_FORM_UUID); (4%nat, o2, RGA_FORM_UUID); (1%nat, ev "4+B", LWW_FORM_UUID)].
Definition q2 := [(2%nat, o2, RGA_FORM_UUID)].
Definition q3 := [(1%nat, o2, RGA_FORM_UUID); (1%nat, ev "4+B", LWW_FORM_UUID)].
Definition hssA : list (list chain) := [chains (text_for in1) p1; []; chains (text_for in2) p2; []; chains (text_for in3) p3; []].
Definition hssB : list (list chain) := [chains (text_for on1) q1; chains (text_for on2) q2; []; []; chains (text_for on3) q3].
Ltac stored_frame := apply Forall2_cons; [right; eexists _, _, _; split; [reflexivity|]; apply cut_ok; vm_compute; reflexivity|].
Ltac stored_none := apply Forall2_cons; [left; reflexivity|].
Lemma stored_A : stored_of textA [ROk; ROk; ROk; ROk; ROk; ROk] hssA.
Proof. unfold stored_of, textA, hssA. cbn [combine]. stored_frame. stored_none. stored_frame. stored_none. stored_frame. stored_none. apply Forall2_nil. Qed.
Lemma stored_B : stored_of textB [ROk; ROk; ROk; ROk; ROk] hssB.
Proof. unfold stored_of, textB, hssB. cbn [combine]. stored_frame. stored_frame. stored_none. stored_none. stored_frame. apply Forall2_nil. Qed.
Lemma text_A : stored_text hssA o2 = [w2; wa; wb; wc; wr; bx; by_]. Proof. vm_compute. reflexivity. Qed.
Lemma text_B : stored_text hssB o2 = [w2; wa; wb; wc; bx; by_; wr]. Proof. vm_compute. reflexivity. Qed.
Definition one_a_stepb (hss : list (list chain)) o : bool := forallb (fun hs => (List.length (filed (key_of o RGA_RDT_FORM) hs) <=? 1)%nat) hss.
Lemma one_a_stepb_ok hss o : one_a_stepb hss o = true -> one_a_step hss o.
Proof. intro H. unfold one_a_stepb in H. rewrite forallb_forall in H. apply Forall_forall. intros hs I. apply Nat.leb_le. exact (H hs I). Qed.
Definition grownb (us : list uop) (r : uop) : bool :=
  nodupb (map u_id us) && forallb (fun u => forallb (fun v => negb (uuid_eqb (u_ref u) (u_id v)) || uuid_ltb (u_id v) (u_id u)) us) us &&
  match us with
  | r' :: rest => forallb (fun u => uuid_ltb (u_id r) (u_id u) && existsb (fun v => uuid_eqb (u_id v) (u_ref u)) us) rest
  | [] => false
  end.
Lemma grownb_ok us r : hd_error us = Some r -> grownb us r = true -> grown us r.
Proof.
  intros HD H. destruct us as [|x us]; [discriminate|]. injection HD as ->. unfold grownb in H. apply andb_prop in H as [H H3]. apply andb_prop in H as [H1 H2].
  rewrite forallb_forall in H2, H3. split; [apply nodupb_ok; exact H1|]. split; [left; reflexivity|]. split.
  - intros u v IU IV E. specialize (H2 u IU). rewrite forallb_forall in H2. specialize (H2 v IV). rewrite E, (proj2 (uuid_eqb_eq _ _) eq_refl) in H2. exact H2.
  - intros u [->|I]; [left; reflexivity|right]. specialize (H3 u I). apply andb_prop in H3 as [H3 H4]. split; [exact H3|]. apply existsb_exists in H4 as (v & IV & E). exists v. split; [exact IV|]. apply uuid_eqb_eq. exact E.
Qed.
Definition trS := Node (nth_op shared 0) [Node (nth_op shared 1) [Node (nth_op shared 2) [];
  Node (nth_op shared 3) [Node (nth_op shared 4) [Node (nth_op shared 5) [Node (nth_op shared 6) []]]]]].
Lemma trS_layers : map (fun p => (layer_of (at_ p), rank (at_ p), List.length (target (at_ p)))) (places [] trS) =
  [(LRoot, 1, 0); (LElement, 1, 1); (LRemove, 1, 2); (LElement, 2, 0); (LElement, 3, 0); (LElement, 4, 0); (LElement, 5, 0)]%nat.
Proof. vm_compute. reflexivity. Qed.
Lemma trS_stray p : In p (places [] trS) -> ~ stray p.
Proof.
  intros IP (T & K). pose proof (in_map (fun p => (layer_of (at_ p), rank (at_ p), List.length (target (at_ p)))) _ _ IP) as M.
  rewrite trS_layers in M. cbv beta in M. rewrite T in M. cbn [List.length] in M.
  assert (KL : layer_of (at_ p) = LUndo \/ layer_of (at_ p) = LRemove) by (destruct K as [K|[K _]]; [left|right]; exact K).
  cbn [In] in M. destruct M as [M|[M|[M|[M|[M|[M|[M|M]]]]]]]; try contradiction; try discriminate;
    destruct KL as [KL|KL]; congruence.
Qed.
Lemma trS_hidden : Forall (fun p => hidden p \/ piece (root (snd p))) (places [] trS).
Proof.
  unfold trS. cbn [places flat_map app].
  apply Forall_cons; [left; left; vm_compute; discriminate|].
  apply Forall_cons.
  { left. right. exists ([nth_op shared 1; nth_op shared 0], Node (nth_op shared 2) []). split; [cbn [fst snd places flat_map app In]; right; left; reflexivity|].
    split; [|vm_compute; reflexivity]. split; [vm_compute; reflexivity|]. intros [R _].
    assert (E : rank (at_ ([nth_op shared 1; nth_op shared 0], Node (nth_op shared 2) [])) = 1%nat) by (vm_compute; reflexivity). rewrite E in R. lia. }
  apply Forall_cons; [left; left; vm_compute; discriminate|].
  apply Forall_cons; [right; apply (char_piece _ 98); [reflexivity|lia..]|].
  apply Forall_cons; [right; apply (char_piece _ 99); [reflexivity|lia..]|].
  apply Forall_cons; [right; apply (char_piece _ 120); [reflexivity|lia..]|].
  apply Forall_cons; [right; apply (char_piece _ 121); [reflexivity|lia..]|].
  apply Forall_nil.
Qed.
(* the hypotheses of C72_filed, C72_agree and C72_text, and the answers: A has
   merged the first two pieces, B has merged another pair *)
Example C72_case :
  livedT 0 [at_time "1+A"] yarnA false textA [ROk; ROk; ROk; ROk; ROk; ROk] evA doneA /\
  livedT 0 [at_time "1+B"] yarnB false textB [ROk; ROk; ROk; ROk; ROk] evB doneB /\
  stored_of textA [ROk; ROk; ROk; ROk; ROk; ROk] hssA /\ stored_of textB [ROk; ROk; ROk; ROk; ROk] hssB /\
  one_a_step hssA o2 /\ one_a_step hssB o2 /\ grown (stored_text hssA o2) w2 /\ Permutation (stored_text hssA o2) (stored_text hssB o2) /\
  u_ref w2 = RGA_FORM_UUID /\ Forall (fun u => version (u_id u) = TIME /\ uvalue (u_id u) < NEVER_W) (stored_text hssA o2) /\
  in_three (cell_at (br_main doneA) text2) /\ in_three (cell_at (br_main doneB) text2) /\
  causal trS /\ Permutation (map bare (listing trS)) (stored_text hssA o2) /\ listing trS = chunk_of (map bare (listing trS)) /\
  (forall p, In p (places [] trS) -> ~ stray p /\ (hidden p \/ piece (root (snd p)))) /\
  text_query textq /\ object_of textq = o2 /\
  ce_operands (cell_at (br_main doneA) text2) <> ce_operands (cell_at (br_main doneB) text2) /\
  askA doneA (txt "@2-A :txt?
") = Done (doneA, ROk, Some answer1) /\
  askA doneB (txt "@2-A :txt?
") = Done (doneB, ROk, Some answer1) /\
  rocks_read one_float 100 (br_main doneA) text2 = rocks_read one_float 100 (br_main doneB) text2.
Proof.
  split; [exact lived_A|]. split; [exact lived_B|]. split; [exact stored_A|]. split; [exact stored_B|].
  split; [apply one_a_stepb_ok; vm_compute; reflexivity|]. split; [apply one_a_stepb_ok; vm_compute; reflexivity|]. rewrite text_A, text_B.
  split; [apply grownb_ok; vm_compute; reflexivity|]. split; [do 4 apply perm_skip; exact (Permutation_cons_append [bx; by_] wr)|]. split; [reflexivity|].
  split; [repeat (apply Forall_cons; [split; vm_compute; reflexivity|]); apply Forall_nil|].
  split; [right; vm_compute; repeat constructor|]. split; [right; vm_compute; repeat constructor|].
  assert (BS : map bare (listing trS) = shared) by (vm_compute; reflexivity). split.
  { unfold trS. repeat first [apply causal_node | apply SSorted_nil | apply SSorted_cons | apply Forall_nil | apply Forall_cons | split; [|split; vm_compute; reflexivity] | vm_compute; reflexivity]. }
  split; [rewrite BS; do 2 apply perm_skip; exact (Permutation_middle [wb; wc] [bx; by_] wr)|]. split; [rewrite BS; vm_compute; reflexivity|].
  split; [intros p IP; split; [apply trS_stray; exact IP|]; pose proof trS_hidden as H; rewrite Forall_forall in H; apply H; exact IP|].
  split; [split; [vm_compute; reflexivity|split; [reflexivity|vm_compute; reflexivity]]|]. split; [vm_compute; reflexivity|].
  split; [vm_compute; discriminate|]. split; [vm_compute; reflexivity|]. split; vm_compute; reflexivity.
Qed.

(* ---- the text of one author, no spans ---- *)
Definition ta := mkUop (ev "3+A") (ev "2+A") (ch 97).
Definition tb := mkUop (ev "7+A") (ev "2+A") (ch 98).
Definition tr := mkUop (ev "9+A") (ev "3+A") [VUuid rm].
Definition five : list uop := [e1A; w2; ta; tb; tr].
Lemma five_mergeable : mergeable five.
Proof.
  apply mergeableb_ok; [vm_compute; reflexivity|]. intros a b IA IB. cbn [five In] in IA, IB.
  repeat (destruct IA as [<-|IA]; [repeat (destruct IB as [<-|IB]; [cbn [u_id]; intro E; first [reflexivity | vm_compute in E; discriminate E]|]); destruct IB|]). destruct IA.
Qed.
Lemma says5 us : incl us five -> build_calls (map UAppend us ++ [UEnd RAW])%list <> None -> N.of_nat (List.length us) < 2 ^ 32 - 1 ->
  N.of_nat (List.length (text_for us)) < 2 ^ 32 -> frame_says (text_for us) (chunk_of us).
Proof. intros I B L Q. split; [|exact Q]. apply text_for_ok; [eapply mergeable_incl; [exact five_mergeable|exact I]|exact B|exact L]. Qed.
Definition textL : list bevent := [bytes_in "1+A" [w2; ta]; BOpen 0; bytes_in "6+A" [tb]; BCompact text2 (CFull 2); BOpen 7; bytes_in "8+A" [tr]].
Definition evL : list rop := filter event_op (chunk_of [w2; ta]) ++ filter event_op (chunk_of [tb]) ++ filter event_op (chunk_of [tr]) ++ [].
Lemma bare_evL : map bare evL = [w2; ta; tb; tr]. Proof. vm_compute. reflexivity. Qed.
Definition doneL : branch := branch_of (runA branchA (BOpen 0 :: textL)).
Ltac in_five := let u := fresh "u" in let I := fresh "I" in intros u I; unfold five in *; cbn [In app] in *; repeat (destruct I as [<-|I]; [solve [auto 15]|]); destruct I.
Ltac say5 := apply says5; [in_five|vm_compute; discriminate|vm_compute; reflexivity|vm_compute; reflexivity].
Lemma lives_L : livesT 0 [at_time "1+A"] yarnA false textL [ROk; ROk; ROk; ROk; ROk; ROk] evL doneL.
Proof.
  unfold lives. assert (FE : first_event 0 0 [at_time "1+A"] yarnA false = ev "1+A") by (vm_compute; reflexivity). rewrite FE.
  split; [right; discriminate|]. split; [vm_compute; reflexivity|]. split; [apply clocksb_ok; vm_compute; reflexivity|]. split; [apply frames_only; vm_compute; reflexivity|].
  split; [exists branchA, ROk, 0, ROk; split; vm_compute; reflexivity|]. split.
  { unfold textL, bytes_in, evL. apply rv_frame; [say5|]. apply rv_open. apply rv_frame; [say5|]. apply rv_compact, rv_open. apply rv_frame; [say5|]. apply rv_none. }
  split; [|split; [rewrite bare_evL; apply spanlessb_ok; vm_compute; reflexivity|rewrite bare_evL; apply calmb_ok; vm_compute; reflexivity]].
  unfold keep_bound. rewrite bare_evL. split; [eapply mergeable_incl; [exact five_mergeable|fold e1A; in_five]|]. split; [vm_compute; repeat constructor|]. split; vm_compute; reflexivity.
Qed.
Definition hssL : list (list chain) := [chains (text_for [w2; ta]) [(2%nat, o2, RGA_FORM_UUID)]; []; chains (text_for [tb]) p2; []; []; chains (text_for [tr]) p2].
Lemma stored_L : stored_of textL [ROk; ROk; ROk; ROk; ROk; ROk] hssL.
Proof. unfold stored_of, textL, hssL. cbn [combine]. stored_frame. stored_none. stored_frame. stored_none. stored_none. stored_frame. apply Forall2_nil. Qed.
Lemma apart_short us hs : (List.length hs <= 1)%nat -> apart us hs.
Proof.
  intro L. split.
  - intros a g b h c E. apply (f_equal (@List.length chain)) in E. rewrite app_length in E. cbn [List.length] in E. rewrite app_length in E. cbn [List.length] in E. lia.
  - left. destruct hs as [|x [|y hs]]; [constructor|constructor|cbn in L; lia].
Qed.
Lemma apart_shorts us hss : forallb (fun hs : list chain => (List.length hs <=? 1)%nat) hss = true -> Forall (apart us) hss.
Proof. intro H. rewrite forallb_forall in H. apply Forall_forall. intros hs I. apply apart_short, Nat.leb_le. exact (H hs I). Qed.
(* the hypotheses of C72_state, the pieces and what is read: b comes before a, as
   it is later, and the removal comes right after a *)
Example C72_state_case :
  livesT 0 [at_time "1+A"] yarnA false textL [ROk; ROk; ROk; ROk; ROk; ROk] evL doneL /\
  stored_of textL [ROk; ROk; ROk; ROk; ROk; ROk] hssL /\ Forall (apart (e1A :: map bare evL)) hssL /\
  e1A :: says_ops (List.concat hssL) = five /\ belongs five tr o2 RGA_FORM_UUID /\ uuid2form RGA_FORM_UUID = RGA_RDT_FORM /\
  in_three (cell_at (br_main doneL) (key_as o2 RGA_FORM_UUID)) /\
  rocks_read one_float 100 (br_main doneL) (key_as o2 RGA_FORM_UUID) = Done (txt "@2+A :rga,
@7+A 'b',
@3+A :2+A 'a',
@9+A rm;
", KOk).
Proof.
  split; [exact lives_L|]. split; [exact stored_L|]. split; [apply apart_shorts; vm_compute; reflexivity|]. split; [vm_compute; reflexivity|]. split.
  { apply (bl_next five tr ta); [unfold five; cbn [In]; auto 9|vm_compute; reflexivity|reflexivity|]. apply (bl_next five ta w2); [unfold five; cbn [In]; auto 9|vm_compute; reflexivity|reflexivity|].
    apply (bl_root five w2); [unfold five; cbn [In]; auto|vm_compute; reflexivity]. }
  split; [vm_compute; reflexivity|]. split; [right; vm_compute; repeat constructor|vm_compute; reflexivity].
Qed.

(* ---- where it fails ---- *)
(* Each frame adds a piece to a text, and a text in more than three pieces cannot
   be read: a branch takes four changes of a text and can then tell nothing of it,
   until the pieces are merged. All the pieces cannot be merged at once. *)
Definition changes : list bevent :=
  [rec "1+A" "@2+A :rga; @3+A :2+A ('abc');"; BOpen 0; rec "5+A" "@7+A :3000000002+A ('xy');"; BOpen 0; rec "8+A" "@9+A :3+A rm;"; BOpen 0].
Theorem C72_pieces_refuted : exists f,
  statuses (changes ++ [f]) = [ROk; ROk; ROk; ROk; ROk; ROk; ROk] /\
  told_text changes "@2-A :txt?" = Some (ROk, Some "@2-A :txt 'bcxy';
") /\
  ~ in_three (cell_at (br_main (branch_of (runA openA (changes ++ [f])))) text2) /\
  rocks_read one_float 100 (br_main (branch_of (runA openA (changes ++ [f])))) text2 = Done ([], KDbFail) /\
  told_text (changes ++ [f]) "@2-A :txt?" = Some (RDbFail, Some "") /\
  kept_text (changes ++ [f; BCompact text2 (CPartial 0 2)]) = Some "@2+A :rga,
@3+A 'a',
@9+A rm,
@3000000001+A :3+A ('bc'),
@7+A ('xy'),
@B+A 'z';
" /\
  told_text (changes ++ [f; BCompact text2 (CFull 4)]) "@2-A :txt?" = Some (RDbFail, Some "").
Proof.
  exists (rec "A+A" "@B+A :7000000001+A 'z';"). split; [vm_compute; reflexivity|]. split; [vm_compute; reflexivity|].
  split; [intros [K|K]; vm_compute in K; [discriminate K|repeat apply le_S_n in K; inversion K]|].
  split; [vm_compute; reflexivity|]. split; [vm_compute; reflexivity|]. split; vm_compute; reflexivity.
Qed.
Print Assumptions C72_case.
Print Assumptions C72_state_case.
Print Assumptions C72_pieces_refuted.
