(* Queries for texts: concrete cases and counterexamples for C53. *)
From Coq Require Import String Sorted Permutation.
From Verif Require Import Prelude UuidModel UuidProofs KeyModel CodecModel TextTable TextModel TextSpec BuilderSpec BuilderProofs MergeModel MergeSpec MergeTextModel TextMergeSpec TextCursors TextMerge TextMergeTheorems
  StoreModel HashModel MetaModel ClockModel ReplicaModel ReplicaSpec ReplicaProofs ReplicaTheorems StoreSpec StoreTheorems RocksModel RocksSpec RocksProofs
  HashCases MetaCases Txt MergeCases TextMergeCases StoreCases JoinCases ReplicaCases BranchModel BranchSpec BranchProofs BranchTheorems BranchCases
  DurableSpec DurableProofs DurableTheorems DurableCases AnswerModel AnswerSpec AnswerTheorems AnswerCases LogSpec LogCases ScanModel ScanSpec TextAnswerSpec TextAnswerTheorems.
Open Scope string_scope.
Open Scope N_scope.
Open Scope list_scope.

(* the texts a branch makes of some ops, with the marks *)
Lemma text_for_marked us : mergeable us -> N.of_nat (List.length us) < 2 ^ 32 - 1 ->
  frame_marked canon (text_for us) (chunk_of us) (in_runs origin_op (map UAppend us ++ [UEnd RAW])).
Proof.
  intros M L. destruct (build_calls_marked (map UAppend us ++ [UEnd RAW])%list canon_writes) as (t & E & F).
  - apply (mergeable_good us); [exact M|intros u I; exact I].
  - rewrite app_length, map_length. cbn [List.length]. lia.
  - unfold text_for. rewrite E. exact F.
Qed.

(* abc is written, xy goes on after c, a is taken away *)
Definition written : list bevent :=
  [rec "1+A" "@2+A :rga; @3+A :2+A ('abc');"; BOpen 0; rec "5+A" "@7+A :3000000002+A ('xy');"; BOpen 0; rec "8+A" "@9+A :3+A rm;"].
Definition ch (c : N) : list value := [VStr (Some [c])].
Definition w2 := mkUop (ev "2+A") RGA_FORM_UUID [].
Definition wa := mkUop (ev "3+A") (ev "2+A") (ch 97).
Definition wb := mkUop (ev "3000000001+A") (ev "3+A") (ch 98).
Definition wc := mkUop (ev "3000000002+A") (ev "3000000001+A") (ch 99).
Definition wx := mkUop (ev "7+A") (ev "3000000002+A") (ch 120).
Definition wy := mkUop (ev "7000000001+A") (ev "7+A") (ch 121).
Definition wr := mkUop (ev "9+A") (ev "3+A") [VUuid rm].
Definition piece1 := [w2; wa; wb; wc].
Definition piece2 := [wx; wy].
Definition piece3 := [wr].
Definition whole := [w2; wa; wr; wb; wc; wx; wy].
Definition nth_op (us : list uop) (i : nat) : rop := nth i (chunk_of us) askq.
Definition tr1 := Node (nth_op piece1 0) [Node (nth_op piece1 1) [Node (nth_op piece1 2) [Node (nth_op piece1 3) []]]].
Definition tr2 := Node (nth_op piece2 0) [Node (nth_op piece2 1) []].
Definition tr3 := Node (nth_op piece3 0) [].
Definition trT := Node (nth_op piece1 0) [Node (nth_op piece1 1) [Node (nth_op piece3 0) [];
  Node (nth_op piece1 2) [Node (nth_op piece1 3) [Node (nth_op piece2 0) [Node (nth_op piece2 1) []]]]]].
Definition trV := Node (nth_op whole 0) [Node (nth_op whole 1) [Node (nth_op whole 2) [];
  Node (nth_op whole 3) [Node (nth_op whole 4) [Node (nth_op whole 5) [Node (nth_op whole 6) []]]]]].
Definition textq : rop := query (derived (ev "2+A")) TXT_MAP_ID.
Definition writtenb : branch := branch_of (runA openA written).
Definition answer1 : bytes := txt "@2-A :txt 'bcxy';
".

Lemma whole_mergeable : mergeable whole.
Proof.
  apply mergeableb_ok; [vm_compute; reflexivity|]. intros a b IA IB E. unfold whole in IA, IB. cbn [In] in IA, IB.
  repeat (destruct IA as [<-|IA]; [repeat (destruct IB as [<-|IB]; [first [reflexivity | vm_compute in E; discriminate E]|]); destruct IB|]). destruct IA.
Qed.
Lemma trV_tree : rga_tree trV.
Proof.
  split; [|split; [vm_compute; reflexivity|split; [|vm_compute; reflexivity]]].
  - unfold trV. repeat first [apply linked_node | apply Forall_nil | apply Forall_cons | split; [|split; vm_compute; reflexivity]].
  - apply Forall_forall. intros x H. unfold trV in H. cbn [listing flat_map app] in H.
    repeat (destruct H as [<-|H]; [vm_compute; reflexivity|]). destruct H.
Qed.
Lemma trV_layers : map (fun p => (layer_of (at_ p), rank (at_ p), List.length (target (at_ p)))) (places [] trV) =
  [(LRoot, 1, 0); (LElement, 1, 1); (LRemove, 1, 2); (LElement, 2, 0); (LElement, 3, 0); (LElement, 4, 0); (LElement, 5, 0)]%nat.
Proof. vm_compute. reflexivity. Qed.
Lemma trV_stray p : In p (places [] trV) -> ~ stray p.
Proof.
  intros IP (T & K). pose proof (in_map (fun p => (layer_of (at_ p), rank (at_ p), List.length (target (at_ p)))) _ _ IP) as M.
  rewrite trV_layers in M. cbv beta in M. rewrite T in M. cbn [List.length] in M.
  assert (KL : layer_of (at_ p) = LUndo \/ layer_of (at_ p) = LRemove) by (destruct K as [K|[K _]]; [left|right]; exact K).
  cbn [In] in M. destruct M as [M|[M|[M|[M|[M|[M|[M|M]]]]]]]; try contradiction; try discriminate;
    destruct KL as [KL|KL]; congruence.
Qed.
Lemma char_piece o c : r_vals o = ch c -> c < 2 ^ 21 -> c <> 0 -> c <> 12 -> piece o.
Proof. intros E L Z F. exists [c]. split; [exact E|]. cbn [value_ok]. constructor; [auto|constructor]. Qed.
Lemma trV_hidden : Forall2 (fun p (m : bool) => hidden p \/ (m = true /\ piece (root (snd p)))) (places [] trV) [false; false; false; true; true; true; true].
Proof.
  unfold trV. cbn [places flat_map app].
  apply Forall2_cons; [left; left; vm_compute; discriminate|].
  apply Forall2_cons.
  { left. right. exists ([nth_op whole 1; nth_op whole 0], Node (nth_op whole 2) []). split; [cbn [fst snd places flat_map app In]; right; left; reflexivity|].
    split; [|vm_compute; reflexivity]. split; [vm_compute; reflexivity|]. intros [R _].
    assert (E : rank (at_ ([nth_op whole 1; nth_op whole 0], Node (nth_op whole 2) [])) = 1%nat) by (vm_compute; reflexivity). rewrite E in R. lia. }
  apply Forall2_cons; [left; left; vm_compute; discriminate|].
  apply Forall2_cons; [right; split; [reflexivity|apply (char_piece _ 98); [reflexivity|lia..]]|].
  apply Forall2_cons; [right; split; [reflexivity|apply (char_piece _ 99); [reflexivity|lia..]]|].
  apply Forall2_cons; [right; split; [reflexivity|apply (char_piece _ 120); [reflexivity|lia..]]|].
  apply Forall2_cons; [right; split; [reflexivity|apply (char_piece _ 121); [reflexivity|lia..]]|].
  apply Forall2_nil.
Qed.
Lemma whole_marks : in_runs origin_op (map UAppend whole ++ [UEnd RAW]) = [false; false; false; true; true; true; true].
Proof. vm_compute. reflexivity. Qed.

(* the hypotheses of C53_text, C53_runs, and the answer *)
Example C53_case :
  runA openA written = Done (writtenb, [ROk; ROk; ROk; ROk; ROk]) /\
  frame_lit canon (ask_for (derived (ev "2+A")) TXT_MAP_ID) [textq] /\ ask_for (derived (ev "2+A")) TXT_MAP_ID = txt "@2-A :txt?
" /\
  text_query textq /\ id_ok (r_id textq) /\ object_of textq = ev "2+A" /\
  rocks_read one_float 100 (br_main writtenb) (text_key textq) = Done (text_for whole, KOk) /\
  frame_marked canon (text_for whole) (listing trV) [false; false; false; true; true; true; true] /\ N.of_nat (List.length (text_for whole)) < 2 ^ 32 /\
  rga_tree trV /\ (forall p, In p (places [] trV) -> ~ stray p) /\ (forall p, In p (places [] trV) -> hidden p \/ piece (root (snd p))) /\
  Forall2 (fun p (m : bool) => hidden p \/ m = true) (places [] trV) [false; false; false; true; true; true; true] /\
  askA writtenb (txt "@2-A :txt?
") = Done (writtenb, ROk, Some answer1).
Proof.
  split; [vm_compute; reflexivity|]. split.
  { apply ask_for_ok; [split; [vm_compute; repeat split|vm_compute; reflexivity]|split; [vm_compute; repeat split|vm_compute; reflexivity]|vm_compute; discriminate]. }
  split; [vm_compute; reflexivity|]. split; [split; [vm_compute; reflexivity|split; [reflexivity|vm_compute; reflexivity]]|].
  split; [split; [vm_compute; repeat split|vm_compute; reflexivity]|]. split; [vm_compute; reflexivity|]. split; [vm_compute; reflexivity|]. split.
  { assert (E : listing trV = chunk_of whole) by (vm_compute; reflexivity). rewrite E, <- whole_marks.
    apply text_for_marked; [exact whole_mergeable|vm_compute; reflexivity]. }
  split; [vm_compute; reflexivity|]. split; [exact trV_tree|]. split; [exact trV_stray|]. split.
  { pose proof trV_hidden as H. intros p IP. revert IP. induction H as [|q m qs ms K F IH]; intro IP; [destruct IP|]. destruct IP as [<-|IP]; [tauto|apply IH; exact IP]. }
  split; [|vm_compute; reflexivity].
  pose proof trV_hidden as H. induction H as [|q m qs ms K F IH]; constructor; [tauto|exact IH].
Qed.

(* the hypotheses of C53_merged: the same branch, the frames it keeps *)
Example C53_merged_case :
  let c := cell_at (br_main writtenb) (text_key textq) in
  let U := flat_map listing [tr1; tr2; tr3] in
  ce_value c = None /\ ce_operands c = [text_for piece1; text_for piece2; text_for piece3] /\
  Forall2 (fun f t => frame_lit canon f (listing t)) [text_for piece1; text_for piece2; text_for piece3] [tr1; tr2; tr3] /\
  Forall small [text_for piece1; text_for piece2; text_for piece3] /\ Forall causal [tr1; tr2; tr3] /\ NoDup (ids U) /\
  (forall o o', In o U -> In o' U -> r_ref o = r_id o' -> uuid_ltb (r_id o') (r_id o) = true) /\
  mergeable (map bare U) /\ (List.length U < 100)%nat /\ N.of_nat (room (map bare (listing trT))) < 2 ^ 32 /\
  (forall t, In t [tr1; tr2; tr3] -> (forall t', In t' [tr1; tr2; tr3] -> uuid_ltb (r_id (root t')) (r_id (root t)) = false) \/ In (r_ref (root t)) (ids U)) /\
  causal trT /\ Permutation (listing trT) U /\ listing trV = chunk_of (map bare (listing trT)).
Proof.
  intros c U. split; [vm_compute; reflexivity|]. split; [vm_compute; reflexivity|].
  assert (EU : map bare U = piece1 ++ piece2 ++ piece3) by (vm_compute; reflexivity).
  assert (MU : mergeable (map bare U)).
  { rewrite EU. apply (mergeable_incl _ _ whole_mergeable). intros u I. unfold piece1, piece2, piece3 in I. cbn [app In] in I. unfold whole. cbn [In]. tauto. }
  split.
  { assert (K : forall us t, listing t = chunk_of us -> incl us whole -> build_calls (map UAppend us ++ [UEnd RAW]) <> None -> N.of_nat (List.length us) < 2 ^ 32 - 1 ->
        frame_lit canon (text_for us) (listing t)).
    { intros us t E I B L. rewrite E. apply text_for_ok; [apply (mergeable_incl _ _ whole_mergeable I)|exact B|exact L]. }
    constructor; [|constructor; [|constructor; [|constructor]]]; (apply K; [vm_compute; reflexivity| |vm_compute; discriminate|vm_compute; reflexivity]);
      intros u I; unfold piece1, piece2, piece3 in I; cbn [In] in I; unfold whole; cbn [In]; tauto. }
  split; [repeat apply Forall_cons; try apply Forall_nil; vm_compute; reflexivity|]. split.
  { repeat first [apply causal_node | apply SSorted_nil | apply SSorted_cons | apply Forall_nil | apply Forall_cons | split; [|split; vm_compute; reflexivity]]. }
  split; [apply nodupb_ok; vm_compute; reflexivity|]. split; [intros o o' IO IO' E; refine (backwardsb_ok U _ o' o IO' IO E); vm_compute; reflexivity|]. split; [exact MU|]. split; [cbn; lia|]. split; [vm_compute; reflexivity|]. split.
  { intros t I. cbn [In] in I. destruct I as [<-|[<-|[<-|[]]]].
    - left. intros t' J. cbn [In] in J. destruct J as [<-|[<-|[<-|[]]]]; vm_compute; reflexivity.
    - right. vm_compute. tauto.
    - right. vm_compute. tauto. }
  split.
  { unfold trT. repeat first [apply causal_node | apply SSorted_nil | apply SSorted_cons | apply Forall_nil | apply Forall_cons | split; [|split; vm_compute; reflexivity] | vm_compute; reflexivity]. }
  split; [|vm_compute; reflexivity]. unfold U. unfold trT, tr1, tr2, tr3. cbn [listing flat_map app]. do 2 apply perm_skip.
  exact (Permutation_cons_append [nth_op piece1 2; nth_op piece1 3; nth_op piece2 0; nth_op piece2 1] (nth_op piece3 0)).
Qed.

(* What is not so. A character that is not in a span, here one typed between
   a, b and c, ends the text: neither it nor what comes after it is told,
   though nothing is taken away. *)
Definition told_text (es : list bevent) (f : string) := told (askA (branch_of (runA openA es)) (txt f)).
Definition kept_text (es : list bevent) : option string :=
  match rocks_read one_float 100 (br_main (branch_of (runA openA es))) (text_key textq) with Done (t, KOk) => Some (untxt t) | _ => None end.
Definition statuses (es : list bevent) : list rstatus := match runA openA es with Done (_, s) => s | _ => [] end.
Theorem C53_lone_refuted : exists es,
  statuses es = [ROk; ROk; ROk] /\ kept_text es = Some "@2+A :rga,
@3+A ('ab'),
@7+A 'x',
@3000000002+A :3000000001+A ('cd');
" /\ told_text es "@2-A :txt?" = Some (ROk, Some "@2-A :txt 'ab';
").
Proof.
  exists [rec "1+A" "@2+A :rga; @3+A :2+A ('abcd');"; BOpen 0; rec "5+A" "@7+A :3000000001+A 'x';"].
  split; [vm_compute; reflexivity|]. split; vm_compute; reflexivity.
Qed.
Print Assumptions C53_lone_refuted.

(* a text of words, not of characters, is told as empty *)
Theorem C53_words_refuted : exists es,
  statuses es = [ROk] /\ kept_text es = Some "@2+A :rga,
@3+A 'hello',
@4+A 'world';
" /\ told_text es "@2-A :txt?" = Some (ROk, Some "@2-A :txt '';
").
Proof.
  exists [rec "1+A" "@2+A :rga; @3+A :2+A 'hello'; @4+A :3+A 'world';"].
  split; [vm_compute; reflexivity|]. split; vm_compute; reflexivity.
Qed.
Print Assumptions C53_words_refuted.

(* the hypotheses of C53_undefined, both ways: three removals in a row, an
   element without a value; both are taken as any events *)
Definition ww := mkUop (ev "4+A") (ev "3+A") [].
Definition empty_us := [w2; wa; ww].
Definition empty_tr := Node (nth_op empty_us 0) [Node (nth_op empty_us 1) [Node (nth_op empty_us 2) []]].
Definition empty_life := [rec "1+A" "@2+A :rga; @3+A :2+A 'a'; @4+A :3+A;"].
Definition wr1 := mkUop (ev "4+A") (ev "3+A") [VUuid rm].
Definition wr2 := mkUop (ev "5+A") (ev "4+A") [VUuid rm].
Definition wr3 := mkUop (ev "6+A") (ev "5+A") [VUuid rm].
Definition gone_us := [w2; wa; wr1; wr2; wr3].
Definition gone_tr := Node (nth_op gone_us 0) [Node (nth_op gone_us 1) [Node (nth_op gone_us 2) [Node (nth_op gone_us 3) [Node (nth_op gone_us 4) []]]]].
Definition gone_life := [rec "1+A" "@2+A :rga; @3+A :2+A 'a'; @4+A :3+A rm; @5+A :4+A rm; @6+A :5+A rm;"].
Lemma frame_of_us us t : mergeableb us = true -> nodupb (map u_id us) = true -> build_calls (map UAppend us ++ [UEnd RAW]) <> None -> N.of_nat (List.length us) < 2 ^ 32 - 1 ->
  listing t = chunk_of us -> frame_lit canon (text_for us) (listing t).
Proof.
  intros M ND B L ->. apply text_for_ok; [|exact B|exact L]. apply mergeableb_ok; [exact M|].
  apply nodupb_ok in ND. clear -ND. induction us as [|u us IH]; intros a b IA IB E; [destruct IA|]. cbn [map] in ND. inversion ND as [|? ? N1 N2]; subst.
  destruct IA as [<-|IA], IB as [<-|IB]; [reflexivity| | |auto].
  - exfalso. apply N1. rewrite E. apply in_map. exact IB.
  - exfalso. apply N1. rewrite <- E. apply in_map. exact IA.
Qed.
Example C53_undefined_case :
  (statuses empty_life = [ROk] /\ rocks_read one_float 100 (br_main (branch_of (runA openA empty_life))) (text_key textq) = Done (text_for empty_us, KOk) /\
   frame_lit canon (text_for empty_us) (listing empty_tr) /\ rga_tree empty_tr /\
   (exists p, In p (places [] empty_tr) /\ ~ hidden p /\ r_vals (root (snd p)) = []) /\
   askA (branch_of (runA openA empty_life)) (txt "@2-A :txt?") = Aborted) /\
  (statuses gone_life = [ROk] /\ rocks_read one_float 100 (br_main (branch_of (runA openA gone_life))) (text_key textq) = Done (text_for gone_us, KOk) /\
   frame_lit canon (text_for gone_us) (listing gone_tr) /\ rga_tree gone_tr /\
   (exists p, In p (places [] gone_tr) /\ stray p) /\
   askA (branch_of (runA openA gone_life)) (txt "@2-A :txt?") = Aborted).
Proof.
  split.
  - split; [vm_compute; reflexivity|]. split; [vm_compute; reflexivity|]. split; [apply frame_of_us; [vm_compute; reflexivity..|vm_compute; discriminate|vm_compute; reflexivity|vm_compute; reflexivity]|].
    split.
    { split; [|split; [vm_compute; reflexivity|split; [|vm_compute; reflexivity]]].
      + unfold empty_tr. repeat first [apply linked_node | apply Forall_nil | apply Forall_cons | split; [|split; vm_compute; reflexivity]].
      + apply Forall_forall. intros x H. unfold empty_tr in H. cbn [listing flat_map app] in H. repeat (destruct H as [<-|H]; [vm_compute; reflexivity|]). destruct H. }
    split; [|vm_compute; reflexivity]. exists ([nth_op empty_us 1; nth_op empty_us 0], Node (nth_op empty_us 2) []). split; [cbn [places flat_map app In]; unfold empty_tr; cbn; tauto|].
    split; [|vm_compute; reflexivity]. intros [H|(q & I & [Q _] & _)]; [apply H; vm_compute; reflexivity|].
    cbn [fst snd places flat_map app In] in I. destruct I as [<-|[]]. vm_compute in Q. discriminate.
  - split; [vm_compute; reflexivity|]. split; [vm_compute; reflexivity|]. split; [apply frame_of_us; [vm_compute; reflexivity..|vm_compute; discriminate|vm_compute; reflexivity|vm_compute; reflexivity]|].
    split.
    { split; [|split; [vm_compute; reflexivity|split; [|vm_compute; reflexivity]]].
      + unfold gone_tr. repeat first [apply linked_node | apply Forall_nil | apply Forall_cons | split; [|split; vm_compute; reflexivity]].
      + apply Forall_forall. intros x H. unfold gone_tr in H. cbn [listing flat_map app] in H. repeat (destruct H as [<-|H]; [vm_compute; reflexivity|]). destruct H. }
    split; [|vm_compute; reflexivity].
    exists ([nth_op gone_us 3; nth_op gone_us 2; nth_op gone_us 1; nth_op gone_us 0], Node (nth_op gone_us 4) []). split; [unfold gone_tr; cbn [places flat_map app In]; tauto|].
    split; [vm_compute; reflexivity|]. right. split; [vm_compute; reflexivity|]. intros (_ & q & I & Q & _). cbn [fst snd places flat_map app In] in I. destruct I as [<-|[]]. vm_compute in Q. discriminate.
Qed.

(* the branch goes down on a frame that every check lets in: a witness of both *)
Theorem C53_abort_refuted : exists es, statuses es = [ROk] /\ told_text es "@2-A :txt?" = None /\ kept_text es = Some "@2+A :rga,
@3+A 'a',
@4+A;
".
Proof. exists empty_life. split; [vm_compute; reflexivity|]. split; vm_compute; reflexivity. Qed.
Print Assumptions C53_abort_refuted.
