(* Texts merged in steps: concrete cases and counterexamples for C83. *)
From Coq Require Import String Sorted Permutation.
From Verif Require Import Prelude UuidModel UuidProofs KeyModel CodecModel TextTable TextModel TextSpec BuilderSpec BuilderProofs MergeModel MergeSpec MergeTextModel TextMergeSpec TextMerge TextMergeTheorems
  StoreModel HashModel MetaModel ClockModel ReplicaModel ReplicaSpec ReplicaProofs ReplicaTheorems StoreSpec StoreTheorems RocksModel RocksSpec RocksProofs
  HashCases MetaCases Txt MergeCases TextMergeCases StoreCases JoinCases ReplicaCases BranchModel BranchSpec BranchProofs BranchTheorems BranchCases
  DurableSpec DurableProofs DurableTheorems DurableCases CodecTheorems LogCases YarnSpec YarnTheorems YarnCases AnswerModel AnswerCases ScanModel ScanSpec TextAnswerSpec TextObjSpec TextObjProofs TextObjTheorems TextAnswerCases StepsTheorems StepsStore.
Open Scope string_scope.
Open Scope N_scope.
Open Scope list_scope.

Definition letter (id ref : string) (c : N) : uop := mkUop (ev id) (ev ref) [VStr (Some [c])].
Definition P0 : list uop := [mkUop (ev "2+A") RGA_FORM_UUID []; letter "3+A" "2+A" 97].
Definition P1 : list uop := [letter "4+B" "3+A" 98].
Definition P2 : list uop := [letter "5+A" "2+A" 99].
Definition P3 : list uop := [letter "6+C" "4+B" 100; letter "7+C" "6+C" 101].
Definition P4 : list uop := [letter "8+A" "6+C" 120].
Definition tree1 (us : list uop) : tree := match chunk_of us with a :: b :: _ => Node a [Node b []] | a :: _ => Node a [] | [] => Node (unbare (mkUop NIL NIL [])) [] end.
Definition five : list (list uop) := [P0; P1; P2; P3; P4].
Definition all5 : list uop := List.concat five.
Notation get p := (carried one_float 100 p).
Definition piece (us : list uop) : plan := Piece (text_for us).
(* at once, or two pieces that hang on a third: refused *)
Theorem C83_refused_refuted :
  get (Step (map piece five)) = Done None /\ get (Step [piece P1; piece P2]) = Done None /\ get (Step [piece P0; Step [piece P1; piece P2]; piece P3]) = Done None.
Proof. split; [vm_compute; reflexivity|]. split; vm_compute; reflexivity. Qed.
Print Assumptions C83_refused_refuted.

Lemma says5 us : In us five -> frame_says (text_for us) (listing (tree1 us)).
Proof.
  intro I. split.
  - apply frame_of_us; cbn [five In] in I; repeat (destruct I as [<-|I]); try contradiction; try (vm_compute; reflexivity); vm_compute; discriminate.
  - cbn [five In] in I; repeat (destruct I as [<-|I]); try contradiction; vm_compute; reflexivity.
Qed.
Lemma causal5 us : In us five -> causal (tree1 us).
Proof.
  intro I. cbn [five In] in I. repeat (destruct I as [<-|I]); try contradiction; cbn [tree1];
    (constructor; [repeat (apply Forall_cons; [split; [constructor; constructor|split; vm_compute; reflexivity]|]); constructor|repeat constructor]).
Qed.
Lemma mergeable5 : mergeable all5.
Proof.
  apply mergeableb_ok; [vm_compute; reflexivity|]. assert (ND : nodupb (map u_id all5) = true) by (vm_compute; reflexivity). apply nodupb_ok in ND.
  revert ND. generalize all5. induction l as [|u us IH]; intros ND a b IA IB E; [destruct IA|]. cbn [map] in ND. inversion ND as [|? ? N1 N2]; subst.
  destruct IA as [<-|IA], IB as [<-|IB]; [reflexivity| | |apply IH; assumption]; exfalso; apply N1; [rewrite E|rewrite <- E]; apply in_map; assumption.
Qed.
Definition refs_back (us : list uop) : bool := forallb (fun u => forallb (fun v => negb (uuid_eqb (u_ref u) (u_id v)) || uuid_ltb (u_id v) (u_id u)) us) us.
Lemma apt5 : apt 100 all5.
Proof.
  split; [exact mergeable5|]. split; [apply nodupb_ok; vm_compute; reflexivity|]. split.
  { assert (B : refs_back all5 = true) by (vm_compute; reflexivity). intros u v I J E. unfold refs_back in B. rewrite forallb_forall in B. specialize (B u I). cbv beta in B. rewrite forallb_forall in B. specialize (B v J). cbv beta in B.
    rewrite E, (proj2 (uuid_eqb_eq _ _) eq_refl) in B. exact B. }
  split; [vm_compute; repeat constructor|]. split; vm_compute; reflexivity.
Qed.
(* the hypotheses of C83_in_turn, and two plans that are carried out *)
Example C83_case : let fs := map text_for five in let ts := map tree1 five in
  Forall2 (fun f t => frame_says f (listing t)) fs ts /\ Forall causal ts /\ apt 100 (map bare (flat_map listing ts)) /\ StronglySorted older ts /\
  Forall (fun s => In (r_ref (root s)) (ids (flat_map listing ts))) (tl ts) /\
  exists g, get (in_turn (text_for P0) (map text_for [P1; P2; P3; P4])) = Done (Some g) /\ get (Step [Step [piece P4; piece P3]; piece P2; Step [piece P1; piece P0]]) = Done (Some g) /\
    map r_vals (fst (scan 20 (cursor_of g))) = [[]; [VStr (Some [99])]; [VStr (Some [97])]; [VStr (Some [98])]; [VStr (Some [100])]; [VStr (Some [120])]; [VStr (Some [101])]].
Proof.
  cbv zeta. split; [|split; [|split; [|split; [|split]]]].
  - cbn [five map]. repeat (constructor; [apply says5; cbn [five In]; tauto|]). constructor.
  - apply Forall_forall. intros t I. apply in_map_iff in I as (us & <- & I). apply causal5. exact I.
  - assert (E : map bare (flat_map listing (map tree1 five)) = all5) by (vm_compute; reflexivity). rewrite E. exact apt5.
  - cbn [five map]. repeat (apply SSorted_cons; [|repeat (apply Forall_cons; [vm_compute; reflexivity|]); constructor]). constructor.
  - cbn [five map tl]. repeat (apply Forall_cons; [vm_compute; tauto|]). constructor.
  - exists (match get (in_turn (text_for P0) (map text_for [P1; P2; P3; P4])) with Done (Some g) => g | _ => [] end). split; [vm_compute; reflexivity|]. split; vm_compute; reflexivity.
Qed.

(* five pieces under one key, none of them in the value: the read fails, and five
   compactions of one piece each make it work; the hypotheses of C83_recovers *)
Definition kept2 : key := key_of (ev "2+A") RGA_RDT_FORM.
Definition stored5 : list (key * cell) := [(kept2, mkCell None (map text_for five))].
Example C83_recovers_case : in_order stored5 /\ In kept2 (map fst stored5) /\ key_form kept2 = RGA_RDT_FORM /\
  held (ce_value (cell_at stored5 kept2)) ++ ce_operands (cell_at stored5 kept2) = text_for P0 :: map text_for [P1; P2; P3; P4] /\
  follow (listing (tree1 P0)) (map tree1 [P1; P2; P3; P4]) /\
  (exists s, rocks_read one_float 100 stored5 kept2 = Done s /\ snd s <> KOk) /\
  exists d g, compact_all one_float 100 stored5 kept2 (repeat (CFull 1) 5) = Done d /\ rocks_read one_float 100 d kept2 = Done (g, KOk) /\
    map r_vals (fst (scan 20 (cursor_of g))) = [[]; [VStr (Some [99])]; [VStr (Some [97])]; [VStr (Some [98])]; [VStr (Some [100])]; [VStr (Some [120])]; [VStr (Some [101])]].
Proof.
  split; [repeat constructor|]. split; [left; reflexivity|]. split; [vm_compute; reflexivity|]. split; [vm_compute; reflexivity|].
  split; [cbn [map follow]; repeat (split; [vm_compute; tauto|]); exact I|]. split.
  - exists (match rocks_read one_float 100 stored5 kept2 with Done s => s | _ => ([], KOk) end). split; [vm_compute; reflexivity|vm_compute; discriminate].
  - exists (match compact_all one_float 100 stored5 kept2 (repeat (CFull 1) 5) with Done d => d | _ => [] end).
    exists (match compact_all one_float 100 stored5 kept2 (repeat (CFull 1) 5) with Done d => match rocks_read one_float 100 d kept2 with Done (g, _) => g | _ => [] end | _ => [] end).
    do 2 (split; [vm_compute; reflexivity|]). vm_compute; reflexivity.
Qed.
(* pieces that came before the one they hang on: compacting the oldest piece
   changes nothing however often, and the read goes on failing *)
Definition stuck5 : list (key * cell) := [(kept2, mkCell (Some (text_for P1)) (map text_for [P2; P0; P3; P4]))].
Theorem C83_recovers_refuted :
  (forall n, compact_all one_float 100 stuck5 kept2 (repeat (CFull 1) n) = Done stuck5) /\ exists s, rocks_read one_float 100 stuck5 kept2 = Done s /\ snd s <> KOk.
Proof.
  split.
  - assert (E : compact one_float 100 stuck5 kept2 (CFull 1) = Done stuck5) by (vm_compute; reflexivity).
    induction n as [|n IH]; [reflexivity|]. cbn [repeat compact_all]. rewrite E. cbn [rbind]. exact IH.
  - exists (match rocks_read one_float 100 stuck5 kept2 with Done s => s | _ => ([], KOk) end). split; [vm_compute; reflexivity|vm_compute; discriminate].
Qed.
Print Assumptions C83_recovers_refuted.

(* the hypotheses of C83_never_lost: five writes, with compactions of which some
   do nothing; the text cannot be read at the end *)
Definition history5 : list revent :=
  [RWrite kept2 (text_for P0); RWrite kept2 (text_for P1); RCompact kept2 (CPartial 0 2); RWrite kept2 (text_for P2); RWrite kept2 (text_for P3); RCompact kept2 (CPartial 1 2); RWrite kept2 (text_for P4)].
Example C83_never_lost_case : Forall2 (fun f t => frame_says f (listing t)) (put_under kept2 history5) (map tree1 five) /\ in_turns (map tree1 five) /\
  exists d, rrun one_float 100 [] history5 = Done d /\ List.length (ce_operands (cell_at d kept2)) = 4%nat /\ rocks_read one_float 100 d kept2 = Done ([], KDbFail) /\
  exists d' g, rrun one_float 100 d (repeat (RCompact kept2 (CFull 1)) 4) = Done d' /\ rocks_read one_float 100 d' kept2 = Done (g, KOk) /\ List.length (fst (scan 20 (cursor_of g))) = 7%nat.
Proof.
  split; [|split].
  - assert (E : put_under kept2 history5 = map text_for five) by (vm_compute; reflexivity). rewrite E. cbn [five map]. repeat (constructor; [apply says5; cbn [five In]; tauto|]). constructor.
  - cbn [five map in_turns follow]. repeat (split; [vm_compute; tauto|]). exact I.
  - exists (match rrun one_float 100 [] history5 with Done d => d | _ => [] end). do 3 (split; [vm_compute; reflexivity|]).
    exists (match rrun one_float 100 [] (history5 ++ repeat (RCompact kept2 (CFull 1)) 4) with Done d => d | _ => [] end).
    exists (match rrun one_float 100 [] (history5 ++ repeat (RCompact kept2 (CFull 1)) 4) with Done d => match rocks_read one_float 100 d kept2 with Done (g, _) => g | _ => [] end | _ => [] end).
    do 2 (split; [vm_compute; reflexivity|]). vm_compute; reflexivity.
Qed.

(* Without the order it can be lost for good: of four pieces that hang on one
   another in a row, written as second, fourth, first, third, no compaction ever
   makes the text readable. *)
Definition Q1 : list uop := [letter "4+B" "3+A" 98].
Definition Q2 : list uop := [letter "5+A" "4+B" 99].
Definition Q3 : list uop := [letter "6+C" "5+A" 100].
Definition mixed : list bytes := map text_for [Q1; Q3; P0; Q2].
Definition lostA : list (key * cell) := [(kept2, mkCell None mixed)].
Definition lostB : list (key * cell) := [(kept2, mkCell (Some (text_for Q1)) (map text_for [Q3; P0; Q2]))].
Definition lost (d : list (key * cell)) : Prop := d = lostA \/ d = lostB.
Lemma stay_lost d e : lost d -> exists d', compact one_float 100 d kept2 e = Done d' /\ lost d'.
Proof.
  intros [-> | ->]; destruct e as [i n|n].
  - exists lostA. split; [|left; reflexivity]. destruct i as [|[|[|[|[|i]]]]]; destruct n as [|[|[|[|[|n]]]]]; vm_compute; reflexivity.
  - destruct n as [|[|n]]; [exists lostA; split; [vm_compute; reflexivity|left; reflexivity]|exists lostB; split; [vm_compute; reflexivity|right; reflexivity]|].
    exists lostA. split; [|left; reflexivity]. destruct n as [|[|[|n]]]; vm_compute; reflexivity.
  - exists lostB. split; [|right; reflexivity]. destruct i as [|[|[|[|i]]]]; destruct n as [|[|[|[|[|n]]]]]; vm_compute; reflexivity.
  - exists lostB. split; [|right; reflexivity]. destruct n as [|[|[|[|n]]]]; vm_compute; reflexivity.
Qed.
Theorem C83_never_lost_refuted : put_under kept2 (map (RWrite kept2) mixed) = map text_for [Q1; Q3; P0; Q2] /\
  (exists g, get (in_turn (text_for P0) (map text_for [Q1; Q2; Q3])) = Done (Some g)) /\
  forall es, exists d, rrun one_float 100 [] (map (RWrite kept2) mixed ++ map (RCompact kept2) es) = Done d /\ rocks_read one_float 100 d kept2 = Done ([], KDbFail).
Proof.
  split; [vm_compute; reflexivity|]. split.
  { exists (match get (in_turn (text_for P0) (map text_for [Q1; Q2; Q3])) with Done (Some g) => g | _ => [] end). vm_compute; reflexivity. }
  intro es. assert (E0 : rrun one_float 100 [] (map (RWrite kept2) mixed ++ map (RCompact kept2) es) = rrun one_float 100 lostA (map (RCompact kept2) es)).
  { assert (E : map (RWrite kept2) mixed = [RWrite kept2 (text_for Q1); RWrite kept2 (text_for Q3); RWrite kept2 (text_for P0); RWrite kept2 (text_for Q2)]) by reflexivity.
    rewrite E. cbn [app rrun rstep rbind]. assert (E2 : fst (rocks_write (fst (rocks_write (fst (rocks_write (fst (rocks_write [] kept2 (text_for Q1))) kept2 (text_for Q3))) kept2 (text_for P0))) kept2 (text_for Q2)) = lostA) by (vm_compute; reflexivity).
    rewrite E2. reflexivity. }
  rewrite E0. assert (L : lost lostA) by (left; reflexivity). revert L. generalize lostA. clear E0. induction es as [|e es IH]; intros d L.
  - exists d. split; [reflexivity|]. destruct L as [-> | ->]; vm_compute; reflexivity.
  - destruct (stay_lost d e L) as (d' & E & L'). cbn [map rrun rstep]. rewrite E. cbn [rbind]. apply IH. exact L'.
Qed.
Print Assumptions C83_never_lost_refuted.
