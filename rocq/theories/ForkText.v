(* C49: the text objects of a fork. *)
From Coq Require Import Sorted Permutation.
From Verif Require ClockTheorems.
From Verif Require Import Prelude UuidModel UuidProofs KeyModel KeyProofs CodecModel TextModel TextSpec BuilderSpec BuilderProofs FrameProofs MergeModel MergeSpec MergeProofs RgaProofs RgaTree MergeTextModel
  TextMergeSpec TextCursors MergeKeeps TextMerge SizeProofs TextMergeTheorems StoreModel StoreSpec StoreProofs StoreTheorems RocksModel RocksSpec RocksProofs MetaModel ClockModel
  ReplicaModel ReplicaSpec ReplicaProofs ReplicaTheorems BranchModel BranchSpec BranchProofs BranchTheorems DurableSpec DurableProofs DurableTheorems ForkModel ForkSpec ForkTheorems YarnSpec YarnProofs YarnJoin YarnTheorems
  TextObjSpec TextObjProofs TextObjStory TextObjTheorems StepsTheorems StepsStore TextRecover.

Lemma empty_frame ops : frame_lit canon [] ops -> ops = [].
Proof.
  intro F. remember [] as f eqn:E. destruct F as [s ops w e O _ _]. apply app_eq_nil in E as [-> _]. remember [] as s eqn:E in O. remember NIL as u eqn:EU in O. clear EU. destruct O as [u|u s ops r ops' L _]; [reflexivity|].
  apply app_eq_nil in E as [-> _]. remember [] as s eqn:E in L. destruct L. repeat (apply app_eq_nil in E as [_ E]). discriminate.
Qed.

Section ForkText.
Variable sha : bytes -> bytes.
Variable fbits : bytes -> N.
Variable active : N.
Variable fuel : nat.
Notation rread := (rocks_read fbits fuel).

Lemma lived_tipped now rs yarn tr es ss E b' : lived sha fbits active fuel now rs yarn tr es ss E b' -> exists t, tipped (br_main b') t.
Proof.
  intros (Y & NV & C & EO & (b & s & now1 & s1 & H & R) & _ & _).
  cbn [BranchModel.b_run] in R. apply rbind_done in R as ([b1 s2] & R1 & R). apply rbind_done in R as ([b2 ss2] & R & Q). injection Q as -> -> ->.
  destruct (C47_created sha fbits active fuel _ _ _ _ _ _ Y NV H) as (-> & _ & _ & K). destruct (K _ _ _ R1) as (-> & _ & HT).
  assert (VT : version (branch_id yarn) = TIME) by apply ClockTheorems.time_version.
  destruct (C47_opens sha fbits active fuel _ _ _ _ _ _ VT HT C R) as (_ & t & (T & _)). exists t. exact T.
Qed.

Lemma fork_text now rs yarn tr es ss E b : lived sha fbits active fuel now rs yarn tr es ss E b -> let ev := first_event active now rs yarn tr in
  exists hss, keeps ev ev es ss (concat hss) /\ stored_of es ss hss /\
    forall o r, one_a_step hss o -> grown (stored_text hss o) r -> readable_to fbits fuel (br_main b) (key_of o RGA_RDT_FORM) ->
    forall now2 rs2 yarn2 b2 s, yarn2 <> 0 -> uvalue (first_event active now2 rs2 yarn2 false) < NEVER_W -> b_fork sha fbits active fuel (br_main b) now2 rs2 yarn2 = Done (b2, s) ->
    exists T text text2, apt fuel (stored_text hss o) /\ causal T /\ Permutation (map bare (listing T)) (stored_text hss o) /\
      rread (br_main b) (key_of o RGA_RDT_FORM) = Done (text, KOk) /\ told text (map bare (listing T)) /\ N.of_nat (length text) < 2 ^ 32 /\
      rread (br_main b2) (key_of o RGA_RDT_FORM) = Done (text2, KOk) /\ told text2 (map bare (listing T)) /\ N.of_nat (length text2) < 2 ^ 32.
Proof.
  intros L ev. destruct (lived_tipped _ _ _ _ _ _ _ _ L) as (t & TP).
  destruct (filed_text sha fbits active fuel _ _ _ _ _ _ _ _ L) as (hss & K & ST & R). exists hss. split; [exact K|]. split; [exact ST|].
  intros o r OS GR RT now2 rs2 yarn2 b2 s Y NV FK. destruct (R o r OS GR) as (T & AP & CT & LV & PT & RD & FL). clear R. set (k := key_of o RGA_RDT_FORM) in *. set (us := stored_text hss o) in *.
  assert (KF : key_form k = RGA_RDT_FORM) by (apply key_form_of; reflexivity).
  assert (NK : k <> KEY_END) by (apply form_key_neq; rewrite KF; vm_compute; discriminate).
  assert (NZ : k <> KEY_ZERO) by (apply form_key_neq; rewrite KF; vm_compute; discriminate).
  destruct (fork_cell sha fbits active fuel _ _ _ _ _ _ _ k TP Y NV FK NZ RT) as (b0 & BN & IO & CELL).
  assert (F1 : (1 <= fuel)%nat) by (destruct AP as (_ & _ & _ & LF & _); lia).
  pose proof (start_trees sha fbits active fuel _ _ _ _ _ _ k NV F1 KF BN eq_refl) as [S0 _]. apply trees_none in S0. apply app_eq_nil in S0 as [S1 S2].
  assert (SV : ce_value (cell_at (br_main b0) k) = None) by (destruct (ce_value (cell_at (br_main b0) k)); [discriminate|reflexivity]).
  assert (NE : us <> []) by (intro Q; destruct GR as (_ & IR & _); fold us in IR; rewrite Q in IR; destruct IR).
  assert (I3 : in_three (cell_at (br_main b) k)).
  { destruct (ce_operands (cell_at (br_main b) k)) as [|x l] eqn:EO; [left; exact EO|]. right. destruct (Nat.le_gt_cases (length (held (ce_value (cell_at (br_main b) k)) ++ ce_operands (cell_at (br_main b) k))) 3) as [Q|Q]; [rewrite EO in Q |- *; exact Q|exfalso].
    assert (N3 : ~ in_three (cell_at (br_main b) k)) by (intros [A|A]; [rewrite EO in A; discriminate|lia]). specialize (FL N3).
    unfold rocks_read in FL. rewrite (key_eqb_neq _ _ NK) in FL.
    assert (IK : exists c, In (k, c) (br_main b) /\ cell_at (br_main b) k = c).
    { clear -EO. induction (br_main b) as [|[k1 c1] d IH]; [discriminate|]. cbn [cell_at] in EO |- *. destruct (key_eqb k1 k) eqn:E.
      - apply key_eqb_eq in E. subst. exists c1. split; [left; reflexivity|reflexivity].
      - destruct (IH EO) as (c & J & Q). exists c. split; [right; exact J|exact Q]. }
    destruct IK as (c & J & Q1). rewrite Q1 in FL. destruct (RT k c J) as [LT|G]; [exact (key_lt_irrefl _ LT)|].
    apply rbind_done in FL as (g & G2 & FL). destruct g; try discriminate FL. contradiction. }
  destruct (RD I3) as (text & RR & TD & SM). exists T, text.
  destruct CELL as [[CD _]|(f & RF & CE)].
  { exfalso. unfold rocks_read in RR. rewrite (key_eqb_neq _ _ NK), CD in RR. cbn in RR. injection RR as <-. apply frame_erase in TD.
    pose proof (empty_frame _ TD) as Q.
    rewrite <- LV in Q. destruct T; discriminate. }
  rewrite RR in RF. injection RF as <-. rewrite SV, S2 in CE. cbn [app] in CE.
  assert (CT2 : cell_trees None [text] us).
  { split; [|discriminate]. exists [T]. split; [constructor; [|constructor]|]. 
    - rewrite LV. split; [apply frame_erase in TD; exact TD|exact SM].
    - split; [constructor; [exact CT|constructor]|]. cbn [flat_map]. rewrite app_nil_r. exact PT. }
  assert (CL : forall v, In v us -> v = r \/ uuid_ltb (u_id r) (u_id v) = true /\ exists w, In w us /\ u_id w = u_ref v) by apply GR.
  destruct (cell_read fbits fuel None [text] us r k KF CT2 AP NE CL) as (_ & RD2 & _). destruct RD2 as (g & T2 & CG & CC & P2 & TD2 & SM2); [right; cbn; lia|].
  exists g. split; [exact AP|]. split; [exact CT|]. split; [exact PT|]. split; [exact RR|]. split; [exact TD|]. split; [exact SM|]. split; [apply read_of; [exact NK|rewrite CE; exact CG]|].
  split; [|exact SM2].
  assert (EQ : map bare (listing T) = map bare (listing T2)); [|rewrite EQ; exact TD2]. apply one_tree; [exact CT|exact CC| |].
  - rewrite ids_bare. eapply Permutation_NoDup; [apply Permutation_map, Permutation_sym; exact PT|apply AP].
  - eapply Permutation_trans; [exact PT|apply Permutation_sym; exact P2].
Qed.
(* A fork reads the same tree of a text object as the original, if the records up
   to the object can be read. *)
Theorem C49_text now rs yarn tr es ss E b : lived sha fbits active fuel now rs yarn tr es ss E b -> let ev := first_event active now rs yarn tr in
  exists hss, keeps ev ev es ss (concat hss) /\ stored_of es ss hss /\
    forall o r, one_a_step hss o -> grown (stored_text hss o) r -> readable_to fbits fuel (br_main b) (key_of o RGA_RDT_FORM) ->
    forall now2 rs2 yarn2 b2 s, yarn2 <> 0 -> uvalue (first_event active now2 rs2 yarn2 false) < NEVER_W -> b_fork sha fbits active fuel (br_main b) now2 rs2 yarn2 = Done (b2, s) ->
    exists us text text2, Permutation us (stored_text hss o) /\ rread (br_main b) (key_of o RGA_RDT_FORM) = Done (text, KOk) /\ told text us /\
      rread (br_main b2) (key_of o RGA_RDT_FORM) = Done (text2, KOk) /\ told text2 us.
Proof.
  intros L ev. destruct (fork_text _ _ _ _ _ _ _ _ L) as (hss & K & ST & R). exists hss. split; [exact K|]. split; [exact ST|].
  intros o r OS GR RT now2 rs2 yarn2 b2 s Y NV FK. destruct (R o r OS GR RT now2 rs2 yarn2 b2 s Y NV FK) as (T & text & text2 & _ & _ & PT & RR & TD & _ & R2 & T2 & _).
  exists (map bare (listing T)), text, text2. auto.
Qed.

(* what a query for a text is answered with, if the tree V is read *)
Lemma tree_answer us r V o b state : apt fuel us -> grown us r -> u_ref r = RGA_FORM_UUID -> Forall (fun u => version (u_id u) = TIME /\ uvalue (u_id u) < NEVER_W) us ->
  causal V -> Permutation (map bare (listing V)) us -> listing V = chunk_of (map bare (listing V)) ->
  (forall p, In p (ScanSpec.places [] V) -> ~ ScanSpec.stray p /\ (ScanSpec.hidden p \/ TextAnswerSpec.piece (root (snd p)))) ->
  rread (br_main b) (key_of o RGA_RDT_FORM) = Done (state, KOk) -> told state (map bare (listing V)) -> N.of_nat (length state) < 2 ^ 32 ->
  forall (P : bytes -> N -> Prop) f q now2 rs2, frame_lit P f [q] -> N.of_nat (length f) < 2 ^ 32 -> TextAnswerSpec.text_query q -> id_ok (r_id q) -> TextAnswerSpec.object_of q = o ->
  exists hs text, Forall2 (fun p (h : bool) => h = true <-> ScanSpec.hidden p) (ScanSpec.places [] V) hs /\
    AnswerModel.b_ask sha fbits active fuel b now2 rs2 f = Done (b, ROk, Some text) /\
    frame_lit canon text (TextAnswerSpec.text_answer q AnswerModel.TXT_MAP_ID (TextAnswerSpec.spelled (listing V) hs (in_runs origin_op (map UAppend (map bare (listing V)) ++ [UEnd RAW])))).
Proof.
  intros AP GR RR VS CV PV LL CALM RD TD SM P f q now2 rs2 FQ SQ TQ IQ OQ.
  assert (VN : Forall (fun v => version (u_id v) = TIME /\ uvalue (u_id v) < NEVER_W) (map bare (listing V))).
  { rewrite Forall_forall in VS |- *. intros v J. apply VS. eapply Permutation_in; [exact PV|exact J]. }
  assert (RT : ScanSpec.rga_tree V).
  { split; [apply causal_linked; exact CV|]. split; [|split].
    - destruct GR as (_ & IR & _ & CL). assert (RF : bare (root V) = r); [|rewrite <- RF in RR; exact RR].
      apply root_first; [exact CV|eapply Permutation_in; [apply Permutation_sym; exact PV|exact IR]|]. intros x J. apply (Permutation_in _ PV) in J. destruct (CL x J) as [Q|[Q _]]; auto.
    - rewrite Forall_map in VN. eapply Forall_impl; [|exact VN]. intros x [A _]. exact A.
    - rewrite Forall_map, Forall_forall in VN. destruct (VN (root V) (root_in V)) as [_ LT]. cbn [bare u_id] in LT. unfold uuid_ltb.
      change (uvalue (Time WORD_NEVER 0)) with NEVER_W. replace (NEVER_W <? uvalue (r_id (root V))) with false by (symmetry; apply N.ltb_ge; lia).
      replace (NEVER_W =? uvalue (r_id (root V))) with false by (symmetry; apply N.eqb_neq; lia). reflexivity. }
  assert (LW : length (listing V) = length us) by (rewrite <- (map_length bare); apply Permutation_length; exact PV).
  assert (LF : (length (listing V) < fuel)%nat) by (rewrite LW; apply AP).
  assert (LN : N.of_nat (length (listing V)) < 2 ^ 30).
  { rewrite LW. destruct AP as (_ & _ & _ & _ & _ & RM). clear -RM. assert (K : (length us * 4 <= room us)%nat).
    { clear. induction us as [|x l IH]; [cbn; lia|]. change (x :: l) with ([x] ++ l). rewrite app_length, room_app. cbn [length]. assert (4 <= room [x])%nat by (unfold room; cbn [map list_sum fold_right]; unfold op_room; lia). lia. }
    change (2 ^ 32) with 4294967296 in RM. change (2 ^ 30) with 1073741824. lia. }
  unfold told in TD. rewrite <- LL in TD.
  assert (KK : TextAnswerSpec.text_key q = key_of o RGA_RDT_FORM) by (unfold TextAnswerSpec.text_key; rewrite OQ; reflexivity).
  destruct (TextAnswerTheorems.C53_text sha fbits active fuel P b now2 rs2 f q state V _ FQ SQ TQ IQ ltac:(rewrite KK; exact RD) TD SM RT LF LN) as (hs & text & F1 & X1 & Y1);
    [intros p J; apply (CALM p J)|intros p J; apply (CALM p J)|]. exists hs, text. auto.
Qed.
Lemma same_flags {A} (Q : A -> Prop) l : forall a b, Forall2 (fun p (h : bool) => h = true <-> Q p) l a -> Forall2 (fun p (h : bool) => h = true <-> Q p) l b -> a = b.
Proof.
  induction l as [|x l IH]; intros a b H1 H2; inversion H1 as [|? h1 ? a' K1 F1]; inversion H2 as [|? h2 ? b' K2 F2]; subst; [reflexivity|].
  f_equal; [|apply IH; assumption]. destruct h1, h2; try reflexivity; [symmetry; apply K2, K1; reflexivity|apply K1, K2; reflexivity].
Qed.

(* The fork answers a query for a text as the original does. *)
Theorem C49_answer now rs yarn tr es ss E b : lived sha fbits active fuel now rs yarn tr es ss E b -> let ev := first_event active now rs yarn tr in
  exists hss, keeps ev ev es ss (concat hss) /\ stored_of es ss hss /\
    forall o r, one_a_step hss o -> grown (stored_text hss o) r -> readable_to fbits fuel (br_main b) (key_of o RGA_RDT_FORM) ->
    u_ref r = RGA_FORM_UUID -> Forall (fun u => version (u_id u) = TIME /\ uvalue (u_id u) < NEVER_W) (stored_text hss o) ->
    forall now2 rs2 yarn2 b2 s, yarn2 <> 0 -> uvalue (first_event active now2 rs2 yarn2 false) < NEVER_W -> b_fork sha fbits active fuel (br_main b) now2 rs2 yarn2 = Done (b2, s) ->
    forall V, causal V -> Permutation (map bare (listing V)) (stored_text hss o) -> listing V = chunk_of (map bare (listing V)) ->
    (forall p, In p (ScanSpec.places [] V) -> ~ ScanSpec.stray p /\ (ScanSpec.hidden p \/ TextAnswerSpec.piece (root (snd p)))) ->
    forall (P : bytes -> N -> Prop) f q n1 rs1 n3 rs3, frame_lit P f [q] -> N.of_nat (length f) < 2 ^ 32 -> TextAnswerSpec.text_query q -> id_ok (r_id q) -> TextAnswerSpec.object_of q = o ->
    exists hs text text2, Forall2 (fun p (h : bool) => h = true <-> ScanSpec.hidden p) (ScanSpec.places [] V) hs /\
      let answer := TextAnswerSpec.text_answer q AnswerModel.TXT_MAP_ID (TextAnswerSpec.spelled (listing V) hs (in_runs origin_op (map UAppend (map bare (listing V)) ++ [UEnd RAW]))) in
      AnswerModel.b_ask sha fbits active fuel b n1 rs1 f = Done (b, ROk, Some text) /\ frame_lit canon text answer /\
      AnswerModel.b_ask sha fbits active fuel b2 n3 rs3 f = Done (b2, ROk, Some text2) /\ frame_lit canon text2 answer.
Proof.
  intros L ev. destruct (fork_text _ _ _ _ _ _ _ _ L) as (hss & K & ST & R). exists hss. split; [exact K|]. split; [exact ST|].
  intros o r OS GR RT RF VS now2 rs2 yarn2 b2 s Y NV FK V CV PV LL CALM P f q n1 rs1 n3 rs3 FQ SQ TQ IQ OQ.
  destruct (R o r OS GR RT now2 rs2 yarn2 b2 s Y NV FK) as (T & text & text2 & AP & CT & PT & RR & TD & SM & R2 & T2 & SM2).
  assert (EW : map bare (listing V) = map bare (listing T)).
  { apply one_tree; [exact CV|exact CT| |].
    - rewrite ids_bare. eapply Permutation_NoDup; [apply Permutation_map, Permutation_sym; exact PV|apply AP].
    - eapply Permutation_trans; [exact PV|apply Permutation_sym; exact PT]. }
  rewrite <- EW in TD, T2.
  destruct (tree_answer _ r V o b text AP GR RF VS CV PV LL CALM RR TD SM P f q n1 rs1 FQ SQ TQ IQ OQ) as (hs & a1 & H1 & A1 & F1).
  destruct (tree_answer _ r V o b2 text2 AP GR RF VS CV PV LL CALM R2 T2 SM2 P f q n3 rs3 FQ SQ TQ IQ OQ) as (hs2 & a2 & H2 & A2 & F2).
  rewrite <- (same_flags _ _ _ _ H1 H2) in F2. exists hs, a1, a2. cbv zeta. auto.
Qed.
End ForkText.
Print Assumptions C49_text.
Print Assumptions C49_answer.
