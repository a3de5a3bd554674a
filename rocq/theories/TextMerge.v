(* From merged cursors to text: the frame a merge of text frames writes. *)
From Coq Require Import Sorted Permutation.
From Verif Require Import Prelude UuidModel UuidSpec UuidProofs KeyModel CodecModel CodecSpec TextModel TextSpec FrameProofs BuilderSpec BuilderProofs
  MergeModel MergeSpec MergeTextModel HeapProofs MergeProofs RgaProofs MergeTheorems TextMergeSpec TextCursors MergeKeeps.

(* the calls of a merge as builder calls with abstract ops *)
Definition ucalls (calls : list (mcall cursor)) : list ucmd :=
  map (fun x => match x with MAppend c => UAppend (bare (rop_of c)) | MEnd t => UEnd t end) calls.

Definition canonical (c : cursor) : Prop := exists o, lit_cursor canon c o.
Definition on_canonical (c : cursor) : Prop := exists l, visits valid text_next c l /\ Forall canonical l.

Lemma canonical_next : closed_next cursor valid text_next on_canonical.
Proof.
  intros c b c' V (l & VI & F) NX. destruct VI as [c W|c c1 l W NX1 VI]; [congruence|].
  rewrite NX in NX1. injection NX1 as -> ->. split; [reflexivity|]. exists l. split; [exact VI|]. inversion F; assumption.
Qed.
Lemma canonical_here c : valid c = true -> on_canonical c -> canonical c.
Proof. intros V (l & VI & F). destruct VI as [c W|c c1 l W NX1 VI]; [congruence|]. inversion F; assumption. Qed.

Lemma visits_reads c l ops : visits valid text_next c l -> Forall2 (lit_cursor canon) l ops -> reads valid text_next rop_of c ops.
Proof.
  intros VI. revert ops. induction VI as [c V|c c' l V NX VI IH]; intros ops F; inversion F as [|x o y ops' [E _] F2]; subst; [constructor; exact V|].
  eapply reads_cons; eauto.
Qed.

(* the cursors opened on frames of the grammar *)
Lemma open_frames fs opss : Forall2 (frame_lit canon) fs opss -> Forall (fun f => N.of_nat (length f) < 2 ^ 32) fs ->
  exists cs, open_cursors fs = Some cs /\
    Forall2 (fun c l => valid c = true /\ reads valid text_next rop_of c l) cs (filter nonempty opss) /\ Forall on_canonical cs.
Proof.
  intros F. induction F as [|f ops fs opss H F IH]; intro B; [exists []; split; [reflexivity|split; constructor]|].
  inversion B as [|x y B1 B2]; subst. destruct (IH B2) as (cs & E & R & K).
  destruct (frame_visits f ops H B1) as (l & (c & NX & VI) & FL).
  cbn [open_cursors]. fold (cursor_of f). rewrite E, NX.
  pose proof (visits_reads c l ops VI FL) as RD. cbn [filter].
  destruct VI as [c V|c c' l V NX' VI].
  - inversion FL; subst. rewrite V. cbn [nonempty]. exists cs. auto.
  - rewrite V. inversion FL as [|x o y ops' L1 L2]; subst. cbn [nonempty]. exists (c :: cs). split; [reflexivity|].
    split; [constructor; auto|]. constructor; [|exact K]. exists (c :: l). split; [econstructor; eassumption|].
    clear -FL. induction FL; constructor; [eexists; eassumption|assumption].
Qed.

Lemma ucalls_good calls : (forall c, In (MAppend c) calls -> canonical c) ->
  forall lo last opn ext, good_calls last opn ext (ucalls calls) ->
  (opn = true -> plain_string last -> wplain lo) ->
  exists acs, bcalls calls = map to_b acs /\ map to_u acs = ucalls calls /\ good_a canon lo last opn ext acs.
Proof.
  induction calls as [|k calls IH]; intros K lo last opn ext G HL; [exists []; auto|].
  destruct k as [c|t]; cbn [ucalls map] in G; cbn [good_calls] in G.
  - destruct G as (U & Q & CT & G). destruct (K c (or_introl eq_refl)) as (o & LC).
    assert (EO : rop_of c = o) by apply LC. rewrite EO in *.
    destruct (IH (fun x I => K x (or_intror I)) (wop_of_cursor c) (bare o) true (continues last (bare o)) G) as (acs & E1 & E2 & G2).
    { intros _ P. apply (lit_plain c o LC P). }
    exists (AApp (wop_of_cursor c) (bare o) :: acs). cbn [bcalls ucalls map to_b to_u good_a]. rewrite EO.
    split; [f_equal; exact E1|]. split; [f_equal; exact E2|]. split; [apply lit_rep; [apply canon_writes|exact LC|exact U]|].
    split; [exact Q|]. split; [|exact G2]. intro X. destruct (CT X) as [-> [->|P]]; auto.
  - destruct G as (T & G). destruct (IH (fun x I => K x (or_intror I)) lo last false ext G ltac:(discriminate)) as (acs & E1 & E2 & G2).
    exists (AEnd t :: acs). cbn [bcalls ucalls map to_b to_u good_a]. split; [f_equal; exact E1|]. split; [f_equal; exact E2|]. auto.
Qed.

Lemma build_merged_marked calls : (forall c, In (MAppend c) calls -> canonical c) -> good_calls origin_op false false (ucalls calls) ->
  N.of_nat (length calls) < 2 ^ 32 -> exists text, build (bcalls calls) = Some text /\ frame_marked canon text (denote (ucalls calls)) (in_runs origin_op (ucalls calls)).
Proof.
  intros K G L. destruct (ucalls_good calls K lo0 origin_op false false G ltac:(discriminate)) as (acs & E1 & E2 & G2).
  assert (LA : length acs = length calls).
  { transitivity (length (map to_u acs)); [rewrite map_length; reflexivity|]. rewrite E2. unfold ucalls. apply map_length. }
  destruct (build_marked lo0 acs canon_writes G2) as (text & B & F); [rewrite LA; exact L|].
  exists text. rewrite E1, B, <- E2. auto.
Qed.

Lemma build_merged calls : (forall c, In (MAppend c) calls -> canonical c) -> good_calls origin_op false false (ucalls calls) ->
  N.of_nat (length calls) < 2 ^ 32 -> exists text, build (bcalls calls) = Some text /\ frame_lit canon text (denote (ucalls calls)).
Proof.
  intros K G L. destruct (build_merged_marked calls K G L) as (text & B & F). exists text. split; [exact B|]. eapply frame_erase. exact F.
Qed.

(* ---- ops that can be written in any order ---- *)
Lemma mergeable_incl U V : mergeable U -> incl V U -> mergeable V.
Proof.
  intros (A & B & D & E & F) I. split; [|split; [|split; [|split]]].
  - rewrite Forall_forall in *. auto.
  - intros a b IA IB. apply B; apply I; assumption.
  - intros a b IA IB. apply D; [destruct IA as [->|IA]; [left; reflexivity|right; auto]|auto].
  - intros a b IA IB. apply E; apply I; assumption.
  - intros b IB. apply F, I, IB.
Qed.
Lemma mergeable_good_tail U us : mergeable U -> incl us U -> forall last ext, In last U ->
  good_calls last true ext (map UAppend us ++ [UEnd RAW]).
Proof.
  intros M. pose proof M as (A & B & D & E & F). induction us as [|u us IH]; intros I last ext IL; cbn [map app good_calls].
  - split; [left; reflexivity|exact Logic.I].
  - assert (IU : In u U) by (apply I; left; reflexivity). rewrite Forall_forall in A.
    split; [auto|]. split; [apply D; [right; exact IL|exact IU]|]. split; [intro X; split; [reflexivity|right; exact (E _ _ IL IU X)]|].
    apply IH; [intros x J; apply I; right; exact J|exact IU].
Qed.
Lemma mergeable_good U us : mergeable U -> incl us U -> good_calls origin_op false false (map UAppend us ++ [UEnd RAW]).
Proof.
  intros M I. pose proof M as (A & B & D & E & F). destruct us as [|u us]; cbn [map app good_calls].
  - split; [left; reflexivity|exact Logic.I].
  - assert (IU : In u U) by (apply I; left; reflexivity). rewrite Forall_forall in A.
    split; [auto|]. split; [apply D; [left; reflexivity|exact IU]|]. split; [intro X; rewrite (F u IU) in X; discriminate|].
    apply (mergeable_good_tail U); [exact M| |exact IU]. intros x J. apply I. right. exact J.
Qed.

Lemma bare_denote us t : map bare (denote (map UAppend us ++ [UEnd t])) = us.
Proof. induction us as [|[i r v] us IH]; [reflexivity|]. cbn [map app denote]. unfold bare at 1. cbn [r_id r_ref r_vals]. rewrite IH. reflexivity. Qed.
Lemma ucalls_chunk cs : ucalls (map MAppend cs ++ [MEnd RAW]) = map UAppend (map bare (map rop_of cs)) ++ [UEnd RAW].
Proof. unfold ucalls. rewrite map_app, !map_map. reflexivity. Qed.
Lemma increasing_of_bare a b : map bare a = map bare b -> increasing_ids a -> increasing_ids b.
Proof.
  revert b. induction a as [|x a IH]; intros [|y b] E I; try discriminate; [constructor|]. cbn [map] in E.
  pose proof (f_equal (@tl _) E) as E2. pose proof (f_equal (fun l => map u_id (firstn 1 l)) E) as E1. cbn [tl firstn map u_id bare] in E1, E2.
  injection E1 as E1.
  inversion I as [|? ? I1 I2]; subst. constructor; [apply IH; assumption|].
  apply Forall_forall. intros z J. apply (in_map bare) in J. rewrite <- E2 in J. apply in_map_iff in J as (z' & Z & J).
  rewrite Forall_forall in I2. specialize (I2 z' J). unfold id_lt in *. rewrite <- E1.
  replace (r_id z) with (r_id z') by (apply (f_equal u_id) in Z; exact Z). exact I2.
Qed.
Lemma concat_nonempty {X} (l : list (list X)) : concat (filter nonempty l) = concat l.
Proof. induction l as [|a l IH]; [reflexivity|]. cbn [filter]. destruct a; cbn [nonempty concat app]; rewrite IH; reflexivity. Qed.
