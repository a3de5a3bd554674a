(* C67: the command recall. *)
From Verif Require Import Prelude UuidModel UuidProofs KeyModel CodecModel CodecTheorems TextModel TextSpec MergeModel MergeTextModel MergeKeeps StoreModel StoreSpec
  StoreProofs RocksModel RocksSpec RocksProofs LogModel MetaModel ClockModel ReplicaModel ReplicaSpec ReplicaProofs BranchModel BranchSpec BranchProofs ForkModel
  HostModel HostSpec HostProofs HostTheorems NamesModel CliModel CliSpec CliProofs CliTheorems.

Section Recall.
Variable sha : bytes -> bytes.
Variable fbits : bytes -> N.
Variable fuel : nat.
Variable order : list (uuid * uuid) -> list (uuid * uuid).
Hypothesis FB : 2 * N.of_nat fuel < ROOM.
Notation cli := (cli sha fbits fuel order).
Notation means := (means fbits fuel).
Notation rread := (rocks_read fbits fuel).

Lemma jread_alone d k a b f s : b_jread fbits fuel d [] k = Done (a, b, f, s) -> exists ks, rread d k = Done (f, ks) /\ (s = ROk <-> ks = KOk).
Proof.
  clear FB. intro J. unfold b_jread in J. apply rbind_done in J as ([fa sa] & R & J). rewrite R.
  assert (NK : sa = KOk \/ fa = [] /\ sa = KDbFail).
  { unfold rocks_read in R. destruct (key_eqb k KEY_END); [injection R as _ <-; auto|]. apply rbind_done in R as (g & _ & R). destruct g; injection R as <- <-; auto. }
  destruct NK as [-> |[-> ->]].
  - assert (E : read bytes [] (merge_as fbits fuel) [] k [] = Done ([], [], StOK)) by reflexivity. rewrite E in J. cbn [rbind blank] in J.
    exists KOk. destruct fa as [|x fa]; cbn [blank] in J; injection J as _ _ <- <-; (split; [reflexivity|tauto]).
  - injection J as _ _ <- <-. exists KDbFail. split; [reflexivity|]. cbn. split; discriminate.
Qed.
(* what the version v of the object obj is in the metadata *)
Definition metadata_version (fs : world) (obj v : uuid) (text : bytes) : Prop :=
  exists d log, In (NIL, d) fs /\ rread d (key_of obj LOG_RAW_FORM) = Done (log, KOk) /\ log_version fbits fuel log v = Done (Some text, LMerge StOK).
(* recall v of w prints the version v of the object that w stands for, replayed
   from the log of the metadata (C51), and nothing else; the object has to be an
   event not later than v. It changes nothing. *)
Theorem C67_recall fs i p v w r : world_ok fs -> i_args i = W_recall :: v :: W_of :: w :: r -> cli fs i = Done p ->
  p_families p = fs /\
  (succeeds (p_status p) -> exists obj, means fs w obj /\ version obj = TIME /\ version (parse_uuid v) = TIME /\ uuid_ltb (parse_uuid v) obj = false /\ metadata_version fs obj (parse_uuid v) (p_out p)) /\
  (~ succeeds (p_status p) -> p_out p = []) /\
  (forall obj text, means fs w obj -> version (parse_uuid w) <> NAME \/ base64_case (uvalue (parse_uuid w)) = SNAKE -> is_error (parse_uuid w) = false ->
     version obj = TIME -> version (parse_uuid v) = TIME -> uuid_ltb (parse_uuid v) obj = false -> metadata_version fs obj (parse_uuid v) text -> p_status p = cok /\ p_out p = text).
Proof.
  intros WO IA H. destruct (cli_cmd _ _ _ order FB _ _ _ _ _ WO IA H) as (h & h1 & OH & LF & C & PF & PC). pose proof OH as (S & O & AC & NZ).
  assert (CC : CliModel.command sha fbits fuel order h i = loud h (cmd_recall fbits fuel h (v :: W_of :: w :: r))) by (unfold CliModel.command; rewrite IA; reflexivity).
  rewrite CC in C. clear CC. unfold loud in C. apply rbind_done in C as ([s t] & C & Q). injection Q as <- <- <-. split; [congruence|].
  assert (NF : exists m, find_store (h_stores h) NIL = Some m) by (apply find_ids; apply S). destruct NF as (m & FM).
  assert (NM : forall d, In (NIL, d) fs -> d = br_main m).
  { intros d I. rewrite <- LF in I. destruct (family_find _ _ _ (proj1 (proj2 S)) I) as (b & F & <-). congruence. }
  assert (IM : In (NIL, br_main m) fs) by (rewrite <- LF; exact (find_family _ _ _ FM)).
  cbn [cmd_recall] in C. cbv zeta in C. destruct (version (parse_uuid v) =? TIME) eqn:VV; cbn [negb] in C.
  2:{ injection C as <- <-. split; [intros []|]. split; [reflexivity|]. intros obj text _ _ _ _ Q. rewrite Q in VV. discriminate VV. }
  apply N.eqb_eq in VV. cbn [scan_of] in C. change (bytes_eqb W_of W_of) with true in C. cbn [negb] in C. cbv zeta in C.
  destruct (is_error (parse_uuid w)) eqn:ER; cbn [rbind is_ok negb] in C; [injection C as <- <-; split; [intros []|]; split; [reflexivity|discriminate]|].
  apply rbind_done in C as ([[obj r2] s2] & SC & C). apply rbind_done in SC as ([b2 s3] & R & SC). injection SC as -> _ ->.
  assert (R1 : resolve fbits fuel h (parse_uuid w) SNAKE true = Done (obj, s2)) by (unfold resolve in R |- *; rewrite AC in R; exact R). clear R.
  assert (MO : s2 = ROk -> means fs w obj).
  { intros ->. rewrite <- LF. clear -R1. unfold resolve in R1. destruct (version (parse_uuid w) =? NAME) eqn:V; cbn [negb] in R1.
    2:{ injection R1 as <-. apply means_id. left. intro Q. apply N.eqb_neq in V. contradiction. }
    destruct (uuid_eqb (parse_uuid w) NIL) eqn:Z; [injection R1 as <-; apply means_id; right; apply uuid_eqb_eq; exact Z|].
    destruct (negb (SNAKE =? NUMERIC) && negb (base64_case (uvalue (parse_uuid w)) =? SNAKE)); [discriminate|]. destruct (find_store (h_stores h) NIL) as [b|] eqn:F; [|discriminate].
    apply rbind_done in R1 as ([l s] & B & R1). destruct (is_ok s) eqn:IS; cbn [negb] in R1; [|injection R1 as _ ->; discriminate IS]. destruct s; try discriminate IS.
    destruct (names_get l (parse_uuid w)) as [x|] eqn:G; [|discriminate]. injection R1 as <-. apply (means_name _ _ _ _ l); [apply N.eqb_eq; exact V|intro Q; rewrite Q in Z; discriminate Z| |exact G].
    exists (br_main b). split; [exact (find_family _ _ _ F)|]. destruct b as [d tb]. exact B. }
  assert (OM : forall obj2, means fs w obj2 -> version (parse_uuid w) <> NAME \/ base64_case (uvalue (parse_uuid w)) = SNAKE -> version obj2 = TIME -> obj = obj2 /\ s2 = ROk).
  { clear MO C. intros obj2 MN KD VT. unfold resolve in R1. destruct MN as [[V|V]|l id V NN (d & ID & BN) G].
    - rewrite (proj2 (N.eqb_neq _ _) V) in R1. cbn [negb] in R1. injection R1 as <- <-. auto.
    - rewrite V in VT. discriminate VT.
    - rewrite V in R1. change (NAME =? NAME) with true in R1. cbn [negb] in R1. rewrite (eqb_other _ _ NN) in R1. destruct KD as [K|K]; [contradiction|]. rewrite K in R1. change (SNAKE =? SNAKE) with true in R1. cbn [negb] in R1.
      rewrite andb_false_r in R1. rewrite FM in R1. pose proof (NM _ ID) as ->. destruct m as [d tm]. cbn [br_main] in BN.
      change (b_names fbits fuel (mkBranch d tm)) with (b_names fbits fuel (mkBranch d NIL)) in R1. rewrite BN in R1. cbn [rbind is_ok negb] in R1. rewrite G in R1. injection R1 as <- <-. auto. }
  clear R1. destruct (is_ok s2) eqn:I2; cbn [negb] in C.
  2:{ injection C as <- <-. split; [intros []|]. split; [reflexivity|]. intros obj2 text M K _ V _ _ _. destruct (OM _ M K V) as [_ ->]. discriminate I2. }
  assert (E2 : s2 = ROk) by (destruct s2; [reflexivity|discriminate I2..]). subst s2. specialize (MO eq_refl). clear I2. destruct (version obj =? TIME) eqn:VO; cbn [negb] in C.
  2:{ injection C as <- <-. split; [intros []|]. split; [reflexivity|]. intros obj2 text M K _ V _ _ _. destruct (OM _ M K V) as [-> _]. rewrite V in VO. discriminate VO. }
  apply N.eqb_eq in VO. destruct (uuid_ltb (parse_uuid v) obj) eqn:LT.
  { injection C as <- <-. split; [intros []|]. split; [reflexivity|]. intros obj2 text M K _ V _ L _. destruct (OM _ M K V) as [-> _]. congruence. }
  rewrite AC, FM in C. apply rbind_done in C as ([[[d1 w1] log] s4] & J & C). destruct (jread_alone _ _ _ _ _ _ J) as (ks & RD & KS).
  destruct (is_ok s4) eqn:I4; cbn [negb] in C.
  2:{ injection C as <- <-. split; [intros []|]. split; [reflexivity|]. intros obj2 text M K _ V _ L (d & lg & ID & RL & _). destruct (OM _ M K V) as [-> _]. rewrite (NM _ ID), RD in RL. injection RL as _ ->. rewrite (proj2 KS eq_refl) in I4. discriminate I4. }
  assert (E4 : s4 = ROk) by (destruct s4; [reflexivity|discriminate I4..]). subst s4. rewrite (proj1 KS eq_refl) in RD. clear KS I4. apply rbind_done in C as ([f ls] & LV & C).
  assert (OUT : ls = LMerge StOK /\ (exists text, f = Some text /\ s = cok /\ t = text) \/ (ls <> LMerge StOK \/ f = None) /\ (~ succeeds s) /\ t = []).
  { destruct ls as [|[]], f; injection C as <- <-; try (right; split; [solve [left; discriminate|right; reflexivity]|split; [intros []|reflexivity]]). left. eauto. }
  destruct OUT as [(-> & text & -> & -> & ->)|(BAD & NS & ->)].
  - split; [|split].
    + intros _. exists obj. do 4 (split; [assumption|]). exists (br_main m), log. auto.
    + intro NS. exfalso. apply NS. exact Logic.I.
    + intros obj2 text2 M K _ V _ L (d & lg & ID & RL & LV2). destruct (OM _ M K V) as [-> _]. rewrite (NM _ ID), RD in RL. injection RL as ->. rewrite LV in LV2. injection LV2 as ->. auto.
  - split; [intro Q; contradiction|]. split; [reflexivity|]. intros obj2 text2 M K _ V _ L (d & lg & ID & RL & LV2). exfalso. destruct (OM _ M K V) as [-> _]. rewrite (NM _ ID), RD in RL. injection RL as ->. rewrite LV in LV2. injection LV2 as -> ->. destruct BAD; [contradiction|discriminate].
Qed.
End Recall.
Print Assumptions C67_recall.
