(* Theorems about the RocksDB store: C45 (reads and compaction), C46
   (iteration). *)
From Coq Require Import Sorted Permutation.
From Verif Require Import Prelude UuidModel UuidSpec UuidProofs KeyModel CodecModel CodecSpec TextModel TextSpec FrameProofs BuilderSpec BuilderProofs
  MergeModel MergeSpec MergeTextModel HeapProofs MergeProofs RgaProofs RgaTree MaxProofs MergeTheorems TextMergeSpec TextCursors MergeKeeps TextMerge
  TextMergeTheorems StoreModel StoreSpec StoreProofs StoreTheorems RocksModel RocksSpec RocksProofs.

Section Rocks.
Variable fbits : bytes -> N.
Variable fuel : nat.
Notation run := (rrun fbits fuel []).
Notation rread := (rocks_read fbits fuel).

Lemma order0 : in_order ([] : list (key * cell)).
Proof. constructor. Qed.
Lemma run_order es : forall d d', in_order d -> rrun fbits fuel d es = Done d' -> in_order d'.
Proof.
  induction es as [|e es IH]; intros d d' O E; cbn [rrun] in E; [injection E as <-; exact O|].
  apply rbind_done in E as (d1 & E1 & E). apply (IH d1); [eapply step_order; eassumption|exact E].
Qed.

(* a key is there when something was written under it *)
Lemma adds_keys l : forall d x, In x (map fst (adds d l)) <-> In x (map fst d) \/ contents l x <> [].
Proof.
  induction l as [|[k f] l IH]; intros d x; [cbn; tauto|].
  change (adds d ((k, f) :: l)) with (adds (add_operand d k f) l). rewrite IH. unfold add_operand. rewrite put_keys.
  unfold contents. cbn [filter fst]. destruct (key_eqb k x) eqn:E.
  - apply key_eqb_eq in E. subst. cbn [map]. split; [intros _; right; discriminate|auto].
  - split; [intros [[->|H]|H]; auto; rewrite key_eqb_refl in E; discriminate|tauto].
Qed.
Lemma step_keys d e d' x : rstep fbits fuel d e = Done d' -> In x (map fst d') <-> In x (map fst d) \/ contents (accepted_by e) x <> [].
Proof.
  intro E. destruct e as [k f|l|k ce]; cbn [rstep] in E.
  - injection E as <-. unfold rocks_write, accepted_by. destruct (key_eqb k KEY_END); destruct f as [|b f]; cbn [andb negb fst]; try (apply (adds_keys [(k, _)])).
    cbn. tauto.
  - injection E as <-. apply adds_keys.
  - cbn [accepted_by]. unfold compact in E. destruct (existsb _ d) eqn:X.
    + apply rbind_done in E as (c & _ & E). injection E as <-. rewrite put_keys. apply existsb_exists in X as ([k1 c1] & I & Q). apply key_eqb_eq in Q. cbn [fst] in Q. subst k1.
      cbn. split; [intros [->|H]; auto; left; apply in_map_iff; exists (k, c1); auto|tauto].
    + injection E as <-. cbn. tauto.
Qed.
Lemma run_keys es : forall d d' x, rrun fbits fuel d es = Done d' -> In x (map fst d') <-> In x (map fst d) \/ put_under x es <> [].
Proof.
  induction es as [|e es IH]; intros d d' x E; cbn [rrun] in E; [injection E as <-; cbn; tauto|].
  apply rbind_done in E as (d1 & E1 & E). rewrite (IH d1 d' x E), (step_keys d e d1 x E1).
  unfold put_under, accepted. cbn [flat_map]. rewrite contents_app. fold (accepted es).
  destruct (contents (accepted_by e) x); cbn [app]; [tauto|]. split; [intros _; right; discriminate|intros _; left; right; discriminate].
Qed.

(* and then its cell is not empty *)
Definition nonvoid (d : list (key * cell)) (k : key) : Prop := held (ce_value (cell_at d k)) ++ ce_operands (cell_at d k) <> [].
Lemma step_nonvoid d e d' k : in_order d -> rstep fbits fuel d e = Done d' -> nonvoid d k \/ contents (accepted_by e) k <> [] -> nonvoid d' k.
Proof.
  intros O E H. pose proof (step_writes d e k O) as SW. destruct e as [k1 f|l|k1 ce].
  1,2: destruct (SW fbits fuel) as (d2 & E2 & O2 & C2); rewrite E in E2; injection E2 as <-; unfold nonvoid in *; rewrite C2; cbn [ce_value ce_operands];
    intro Q; apply app_eq_nil in Q as [Q1 Q]; apply app_eq_nil in Q as [Q2 Q3]; destruct H as [H|H]; [apply H; rewrite Q1, Q2; reflexivity|exact (H Q3)].
  destruct H as [H|H]; [|exfalso; apply H; reflexivity]. cbn [rstep] in E. unfold compact in E. destruct (existsb _ d); [|injection E as <-; exact H].
  apply rbind_done in E as (c & EC & E). injection E as <-. unfold nonvoid in *. rewrite put_at by exact O. destruct (key_eqb k1 k) eqn:EK; [|exact H].
  apply key_eqb_eq in EK. subst k1. destruct (cell_at d k) as [v ops]. destruct ce as [i n|n]; cbn [cell_compact ce_operands ce_value] in *.
  - destruct (firstn n (skipn i ops)); [injection EC as <-; exact H|]. apply rbind_done in EC as (r & _ & EC). destruct r; injection EC as <-; [|exact H].
    cbn [ce_value ce_operands]. intro Q. apply app_eq_nil in Q as [_ Q]. apply app_eq_nil in Q as [_ Q]. discriminate.
  - destruct (firstn n ops); [injection EC as <-; exact H|]. apply rbind_done in EC as (r & _ & EC). destruct r; injection EC as <-; [|exact H]. cbn. discriminate.
Qed.
Lemma run_nonvoid es k : forall d d', in_order d -> rrun fbits fuel d es = Done d' -> nonvoid d k \/ put_under k es <> [] -> nonvoid d' k.
Proof.
  induction es as [|e es IH]; intros d d' O E H; cbn [rrun] in E.
  - injection E as <-. destruct H as [H|H]; [exact H|exfalso; apply H; reflexivity].
  - apply rbind_done in E as (d1 & E1 & E). apply (IH d1 d'); [eapply step_order; eassumption|exact E|].
    unfold put_under, accepted in H. cbn [flat_map] in H. rewrite contents_app in H. fold (accepted es) in H.
    destruct (contents (accepted_by e) k) eqn:C; [|left; apply (step_nonvoid d e d1 k O E1); right; rewrite C; discriminate].
    destruct H as [H|H]; [left; apply (step_nonvoid d e d1 k O E1); left; exact H|right; exact H].
Qed.
Lemma read_cell d k g : k <> KEY_END -> cell_get fbits fuel k (cell_at d k) = Done (GValue g) -> rread d k = Done (g, KOk).
Proof. intros NE E. unfold rocks_read. rewrite key_eqb_neq by exact NE. rewrite E. reflexivity. Qed.

(* Nothing was written: nothing is read. *)
Theorem C45_nothing : forall k es d, run es = Done d -> put_under k es = [] -> rread d k = Done ([], KOk).
Proof.
  intros k es d E P. unfold rocks_read. destruct (key_eqb k KEY_END); [reflexivity|].
  rewrite cell_at_absent; [reflexivity|]. rewrite (run_keys es [] d k E). intros [[]|H]. exact (H P).
Qed.

(* The last-write-wins family: however the writes are interleaved with flushes
   and compactions of whatever part of the operands, a read gives exactly the
   ops written under the key, each once, in order. *)
Theorem C45_union : forall k es d dss, In (key_form k) [LWW_RDT_FORM; MX_RDT_FORM; YARN_RAW_FORM; META_META_FORM] -> k <> KEY_END ->
  run es = Done d -> Forall2 text_frame (put_under k es) dss -> put_under k es <> [] -> union_bound fuel dss ->
  exists text us, rread d k = Done (text, KOk) /\ frame_lit canon text (chunk_of us) /\ increasing_ids (chunk_of us) /\
    forall u, In u us <-> In u (map bare (concat dss)).
Proof.
  intros k es d dss FM NE E F NP B.
  destruct (history_inv fbits fuel k text_frame (union_bound fuel) union_inv (union_bound_prefix fuel)
    (union_write fbits) (union_partial fbits fuel k FM) (union_full fbits fuel k FM) es [] [] dss d order0) as (O & I); try assumption.
  - exists []. split; [split; [constructor|split; [reflexivity|split; reflexivity]]|]. intro H. exfalso. apply H. reflexivity.
  - cbn [app] in I. destruct (union_get fbits fuel k FM (cell_at d k) dss I B) as (text & us & G & R).
    + intros ->. inversion F as [Q|]. apply NP. symmetry. exact Q.
    + apply (run_nonvoid es k [] d order0 E). right. exact NP.
    + exists text, us. split; [apply read_cell; assumption|exact R].
Qed.

(* so two histories with the same ops read as the same ops, whatever the
   schedule of compactions, the order of the writes, their grouping into frames
   and repetitions *)
Theorem C45_schedule : forall k es1 es2 d1 d2 dss1 dss2,
  In (key_form k) [LWW_RDT_FORM; MX_RDT_FORM; YARN_RAW_FORM; META_META_FORM] -> k <> KEY_END ->
  run es1 = Done d1 -> run es2 = Done d2 -> put_under k es1 <> [] ->
  put_under k es2 <> [] ->
  Forall2 text_frame (put_under k es1) dss1 -> Forall2 text_frame (put_under k es2) dss2 ->
  (forall u, In u (map bare (concat dss1)) <-> In u (map bare (concat dss2))) ->
  union_bound fuel dss1 -> union_bound fuel dss2 ->
  exists t1 t2 ops, rread d1 k = Done (t1, KOk) /\ rread d2 k = Done (t2, KOk) /\ frame_lit canon t1 ops /\ frame_lit canon t2 ops.
Proof.
  intros k es1 es2 d1 d2 dss1 dss2 FM NE E1 E2 NP NP2 F1 F2 SU B1 B2.
  destruct (C45_union k es1 d1 dss1 FM NE E1 F1 NP B1) as (t1 & us1 & R1 & L1 & I1 & U1).
  destruct (C45_union k es2 d2 dss2 FM NE E2 F2) as (t2 & us2 & R2 & L2 & I2 & U2); [exact NP2|exact B2|].
  assert (us1 = us2) by (apply chunk_same; [exact I1|exact I2|intro u; rewrite U1, U2; apply SU]). subst us2.
  exists t1, t2, (chunk_of us1). auto.
Qed.

(* the store in memory given the same writes agrees *)
Theorem C45_same_as_memory : forall k es d dss ops st outs old,
  In (key_form k) [LWW_RDT_FORM; MX_RDT_FORM; YARN_RAW_FORM; META_META_FORM] -> k <> KEY_END ->
  run es = Done d -> Forall2 text_frame (put_under k es) dss -> put_under k es <> [] -> union_bound fuel dss ->
  written k ops = put_under k es -> Forall key64 (flat_map op_keys ops) ->
  srun bytes [] empty_text (merge_as fbits fuel) [] ops = Done (st, outs) ->
  exists t1 us st' t2 ds, rread d k = Done (t1, KOk) /\ frame_lit canon t1 (chunk_of us) /\ increasing_ids (chunk_of us) /\
    read bytes [] (merge_as fbits fuel) st k old = Done (st', t2, StOK) /\ frame_lit canon t2 ds /\ sorted_ids ds /\
    forall u, In u us <-> In u (map bare ds).
Proof.
  intros k es d dss ops st outs old FM NE E F NP B WE KO SE.
  destruct (C45_union k es d dss FM NE E F NP B) as (t1 & us & R1 & L1 & I1 & U1). destruct B as (M & LF & LN & RN).
  destruct (C28_history fbits fuel [] ops st outs k dss old) as (st' & t2 & ds & R2 & L2 & SO & U2 & _); try assumption; try (rewrite WE; assumption); try constructor.
  exists t1, us, st', t2, ds. do 6 (split; [assumption|]). intro u. rewrite U1, U2. reflexivity.
Qed.

(* logs: the ops written under the key in the order in which they were written *)
Theorem C45_log : forall k es d dss, key_form k = LOG_RAW_FORM -> k <> KEY_END ->
  run es = Done d -> Forall2 frame_text (put_under k es) dss -> put_under k es <> [] -> log_bound fuel dss ->
  exists text ops, rread d k = Done (text, KOk) /\ frame_lit canon text ops /\ map bare ops = map bare (concat dss).
Proof.
  intros k es d dss FM NE E F NP B.
  destruct (history_inv fbits fuel k frame_text (log_bound fuel) log_inv (log_bound_prefix fuel)
    log_write (log_partial fbits fuel k FM) (log_full fbits fuel k FM) es [] [] dss d order0) as (O & I); try assumption.
  - exists []. split; [constructor|reflexivity].
  - cbn [app] in I. destruct (log_get fbits fuel k FM (cell_at d k) dss I B) as (text & ops & G & R).
    + apply (run_nonvoid es k [] d order0 E). right. exact NP.
    + exists text, ops. split; [apply read_cell; assumption|exact R].
Qed.

(* records of which the last one counts *)
Theorem C45_last : forall k es d dss, key_form k = ZERO_RAW_FORM \/ key_form k = ERROR_NO_FORM -> k <> KEY_END ->
  run es = Done d -> Forall2 frame_text (put_under k es) dss -> put_under k es <> [] -> log_bound fuel dss ->
  exists text ops, rread d k = Done (text, KOk) /\ frame_lit canon text ops /\ map bare ops = map bare (newest dss).
Proof.
  intros k es d dss FM NE E F NP B.
  destruct (history_inv fbits fuel k frame_text (log_bound fuel) last_inv (log_bound_prefix fuel)
    (last_write fbits) (last_partial fbits fuel k FM) (last_full fbits fuel k FM) es [] [] dss d order0) as (O & I); try assumption.
  - exists []. split; [constructor|]. split; [reflexivity|]. split; [intros u []|split; reflexivity].
  - cbn [app] in I. destruct (last_get fbits fuel k FM (cell_at d k) dss I B) as (text & ops & G & R).
    + apply (run_nonvoid es k [] d order0 E). right. exact NP.
    + exists text, ops. split; [apply read_cell; assumption|exact R].
Qed.

(* a form without a merge rule: every read fails, even after a single write;
   no compaction loses or changes what was written *)
Definition raw_inv (v : option bytes) (ops : list bytes) (W : list (list rop)) : Prop := v = None /\ Forall2 frame_text ops W.
Lemma no_rule form fs ds : Forall2 frame_text fs ds ->
  ~ In form [LOG_RAW_FORM; ZERO_RAW_FORM; ERROR_NO_FORM; META_META_FORM; YARN_RAW_FORM; LWW_RDT_FORM; MX_RDT_FORM; RGA_RDT_FORM; MAX_RDT_FORM] ->
  operator_merge fbits fuel form fs = Done None.
Proof.
  intros F NI. destruct (frame_texts _ _ F) as (A & B). destruct (open_visits fs ds A B) as (cs & vss & O & V & _).
  unfold operator_merge, merge_as. rewrite O. unfold merge_opened.
  assert (M : master_merge cursor valid text_next text_id text_ref (text_val fbits) c_term fuel form cs = Done ([], StNotImplemented)).
  { clear -NI. unfold master_merge. cbn [In] in NI.
    repeat match goal with |- (if ?a =? ?b then _ else _) = _ => destruct (N.eqb_spec a b) as [X|_]; [exfalso; apply NI; rewrite X; tauto|] end. reflexivity. }
  rewrite M. reflexivity.
Qed.
Theorem C45_no_rule : forall k es d dss,
  ~ In (key_form k) [LOG_RAW_FORM; ZERO_RAW_FORM; ERROR_NO_FORM; META_META_FORM; YARN_RAW_FORM; LWW_RDT_FORM; MX_RDT_FORM; RGA_RDT_FORM; MAX_RDT_FORM] ->
  k <> KEY_END -> run es = Done d -> Forall2 frame_text (put_under k es) dss -> put_under k es <> [] ->
  rread d k = Done ([], KDbFail) /\ cell_at d k = mkCell None (put_under k es).
Proof.
  intros k es d dss NI NE E F NP.
  assert (K : forall es d0 d dss, in_order d0 -> ce_value (cell_at d0 k) = None -> Forall2 frame_text (ce_operands (cell_at d0 k) ++ put_under k es) dss ->
    rrun fbits fuel d0 es = Done d -> cell_at d k = mkCell None (ce_operands (cell_at d0 k) ++ put_under k es)).
  { clear -NI. induction es as [|e es IH]; intros d0 d dss O V F E; cbn [rrun] in E.
    - injection E as <-. rewrite app_nil_r. rewrite <- V. destruct (cell_at d0 k); reflexivity.
    - apply rbind_done in E as (d1 & E1 & E). pose proof (step_order _ _ _ _ _ O E1) as O1.
      assert (C1 : cell_at d1 k = mkCell None (ce_operands (cell_at d0 k) ++ contents (accepted_by e) k)).
      { pose proof (step_writes d0 e k O) as SW. destruct e as [k1 f|l|k1 ce].
        1,2: destruct (SW fbits fuel) as (d2 & E2 & O2 & C2); rewrite E1 in E2; injection E2 as <-; rewrite C2, V; reflexivity.
        cbn [accepted_by contents filter map]. unfold contents. cbn [filter map]. rewrite app_nil_r.
        assert (SAME : cell_at d0 k = mkCell None (ce_operands (cell_at d0 k))) by (rewrite <- V; destruct (cell_at d0 k); reflexivity).
        cbn [rstep] in E1. unfold compact in E1. destruct (existsb _ d0); [|injection E1 as <-; exact SAME].
        apply rbind_done in E1 as (c & EC & E1). injection E1 as <-. rewrite put_at by exact O. destruct (key_eqb k1 k) eqn:EK; [|exact SAME].
        apply key_eqb_eq in EK. subst k1. rewrite SAME in EC. cbn [ce_operands]. rewrite SAME. set (ops := ce_operands (cell_at d0 k)) in *. cbn [ce_operands].
        assert (PRE : Forall2 frame_text ops (firstn (length ops) dss)).
        { clear -F. remember (put_under k (RCompact k ce :: es)) as r. clear Heqr. revert dss F. induction ops as [|x ops IH]; intros dss F; [constructor|].
          cbn [app] in F. inversion F; subst. cbn [length firstn]. constructor; [assumption|apply IH; assumption]. }
        assert (PART : forall i n, operator_merge fbits fuel (key_form k) (firstn n (skipn i ops)) = Done None).
        { intros i n. rewrite <- (firstn_skipn i ops) in PRE. apply Forall2_app_inv_l in PRE as (a & b & _ & PB & _).
          rewrite <- (firstn_skipn n (skipn i ops)) in PB. apply Forall2_app_inv_l in PB as (b1 & b2 & PB & _ & _). apply (no_rule _ _ b1 PB NI). }
        destruct ce as [i n|n]; cbn [cell_compact ce_operands ce_value] in EC; unfold partial_merge, full_merge in EC; cbn [held app] in EC.
        - specialize (PART i n). destruct (firstn n (skipn i ops)); [injection EC as <-; reflexivity|]. rewrite PART in EC. injection EC as <-. reflexivity.
        - specialize (PART 0%nat n). cbn [skipn] in PART. destruct (firstn n ops); [injection EC as <-; reflexivity|]. rewrite PART in EC. injection EC as <-. reflexivity. }
      assert (PE : put_under k (e :: es) = contents (accepted_by e) k ++ put_under k es) by (unfold put_under, accepted; cbn [flat_map]; apply contents_app).
      rewrite PE in *. rewrite (IH d1 d dss O1); [rewrite C1; cbn [ce_operands]; rewrite app_assoc; reflexivity|rewrite C1; reflexivity| |exact E].
      rewrite C1. cbn [ce_operands]. rewrite <- app_assoc. exact F. }
  pose proof (K es [] d dss order0 eq_refl F E) as C. cbn [cell_at cell0 ce_operands app] in C. split; [|exact C].
  unfold rocks_read. rewrite key_eqb_neq by exact NE. rewrite C. unfold cell_get. cbn [ce_operands ce_value]. destruct (put_under k es) as [|f l]; [congruence|].
  unfold full_merge. cbn [held app]. rewrite (no_rule _ _ dss F NI). reflexivity.
Qed.

(* ---- C46: iteration ---- *)
Lemma first_from_ok (d : list (key * cell)) k : exists lo hi, d = lo ++ hi /\ Forall (fun r => key_lt (fst r) k) lo /\ (forall x r, hi = x :: r -> ~ key_lt (fst x) k) /\
  forall j, first_from d k j = match hi with [] => None | _ => Some (j + length lo)%nat end.
Proof.
  induction d as [|[k1 c1] d (lo & hi & -> & L & H & E)].
  - exists [], []. split; [reflexivity|]. split; [constructor|]. split; [discriminate|reflexivity].
  - cbn [first_from]. destruct (key_ltb k1 k) eqn:Q.
    + exists ((k1, c1) :: lo), hi. split; [reflexivity|]. split; [constructor; assumption|]. split; [exact H|]. intro j. rewrite E. cbn [length].
      destruct hi; [reflexivity|]. f_equal. lia.
    + exists [], ((k1, c1) :: lo ++ hi). split; [reflexivity|]. split; [constructor|]. split; [intros x r X; injection X as <- <-; cbn [fst]; unfold key_lt; congruence|].
      intro j. cbn [length]. f_equal. lia.
Qed.
Lemma last_upto_ok (d : list (key * cell)) k : exists lo hi, d = lo ++ hi /\ Forall (fun r => ~ key_lt k (fst r)) lo /\ (forall x r, hi = x :: r -> key_lt k (fst x)) /\
  forall j fnd, last_upto d k j fnd = match lo with [] => fnd | _ => Some (j + Nat.pred (length lo))%nat end.
Proof.
  induction d as [|[k1 c1] d (lo & hi & -> & L & H & E)].
  - exists [], []. split; [reflexivity|]. split; [constructor|]. split; [discriminate|reflexivity].
  - cbn [last_upto]. destruct (key_ltb k k1) eqn:Q.
    + exists [], ((k1, c1) :: lo ++ hi). split; [reflexivity|]. split; [constructor|]. split; [intros x r X; injection X as <- <-; exact Q|]. reflexivity.
    + exists ((k1, c1) :: lo), hi. split; [reflexivity|]. split; [constructor; [cbn [fst]; unfold key_lt; congruence|exact L]|]. split; [exact H|]. intros j fnd. rewrite E. cbn [length Nat.pred].
      destruct lo; cbn [length Nat.pred]; f_equal; lia.
Qed.

Lemma cell_of d k c lo hi : in_order d -> d = lo ++ (k, c) :: hi -> cell_at d k = c.
Proof.
  intros O E. subst d. induction lo as [|[k1 c1] lo IH]; cbn [app cell_at] in *; [rewrite key_eqb_refl; reflexivity|].
  inversion O as [|? ? O1 F]; subst. rewrite Forall_forall in F. assert (L : key_lt k1 k) by (apply (F (k, c)); apply in_or_app; right; left; reflexivity).
  rewrite key_eqb_neq; [apply IH; exact O1|]. intros ->. exact (key_lt_irrefl _ L).
Qed.
Lemma walk_from d : in_order d -> Forall key64 (map fst d) -> (forall k, In k (map fst d) -> exists g, cell_get fbits fuel k (cell_at d k) = Done g /\ g <> GNotFound) ->
  forall hi lo n, d = lo ++ hi -> (length hi < n)%nat ->
  exists it s l rest, settle fbits fuel (mkRiter d (if Nat.ltb (length lo) (length d) then Some (length lo) else None)) = Done (it, s) /\ ri_walk fbits fuel n it = Done l /\
    filter (fun k => negb (key_eqb k KEY_END)) (map fst hi) = map fst l ++ rest /\ Forall (shown_value fbits fuel d) l /\
    (rest = [] \/ exists x rest', rest = x :: rest' /\ rread d x = Done ([], KDbFail)).
Proof.
  intros O K64 TOT hi. induction hi as [|[k c] hi IH]; intros lo n E LN; (destruct n as [|n]; [exfalso; cbn [length] in LN; lia|]).
  - rewrite app_nil_r in E. subst lo. rewrite Nat.ltb_irrefl. exists (mkRiter d None), KOk, [], []. split; [reflexivity|]. split; [reflexivity|]. split; [reflexivity|].
    split; [constructor|left; reflexivity].
  - assert (LT : Nat.ltb (length lo) (length d) = true) by (apply Nat.ltb_lt; rewrite E, app_length; cbn [length]; lia).
    rewrite LT. assert (NTH : nth_error d (length lo) = Some (k, c)) by (rewrite E, nth_error_app2, Nat.sub_diag by lia; reflexivity).
    pose proof (cell_of d k c lo hi O E) as CA.
    assert (IK : In k (map fst d)) by (rewrite E, map_app, in_app_iff; right; left; reflexivity).
    destruct (TOT k IK) as (g & G & NG). rewrite CA in G.
    unfold settle. unfold ri_value at 1. cbn [ri_at ri_snap]. rewrite NTH, G. cbn [rbind map fst filter].
    destruct (key_eqb k KEY_END) eqn:KE.
    { (* Key::END itself: the last one *)
      apply key_eqb_eq in KE. subst k. assert (HI : hi = []).
      { destruct hi as [|[k2 c2] hi]; [reflexivity|exfalso]. subst d.
        assert (O2 : in_order ((KEY_END, c) :: (k2, c2) :: hi)) by (clear -O; induction lo; [exact O|cbn [app] in O; inversion O; auto]).
        inversion O2 as [|? ? _ F2]; subst. apply (key_end_max k2); [|exact (Forall_inv F2)].
        rewrite Forall_forall in K64. apply K64. rewrite map_app, in_app_iff. right. right. left. reflexivity. }
      subst hi. cbn [negb map filter].
      destruct g; do 2 eexists; exists [], []; (split; [reflexivity|]); (split; [|split; [reflexivity|split; [constructor|left; reflexivity]]]);
        cbn [ri_walk]; unfold ri_key; cbn [ri_at ri_snap]; rewrite ?NTH, key_eqb_refl; reflexivity. }
    cbn [negb]. assert (NE : k <> KEY_END) by (intros ->; rewrite key_eqb_refl in KE; discriminate).
    destruct g as [|f|].
    + contradiction.
    + destruct (IH (lo ++ [(k, c)]) n) as (it' & s' & l & rest & ST & W & V & SH & R).
      { rewrite E, <- app_assoc. reflexivity. }
      { cbn [length] in LN. lia. }
      exists (mkRiter d (Some (length lo))), KOk, ((k, GValue f) :: l), rest. split; [reflexivity|]. split; [|split; [|split; [|exact R]]].
      * cbn [ri_walk]. unfold ri_key at 1. cbn [ri_at ri_snap]. rewrite NTH, KE. unfold ri_value at 1. cbn [ri_at ri_snap]. rewrite NTH, G. cbn [rbind].
        unfold ri_next. cbn [ri_at ri_snap]. rewrite app_length in ST. cbn [length] in ST. rewrite Nat.add_1_r in ST.
        assert (KK : ri_key (mkRiter d (Some (length lo))) = k) by (unfold ri_key; cbn [ri_at ri_snap]; rewrite NTH; reflexivity).
        rewrite KK. destruct (Nat.ltb (S (length lo)) (length d)).
        -- rewrite ST. cbn [rbind]. rewrite W. reflexivity.
        -- cbn in ST. injection ST as <- <-. cbn [rbind]. rewrite W. reflexivity.
      * cbn [map fst app]. f_equal. exact V.
      * constructor; [|exact SH]. exists f. split; [reflexivity|]. cbn [fst]. apply read_cell; [exact NE|]. rewrite CA. exact G.
    + exists (mkRiter d None), KDbFail, [], (k :: filter (fun k => negb (key_eqb k KEY_END)) (map fst hi)). split; [reflexivity|]. split; [reflexivity|].
      split; [reflexivity|]. split; [constructor|]. right. do 2 eexists. split; [reflexivity|].
      unfold rocks_read. rewrite KE, CA, G. reflexivity.
Qed.
Lemma nonvoid_got d k g : nonvoid d k -> cell_get fbits fuel k (cell_at d k) = Done g -> g <> GNotFound.
Proof.
  unfold nonvoid, cell_get. intros NV E ->. destruct (cell_at d k) as [v ops]. cbn [ce_value ce_operands] in *.
  destruct ops; [destruct v; [discriminate|apply NV; reflexivity]|]. apply rbind_done in E as (r & _ & E). destruct r; discriminate.
Qed.
Lemma keys_nonvoid es d k : run es = Done d -> In k (map fst d) -> nonvoid d k.
Proof. intros E I. apply (run_keys es [] d k E) in I. destruct I as [[]|I]. apply (run_nonvoid es k [] d order0 E). right. exact I. Qed.

(* A new iterator, SeekTo(k), Next...: the keys written from k on, each once,
   in order, with what a read of the key returns; the walk ends early at the
   first key whose merge fails. *)
Theorem C46_walk : forall es d k n, run es = Done d -> Forall key64 (map fst (accepted es)) ->
  (forall k', In k' (map fst d) -> exists g, cell_get fbits fuel k' (cell_at d k') = Done g) -> (length d < n)%nat ->
  exists it s l rest, ri_seek fbits fuel (ri_new d) k false = Done (it, s) /\ ri_walk fbits fuel n it = Done l /\
    StronglySorted key_lt (map fst l ++ rest) /\
    (forall x, In x (map fst l ++ rest) <-> put_under x es <> [] /\ ~ key_lt x k /\ x <> KEY_END) /\
    Forall (shown_value fbits fuel d) l /\
    (rest = [] \/ exists x rest', rest = x :: rest' /\ rread d x = Done ([], KDbFail)).
Proof.
  intros es d k n E K64 TOT LN. pose proof (run_order es [] d order0 E) as O.
  assert (KD : Forall key64 (map fst d)).
  { apply Forall_forall. intros x I. apply (run_keys es [] d x E) in I. destruct I as [[]|I]. rewrite Forall_forall in K64. apply K64.
    unfold put_under, contents in I. destruct (filter (fun r => key_eqb (fst r) x) (accepted es)) as [|r l] eqn:Q; [exfalso; apply I; reflexivity|].
    assert (J : In r (filter (fun r => key_eqb (fst r) x) (accepted es))) by (rewrite Q; left; reflexivity). apply filter_In in J as [J1 J2]. apply key_eqb_eq in J2. subst x. apply in_map. exact J1. }
  destruct (first_from_ok d k) as (lo & hi & ED & L & H & FF).
  destruct (walk_from d O KD) with (hi := hi) (lo := lo) (n := n) as (it & s & l & rest & ST & W & V & SH & R).
  - intros k' I. destruct (TOT k' I) as (g & G). exists g. split; [exact G|]. apply (nonvoid_got d k' g); [apply (keys_nonvoid es); assumption|exact G].
  - exact ED.
  - rewrite ED, app_length in LN. lia.
  - exists it, s, l, rest. split; [|split; [exact W|]].
    + unfold ri_seek, ri_new. cbn [ri_snap]. rewrite FF. rewrite <- ST. f_equal. f_equal. rewrite ED, app_length. destruct hi as [|x hi]; cbn [length].
      * rewrite (proj2 (Nat.ltb_ge _ _)) by lia. reflexivity.
      * rewrite (proj2 (Nat.ltb_lt _ _)) by lia. reflexivity.
    + rewrite <- V. assert (OH : in_order hi) by (subst d; clear -O; induction lo; [exact O|cbn [app] in O; inversion O; auto]).
      assert (SS : StronglySorted key_lt (map fst hi)).
      { clear -OH. induction OH as [|x l OH IH F]; cbn [map]; [constructor|]. constructor; [exact IH|]. apply Forall_map. exact F. }
      split; [|split; [|split; [exact SH|exact R]]].
      * clear -SS. induction SS as [|x l SS IH F]; [constructor|]. cbn [filter]. destruct (negb _); [|exact IH]. constructor; [exact IH|].
        rewrite Forall_forall in *. intros y I. apply filter_In in I as [I _]. apply F. exact I.
      * intro x. rewrite filter_In. assert (EQ : put_under x es <> [] <-> In x (map fst d)) by (rewrite (run_keys es [] d x E); cbn; tauto).
        rewrite EQ, ED, map_app, in_app_iff, negb_true_iff.
        assert (NE : key_eqb x KEY_END = false <-> x <> KEY_END).
        { split; [intros Q ->; rewrite key_eqb_refl in Q; discriminate|apply key_eqb_neq]. }
        rewrite NE. split.
        -- intros [I N]. split; [right; exact I|]. split; [|exact N]. destruct hi as [|h hi]; [contradiction|]. specialize (H h hi eq_refl).
           destruct I as [<-|I]; [exact H|]. cbn [map] in SS. inversion SS as [|? ? _ F]; subst. rewrite Forall_forall in F. specialize (F x I).
           intro Q. apply H. exact (key_lt_trans _ _ _ F Q).
        -- intros ([I|I] & NL & N); [|split; assumption]. exfalso. apply in_map_iff in I as (r & <- & I). rewrite Forall_forall in L. apply NL, L, I.
Qed.

Lemma land d i k c lo hi : in_order d -> d = lo ++ (k, c) :: hi -> i = length lo -> nonvoid d k ->
  (exists g, cell_get fbits fuel k (cell_at d k) = Done g) ->
  exists it s, settle fbits fuel (mkRiter d (Some i)) = Done (it, s) /\
    ((s = KOk /\ ri_key it = k /\ exists f, ri_value fbits fuel it = Done (GValue f) /\ cell_get fbits fuel k (cell_at d k) = Done (GValue f)) \/
     (s = KDbFail /\ ri_key it = KEY_END /\ cell_get fbits fuel k (cell_at d k) = Done GFail)).
Proof.
  intros O E -> NV (g & G). pose proof (nonvoid_got d k g NV G) as NG. pose proof (cell_of d k c lo hi O E) as CA. rewrite CA in *.
  assert (NTH : nth_error d (length lo) = Some (k, c)) by (rewrite E, nth_error_app2, Nat.sub_diag by lia; reflexivity).
  unfold settle. unfold ri_value at 1. cbn [ri_at ri_snap]. rewrite NTH, G. cbn [rbind]. destruct g as [|f|]; [contradiction| |].
  - exists (mkRiter d (Some (length lo))), KOk. split; [reflexivity|]. left. split; [reflexivity|]. unfold ri_key, ri_value. cbn [ri_at ri_snap]. rewrite NTH.
    split; [reflexivity|]. exists f. auto.
  - exists (mkRiter d None), KDbFail. split; [reflexivity|]. right. auto.
Qed.
(* SeekTo: the least key not below k; with prev, the greatest not above it;
   Key::END if there is none, and with status DB_FAIL if its merge fails *)
Theorem C46_seek : forall es d k, run es = Done d ->
  (forall k', In k' (map fst d) -> exists g, cell_get fbits fuel k' (cell_at d k') = Done g) ->
  (exists it s, ri_seek fbits fuel (ri_new d) k false = Done (it, s) /\
     landed fbits fuel d it s (fun x => ~ key_lt x k) (fun x => forall y, In y (map fst d) -> ~ key_lt y k -> ~ key_lt y x)) /\
  (exists it s, ri_seek fbits fuel (ri_new d) k true = Done (it, s) /\
     landed fbits fuel d it s (fun x => ~ key_lt k x) (fun x => forall y, In y (map fst d) -> ~ key_lt k y -> ~ key_lt x y)).
Proof.
  intros es d k E TOT. pose proof (run_order es [] d order0 E) as O. split.
  - destruct (first_from_ok d k) as (lo & hi & ED & L & H & FF). unfold ri_seek, ri_new. cbn [ri_snap]. rewrite FF. cbn [Nat.add].
    assert (LO : forall y, In y (map fst lo) -> key_lt y k) by (intros y I; apply in_map_iff in I as (r & <- & I); rewrite Forall_forall in L; apply L, I).
    destruct hi as [|[x c] hi].
    + do 2 eexists. split; [reflexivity|]. left. split; [reflexivity|]. split; [reflexivity|]. rewrite app_nil_r in ED. subst d. intros y I Q. apply Q, LO, I.
    + assert (IX : In x (map fst d)) by (rewrite ED, map_app, in_app_iff; right; left; reflexivity).
      destruct (land d (length lo) x c lo hi O ED eq_refl (keys_nonvoid es d x E IX) (TOT x IX)) as (it & s & ST & D).
      exists it, s. split; [exact ST|]. right. exists x. split; [exact IX|]. split; [exact (H (x, c) hi eq_refl)|]. split; [|exact D].
      intros y I NL. rewrite ED, map_app, in_app_iff in I. destruct I as [I|[<-|I]]; [exfalso; exact (NL (LO y I))|apply key_lt_irrefl|].
      assert (OH : in_order ((x, c) :: hi)) by (clear -O ED; subst d; induction lo; [exact O|cbn [app] in O; inversion O; auto]).
      inversion OH as [|? ? _ F]; subst. rewrite Forall_forall in F. apply in_map_iff in I as (r & <- & I). specialize (F r I). cbn [fst] in F.
      intro Q. exact (key_lt_irrefl _ (key_lt_trans _ _ _ F Q)).
  - destruct (last_upto_ok d k) as (lo & hi & ED & L & H & FF). unfold ri_seek, ri_new. cbn [ri_snap]. rewrite FF. cbn [Nat.add].
    assert (OS : forall a b, In a (map fst lo) -> In b (map fst hi) -> key_lt a b).
    { clear -O ED. subst d. intros a b IA IB. apply in_map_iff in IA as (r & <- & IA). apply in_map_iff in IB as (q & <- & IB).
      induction lo as [|z lo IH]; [contradiction|]. cbn [app] in O. inversion O as [|? ? O1 F]; subst. destruct IA as [<-|IA]; [|apply IH; assumption].
      rewrite Forall_forall in F. apply F. apply in_or_app. right. exact IB. }
    assert (HI : forall y, In y (map fst hi) -> key_lt k y).
    { clear -O ED H. assert (OH : in_order hi) by (subst d; induction lo; [exact O|cbn [app] in O; inversion O; auto]). intros y I.
      destruct hi as [|h hi]; [contradiction|]. specialize (H h hi eq_refl). inversion OH as [|? ? _ F]; subst. destruct I as [<-|I]; [exact H|].
      rewrite Forall_forall in F. apply in_map_iff in I as (r & <- & I). exact (key_lt_trans _ _ _ H (F r I)). }
    destruct lo as [|z lo0] eqn:QL.
    + do 2 eexists. split; [reflexivity|]. left. split; [reflexivity|]. split; [reflexivity|]. cbn [app] in ED. subst d. intros y I Q. apply Q, HI, I.
    + destruct (@exists_last _ lo) as (lo' & [x c] & EL); [rewrite QL; discriminate|]. rewrite <- QL in *. clear QL z lo0. subst lo.
      assert (ED' : d = lo' ++ (x, c) :: hi) by (rewrite ED, <- app_assoc; reflexivity).
      assert (IX : In x (map fst d)) by (rewrite ED', map_app, in_app_iff; right; left; reflexivity).
      destruct (land d (Nat.pred (length (lo' ++ [(x, c)]))) x c lo' hi O ED') as (it & s & ST & D);
        [rewrite app_length; cbn [length]; lia|exact (keys_nonvoid es d x E IX)|exact (TOT x IX)|].
      exists it, s. split; [destruct (lo' ++ [(x, c)]) eqn:Q; [destruct lo'; discriminate|exact ST]|]. right. exists x. split; [exact IX|].
      rewrite Forall_app in L. destruct L as [_ L]. split; [exact (Forall_inv L)|]. split; [|exact D].
      intros y I NL. rewrite ED', map_app, in_app_iff in I. destruct I as [I|[<-|I]]; [|apply key_lt_irrefl|exfalso; exact (NL (HI y I))].
      assert (LT : key_lt y x).
      { clear -O ED' I. subst d. induction lo' as [|z lo IH]; [contradiction|]. cbn [app] in O. inversion O as [|? ? O1 F]; subst. destruct I as [<-|I]; [|apply IH; assumption].
        rewrite Forall_forall in F. apply (F (x, c)). apply in_or_app. right. left. reflexivity. }
      intro Q. exact (key_lt_irrefl _ (key_lt_trans _ _ _ LT Q)).
Qed.
End Rocks.
Print Assumptions C45_nothing.
Print Assumptions C45_union.
Print Assumptions C45_schedule.
Print Assumptions C45_same_as_memory.
Print Assumptions C45_log.
Print Assumptions C45_last.
Print Assumptions C45_no_rule.
Print Assumptions C46_walk.
Print Assumptions C46_seek.
