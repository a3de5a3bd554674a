(* Proofs about the RocksDB store: the family as a map, invariants over a
   history with compactions, transcription of text frames. *)
From Coq Require Import Sorted Permutation.
From Verif Require Import Prelude UuidModel UuidSpec UuidProofs KeyModel CodecModel CodecSpec TextModel TextSpec FrameProofs BuilderSpec BuilderProofs
  MergeModel MergeSpec MergeTextModel HeapProofs MergeProofs RgaProofs RgaTree MaxProofs MergeTheorems TextMergeSpec TextCursors MergeKeeps TextMerge
  SizeProofs TextMergeTheorems StoreModel StoreSpec StoreProofs StoreTheorems RocksModel RocksSpec.

(* ---- the family as a map ---- *)
Lemma put_at d k c k' : in_order d -> cell_at (put d k c) k' = if key_eqb k k' then c else cell_at d k'.
Proof.
  intro O. induction O as [|[k1 c1] d O IH F]; cbn [put cell_at]; [destruct (key_eqb k k'); reflexivity|].
  destruct (key_ltb k k1) eqn:L.
  - cbn [cell_at]. reflexivity.
  - destruct (key_eqb k1 k) eqn:E; cbn [cell_at].
    + apply key_eqb_eq in E. subst k1. destruct (key_eqb k k'); reflexivity.
    + rewrite IH. destruct (key_eqb k1 k') eqn:E1; [|reflexivity]. apply key_eqb_eq in E1. subst k1.
      destruct (key_eqb k k') eqn:E2; [|reflexivity]. apply key_eqb_eq in E2. subst k'. rewrite key_eqb_refl in E. discriminate.
Qed.
Lemma put_keys d k c x : In x (map fst (put d k c)) <-> x = k \/ In x (map fst d).
Proof.
  induction d as [|[k1 c1] d IH]; cbn [put map fst In]; [split; intros [H|[]]; left; congruence|].
  destruct (key_ltb k k1); cbn [map fst In]; [intuition congruence|].
  destruct (key_eqb k1 k) eqn:E; cbn [map fst In].
  - apply key_eqb_eq in E. subst. intuition congruence.
  - rewrite IH. intuition congruence.
Qed.
Lemma put_order d k c : in_order d -> in_order (put d k c).
Proof.
  intro O. induction O as [|[k1 c1] d O IH F]; cbn [put]; [constructor; constructor|].
  destruct (key_ltb k k1) eqn:L.
  - constructor; [constructor; assumption|]. constructor; [exact L|]. rewrite Forall_forall in *. intros y I. specialize (F y I).
    cbn [fst] in *. eapply key_lt_trans; eassumption.
  - destruct (key_eqb k1 k) eqn:E.
    + apply key_eqb_eq in E. subst. constructor; [exact O|]. rewrite Forall_forall in *. intros y I. apply (F y I).
    + constructor; [exact IH|]. apply Forall_forall. intros y I. assert (J : In (fst y) (map fst (put d k c))) by (apply in_map; exact I).
      apply put_keys in J. cbn [fst] in *. destruct J as [->|J].
      * destruct (key_total k1 k) as [T|[T|T]]; [exact T|subst; rewrite key_eqb_refl in E; discriminate|]. unfold key_lt in T. congruence.
      * apply in_map_iff in J as (z & Z & J). rewrite Forall_forall in F. rewrite <- Z. apply (F z J).
Qed.
Lemma cell_at_absent d k : ~ In k (map fst d) -> cell_at d k = cell0.
Proof.
  induction d as [|[k1 c1] d IH]; intro N; [reflexivity|]. cbn [cell_at map fst In] in *.
  rewrite key_eqb_neq by intuition. apply IH. intuition.
Qed.
Lemma add_order d k f : in_order d -> in_order (add_operand d k f).
Proof. intro O. apply put_order. exact O. Qed.
Lemma add_at d k f k' : in_order d -> cell_at (add_operand d k f) k' =
  if key_eqb k k' then mkCell (ce_value (cell_at d k')) (ce_operands (cell_at d k') ++ [f]) else cell_at d k'.
Proof.
  intro O. unfold add_operand. rewrite put_at by exact O. destruct (key_eqb k k') eqn:E; [|reflexivity].
  apply key_eqb_eq in E. subst. reflexivity.
Qed.

(* adding operands one by one *)
Definition adds (d : list (key * cell)) (l : list (key * bytes)) := fold_left (fun d r => add_operand d (fst r) (snd r)) l d.
Lemma adds_at l : forall d k, in_order d -> in_order (adds d l) /\ cell_at (adds d l) k = mkCell (ce_value (cell_at d k)) (ce_operands (cell_at d k) ++ contents l k).
Proof.
  induction l as [|[k1 f] l IH]; intros d k O.
  - split; [exact O|]. cbn. rewrite app_nil_r. destruct (cell_at d k); reflexivity.
  - change (adds d ((k1, f) :: l)) with (adds (add_operand d k1 f) l). destruct (IH (add_operand d k1 f) k (add_order d k1 f O)) as [O2 E]. split; [exact O2|].
    rewrite E, add_at by exact O. unfold contents. cbn [filter fst]. destruct (key_eqb k1 k); cbn [ce_value ce_operands map snd]; [|reflexivity].
    rewrite <- app_assoc. reflexivity.
Qed.
Lemma step_writes d e k : in_order d -> match e with RCompact _ _ => True | _ =>
  forall fbits fuel, exists d', rstep fbits fuel d e = Done d' /\ in_order d' /\
  cell_at d' k = mkCell (ce_value (cell_at d k)) (ce_operands (cell_at d k) ++ contents (accepted_by e) k) end.
Proof.
  intro O. destruct e as [k1 f|l|k1 e]; [| |exact Logic.I]; intros fbits fuel; cbn [rstep].
  - unfold rocks_write, accepted_by. destruct (key_eqb k1 KEY_END) eqn:E; destruct f as [|b f]; cbn [andb negb fst];
      try (eexists; split; [reflexivity|]; split; [apply add_order; exact O|]; rewrite add_at by exact O; unfold contents; cbn [filter fst];
           destruct (key_eqb k1 k); cbn [map snd]; [reflexivity|rewrite app_nil_r; destruct (cell_at d k); reflexivity]).
    eexists. split; [reflexivity|]. split; [exact O|]. cbn. rewrite app_nil_r. destruct (cell_at d k); reflexivity.
  - eexists. split; [reflexivity|]. unfold rocks_batch. cbn [fst]. apply adds_at. exact O.
Qed.

(* ---- invariants over a history ---- *)
Section History.
Variable fbits : bytes -> N.
Variable fuel : nat.
Variable k : key.
Variable ok : bytes -> list rop -> Prop.
Variable bound : list (list rop) -> Prop.
Variable P : option bytes -> list bytes -> list (list rop) -> Prop.
Hypothesis bound_prefix : forall a b, bound (a ++ b) -> bound a.
Hypothesis P_write : forall v ops W f d, P v ops W -> ok f d -> P v (ops ++ [f]) (W ++ [d]).
Hypothesis P_partial : forall v a b c W g, P v (a ++ b ++ c) W -> bound W -> b <> [] ->
  operator_merge fbits fuel (key_form k) b = Done (Some g) -> P v (a ++ g :: c) W.
Hypothesis P_full : forall v b c W g, P v (b ++ c) W -> bound W -> b <> [] ->
  operator_merge fbits fuel (key_form k) (held v ++ b) = Done (Some g) -> P (Some g) c W.

Lemma P_writes fs ds : Forall2 ok fs ds -> forall v ops W, P v ops W -> P v (ops ++ fs) (W ++ ds).
Proof.
  intro F. induction F as [|f d fs ds H F IH]; intros v ops W HP; [rewrite !app_nil_r; exact HP|].
  replace (ops ++ f :: fs) with ((ops ++ [f]) ++ fs) by (rewrite <- app_assoc; reflexivity).
  replace (W ++ d :: ds) with ((W ++ [d]) ++ ds) by (rewrite <- app_assoc; reflexivity). apply IH. apply P_write; assumption.
Qed.
Definition inv (d : list (key * cell)) (W : list (list rop)) : Prop := P (ce_value (cell_at d k)) (ce_operands (cell_at d k)) W.

Lemma compact_ok d e d' W : in_order d -> inv d W -> bound W -> compact fbits fuel d k e = Done d' ->
  in_order d' /\ inv d' W.
Proof.
  intros O HP B E. unfold compact in E. destruct (existsb _ d); [|injection E as <-; auto].
  apply rbind_done in E as (c & EC & E). injection E as <-. split; [apply put_order; exact O|].
  unfold inv. rewrite put_at in * by exact O. rewrite key_eqb_refl in *. unfold inv in HP. destruct (cell_at d k) as [v ops]. cbn [ce_value ce_operands] in *.
  destruct e as [i n|n]; cbn [cell_compact ce_operands ce_value] in EC.
  - destruct (firstn n (skipn i ops)) as [|x some] eqn:FN; [injection EC as <-; exact HP|].
    apply rbind_done in EC as (r & EM & EC). destruct r as [g|]; injection EC as <-; [|exact HP]. cbn [ce_value ce_operands].
    apply (P_partial v (firstn i ops) (x :: some) (skipn n (skipn i ops)) W g); [|exact B|discriminate|exact EM].
    rewrite <- FN, firstn_skipn, firstn_skipn. exact HP.
  - destruct (firstn n ops) as [|x some] eqn:FN; [injection EC as <-; exact HP|].
    apply rbind_done in EC as (r & EM & EC). destruct r as [g|]; injection EC as <-; [|exact HP]. cbn [ce_value ce_operands].
    apply (P_full v (x :: some) (skipn n ops) W g); [|exact B|discriminate|exact EM].
    rewrite <- FN, firstn_skipn. exact HP.
Qed.
Lemma compact_other d k1 e d' : in_order d -> k1 <> k -> compact fbits fuel d k1 e = Done d' -> in_order d' /\ cell_at d' k = cell_at d k.
Proof.
  intros O NE E. unfold compact in E. destruct (existsb _ d); [|injection E as <-; auto].
  apply rbind_done in E as (c & EC & E). injection E as <-. split; [apply put_order; exact O|]. rewrite put_at by exact O. rewrite key_eqb_neq by exact NE. reflexivity.
Qed.
Lemma history_inv es : forall d W dss d', in_order d -> inv d W -> Forall2 ok (put_under k es) dss -> bound (W ++ dss) ->
  rrun fbits fuel d es = Done d' -> in_order d' /\ inv d' (W ++ dss).
Proof.
  induction es as [|e es IH]; intros d W dss d' O HP F B E; cbn [rrun] in E.
  - injection E as <-. inversion F; subst. rewrite app_nil_r. auto.
  - apply rbind_done in E as (d1 & E1 & E).
    unfold put_under, accepted in F. cbn [flat_map] in F. rewrite contents_app in F. fold (accepted es) in F. fold (put_under k es) in F.
    apply Forall2_app_inv_l in F as (w1 & w2 & F1 & F2 & ->). rewrite app_assoc in *.
    assert (K : in_order d1 /\ inv d1 (W ++ w1)).
    { pose proof (step_writes d e k O) as SW. destruct e as [k1 f|l|k1 ce].
      - destruct (SW fbits fuel) as (d2 & E2 & O2 & C2). rewrite E1 in E2. injection E2 as <-. split; [exact O2|]. unfold inv. rewrite C2. apply P_writes; assumption.
      - destruct (SW fbits fuel) as (d2 & E2 & O2 & C2). rewrite E1 in E2. injection E2 as <-. split; [exact O2|]. unfold inv. rewrite C2. apply P_writes; assumption.
      - cbn [accepted_by] in F1. inversion F1; subst. rewrite app_nil_r in *. cbn [rstep] in E1.
        destruct (key_eqb k1 k) eqn:EK.
        + apply key_eqb_eq in EK. subst k1. apply (compact_ok d ce); try assumption. eapply bound_prefix; exact B.
        + destruct (compact_other d k1 ce d1 O) as [O1 C1]; [intros ->; rewrite key_eqb_refl in EK; discriminate|exact E1|].
          split; [exact O1|]. unfold inv. rewrite C1. exact HP. }
    destruct K as [O1 HP1]. apply (IH d1 (W ++ w1) w2 d'); assumption.
Qed.
End History.

(* runs keep the keys in order, whatever happens *)
Lemma step_order fbits fuel d e d' : in_order d -> rstep fbits fuel d e = Done d' -> in_order d'.
Proof.
  intros O E. pose proof (step_writes d e KEY_ZERO O) as SW. destruct e as [k1 f|l|k1 ce].
  - destruct (SW fbits fuel) as (d2 & E2 & O2 & _). congruence.
  - destruct (SW fbits fuel) as (d2 & E2 & O2 & _). congruence.
  - cbn [rstep] in E. unfold compact in E. destruct (existsb _ d); [|injection E as <-; exact O].
    apply rbind_done in E as (c & _ & E). injection E as <-. apply put_order. exact O.
Qed.

(* ---- the last-write-wins family ---- *)
Section Union.
Variable fbits : bytes -> N.
Variable fuel : nat.
Notation union_bound := (union_bound fuel).
Lemma union_bound_prefix a b : union_bound (a ++ b) -> union_bound a.
Proof.
  intros (M & L & N & R). unfold RocksSpec.union_bound. rewrite concat_app, map_app in M. rewrite concat_app, app_length in L, N.
  rewrite concat_app, map_app, room_app in R. split; [|split; [lia|split; lia]].
  eapply mergeable_incl; [exact M|]. intros u I. apply in_or_app. left. exact I.
Qed.
Definition says (fs : list bytes) (ds : list (list rop)) (W : list (list rop)) : Prop :=
  Forall2 text_frame fs ds /\ (forall u, In u (map bare (concat ds)) <-> In u (map bare (concat W))) /\ (length (concat ds) <= length (concat W))%nat /\
  (room (map bare (concat ds)) <= room (map bare (concat W)))%nat.
Definition union_inv (v : option bytes) (ops : list bytes) (W : list (list rop)) : Prop :=
  exists ds, says (held v ++ ops) ds W /\ (v <> None -> exists us ds', ds = chunk_of us :: ds' /\ increasing_ids (chunk_of us)).

Lemma merge_said form fs ds W : says fs ds W -> union_bound W -> In form [LWW_RDT_FORM; MX_RDT_FORM; YARN_RAW_FORM; META_META_FORM] ->
  forall gs es hs, fs = gs ++ es ++ hs -> exists g us d1 d2 d3,
    merge_as fbits fuel form es = Done (Some g, StOK) /\ frame_lit canon g (chunk_of us) /\ increasing_ids (chunk_of us) /\
    ds = d1 ++ d2 ++ d3 /\ Forall2 text_frame gs d1 /\ Forall2 text_frame es d2 /\ Forall2 text_frame hs d3 /\
    (forall u, In u us <-> In u (map bare (concat d2))) /\ (length us <= length (concat d2))%nat /\ (room us <= room (map bare (concat d2)))%nat /\ small g.
Proof.
  intros (F & U & L & LR) (M & FU & LN & RN) FM gs es hs ->.
  apply Forall2_app_inv_l in F as (d1 & d23 & F1 & F & ->). apply Forall2_app_inv_l in F as (d2 & d3 & F2 & F3 & ->).
  assert (IN : incl (map bare (concat d2)) (map bare (concat W))).
  { intros u I. apply U. rewrite !concat_app, !map_app, !in_app_iff. auto. }
  assert (LE : (length (concat d2) <= length (concat W))%nat) by (rewrite !concat_app, !app_length in L; lia).
  destruct (text_parts _ _ F2) as (A & B & C).
  destruct (C44_union fbits fuel form es d2 A B C) as (g & us & E & FL & I & UU & LG); [eapply mergeable_incl; eassumption|exact FM|lia|lia|].
  assert (RU : (room us <= room (map bare (concat d2)))%nat)
    by (apply union_room; [exact I|intros u J; apply UU; exact J]).
  exists g, us, d1, d2, d3. do 8 (split; [assumption || reflexivity|]). split; [apply union_length; [exact I|]; intros u J; apply UU; exact J|].
  split; [exact RU|]. unfold small. rewrite !concat_app, !map_app, !room_app in LR. lia.
Qed.
Lemma operator_ok form fs r : operator_merge fbits fuel form fs = Done r -> forall g, merge_as fbits fuel form fs = Done (Some g, StOK) -> r = Some g.
Proof. intros E g M. unfold operator_merge in E. rewrite M in E. injection E as <-. reflexivity. Qed.

Lemma said_again gs d1 d2 hs d3 W g us : Forall2 text_frame gs d1 -> Forall2 text_frame hs d3 ->
  (forall u, In u (map bare (concat (d1 ++ d2 ++ d3))) <-> In u (map bare (concat W))) -> (length (concat (d1 ++ d2 ++ d3)) <= length (concat W))%nat ->
  (room (map bare (concat (d1 ++ d2 ++ d3))) <= room (map bare (concat W)))%nat -> frame_lit canon g (chunk_of us) -> increasing_ids (chunk_of us) -> small g ->
  (forall u, In u us <-> In u (map bare (concat d2))) -> (length us <= length (concat d2))%nat -> (room us <= room (map bare (concat d2)))%nat -> says (gs ++ g :: hs) (d1 ++ chunk_of us :: d3) W.
Proof.
  intros F1 F3 U L R FL I S UU LU RU. split; [|split; [|split]].
  - apply Forall2_app; [exact F1|]. constructor; [|exact F3]. split; [exact FL|]. split; [apply increasing_sorted; exact I|exact S].
  - intro u. rewrite <- U. rewrite !concat_app, !map_app, !in_app_iff. cbn [concat]. rewrite map_app, in_app_iff. unfold chunk_of at 1. rewrite bare_denote, UU. reflexivity.
  - rewrite !concat_app, !app_length in *. cbn [concat]. rewrite app_length, chunk_length. lia.
  - rewrite !concat_app, !map_app, !room_app in *. cbn [concat]. rewrite map_app, room_app. unfold chunk_of at 1. rewrite bare_denote. lia.
Qed.

Variable k : key.
Hypothesis FM : In (key_form k) [LWW_RDT_FORM; MX_RDT_FORM; YARN_RAW_FORM; META_META_FORM].
Lemma union_write v ops W f d : union_inv v ops W -> text_frame f d -> union_inv v (ops ++ [f]) (W ++ [d]).
Proof.
  clear FM. intros (ds & (F & U & L & R) & V) T. exists (ds ++ [d]). split; [split; [|split; [|split]]|].
  - rewrite app_assoc. apply Forall2_app; [exact F|]. constructor; [exact T|constructor].
  - intro u. rewrite !concat_app, !map_app, !in_app_iff, U. reflexivity.
  - rewrite !concat_app, !app_length. lia.
  - rewrite !concat_app, !map_app, !room_app. lia.
  - intro NV. destruct (V NV) as (us & ds' & -> & I). exists us, (ds' ++ [d]). split; [reflexivity|exact I].
Qed.
Lemma union_partial v a b c W g : union_inv v (a ++ b ++ c) W -> union_bound W -> b <> [] ->
  operator_merge fbits fuel (key_form k) b = Done (Some g) -> union_inv v (a ++ g :: c) W.
Proof.
  intros (ds & SY & V) B NB E. destruct (merge_said (key_form k) _ ds W SY B FM (held v ++ a) b c) as (g' & us & d1 & d2 & d3 & MG & FL & I & -> & F1 & F2 & F3 & UU & LU & RU & S).
  { rewrite <- !app_assoc. reflexivity. }
  pose proof (operator_ok _ _ _ E g' MG) as Q. injection Q as <-. destruct SY as (_ & U & L & R).
  exists (d1 ++ chunk_of us :: d3). split; [rewrite app_assoc; eapply said_again; eassumption|].
  intro NV. destruct (V NV) as (us0 & ds0 & Q0 & I0). destruct v as [f|]; [|congruence]. cbn [held app] in F1. inversion F1; subst.
  cbn [app] in Q0. injection Q0 as -> _. exists us0. eexists. split; [reflexivity|exact I0].
Qed.
Lemma union_full v b c W g : union_inv v (b ++ c) W -> union_bound W -> b <> [] ->
  operator_merge fbits fuel (key_form k) (held v ++ b) = Done (Some g) -> union_inv (Some g) c W.
Proof.
  intros (ds & SY & V) B NB E. destruct (merge_said (key_form k) _ ds W SY B FM [] (held v ++ b) c) as (g' & us & d1 & d2 & d3 & MG & FL & I & -> & F1 & F2 & F3 & UU & LU & RU & S).
  { rewrite <- !app_assoc. reflexivity. }
  pose proof (operator_ok _ _ _ E g' MG) as Q. injection Q as <-. destruct SY as (_ & U & L & R). inversion F1; subst.
  exists (chunk_of us :: d3). split; [apply (said_again [] [] d2 c d3 W g us); assumption|].
  intros _. exists us, d3. auto.
Qed.
Lemma union_get_small c W : union_inv (ce_value c) (ce_operands c) W -> union_bound W -> W <> [] -> (held (ce_value c) ++ ce_operands c <> []) ->
  exists text us, cell_get fbits fuel k c = Done (GValue text) /\ frame_lit canon text (chunk_of us) /\ increasing_ids (chunk_of us) /\
    (forall u, In u us <-> In u (map bare (concat W))) /\ small text /\ (length us <= length (concat W))%nat /\ (room us <= room (map bare (concat W)))%nat.
Proof.
  intros (ds & SY & V) B NW NH. destruct c as [v ops]. cbn [ce_value ce_operands] in *. unfold cell_get. cbn [ce_value ce_operands].
  destruct ops as [|x ops].
  - destruct v as [f|]; [|contradiction]. destruct (V ltac:(discriminate)) as (us & ds' & -> & I). destruct SY as (F & U & LL & RR).
    cbn [held app] in F. inversion F as [|? ? ? ? (A & _ & SM) F']; subst. inversion F'; subst. exists f, us. split; [reflexivity|]. split; [exact A|]. split; [exact I|].
    cbn [concat] in *. rewrite app_nil_r in *. unfold chunk_of in U, RR. rewrite bare_denote in U, RR. rewrite chunk_length in LL. split; [intro u; rewrite <- U; reflexivity|]. auto.
  - destruct (merge_said (key_form k) _ ds W SY B FM [] (held v ++ x :: ops) []) as (g' & us & d1 & d2 & d3 & MG & FL & I & -> & F1 & F2 & F3 & UU & LU & RU & S).
    { rewrite app_nil_r. reflexivity. }
    exists g', us. unfold full_merge, operator_merge. rewrite MG. cbn [rbind]. split; [reflexivity|]. split; [exact FL|]. split; [exact I|].
    destruct SY as (_ & U & LL & RR). inversion F1; subst. inversion F3; subst. rewrite app_nil_r in *. cbn [app] in *. split; [intro u; rewrite UU; apply U|].
    split; [exact S|]. split; lia.
Qed.
Lemma union_get c W : union_inv (ce_value c) (ce_operands c) W -> union_bound W -> W <> [] -> (held (ce_value c) ++ ce_operands c <> []) ->
  exists text us, cell_get fbits fuel k c = Done (GValue text) /\ frame_lit canon text (chunk_of us) /\ increasing_ids (chunk_of us) /\
    (forall u, In u us <-> In u (map bare (concat W))).
Proof. intros I B NW NH. destruct (union_get_small c W I B NW NH) as (text & us & A1 & A2 & A3 & A4 & _). exists text, us. auto. Qed.
End Union.

(* ---- transcription: LOG, ZERO, ERROR ---- *)
Definition log_calls (ops : list rop) : list ucmd :=
  flat_map (fun o => UAppend (bare o) :: if r_term o =? REDUCED then [] else [UEnd (r_term o)]) ops.
Definition terms_ok (ops : list rop) : Prop := Forall (fun o => In (r_term o) [RAW; REDUCED; HEADER; QUERY]) ops.

Lemma op_terms C prev s ops : op_lit C prev s ops -> terms_ok ops.
Proof.
  intro H. destruct H as [w0 sp id ref vt vs w1 st vss w2 tc t _ _ _ _ _ _ T].
  assert (K : In t [RAW; REDUCED; HEADER; QUERY]) by (destruct T; cbn; tauto). clear -K. revert id ref.
  induction vss as [|v vss IH]; intros id ref; [constructor|]. cbn [chain]. constructor; [exact K|apply IH].
Qed.
Lemma frame_terms C f ops : frame_lit C f ops -> terms_ok ops.
Proof.
  intro H. destruct H as [s ops w e H _ _]. induction H as [prev|prev s ops r ops' H1 H2 IH]; [constructor|].
  apply Forall_app. split; [eapply op_terms; exact H1|exact IH].
Qed.
Lemma bare_log ops : map bare (denote (log_calls ops)) = map bare ops.
Proof.
  induction ops as [|o ops IH]; [reflexivity|]. unfold log_calls. cbn [flat_map app denote map]. fold (log_calls ops). f_equal.
  destruct (r_term o =? REDUCED); cbn [app denote]; exact IH.
Qed.
Lemma log_good U : mergeable U -> spanless U -> forall ops last opn ext, incl (map bare ops) U -> terms_ok ops -> In last (origin_op :: U) ->
  good_calls last opn ext (log_calls ops).
Proof.
  intros (A & B & D & E & F) SP. induction ops as [|o ops IH]; intros last opn ext I T IL; [exact Logic.I|].
  unfold log_calls. cbn [flat_map app]. fold (log_calls ops).
  assert (IO : In (bare o) U) by (apply I; left; reflexivity).
  assert (NC : continues last (bare o) = false) by (destruct IL as [<-|IL]; [apply F; exact IO|apply SP; assumption]).
  assert (I2 : incl (map bare ops) U) by (intros u J; apply I; right; exact J).
  inversion T as [|? ? T1 T2]; subst. cbn [good_calls]. rewrite Forall_forall in A. split; [apply A; exact IO|]. split; [apply D; assumption|]. split; [rewrite NC; discriminate|].
  destruct (N.eqb_spec (r_term o) REDUCED) as [Q|NQ]; cbn [app good_calls].
  - apply IH; [exact I2|exact T2|right; exact IO].
  - split; [cbn [In] in *; intuition congruence|]. apply IH; [exact I2|exact T2|right; exact IO].
Qed.
Lemma log_length ops : (length (log_calls ops) <= 2 * length ops)%nat.
Proof.
  induction ops as [|o ops IH]; [cbn; lia|]. unfold log_calls. cbn [flat_map app length]. fold (log_calls ops). rewrite app_length.
  destruct (r_term o =? REDUCED); cbn [length]; lia.
Qed.

Lemma open_visits fs opss : Forall2 (frame_lit canon) fs opss -> Forall small fs ->
  exists cs vss, open_cursors fs = Some cs /\ Forall2 (visits valid text_next) cs vss /\ map (map rop_of) vss = filter nonempty opss.
Proof.
  intros F. induction F as [|f ops fs opss H F IH]; intro B; [exists [], []; split; [reflexivity|split; [constructor|reflexivity]]|].
  inversion B as [|x y B1 B2]; subst. destruct (IH B2) as (cs & vss & E & R & K).
  destruct (frame_visits f ops H B1) as (l & (c & NX & VI) & FL).
  cbn [open_cursors]. fold (cursor_of f). rewrite E, NX. cbn [filter].
  assert (ML : map rop_of l = ops) by (clear -FL; induction FL as [|c o l ops [Q _] FL IH]; [reflexivity|cbn [map]; congruence]).
  pose proof VI as VI0. destruct VI0 as [c V|c c' l V NX' VI'].
  - inversion FL; subst. rewrite V. exists cs, vss. cbn [nonempty]. auto.
  - rewrite V. exists (c :: cs), ((c :: l) :: vss). split; [reflexivity|]. split; [constructor; assumption|].
    rewrite <- ML. cbn [map nonempty]. rewrite K. reflexivity.
Qed.

Lemma ucalls_transcribe l : ucalls (flat_map (fun c => MAppend c :: if c_term c =? REDUCED then [] else [MEnd (c_term c)]) l) = log_calls (map rop_of l).
Proof.
  induction l as [|c l IH]; [reflexivity|]. unfold ucalls, log_calls in *. cbn [flat_map map app]. rewrite map_app, IH. cbn [app].
  change (r_term (rop_of c)) with (c_term c). destruct (c_term c =? REDUCED); reflexivity.
Qed.
Lemma transcribe_length l : length (flat_map (fun c : cursor => MAppend c :: if c_term c =? REDUCED then [] else [MEnd (c_term c)]) l) = length (log_calls (map rop_of l)).
Proof. rewrite <- ucalls_transcribe. unfold ucalls. rewrite map_length. reflexivity. Qed.

Section Transcribe.
Variable fbits : bytes -> N.
Variable fuel : nat.
Notation log_bound := (log_bound fuel).
Lemma log_bound_sub W V : incl (map bare (concat V)) (map bare (concat W)) -> (length (concat V) <= length (concat W))%nat ->
  (room (map bare (concat V)) <= room (map bare (concat W)))%nat -> log_bound W -> log_bound V.
Proof.
  intros I L R (M & S & FU & LN & RN). split; [eapply mergeable_incl; eassumption|]. split; [intros a b IA IB; apply S; apply I; assumption|]. split; [lia|split; lia].
Qed.
Lemma log_bound_prefix a b : log_bound (a ++ b) -> log_bound a.
Proof.
  apply log_bound_sub; rewrite concat_app; [rewrite map_app; intros u I; apply in_or_app; left; exact I|rewrite app_length; lia|rewrite map_app, room_app; lia].
Qed.
(* the text of the ops, transcribed *)
Lemma transcribed fs ds ops l : Forall2 (frame_lit canon) fs ds -> Forall small fs -> log_bound ds ->
  incl ops (concat ds) -> (length ops <= length (concat ds))%nat -> (room (map bare ops) <= room (map bare (concat ds)))%nat -> map rop_of l = ops ->
  forall form cs, form <> MAX_RDT_FORM -> open_cursors fs = Some cs ->
  master_merge cursor valid text_next text_id text_ref (text_val fbits) c_term fuel form cs =
    Done (flat_map (fun c => MAppend c :: if c_term c =? REDUCED then [] else [MEnd (c_term c)]) l, StOK) ->
  exists g, merge_as fbits fuel form fs = Done (Some g, StOK) /\ frame_lit canon g (denote (log_calls ops)) /\ small g.
Proof.
  intros F B (M & S & FU & LN & RN) I L LR ML form cs NM O MM.
  destruct (C44_text_merge fbits fuel form fs ds cs _ F B NM O MM) as (g & E & FL & LG).
  - rewrite ucalls_transcribe, ML. apply (log_good (map bare (concat ds)) M S).
    + intros u J. apply in_map_iff in J as (o & <- & J). apply in_map, I, J.
    + assert (T : terms_ok (concat ds)).
      { clear -F. induction F as [|f d fs ds H F IH]; [constructor|]. apply Forall_app. split; [eapply frame_terms; exact H|exact IH]. }
      unfold terms_ok in *. rewrite Forall_forall in *. auto.
    + left. reflexivity.
  - rewrite transcribe_length, ML. pose proof (log_length ops). lia.
  - exists g. rewrite ucalls_transcribe, ML in FL, LG. rewrite bare_log in LG. split; [exact E|]. split; [exact FL|]. unfold small. lia.
Qed.
Lemma log_text fs ds : Forall2 (frame_lit canon) fs ds -> Forall small fs -> log_bound ds ->
  exists g, merge_as fbits fuel LOG_RAW_FORM fs = Done (Some g, StOK) /\ frame_lit canon g (denote (log_calls (concat ds))) /\ small g.
Proof.
  intros F B LB. destruct (open_visits fs ds F B) as (cs & vss & O & V & ML).
  assert (MC : map rop_of (concat vss) = concat ds) by (rewrite concat_map, ML; apply concat_nonempty).
  apply (transcribed fs ds (concat ds) (concat vss) F B LB) with (cs := cs); [intros o I; exact I|lia|lia|exact MC|discriminate|exact O|].
  destruct LB as (_ & _ & FU & _).
  destruct (C25_forms cursor valid text_next rop_of (text_val fbits) c_term fuel LOG_RAW_FORM cs vss V) as (K & _).
  - rewrite <- (map_length rop_of), MC. exact FU.
  - apply K. reflexivity.
Qed.
Lemma last_text form fs ds : form = ZERO_RAW_FORM \/ form = ERROR_NO_FORM -> Forall2 (frame_lit canon) fs ds -> Forall small fs -> log_bound ds ->
  exists g, merge_as fbits fuel form fs = Done (Some g, StOK) /\ frame_lit canon g (denote (log_calls (newest ds))) /\ small g.
Proof.
  intros FM F B LB. destruct (open_visits fs ds F B) as (cs & vss & O & V & ML).
  assert (MC : map rop_of (concat vss) = concat ds) by (rewrite concat_map, ML; apply concat_nonempty).
  assert (NM : form <> MAX_RDT_FORM) by (destruct FM as [->| ->]; discriminate).
  pose proof LB as (_ & _ & FU & _).
  destruct (C25_forms cursor valid text_next rop_of (text_val fbits) c_term fuel form cs vss V) as (_ & K & _).
  { rewrite <- (map_length rop_of), MC. exact FU. }
  assert (EN : newest ds = last (filter nonempty ds) []) by reflexivity.
  assert (Q : vss = [] \/ exists vs' v, vss = vs' ++ [v]).
  { destruct vss as [|x y]; [left; reflexivity|right]. destruct (@exists_last _ (x :: y)) as (a & b & E); [discriminate|]. exists a, b. exact E. }
  destruct Q as [->|(vs' & v & ->)].
  - (* nothing readable *)
    inversion V; subst cs. assert (NE : newest ds = []) by (rewrite EN, <- ML; reflexivity).
    apply (transcribed fs ds (newest ds) [] F B LB) with (cs := []); try assumption;
      [rewrite NE; intros o []|rewrite NE; cbn [length]; lia|rewrite NE; cbn; lia|symmetry; exact NE|].
    destruct FM as [->| ->]; reflexivity.
  - apply Forall2_app_inv_r in V as (cs' & c1 & V1 & V2 & ->). inversion V2 as [|c ? c0 ? VC V3]; subst. inversion V3; subst.
    assert (NE : map rop_of v = newest ds) by (rewrite EN, <- ML, map_app; cbn [map]; rewrite last_last; reflexivity).
    assert (SUB : exists a b, concat ds = a ++ newest ds ++ b).
    { exists (concat (map (map rop_of) vs')), []. rewrite app_nil_r, <- NE, <- MC, concat_app, map_app, concat_map. cbn [concat]. rewrite app_nil_r. reflexivity. }
    destruct SUB as (a & b & SUB).
    apply (transcribed fs ds (newest ds) v F B LB) with (cs := cs' ++ [c]); try assumption.
    + intros o I. rewrite SUB, !in_app_iff. auto.
    + rewrite SUB, !app_length. lia.
    + rewrite SUB, !map_app, !room_app. lia.
    + apply (K FM cs' c vs' v eq_refl eq_refl). apply (F2_length _ _ _ _ _ V1).
Qed.

(* logs *)
Definition frame_text (f : bytes) (d : list rop) : Prop := frame_lit canon f d /\ small f.
Lemma frame_texts fs ds : Forall2 frame_text fs ds -> Forall2 (frame_lit canon) fs ds /\ Forall small fs.
Proof. intro F. induction F as [|f d fs ds (A & B) F (IA & IB)]; split; constructor; assumption. Qed.
Definition log_inv (v : option bytes) (ops : list bytes) (W : list (list rop)) : Prop :=
  exists ds, Forall2 frame_text (held v ++ ops) ds /\ map bare (concat ds) = map bare (concat W).
Lemma log_write v ops W f d : log_inv v ops W -> frame_text f d -> log_inv v (ops ++ [f]) (W ++ [d]).
Proof.
  intros (ds & F & E) T. exists (ds ++ [d]). split; [rewrite app_assoc; apply Forall2_app; [exact F|constructor; [exact T|constructor]]|].
  rewrite !concat_app, !map_app, E. reflexivity.
Qed.
Lemma same_bare_bound V W : map bare (concat V) = map bare (concat W) -> log_bound W -> log_bound V.
Proof.
  intro E. apply log_bound_sub; [rewrite E; intros u I; exact I| |]. { rewrite <- (map_length bare (concat V)), E, map_length. lia. } rewrite E. lia.
Qed.
Lemma mid_bound a b c : log_bound (a ++ b ++ c) -> log_bound b.
Proof.
  apply log_bound_sub; rewrite !concat_app; [rewrite !map_app; intros u I; rewrite !in_app_iff; auto|rewrite !app_length; lia|rewrite !map_app, !room_app; lia].
Qed.
Lemma log_merge_some k gs es hs ds W g : key_form k = LOG_RAW_FORM -> Forall2 frame_text (gs ++ es ++ hs) ds -> map bare (concat ds) = map bare (concat W) ->
  log_bound W -> operator_merge fbits fuel (key_form k) es = Done (Some g) ->
  exists ds', Forall2 frame_text (gs ++ g :: hs) ds' /\ map bare (concat ds') = map bare (concat W).
Proof.
  intros FM F E B MG. pose proof (same_bare_bound ds W E B) as BD.
  apply Forall2_app_inv_l in F as (d1 & d23 & F1 & F & ->). apply Forall2_app_inv_l in F as (d2 & d3 & F2 & F3 & ->).
  destruct (frame_texts _ _ F2) as (A2 & B2). destruct (log_text es d2 A2 B2 (mid_bound _ _ _ BD)) as (g' & EG & FL & S).
  rewrite FM in MG. pose proof (operator_ok fbits fuel _ _ _ MG g' EG) as Q. injection Q as <-.
  exists (d1 ++ denote (log_calls (concat d2)) :: d3). split.
  - apply Forall2_app; [exact F1|]. constructor; [split; assumption|exact F3].
  - rewrite <- E, !concat_app, !map_app. cbn [concat]. rewrite map_app, bare_log. reflexivity.
Qed.
Variable k : key.
Section Log.
Hypothesis FM : key_form k = LOG_RAW_FORM.
Lemma log_partial v a b c W g : log_inv v (a ++ b ++ c) W -> log_bound W -> b <> [] ->
  operator_merge fbits fuel (key_form k) b = Done (Some g) -> log_inv v (a ++ g :: c) W.
Proof.
  intros (ds & F & E) B NB MG. destruct (log_merge_some k (held v ++ a) b c ds W g FM) as (ds' & F' & E'); try assumption.
  - rewrite <- app_assoc. exact F.
  - exists ds'. rewrite app_assoc. auto.
Qed.
Lemma log_full v b c W g : log_inv v (b ++ c) W -> log_bound W -> b <> [] ->
  operator_merge fbits fuel (key_form k) (held v ++ b) = Done (Some g) -> log_inv (Some g) c W.
Proof.
  intros (ds & F & E) B NB MG. destruct (log_merge_some k [] (held v ++ b) c ds W g FM) as (ds' & F' & E'); try assumption.
  - rewrite <- app_assoc. exact F.
  - exists ds'. auto.
Qed.
Lemma log_get_small c W : log_inv (ce_value c) (ce_operands c) W -> log_bound W -> held (ce_value c) ++ ce_operands c <> [] ->
  exists text ops, cell_get fbits fuel k c = Done (GValue text) /\ frame_lit canon text ops /\ map bare ops = map bare (concat W) /\ small text.
Proof.
  intros (ds & F & E) B NH. destruct c as [v ops]. cbn [ce_value ce_operands] in *. unfold cell_get. cbn [ce_value ce_operands].
  destruct ops as [|x ops].
  - destruct v as [f|]; [|contradiction]. cbn [held app] in F. inversion F as [|? d ? ? (A & SM) F']; subst. inversion F'; subst.
    exists f, d. split; [reflexivity|]. split; [exact A|]. split; [|exact SM]. rewrite <- E. cbn [concat]. rewrite app_nil_r. reflexivity.
  - destruct (frame_texts _ _ F) as (A & SM). destruct (log_text _ ds A SM (same_bare_bound _ _ E B)) as (g & MG & FL & SG).
    exists g, (denote (log_calls (concat ds))). unfold full_merge, operator_merge. rewrite FM, MG. cbn [rbind]. split; [reflexivity|]. split; [exact FL|].
    split; [rewrite bare_log; exact E|exact SG].
Qed.
Lemma log_get c W : log_inv (ce_value c) (ce_operands c) W -> log_bound W -> held (ce_value c) ++ ce_operands c <> [] ->
  exists text ops, cell_get fbits fuel k c = Done (GValue text) /\ frame_lit canon text ops /\ map bare ops = map bare (concat W).
Proof. intros I B NH. destruct (log_get_small c W I B NH) as (text & ops & A1 & A2 & A3 & _). exists text, ops. auto. Qed.
End Log.

(* the last frame wins *)
Definition last_inv (v : option bytes) (ops : list bytes) (W : list (list rop)) : Prop :=
  exists ds, Forall2 frame_text (held v ++ ops) ds /\ map bare (newest ds) = map bare (newest W) /\
    incl (map bare (concat ds)) (map bare (concat W)) /\ (length (concat ds) <= length (concat W))%nat /\
    (room (map bare (concat ds)) <= room (map bare (concat W)))%nat.
Lemma newest_app a b : newest (a ++ b) = match newest b with [] => newest a | l => l end.
Proof.
  unfold newest. set (ne := fun l : list rop => match l with [] => false | _ => true end).
  rewrite filter_app. destruct (filter ne b) as [|x y] eqn:Q; [rewrite app_nil_r; reflexivity|].
  destruct (@exists_last _ (x :: y)) as (i & z & E); [discriminate|]. rewrite E, app_assoc, !last_last.
  assert (I : In z (filter ne b)) by (rewrite Q, E; apply in_or_app; right; left; reflexivity).
  apply filter_In in I as [_ I]. destruct z; [discriminate|reflexivity].
Qed.
Lemma newest_one d : newest [d] = d.
Proof. destruct d; reflexivity. Qed.
Lemma newest_in ds : incl (newest ds) (concat ds) /\ (length (newest ds) <= length (concat ds))%nat /\ (room (map bare (newest ds)) <= room (map bare (concat ds)))%nat.
Proof.
  induction ds as [|d ds (I & L & R)]; [split; [intros o []|split; reflexivity]|]. change (d :: ds) with ([d] ++ ds). rewrite newest_app, newest_one. cbn [app concat].
  split; [|split; [rewrite app_length; destruct (newest ds); lia|rewrite map_app, room_app; destruct (newest ds); lia]].
  intros o J. apply in_or_app. destruct (newest ds) as [|x y]; [left; exact J|right; apply I; exact J].
Qed.
Lemma newest_bare a b c d a' : map bare d = map bare (newest b) -> map bare (newest a') = map bare (newest a) ->
  map bare (newest (a' ++ [d] ++ c)) = map bare (newest (a ++ b ++ c)).
Proof.
  intros E EA. rewrite !newest_app, newest_one. destruct (newest c) as [|x y]; [|reflexivity].
  destruct d as [|o d], (newest b) as [|o' l]; try discriminate E; [exact EA|exact E].
Qed.
Lemma last_write v ops W f d : last_inv v ops W -> frame_text f d -> last_inv v (ops ++ [f]) (W ++ [d]).
Proof.
  intros (ds & F & E & I & L & R) T. exists (ds ++ [d]). split; [rewrite app_assoc; apply Forall2_app; [exact F|constructor; [exact T|constructor]]|].
  rewrite !newest_app, newest_one, !concat_app, !map_app, !app_length, !room_app. split; [destruct d; [exact E|reflexivity]|]. split; [|split; lia].
  intros u J. rewrite in_app_iff in *. destruct J as [J|J]; [left; apply I; exact J|right; exact J].
Qed.
Lemma last_merge_some gs es hs ds W g : key_form k = ZERO_RAW_FORM \/ key_form k = ERROR_NO_FORM -> Forall2 frame_text (gs ++ es ++ hs) ds ->
  map bare (newest ds) = map bare (newest W) -> incl (map bare (concat ds)) (map bare (concat W)) -> (length (concat ds) <= length (concat W))%nat ->
  (room (map bare (concat ds)) <= room (map bare (concat W)))%nat -> log_bound W -> operator_merge fbits fuel (key_form k) es = Done (Some g) ->
  exists ds', Forall2 frame_text (gs ++ g :: hs) ds' /\ map bare (newest ds') = map bare (newest W) /\
    incl (map bare (concat ds')) (map bare (concat W)) /\ (length (concat ds') <= length (concat W))%nat /\
    (room (map bare (concat ds')) <= room (map bare (concat W)))%nat.
Proof.
  intros FM F E I L R B MG. pose proof (log_bound_sub W ds I L R B) as BD.
  apply Forall2_app_inv_l in F as (d1 & d23 & F1 & F & ->). apply Forall2_app_inv_l in F as (d2 & d3 & F2 & F3 & ->).
  destruct (frame_texts _ _ F2) as (A2 & B2). destruct (last_text (key_form k) es d2 FM A2 B2 (mid_bound _ _ _ BD)) as (g' & EG & FL & S).
  pose proof (operator_ok fbits fuel _ _ _ MG g' EG) as Q. injection Q as <-.
  destruct (newest_in d2) as (NI & NL & NR). set (nd := denote (log_calls (newest d2))) in *.
  assert (BN : map bare nd = map bare (newest d2)) by apply bare_log.
  exists (d1 ++ nd :: d3). split; [|split; [|split; [|split]]].
  - apply Forall2_app; [exact F1|]. constructor; [split; assumption|exact F3].
  - rewrite <- E. apply (newest_bare d1 d2 d3 nd d1 BN eq_refl).
  - intros u J. apply I. rewrite !concat_app, !map_app, !in_app_iff in *. cbn [concat] in J. rewrite map_app, in_app_iff, BN in J.
    destruct J as [J|[J|J]]; auto. right. left. apply in_map_iff in J as (o & <- & J). apply in_map, NI, J.
  - rewrite !concat_app, !app_length in *. cbn [concat]. rewrite app_length.
    assert (length nd = length (newest d2)) by (rewrite <- (map_length bare nd), BN, map_length; reflexivity). lia.
  - rewrite !concat_app, !map_app, !room_app in *. cbn [concat]. rewrite map_app, room_app, BN. lia.
Qed.
Section Last.
Hypothesis FM : key_form k = ZERO_RAW_FORM \/ key_form k = ERROR_NO_FORM.
Lemma last_partial v a b c W g : last_inv v (a ++ b ++ c) W -> log_bound W -> b <> [] ->
  operator_merge fbits fuel (key_form k) b = Done (Some g) -> last_inv v (a ++ g :: c) W.
Proof.
  intros (ds & F & E & I & L & LR) B NB MG. destruct (last_merge_some (held v ++ a) b c ds W g FM) as (ds' & F' & R); try assumption.
  - rewrite <- app_assoc. exact F.
  - exists ds'. rewrite app_assoc. auto.
Qed.
Lemma last_full v b c W g : last_inv v (b ++ c) W -> log_bound W -> b <> [] ->
  operator_merge fbits fuel (key_form k) (held v ++ b) = Done (Some g) -> last_inv (Some g) c W.
Proof.
  intros (ds & F & E & I & L & LR) B NB MG. destruct (last_merge_some [] (held v ++ b) c ds W g FM) as (ds' & F' & R); try assumption.
  - rewrite <- app_assoc. exact F.
  - exists ds'. auto.
Qed.
Lemma last_get c W : last_inv (ce_value c) (ce_operands c) W -> log_bound W -> held (ce_value c) ++ ce_operands c <> [] ->
  exists text ops, cell_get fbits fuel k c = Done (GValue text) /\ frame_lit canon text ops /\ map bare ops = map bare (newest W).
Proof.
  intros (ds & F & E & I & L & LR) B NH. destruct c as [v ops]. cbn [ce_value ce_operands] in *. unfold cell_get. cbn [ce_value ce_operands].
  destruct ops as [|x ops].
  - destruct v as [f|]; [|contradiction]. cbn [held app] in F. inversion F as [|? d ? ? (A & _) F']; subst. inversion F'; subst.
    exists f, d. split; [reflexivity|]. split; [exact A|]. rewrite <- E, newest_one. reflexivity.
  - destruct (frame_texts _ _ F) as (A & SM). destruct (last_text (key_form k) _ ds FM A SM (log_bound_sub _ _ I L LR B)) as (g & MG & FL & _).
    exists g, (denote (log_calls (newest ds))). unfold full_merge, operator_merge. rewrite MG. cbn [rbind]. split; [reflexivity|]. split; [exact FL|].
    rewrite bare_log. exact E.
Qed.
End Last.
End Transcribe.
