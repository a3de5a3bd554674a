(* C45: causal trees in more than three pieces. *)
From Coq Require Import Sorted.
From Verif Require Import Prelude UuidModel UuidSpec UuidProofs KeyModel KeyProofs CodecModel TextModel TextSpec BuilderSpec BuilderProofs MergeModel MergeSpec MergeTextModel
  MergeProofs RgaProofs MergeTheorems TextMergeSpec TextCursors TextMerge TextMergeTheorems StoreModel StoreSpec StoreProofs StoreTheorems RocksModel RocksSpec
  RocksProofs RocksTheorems MergeKeeps.

Section RocksRga.
Variable fbits : bytes -> N.
Variable fuel : nat.
Notation run := (rrun fbits fuel []).
Notation rread := (rocks_read fbits fuel).

(* whatever the frames are, more than three that have ops are not merged *)
Lemma over_three fs dss : Forall2 frame_text fs dss -> (3 < length (filter nonempty dss))%nat -> operator_merge fbits fuel RGA_RDT_FORM fs = Done None.
Proof.
  intros F N3. destruct (frame_texts _ _ F) as (A & B). destruct (open_frames _ _ A B) as (cs & O & R & _). pose proof (F2_length _ _ _ _ _ R) as LE.
  unfold operator_merge, merge_as. rewrite O. unfold merge_opened.
  assert (M : master_merge cursor valid text_next text_id text_ref (text_val fbits) c_term fuel RGA_RDT_FORM cs = Done ([], StNotImplemented)).
  { unfold master_merge. change (rga_merge cursor valid text_next text_id text_ref fuel cs = Done ([], StNotImplemented)). unfold rga_merge.
    rewrite (proj2 (Nat.ltb_lt 3 (length cs))) by lia. reflexivity. }
  rewrite M. reflexivity.
Qed.

Lemma uncompacted k es : forall d0 d, in_order d0 -> (forall ce, ~ In (RCompact k ce) es) -> rrun fbits fuel d0 es = Done d ->
  cell_at d k = mkCell (ce_value (cell_at d0 k)) (ce_operands (cell_at d0 k) ++ put_under k es).
Proof.
  induction es as [|e es IH]; intros d0 d O NC E; cbn [rrun] in E.
  - injection E as <-. rewrite app_nil_r. destruct (cell_at d0 k); reflexivity.
  - apply rbind_done in E as (d1 & E1 & E). pose proof (step_order _ _ _ _ _ O E1) as O1.
    assert (C1 : cell_at d1 k = mkCell (ce_value (cell_at d0 k)) (ce_operands (cell_at d0 k) ++ contents (accepted_by e) k)).
    { pose proof (step_writes d0 e k O) as SW. destruct e as [k1 f|l|k1 ce].
      1,2: destruct (SW fbits fuel) as (d2 & E2 & _ & C2); rewrite E1 in E2; injection E2 as <-; exact C2.
      cbn [accepted_by]. unfold contents. cbn [filter map]. rewrite app_nil_r.
      assert (SAME : cell_at d0 k = mkCell (ce_value (cell_at d0 k)) (ce_operands (cell_at d0 k))) by (destruct (cell_at d0 k); reflexivity).
      cbn [rstep] in E1. unfold compact in E1. destruct (existsb _ d0); [|injection E1 as <-; exact SAME].
      apply rbind_done in E1 as (c & EC & E1). injection E1 as <-. rewrite put_at by exact O. destruct (key_eqb k1 k) eqn:EK; [|exact SAME].
      apply key_eqb_eq in EK. subst k1. destruct (NC ce). left. reflexivity. }
    assert (PE : put_under k (e :: es) = contents (accepted_by e) k ++ put_under k es) by (unfold put_under, accepted; cbn [flat_map]; apply contents_app).
    rewrite PE, (IH d1 d O1); [rewrite C1; cbn [ce_operands ce_value]; rewrite app_assoc; reflexivity|intros ce I; exact (NC ce (or_intror I))|exact E].
Qed.

(* More than three frames with ops written under the key of a causal tree cannot be
   read until some of them are compacted, whatever they say and whatever is done
   under other keys; nothing is lost by that, and a compaction of all of them at
   once changes nothing. *)
Theorem C45_rga k es d dss : key_form k = RGA_RDT_FORM -> k <> KEY_END -> (forall ce, ~ In (RCompact k ce) es) -> run es = Done d ->
  Forall2 frame_text (put_under k es) dss -> (3 < length (filter nonempty dss))%nat ->
  rread d k = Done ([], KDbFail) /\ cell_at d k = mkCell None (put_under k es) /\
  cell_compact fbits fuel k (CFull (length (put_under k es))) (cell_at d k) = Done (cell_at d k).
Proof.
  intros FM NE NC E F N3. pose proof (uncompacted k es [] d order0 NC E) as C. cbn [cell_at cell0 ce_operands ce_value app] in C.
  pose proof (over_three _ _ F N3) as OM. rewrite <- FM in OM. rewrite C. split; [|split; [reflexivity|]].
  - unfold rocks_read. rewrite key_eqb_neq by exact NE. rewrite C. unfold cell_get. cbn [ce_operands ce_value].
    destruct (put_under k es) as [|f l]; [inversion F; subst; cbn in N3; lia|]. unfold full_merge. cbn [held app]. rewrite OM. reflexivity.
  - unfold cell_compact. cbn [ce_operands ce_value]. rewrite firstn_all. destruct (put_under k es) as [|f l]; [reflexivity|]. unfold full_merge. cbn [held app]. rewrite OM. reflexivity.
Qed.
End RocksRga.
Print Assumptions C45_rga.
