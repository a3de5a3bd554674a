(* C78: what garbage collection of a last-write-wins frame keeps. *)
From Coq Require Import Sorted.
From Verif Require Import Prelude UuidModel UuidSpec UuidProofs KeyModel CodecModel CodecSpec TextModel TextSpec FrameProofs BuilderSpec BuilderProofs
  MergeModel MergeSpec MergeTextModel MergeProofs RgaProofs TextMergeSpec TextCursors MergeKeeps TextMerge SizeProofs TextMergeTheorems SliceModel GcModel GcSpec GcProofs.

Lemma frame_cursors f ops : frame_lit canon f ops -> N.of_nat (length f) < 2 ^ 30 ->
  exists c l, text_next (cursor_of f) = Some (valid c, c) /\ visits valid text_next c l /\ Forall2 (on_frame f) l ops.
Proof.
  intros F B. assert (B2 : N.of_nat (length f) < 2 ^ 32) by (eapply N.lt_trans; [exact B|reflexivity]).
  destruct (frame_visits f ops F B2) as (l & (c & NX & VI) & FL). exists c, l. split; [exact NX|]. split; [exact VI|].
  pose proof (visits_buf c l VI) as VB. rewrite (next_buf _ _ _ NX) in VB. change (c_buf (cursor_of f)) with f in VB.
  clear -FL VB. induction FL as [|x o l ops H FL IH]; [constructor|]. inversion VB; subst. constructor; [split; auto|apply IH; assumption].
Qed.

Theorem gc_calls : forall fbits fuel f ops, frame_lit canon f ops -> N.of_nat (length f) < 2 ^ 30 -> Forall (keyed f) ops -> (length ops < fuel)%nat ->
  exists calls, gc fbits fuel f = Done calls /\ ucalls calls = map UAppend (map bare (filter (kept f ops) ops)) /\
    (forall x, In (MAppend x) calls -> canonical x).
Proof.
  intros fbits fuel f ops F B K L. destruct (frame_cursors f ops F B) as (c & l & NX & VI & FL).
  destruct fuel as [|fuel]; [lia|]. unfold gc. cbn [gc_scan gc_filter]. change (length (c_op (cursor_of f))) with 0%nat. change (Nat.ltb 0 3) with true. cbn [rbind].
  rewrite NX. destruct (valid c) eqn:V.
  - rewrite (scan_visits fbits f B c l VI V ops FL K fuel [] ltac:(lia)). cbn [rbind].
    destruct (filter_visits fbits f B c l VI V ops ops FL K (incl_refl _) fuel ltac:(lia)) as (calls & E & U & I).
    change (c_op (cursor_of f)) with (@nil atom). cbn [length Nat.ltb Nat.leb]. cbn [rbind]. rewrite E. cbn [rbind app Nat.eqb].
    exists calls. split; [reflexivity|]. split; [exact U|]. intros x J. apply I in J. clear -FL J.
    induction FL as [|y o l ops H FL IH]; [contradiction|]. destruct J as [-> | J]; [exists o; apply H|apply IH, J].
  - destruct VI as [c W|c c1 l W]; [|congruence]. inversion FL; subst. cbn. exists []. split; [reflexivity|]. split; [reflexivity|]. intros x [].
Qed.

Lemma chunk_open us : denote (map UAppend us) = chunk_of us.
Proof.
  unfold chunk_of. induction us as [|u us IH]; [reflexivity|]. cbn [map app denote]. rewrite IH. f_equal. f_equal.
  clear IH. revert u. induction us as [|v us IH]; intro u; [reflexivity|]. cbn [map app term_after]. destruct (continues u v); [apply IH|reflexivity].
Qed.
Lemma good_open us : forall last opn ext, good_calls last opn ext (map UAppend us ++ [UEnd RAW]) -> good_calls last opn ext (map UAppend us).
Proof.
  induction us as [|u us IH]; intros last opn ext G; [exact Logic.I|]. cbn [map app good_calls] in *. destruct G as (A & B & D & G). auto.
Qed.

(* GC keeps an op exactly if it is the last one of those with the same part of
   the frame for a key; no op without values, so no header, is kept *)
Theorem C78_gc : forall fbits fuel f ops, frame_lit canon f ops -> N.of_nat (length f) < 2 ^ 30 -> mergeable (map bare ops) ->
  Forall (keyed f) ops -> (length ops < fuel)%nat -> N.of_nat (length ops) < 2 ^ 32 ->
  exists text, gc_frame fbits fuel f = Done text /\ frame_lit canon text (chunk_of (map bare (filter (kept f ops) ops))).
Proof.
  intros fbits fuel f ops F B M K L LN. destruct (gc_calls fbits fuel f ops F B K L) as (calls & E & U & I).
  assert (LC : (length calls <= length ops)%nat).
  { assert (length calls = length (filter (kept f ops) ops)) as ->.
    { apply (f_equal (@length _)) in U. unfold ucalls in U. rewrite !map_length in U. exact U. }
    clear. induction ops as [|o ops IH]; [apply le_n|]. assert (G : forall (p : rop -> bool) l, (length (filter p l) <= length l)%nat).
    { intros p l. induction l as [|x l IHl]; [apply le_n|]. cbn [filter]. destruct (p x); cbn [length]; lia. } apply G. }
  destruct (build_merged calls I) as (text & BD & FL).
  - rewrite U. apply good_open. apply (mergeable_good (map bare ops)); [exact M|]. intros x J. apply in_map_iff in J as (o & <- & J). apply filter_In in J as [J _].
    apply in_map. exact J.
  - lia.
  - exists text. split; [unfold gc_frame; rewrite E; cbn [rbind]; rewrite BD; reflexivity|]. rewrite U, chunk_open in FL. exact FL.
Qed.

(* names that are not scoped are all the same key: only the last write is kept *)
Lemma plain_part f o : plain_key o -> key_part f o = if sets o then Some [] else None.
Proof.
  unfold plain_key, key_part, sets. destruct (r_vals o) as [|[u|z|s|t] vs]; try contradiction; [reflexivity|]. intros ->. cbn [N.modulo N.div].
  change (0 mod 2 ^ 32) with 0. change (0 / 2 ^ 32) with 0. rewrite (proj2 (N.leb_le 0 (N.of_nat (length f))) (N.le_0_l _)). reflexivity.
Qed.
Lemma plain_keyed f ops : Forall plain_key ops -> Forall (keyed f) ops.
Proof. intro P. eapply Forall_impl; [|exact P]. intros o Q. unfold keyed. intro ST. rewrite (plain_part f o Q), ST. discriminate. Qed.
Lemma plain_last f a : forall o b found, Forall plain_key (a ++ o :: b) -> sets o = true -> Forall (fun x => sets x = false) b ->
  last_write f [] (a ++ o :: b) found = Some (r_id o).
Proof.
  induction a as [|x a IH]; intros o b found P ST N; cbn [app] in *; inversion P as [|? ? P1 P2]; subst; cbn [last_write]; rewrite (plain_part f _ P1).
  - rewrite ST. destruct (list_eq_dec N.eq_dec [] []) as [_|Q]; [|congruence]. clear P P1 ST. generalize (Some (r_id o)). revert P2.
    induction N as [|y b Y N IHb]; intros P2 found'; [reflexivity|]. inversion P2 as [|? ? Q1 Q2]; subst. cbn [last_write]. rewrite (plain_part f _ Q1), Y. apply IHb. exact Q2.
  - destruct (sets x); apply IH; assumption.
Qed.
Theorem C78_plain : forall fbits fuel f a o b, frame_lit canon f (a ++ o :: b) -> N.of_nat (length f) < 2 ^ 30 -> mergeable (map bare (a ++ o :: b)) ->
  Forall plain_key (a ++ o :: b) -> NoDup (map r_id (a ++ o :: b)) -> sets o = true -> Forall (fun x => sets x = false) b ->
  (length (a ++ o :: b) < fuel)%nat -> N.of_nat (length (a ++ o :: b)) < 2 ^ 32 ->
  exists text, gc_frame fbits fuel f = Done text /\ frame_lit canon text (chunk_of [bare o]).
Proof.
  intros fbits fuel f a o b F B M P ND ST N L LN.
  destruct (C78_gc fbits fuel f _ F B M (plain_keyed f _ P) L LN) as (text & E & FL). exists text. split; [exact E|].
  replace (filter (kept f (a ++ o :: b)) (a ++ o :: b)) with [o] in FL; [exact FL|].
  assert (KE : forall x, In x (a ++ o :: b) -> kept f (a ++ o :: b) x = sets x && uuid_eqb (r_id o) (r_id x)).
  { intros x I. unfold kept. rewrite (plain_part f x (proj1 (Forall_forall _ _) P x I)). destruct (sets x); [|reflexivity].
    rewrite (plain_last f a o b None P ST N). reflexivity. }
  rewrite map_app in ND. cbn [map] in ND. apply NoDup_remove_2 in ND.
  rewrite filter_app. cbn [filter]. rewrite KE by (apply in_or_app; right; left; reflexivity). rewrite ST, (proj2 (uuid_eqb_eq _ _) eq_refl). cbn [andb].
  assert (Z : forall l, incl l (a ++ o :: b) -> (forall x, In x l -> r_id x <> r_id o) -> filter (kept f (a ++ o :: b)) l = []).
  { induction l as [|x l IH]; intros I D; [reflexivity|]. cbn [filter]. rewrite KE by (apply I; left; reflexivity).
    destruct (sets x && uuid_eqb (r_id o) (r_id x)) eqn:Q.
    { exfalso. apply andb_prop in Q as [_ Q]. apply uuid_eqb_eq in Q. apply (D x (or_introl eq_refl)). congruence. }
    apply IH; [intros y J; apply I; right; exact J|intros y J; apply D; right; exact J]. }
  rewrite !Z; [reflexivity| | | |].
  - intros x J. apply in_or_app. right. right. exact J.
  - intros x J Q. apply ND. apply in_or_app. right. rewrite <- Q. apply in_map. exact J.
  - intros x J. apply in_or_app. left. exact J.
  - intros x J Q. apply ND. apply in_or_app. left. rewrite <- Q. apply in_map. exact J.
Qed.

(* a frame without any write is reduced to nothing, its header included *)
Theorem C78_none : forall fbits fuel f ops, frame_lit canon f ops -> N.of_nat (length f) < 2 ^ 30 -> Forall (fun o => r_vals o = []) ops ->
  (length ops < fuel)%nat -> gc_frame fbits fuel f = Done [].
Proof.
  intros fbits fuel f ops F B N L.
  assert (K : Forall (keyed f) ops). { eapply Forall_impl; [|exact N]. intros o Q ST. unfold sets in ST. rewrite Q in ST. discriminate. }
  destruct (gc_calls fbits fuel f ops F B K L) as (calls & E & U & I).
  assert (FE : filter (kept f ops) ops = []).
  { assert (Z : forall all l, Forall (fun o => r_vals o = []) l -> filter (kept f all) l = []).
    { intros all l Q. induction Q as [|o l Q QS IH]; [reflexivity|]. cbn [filter]. unfold kept at 1, key_part. rewrite Q. exact IH. } apply Z, N. }
  rewrite FE in U. destruct calls; [|discriminate]. unfold gc_frame. rewrite E. reflexivity.
Qed.

(* a key that is no part of the frame fails an assertion, wherever it is *)
Theorem C78_caught : forall fbits fuel f ops o, frame_lit canon f ops -> N.of_nat (length f) < 2 ^ 30 -> In o ops -> r_vals o <> [] -> key_part f o = None ->
  (length ops < fuel)%nat -> gc_frame fbits fuel f = Aborted.
Proof.
  intros fbits fuel f ops o F B I NE KP L. destruct (frame_cursors f ops F B) as (c & l & NX & VI & FL).
  destruct fuel as [|fuel]; [lia|]. unfold gc_frame, gc. cbn [gc_scan]. change (length (c_op (cursor_of f))) with 0%nat. change (Nat.ltb 0 3) with true. cbn [rbind].
  rewrite NX. destruct (valid c) eqn:V.
  - rewrite (scan_caught fbits f B c l VI V ops FL); [reflexivity| |lia]. exists o. split; [exact I|]. intro K. apply (K ltac:(unfold sets; destruct (r_vals o); congruence) KP).
  - destruct VI as [c W|c c1 l W]; [|congruence]. inversion FL; subst. contradiction.
Qed.
(* so do keys that are strings or numbers, and those that are ids of events *)
Theorem C78_keys : forall fbits fuel f ops o v vs, frame_lit canon f ops -> N.of_nat (length f) < 2 ^ 28 -> In o ops -> r_vals o = v :: vs ->
  match v with VUuid u => version u <> NAME | _ => True end -> (length ops < fuel)%nat -> gc_frame fbits fuel f = Aborted.
Proof.
  intros fbits fuel f ops o v vs F B I E K L.
  apply (C78_caught fbits fuel f ops o F); [eapply N.lt_trans; [exact B|reflexivity]|exact I|congruence| |exact L].
  unfold key_part. rewrite E. destruct v as [u|z|s|t]; try reflexivity.
  assert (FAR : 2 ^ 28 <= uorigin u / 2 ^ 32).
  { apply N.div_le_lower_bound; [discriminate|]. change (2 ^ 32 * 2 ^ 28) with (2 ^ 60). destruct (N.le_gt_cases (2 ^ 60) (uorigin u)) as [Q|Q]; [exact Q|]. exfalso. apply K.
    unfold version, word_flags. rewrite N.shiftr_div_pow2. rewrite N.div_small by exact Q. reflexivity. }
  replace (uorigin u / 2 ^ 32 <=? N.of_nat (length f)) with false; [rewrite Bool.andb_false_r; reflexivity|]. symmetry. apply N.leb_gt. lia.
Qed.

(* MergeGC of frames with plain names for keys: one op is left, that of the
   latest of all writes *)
Theorem C78_merge : forall fbits fuel fs opss cs o,
  Forall2 (frame_lit canon) fs opss -> Forall small fs -> Forall sorted_ids opss -> mergeable (map bare (concat opss)) ->
  Forall plain_key (concat opss) -> N.of_nat (room (map bare (concat opss))) < 2 ^ 30 -> (length (concat opss) < fuel)%nat -> N.of_nat (length (concat opss)) < 2 ^ 32 - 1 ->
  open_cursors fs = Some cs ->
  In o (concat opss) -> r_vals o <> [] -> (forall o', In o' (concat opss) -> r_vals o' <> [] -> r_id o' = r_id o \/ uuid_ltb (r_id o') (r_id o) = true) ->
  exists text, merge_gc fbits fuel cs = Done text /\ frame_lit canon text (chunk_of [bare o]).
Proof.
  intros fbits fuel fs opss cs o F SM SO M P RM L LN OC I NE TOP.
  destruct (C44_union fbits fuel LWW_RDT_FORM fs opss F SM SO M (or_introl eq_refl) ltac:(lia) LN) as (t1 & us & E & FL & INC & IN & LT).
  unfold merge_as in E. rewrite OC in E. unfold merge_gc. rewrite E. cbn [rbind].
  assert (NI : NoDup (map r_id (chunk_of us))).
  { clear -INC. induction INC as [|x l H IH FO]; cbn [map]; constructor; [|exact IH]. intro J. apply in_map_iff in J as (z & Z & J).
    rewrite Forall_forall in FO. specialize (FO z J). unfold id_lt in FO. rewrite Z, uuid_ltb_irrefl in FO. discriminate. }
  assert (BU : map bare (chunk_of us) = us) by apply bare_denote.
  assert (ND : NoDup us).
  { rewrite <- BU. apply (NoDup_map_inv u_id). rewrite map_map. exact NI. }
  assert (LU : (length us <= length (concat opss))%nat).
  { rewrite <- (map_length bare (concat opss)). apply NoDup_incl_length; [exact ND|]. intros u J. apply IN. exact J. }
  assert (LC : length (chunk_of us) = length us) by (rewrite <- BU at 2; symmetry; apply map_length).
  assert (IU : In (bare o) us) by (apply IN, in_map, I).
  rewrite <- BU in IU. apply in_map_iff in IU as (o1 & BO & IO).
  destruct (in_split _ _ IO) as (a & b & SPL).
  assert (FROM : forall x, In x (chunk_of us) -> exists y, In y (concat opss) /\ bare y = bare x).
  { intros x J. apply (in_map bare) in J. rewrite BU in J. apply IN in J. apply in_map_iff in J as (y & Y & J). eauto. }
  assert (VO : r_vals o1 = r_vals o) by (apply (f_equal u_vals) in BO; exact BO).
  assert (DO : r_id o1 = r_id o) by (apply (f_equal u_id) in BO; exact BO).
  assert (PU : Forall plain_key (chunk_of us)).
  { apply Forall_forall. intros x J. destruct (FROM x J) as (y & J2 & Y). rewrite Forall_forall in P. specialize (P y J2). unfold plain_key in *.
    replace (r_vals x) with (r_vals y) by (apply (f_equal u_vals) in Y; exact Y). exact P. }
  assert (LT2 : N.of_nat (length t1) < 2 ^ 30).
  { pose proof (room_incl us ND (map bare (concat opss)) (fun u J => proj1 (IN u) J)). lia. }
  rewrite SPL in *.
  destruct (C78_plain fbits fuel t1 a o1 b FL LT2) as (text & E2 & FL2); auto.
  - rewrite BU. apply (mergeable_incl _ _ M). intros u J. apply IN. exact J.
  - unfold sets. rewrite VO. destruct (r_vals o); congruence.
  - apply Forall_forall. intros x J. destruct (FROM x ltac:(apply in_or_app; right; right; exact J)) as (y & J2 & Y).
    assert (VY : r_vals x = r_vals y) by (apply (f_equal u_vals) in Y; symmetry; exact Y).
    assert (DY : r_id x = r_id y) by (apply (f_equal u_id) in Y; symmetry; exact Y).
    unfold sets. destruct (r_vals x) as [|v vs] eqn:EV; [reflexivity|]. exfalso.
    assert (LTX : uuid_ltb (r_id o1) (r_id x) = true).
    { clear -INC J. induction a as [|z a IH]; cbn [app] in INC; inversion INC as [|? ? H1 H2]; subst; [|apply IH, H1]. rewrite Forall_forall in H2. apply (H2 x J). }
    rewrite DO, DY in LTX.
    destruct (TOP y J2 ltac:(congruence)) as [Q|Q].
    + rewrite Q, uuid_ltb_irrefl in LTX. discriminate.
    + pose proof (uuid_ltb_trans _ _ _ LTX Q) as Z. rewrite uuid_ltb_irrefl in Z. discriminate.
  - lia.
  - lia.
  - exists text. rewrite <- BO. auto.
Qed.

(* cursors as frames hand them out, not moved to the first op, give nothing *)
Theorem C78_unmoved : forall fbits fuel fs, (0 < fuel)%nat -> merge_gc fbits fuel (map cursor_of fs) = Done [].
Proof.
  intros fbits fuel fs L. unfold merge_gc, merge_opened, master_merge. change (LWW_RDT_FORM =? LOG_RAW_FORM) with false.
  change (LWW_RDT_FORM =? ZERO_RAW_FORM) with false. change (LWW_RDT_FORM =? META_META_FORM) with false. change (LWW_RDT_FORM =? YARN_RAW_FORM) with false.
  change (LWW_RDT_FORM =? LWW_RDT_FORM) with true. cbn iota. unfold lww_merge.
  unfold merge_all.
  assert (E : forall h, add_all cursor valid (less_id cursor text_id) h (map cursor_of fs) = Done h).
  { intro h. induction fs as [|f fs IH]; [reflexivity|]. cbn [map add_all]. exact IH. }
  rewrite E. cbn [rbind heap_merge bcalls map]. change (build []) with (Some (@nil N)). cbn iota. cbn [rbind]. destruct fuel as [|fuel]; [lia|]. reflexivity.
Qed.
(* whatever the frame of metadata, its garbage collection writes nothing *)
Theorem C78_meta : forall fuel f, (0 < fuel)%nat -> meta_gc fuel f = Done [].
Proof. intros [|fuel] f L; [lia|reflexivity]. Qed.
Print Assumptions C78_meta.
Print Assumptions C78_gc.
Print Assumptions C78_plain.
Print Assumptions C78_none.
Print Assumptions C78_caught.
Print Assumptions C78_keys.
Print Assumptions C78_merge.
Print Assumptions C78_unmoved.
