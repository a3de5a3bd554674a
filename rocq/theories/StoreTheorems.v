(* Theorems about the in-memory store: C28-C30. *)
From Coq Require Import Sorted.
From Verif Require Import Prelude UuidModel UuidSpec UuidProofs KeyModel CodecModel TextModel TextSpec BuilderSpec BuilderProofs MergeModel MergeSpec MergeTextModel
  MergeProofs RgaProofs MergeTheorems TextMergeSpec TextCursors TextMerge SizeProofs TextMergeTheorems StoreModel StoreSpec StoreProofs.

Section Generic.
Context {F : Type}.
Variable fempty : F.
Variable is_empty : F -> bool.
Variable mergef : N -> list F -> res (option F * status).
Notation store := (list (key * F)).
Notation read := (read F fempty mergef).
Notation walk := (walk F fempty is_empty mergef).

(* C28: a write appends a frame to its key and to no other; Key::END is
   refused, and a batch is cut there *)
Theorem C28_write : forall st k f, sorted_store st ->
  let '(st', s) := write F st k f in
  sorted_store st' /\
  (k = KEY_END -> s = StBadArgs /\ st' = st) /\
  (k <> KEY_END -> s = StOK /\ contents st' k = contents st k ++ [f] /\
     forall k', k' <> k -> contents st' k' = contents st k').
Proof. clear fempty is_empty mergef.
  intros st k f SS. unfold write. destruct (key_eqb k KEY_END) eqn:E.
  - apply key_eqb_eq in E. split; [exact SS|]. split; [auto|]. intro H. contradiction.
  - destruct (insert_ok st k f SS) as [A B]. split; [exact A|]. split; [intros ->; rewrite key_eqb_refl in E; discriminate|].
    intros _. split; [reflexivity|]. split; [rewrite B, key_eqb_refl; reflexivity|].
    intros k' N. rewrite B, (key_eqb_neq _ _ N). apply app_nil_r.
Qed.
Theorem C28_batch : forall st l, sorted_store st ->
  let '(st', s) := write_batch F st l in
  sorted_store st' /\ (forall k, contents st' k = contents st k ++ contents (before_end l) k) /\
  (s = StOK <-> ~ In KEY_END (map fst l)).
Proof. clear fempty is_empty mergef.
  intros st l SS. pose proof (batch_ok l st SS) as B.
  assert (Q : forall st, snd (write_batch F st l) = StOK <-> ~ In KEY_END (map fst l)).
  { clear. induction l as [|[k f] l IH]; intro st; cbn [write_batch map fst In]; [split; [intros _ []|reflexivity]|].
    unfold write. destruct (key_eqb k KEY_END) eqn:E.
    - apply key_eqb_eq in E. cbn [snd]. split; [discriminate|]. intro H. exfalso. apply H. left. exact E.
    - rewrite IH. split; intros H; [intros [X|X]; [subst k; rewrite key_eqb_refl in E; discriminate|contradiction]|tauto]. }
  specialize (Q st). destruct (write_batch F st l) as [st' s]. destruct B as (B1 & B2 & _). auto.
Qed.

(* a read returns nothing, the only frame, or the merge of the frames; other
   keys are not affected, the next read returns the same *)
Theorem C28_read : forall st k old, sorted_store st ->
  (contents st k = [] -> read st k old = Done (st, fempty, StOK)) /\
  (forall f, contents st k = [f] -> read st k old = Done (st, f, StOK)) /\
  (forall g, (2 <= length (contents st k))%nat -> mergef (key_form k) (contents st k) = Done (Some g, StOK) ->
     exists st', read st k old = Done (st', g, StOK) /\ sorted_store st' /\ contents st' k = [g] /\
       (forall k', k' <> k -> contents st' k' = contents st k') /\
       forall old', read st' k old' = Done (st', g, StOK)).
Proof. clear is_empty.
  intros st k old SS. pose proof (read_ok fempty mergef st k old SS) as R. split; [|split].
  - intro E. rewrite E in R. exact R.
  - intros f E. rewrite E in R. exact R.
  - intros g L M. destruct (contents st k) as [|f [|f2 fs]]; cbn [length] in L; [lia|lia|].
    destruct R as [R Q]. rewrite M in R. cbn [rbind] in R. destruct (Q g) as [Q1 Q2]. eexists. split; [exact R|]. split; [exact Q1|].
    pose proof (Q2 k) as QK. rewrite key_eqb_refl in QK. split; [exact QK|]. split.
    + intros k' N. rewrite Q2, (key_eqb_neq _ _ N). reflexivity.
    + intro old'. pose proof (read_ok fempty mergef _ k old' Q1) as R2. rewrite QK in R2. exact R2.
Qed.

(* C30: a merge that yields no frame destroys all records of the key; what the
   caller's frame contained is stored instead *)
Theorem C30_failed_read : forall st k old s, sorted_store st -> (2 <= length (contents st k))%nat ->
  mergef (key_form k) (contents st k) = Done (None, s) ->
  exists st', read st k old = Done (st', old, s) /\ contents st' k = [old] /\
    (forall k', k' <> k -> contents st' k' = contents st k') /\
    forall old', read st' k old' = Done (st', old, StOK).
Proof. clear is_empty.
  intros st k old s SS L M. pose proof (read_ok fempty mergef st k old SS) as R.
  destruct (contents st k) as [|f [|f2 fs]]; cbn [length] in L; [lia|lia|].
  destruct R as [R Q]. rewrite M in R. cbn [rbind] in R. destruct (Q old) as [Q1 Q2]. eexists. split; [exact R|].
  pose proof (Q2 k) as QK. rewrite key_eqb_refl in QK. split; [exact QK|]. split.
  - intros k' N. rewrite Q2, (key_eqb_neq _ _ N). reflexivity.
  - intro old'. pose proof (read_ok fempty mergef _ k old' Q1) as R2. rewrite QK in R2. exact R2.
Qed.

(* C29: a new iterator, SeekTo(k), Next...: the keys from k on, each once, in
   order; the value of a key is its only frame or the merge of its frames. The
   store keeps its keys; a key looked at may have its frames replaced by their
   merge, nothing else changes. A merge that fails changes nothing. *)
Theorem C29_walk : forall st k views, is_empty fempty = true ->
  sorted_store st -> Forall key64 (map fst st) ->
  (forall k', (2 <= length (contents st k'))%nat -> exists x, mergef (key_form k') (contents st k') = Done x) ->
  exists st' l keys, walk st k views = Done (st', l) /\
    StronglySorted key_lt keys /\ (forall x, In x keys <-> In x (map fst st) /\ ~ key_lt x k /\ x <> KEY_END) /\
    map fst l = firstn (length views) keys /\
    map (fun '(_, f) => match f with Some _ => true | None => false end) l = firstn (length l) views /\
    (forall k' f, In (k', Some f) l -> shows fempty mergef k' (contents st k') f) /\
    sorted_store st' /\ (forall x, In x (map fst st') <-> In x (map fst st)) /\
    (forall k', contents st' k' = contents st k' \/
       exists g s, In (k', Some g) l /\ (2 <= length (contents st k'))%nat /\
         mergef (key_form k') (contents st k') = Done (Some g, s) /\ contents st' k' = [g]).
Proof.
  intros st k views FE SS K64 TOT. destruct (parts_exist st k SS) as (lo & eqs & hi & P).
  pose proof (walk_result fempty is_empty mergef FE st k views lo eqs hi SS K64 P) as W.
  destruct (visible_from st k lo eqs hi SS P) as [V1 V2].
  destruct (walk st k views) as [[st' l]| |].
  - exists st', l, (visible (eqs ++ hi)). destruct W as (A & A2 & B & B2 & C & D). split; [reflexivity|].
    split; [exact V1|]. split; [exact V2|]. split; [exact B|]. split; [exact B2|]. split; [exact C|]. split; [exact A|]. split; [exact A2|].
    intro k'. destruct (D k') as [Q|(g & s & Q1 & Q2 & Q3 & Q4 & Q5)]; [left; exact Q|right; exists g, s; auto].
  - exfalso. destruct W as (k1 & L & N). destruct (TOT k1 L) as [x E]. exact (N x E).
  - exfalso. destruct W as (k1 & L & N). destruct (TOT k1 L) as [x E]. exact (N x E).
Qed.

(* seeking: the least key not below k, or Key::END; with prev, in a store that
   has a key not above k and one not below it (as every opened store does), the
   greatest key not above k *)
Theorem C29_seek : forall st k, sorted_store st -> Forall key64 (map fst st) ->
  (exists x, it_key F st (it_seek F st (new_iter F fempty) k false) = Done x /\
     ((In x (map fst st) /\ ~ key_lt x k) \/ x = KEY_END) /\
     forall y, In y (map fst st) -> ~ key_lt y k -> ~ key_lt y x) /\
  (forall it, (exists y, In y (map fst st) /\ ~ key_lt k y) -> (exists y, In y (map fst st) /\ ~ key_lt y k) ->
     exists x, it_key F st (it_seek F st it k true) = Done x /\ In x (map fst st) /\ ~ key_lt k x /\
     forall y, In y (map fst st) -> ~ key_lt k y -> ~ key_lt x y).
Proof. clear is_empty mergef.
  intros st k SS K64. destruct (parts_exist st k SS) as (lo & eqs & hi & P). split.
  - rewrite (seek_scroll fempty _ _ _ _ _ P). pose proof P as (E & L & M & G). destruct (eqs ++ hi) as [|[k0 f] r] eqn:R.
    + subst st. rewrite app_nil_r in *. rewrite scroll_end. exists KEY_END. split; [reflexivity|]. split; [right; reflexivity|].
      intros y I NL. exfalso. apply in_map_iff in I as (z & <- & I). unfold below in L. rewrite Forall_forall in L. apply NL, L, I.
    + assert (SR : sorted_store ((k0, f) :: r)) by (rewrite E in SS; apply sorted_app in SS; apply SS).
      destruct (rest_parts k0 f r SR) as (e2 & h2 & ER & N2 & M2 & G2).
      assert (ST : strict lo ((k0, f) :: r)) by (rewrite <- R; apply (parts_strict _ _ _ _ _ P)).
      assert (L2 : below k0 lo).
      { apply Forall_forall. intros x I. apply (ST x (k0, f) I). left. reflexivity. }
      destruct (scroll_run lo k0 e2 h2 fempty M2 N2 G2 L2) as [RU _]. rewrite <- ER, <- E in RU.
      exists k0. split; [exact (key_run _ _ _ _ _ _ RU)|]. split.
      * left. split; [rewrite E, map_app, in_app_iff; right; left; reflexivity|].
        assert (I0 : In (k0, f) (eqs ++ hi)) by (rewrite R; left; reflexivity).
        unfold all_at, above in *. rewrite Forall_forall in *. apply in_app_iff in I0 as [I0|I0].
        -- pose proof (M _ I0) as Q. cbn [fst] in Q. subst k0. apply key_lt_irrefl.
        -- specialize (G _ I0). cbn [fst] in G. intro K. exact (key_lt_irrefl _ (key_lt_trans _ _ _ G K)).
      * intros y I NL. rewrite E, map_app, in_app_iff in I. destruct I as [I|I].
        -- exfalso. apply in_map_iff in I as (z & <- & I). unfold below in L. rewrite Forall_forall in L. apply NL, L, I.
        -- apply in_map_iff in I as (z & <- & I). inversion SR as [|? ? _ S2]; subst. destruct I as [<-|I]; [apply key_lt_irrefl|].
           rewrite Forall_forall in S2. apply (S2 z I).
  - intros it (y1 & I1 & N1) (y2 & I2 & N2).
    assert (NE : length st <> 0%nat) by (destruct st; [contradiction|discriminate]).
    (* landing on the last record of lo *)
    assert (LAND : eqs = [] -> exists x, it_key F st (scroll F st (Nat.pred (length lo)) (it_merged F it)) = Done x /\
        In x (map fst st) /\ ~ key_lt k x /\ forall y, In y (map fst st) -> ~ key_lt k y -> ~ key_lt x y).
    { intros ->. pose proof P as (E & L & _ & G). cbn [app] in E.
      assert (LN : lo <> []).
      { intros ->. cbn [app] in E. subst st. apply in_map_iff in I1 as (z & <- & I1). unfold above in G. rewrite Forall_forall in G. apply N1, G, I1. }
      destruct (exists_last LN) as (lo' & [k0 f] & EL). subst lo. rewrite app_length. cbn [length]. replace (Nat.pred (length lo' + 1)) with (length lo') by lia.
      assert (S2 : sorted_store (lo' ++ (k0, f) :: hi)) by (rewrite <- app_assoc in E; cbn [app] in E; rewrite <- E; exact SS).
      assert (LK : key_lt k0 k).
      { unfold below in L. rewrite Forall_forall in L. apply (L (k0, f)). apply in_or_app. right. left. reflexivity. }
      assert (KEY : it_key F st (scroll F st (length lo') (it_merged F it)) = Done k0).
      { unfold scroll. rewrite E, <- app_assoc. cbn [app]. rewrite skipn_app, skipn_all, Nat.sub_diag. cbn [skipn app].
        unfold it_key. cbn [run_length it_len it_b]. rewrite key_eqb_refl, nth_error_app2, Nat.sub_diag by lia. reflexivity. }
      exists k0. split; [exact KEY|]. split; [rewrite E, <- app_assoc, map_app, in_app_iff; right; left; reflexivity|].
      split; [intro K; exact (key_lt_irrefl _ (key_lt_trans _ _ _ LK K))|].
      intros y I NL. rewrite E, <- app_assoc in I. cbn [app] in I. rewrite map_app, in_app_iff in I. destruct I as [I|[<-|I]].
      - apply in_map_iff in I as (z & <- & I). apply sorted_app in S2 as (_ & _ & S2). apply (S2 z (k0, f) I). left. reflexivity.
      - apply key_lt_irrefl.
      - exfalso. apply in_map_iff in I as (z & <- & I). unfold above in G. rewrite Forall_forall in G. apply NL, G, I. }
    unfold it_seek. rewrite (lower_parts _ _ _ _ _ P). cbn [andb]. pose proof P as (E & L & M & G).
    assert (NTH : nth_error st (length lo) = nth_error (eqs ++ hi) 0) by (rewrite E, nth_error_app2, Nat.sub_diag by lia; reflexivity).
    rewrite NTH. destruct eqs as [|[k0 f] eqs].
    + specialize (LAND eq_refl). assert (LN : lo <> []).
      { intros ->. cbn [app] in E. subst st. apply in_map_iff in I1 as (z & <- & I1). unfold above in G. rewrite Forall_forall in G. apply N1, G, I1. }
      cbn [app]. destruct hi as [|[k1 f1] hi]; cbn [nth_error].
      * destruct (Nat.eqb (length st) 0) eqn:Z; [apply Nat.eqb_eq in Z; contradiction|]. cbn [negb]. exact LAND.
      * rewrite key_eqb_neq by (intros ->; inversion G as [|? ? Q _]; exact (key_lt_irrefl _ Q)). cbn [negb].
        destruct (Nat.eqb (length lo) 0) eqn:Z; [apply Nat.eqb_eq in Z; destruct lo; [congruence|discriminate]|]. cbn [negb]. exact LAND.
    + assert (k0 = k) by (inversion M; assumption). subst k0. cbn [app nth_error]. rewrite key_eqb_refl. cbn [negb].
      destruct (scroll_run lo k ((k, f) :: eqs) hi (it_merged F it) M ltac:(discriminate) G L) as [RU _]. rewrite <- E in RU.
      exists k. split; [exact (key_run _ _ _ _ _ _ RU)|]. split; [rewrite E, map_app, in_app_iff; right; left; reflexivity|].
      split; [apply key_lt_irrefl|]. intros y _ NL. exact NL.
Qed.
End Generic.
Print Assumptions C28_write.
Print Assumptions C28_batch.
Print Assumptions C28_read.
Print Assumptions C30_failed_read.
Print Assumptions C29_walk.
Print Assumptions C29_seek.

(* ---- C28 for text frames: what a history of writes, batches, reads and walks
   leaves under a key ---- *)
Definition text_frame (f : bytes) (ops : list rop) : Prop := frame_lit canon f ops /\ sorted_ids ops /\ small f.
Definition empty_text (f : bytes) : bool := match f with [] => true | _ => false end.

Lemma increasing_sorted l : increasing_ids l -> sorted_ids l.
Proof.
  intro I. induction I as [|x l I IH FO]; constructor; [exact IH|]. rewrite Forall_forall in *. intros y J. specialize (FO y J).
  unfold id_lt in FO. unfold id_le. apply uuid_ltb_asym. exact FO.
Qed.
Lemma chunk_length us : length (chunk_of us) = length us.
Proof. rewrite <- (map_length bare (chunk_of us)). unfold chunk_of. rewrite bare_denote. reflexivity. Qed.
Lemma chunk_nodup us : increasing_ids (chunk_of us) -> NoDup us.
Proof.
  intro I1. rewrite <- (bare_denote us RAW). fold (chunk_of us). induction I1 as [|x l H IH FO]; cbn [map]; constructor; [|exact IH].
  intro J. apply in_map_iff in J as (z & Z & J). rewrite Forall_forall in FO. specialize (FO z J). unfold id_lt in FO.
  replace (r_id z) with (r_id x) in FO by (apply (f_equal u_id) in Z; symmetry; exact Z). rewrite uuid_ltb_irrefl in FO. discriminate.
Qed.
Lemma union_length us (all : list rop) : increasing_ids (chunk_of us) -> (forall u, In u us -> In u (map bare all)) -> (length us <= length all)%nat.
Proof. intros I1 U1. rewrite <- (map_length bare all). apply NoDup_incl_length; [apply chunk_nodup; exact I1|exact U1]. Qed.
Lemma union_room us all : increasing_ids (chunk_of us) -> (forall u, In u us -> In u all) -> (room us <= room all)%nat.
Proof. intros I1 U1. apply room_incl; [apply chunk_nodup; exact I1|exact U1]. Qed.

Section Text.
Variable fbits : bytes -> N.
Variable fuel : nat.
Notation tmerge := (merge_as fbits fuel).
Notation tstore := (list (key * bytes)).

(* the frames under k hold the ops of W *)
Definition holds_ops (st : tstore) (k : key) (W : list rop) : Prop :=
  exists ds, Forall2 text_frame (contents st k) ds /\
    (forall u, In u (map bare (concat ds)) <-> In u (map bare W)) /\ (length (concat ds) <= length W)%nat /\
    (room (map bare (concat ds)) <= room (map bare W))%nat.

Lemma text_parts fs ds : Forall2 text_frame fs ds -> Forall2 (frame_lit canon) fs ds /\ Forall small fs /\ Forall sorted_ids ds.
Proof. intro F. induction F as [|f d fs ds (A & B & C) F (IA & IB & IC)]; repeat split; constructor; assumption. Qed.

Lemma merge_held st k W : holds_ops st k W -> mergeable (map bare W) ->
  In (key_form k) [LWW_RDT_FORM; MX_RDT_FORM; YARN_RAW_FORM; META_META_FORM] ->
  (length W <= fuel)%nat -> N.of_nat (length W) < 2 ^ 32 - 1 -> N.of_nat (room (map bare W)) < 2 ^ 32 ->
  exists text us, tmerge (key_form k) (contents st k) = Done (Some text, StOK) /\
    frame_lit canon text (chunk_of us) /\ increasing_ids (chunk_of us) /\
    (forall u, In u us <-> In u (map bare W)) /\ (length us <= length W)%nat /\ (room us <= room (map bare W))%nat /\ small text.
Proof.
  intros (ds & FD & S & L & R) M FM FU LN RN. destruct (text_parts _ _ FD) as (F1 & F2 & F3).
  destruct (C44_union fbits fuel (key_form k) _ ds F1 F2 F3) as (text & us & E & FL & I & U & LT).
  - eapply mergeable_incl; [exact M|]. intros u J. apply S. exact J.
  - exact FM.
  - lia.
  - lia.
  - exists text, us. split; [exact E|]. split; [exact FL|]. split; [exact I|]. split.
    + intro u. rewrite U. apply S.
    + pose proof (union_length us (concat ds) I (fun u J => proj1 (U u) J)). pose proof (union_room us _ I (fun u J => proj1 (U u) J)).
      split; [lia|]. split; [lia|]. unfold small. lia.
Qed.

Lemma history_ind ops : forall st0 W st outs k dss,
  sorted_store st0 -> Forall key64 (map fst st0) -> Forall key64 (flat_map op_keys ops) ->
  holds_ops st0 k W -> Forall2 text_frame (written k ops) dss ->
  srun bytes [] empty_text tmerge st0 ops = Done (st, outs) ->
  In (key_form k) [LWW_RDT_FORM; MX_RDT_FORM; YARN_RAW_FORM; META_META_FORM] ->
  mergeable (map bare (W ++ concat dss)) -> (length (W ++ concat dss) <= fuel)%nat -> N.of_nat (length (W ++ concat dss)) < 2 ^ 32 - 1 ->
  N.of_nat (room (map bare (W ++ concat dss))) < 2 ^ 32 ->
  sorted_store st /\ holds_ops st k (W ++ concat dss).
Proof.
  induction ops as [|o ops IH]; intros st0 W st outs k dss SS K64 KO H FW E FM M FU LN RN.
  - cbn [srun] in E. injection E as <- <-. inversion FW; subst. cbn [concat]. rewrite app_nil_r. auto.
  - cbn [srun] in E. destruct (sstep bytes [] empty_text tmerge st0 o) as [[st1 x]| |] eqn:ES; cbn [rbind] in E; try discriminate.
    destruct (srun bytes [] empty_text tmerge st1 ops) as [[st2 xs]| |] eqn:ER; cbn [rbind] in E; try discriminate. injection E as <- <-.
    cbn [flat_map] in KO. apply Forall_app in KO as [KO1 KO2].
    destruct (sstep_ok [] empty_text tmerge eq_refl st0 o st1 x SS K64 KO1 ES) as (SS1 & K1 & T). specialize (T k).
    unfold written in FW. cbn [flat_map] in FW. rewrite contents_app in FW. fold (written k ops) in FW.
    apply Forall2_app_inv_l in FW as (d1 & d2 & F1 & F2 & ->). rewrite concat_app, app_assoc in *.
    apply (IH st1 (W ++ concat d1) st2 xs k d2); try assumption.
    destruct T as [T|(T1 & T2 & r & s & g & TM & TC & TI & TR)].
    + destruct H as (ds & FD & S & L & R). exists (ds ++ d1). rewrite T. split; [apply Forall2_app; assumption|].
      rewrite concat_app, !app_length, !map_app, !room_app. split; [|lia]. intro u. rewrite !in_app_iff, S. reflexivity.
    + rewrite T1 in F1. inversion F1; subst d1. cbn [concat] in *. rewrite app_nil_r in *.
      rewrite map_app in M. rewrite app_length in FU, LN. rewrite map_app, room_app in RN.
      destruct (merge_held st0 k W H) as (text & us & EM & FL & I & U & LE & LR & SM).
      * eapply mergeable_incl; [exact M|]. intros u J. apply in_or_app. left. exact J.
      * exact FM.
      * lia.
      * lia.
      * lia.
      * rewrite EM in TM. injection TM as <- <-. assert (text = g) by (destruct TR as [TR|TR]; [injection TR as ->; reflexivity|discriminate]). subst g.
        exists [chunk_of us]. rewrite TC. split; [constructor; [|constructor]; split; [exact FL|split; [apply increasing_sorted; exact I|exact SM]]|].
        cbn [concat]. rewrite app_nil_r, chunk_length. unfold chunk_of. rewrite bare_denote. split; [exact U|]. split; [exact LE|exact LR].
Qed.

(* Whatever was written under the key, in whatever order and interleaved with
   whatever reads and walks, a read returns exactly the ops written, and they
   stay readable. *)
Theorem C28_history : forall st0 ops st outs k dss old,
  sorted_store st0 -> Forall key64 (map fst st0) -> contents st0 k = [] ->
  Forall key64 (flat_map op_keys ops) -> Forall2 text_frame (written k ops) dss -> written k ops <> [] ->
  srun bytes [] empty_text tmerge st0 ops = Done (st, outs) ->
  In (key_form k) [LWW_RDT_FORM; MX_RDT_FORM; YARN_RAW_FORM; META_META_FORM] ->
  mergeable (map bare (concat dss)) -> (length (concat dss) <= fuel)%nat -> N.of_nat (length (concat dss)) < 2 ^ 32 - 1 ->
  N.of_nat (room (map bare (concat dss))) < 2 ^ 32 ->
  exists st' text ds, read bytes [] tmerge st k old = Done (st', text, StOK) /\
    frame_lit canon text ds /\ sorted_ids ds /\
    (forall u, In u (map bare ds) <-> In u (map bare (concat dss))) /\
    (forall k', k' <> k -> contents st' k' = contents st k') /\
    forall old', read bytes [] tmerge st' k old' = Done (st', text, StOK).
Proof.
  intros st0 ops st outs k dss old SS K64 C0 KO FW NE E FM M FU LN RN.
  assert (H0 : holds_ops st0 k []) by (exists []; rewrite C0; split; [constructor|split; [reflexivity|split; cbn [concat]; lia]]).
  destruct (history_ind ops st0 [] st outs k dss SS K64 KO H0 FW E FM) as [SS1 H]; cbn [app]; try assumption. cbn [app] in H.
  destruct (C28_read [] tmerge st k old SS1) as (R0 & R1 & R2).
  destruct (contents st k) as [|f [|f2 fs]] eqn:CT.
  - (* nothing stored: nothing was written *)
    exfalso. revert E. assert (NOW : forall ops st0 st outs, sorted_store st0 -> Forall key64 (map fst st0) -> Forall key64 (flat_map op_keys ops) ->
      srun bytes [] empty_text tmerge st0 ops = Done (st, outs) -> contents st k = [] -> contents st0 k = [] /\ written k ops = []).
    { clear. intro ops. induction ops as [|o ops IH]; intros st0 st outs SS K64 KO E C.
      - cbn [srun] in E. injection E as <- <-. auto.
      - cbn [srun] in E. destruct (sstep bytes [] empty_text tmerge st0 o) as [[st1 x]| |] eqn:ES; cbn [rbind] in E; try discriminate.
        destruct (srun bytes [] empty_text tmerge st1 ops) as [[st2 xs]| |] eqn:ER; cbn [rbind] in E; try discriminate. injection E as <- <-.
        cbn [flat_map] in KO. apply Forall_app in KO as [KO1 KO2].
        destruct (sstep_ok [] empty_text tmerge eq_refl st0 o st1 x SS K64 KO1 ES) as (SS1 & K1 & T). specialize (T k).
        destruct (IH st1 st2 xs SS1 K1 KO2 ER C) as [C1 W1]. unfold written. cbn [flat_map]. rewrite contents_app. fold (written k ops). rewrite W1, app_nil_r.
        destruct T as [T|(_ & _ & r & s & g & _ & TC & _)]; [rewrite T in C1; apply app_eq_nil in C1; exact C1|]. rewrite TC in C1. discriminate. }
    intro E. apply NE. apply (NOW ops st0 st outs SS K64 KO E CT).
  - destruct H as (ds & FD & S & L & _). rewrite CT in FD. inversion FD as [|? d ? ds' (A & B & C) FD']; subst. inversion FD'; subst.
    specialize (R1 f eq_refl). exists st, f, d. split; [exact R1|]. split; [exact A|]. split; [exact B|].
    cbn [concat] in S. rewrite app_nil_r in S. split; [exact S|]. split; [reflexivity|].
    intro old'. destruct (C28_read [] tmerge st k old' SS1) as (_ & Q & _). apply Q. exact CT.
  - destruct (merge_held st k (concat dss) H M FM FU LN RN) as (text & us & EM & FL & I & U & _). rewrite CT in EM.
    destruct (R2 text ltac:(cbn [length]; lia) EM) as (st' & RD & SS2 & CK & OTH & AGAIN).
    exists st', text, (chunk_of us). split; [exact RD|]. split; [exact FL|]. split; [apply increasing_sorted; exact I|]. split.
    + intro u. unfold chunk_of. rewrite bare_denote. apply U.
    + split; [exact OTH|exact AGAIN].
Qed.

(* C30 for text: two records under a key whose form has no merge rule, or four
   under an RGA key, are lost by the first read *)
Theorem C30_text : forall st k dss old, sorted_store st ->
  Forall2 (frame_lit canon) (contents st k) dss -> Forall small (contents st k) -> (2 <= length (contents st k))%nat ->
  ~ In (key_form k) [LOG_RAW_FORM; ZERO_RAW_FORM; ERROR_NO_FORM; META_META_FORM; YARN_RAW_FORM; LWW_RDT_FORM;
              MX_RDT_FORM; RGA_RDT_FORM; MAX_RDT_FORM] \/
  key_form k = RGA_RDT_FORM /\ (3 < length (filter nonempty dss))%nat ->
  exists st', read bytes [] tmerge st k old = Done (st', old, StNotImplemented) /\ contents st' k = [old] /\
    (forall k', k' <> k -> contents st' k' = contents st k') /\
    forall old', read bytes [] tmerge st' k old' = Done (st', old, StOK).
Proof.
  intros st k dss old SS F B L H. apply C30_failed_read; [exact SS|exact L|].
  destruct (open_frames _ _ F B) as (cs & O & R & _). unfold merge_as. rewrite O. unfold merge_opened.
  assert (M : master_merge cursor valid text_next text_id text_ref (text_val fbits) c_term fuel (key_form k) cs = Done ([], StNotImplemented)).
  { pose proof (F2_length _ _ _ _ _ R) as LE. destruct H as [H|[H LR]].
    - clear -H. unfold master_merge. cbn [In] in H.
      repeat match goal with |- (if ?a =? ?b then _ else _) = _ => destruct (N.eqb_spec a b) as [X|_]; [exfalso; apply H; rewrite X; tauto|] end. reflexivity.
    - unfold master_merge. rewrite H. change (rga_merge cursor valid text_next text_id text_ref fuel cs = Done ([], StNotImplemented)). unfold rga_merge. rewrite (proj2 (Nat.ltb_lt 3 (length cs))) by lia. reflexivity. }
  rewrite M. reflexivity.
Qed.
End Text.
Print Assumptions C28_history.
Print Assumptions C30_text.
