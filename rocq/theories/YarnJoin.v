(* What a replica sees of a branch while it is saving a frame: the records of the
   branch and those of the frame's first chains, joined. *)
From Coq Require Import Sorted Permutation.
From Verif Require Import Prelude UuidModel UuidProofs KeyModel KeyProofs CodecModel TextModel TextSpec BuilderSpec MergeModel MergeSpec HeapProofs MergeProofs MergeTextModel
  TextMergeSpec TextCursors MergeKeeps MergeTheorems TextMerge SizeProofs TextMergeTheorems StoreModel StoreSpec StoreProofs StoreTheorems JoinTheorems RocksModel RocksSpec RocksProofs RocksTheorems MetaModel ClockModel
  ReplicaModel ReplicaSpec ReplicaProofs ReplicaTheorems BranchModel BranchSpec BranchProofs BranchTheorems DurableSpec DurableProofs DurableTheorems YarnSpec YarnMerge YarnProofs.

Lemma key_dec (a b : key) : {a = b} + {a <> b}.
Proof. destruct (key_eqb a b) eqn:E; [left; apply key_eqb_eq; exact E|right]. intros ->. rewrite key_eqb_refl in E. discriminate. Qed.
Lemma nodup_mid {T} (a b c d : list T) : NoDup (a ++ b ++ c ++ d) -> NoDup (a ++ c).
Proof.
  intro ND. induction a as [|x a IH]; cbn [app] in *.
  - induction b as [|y b IHb]; [|cbn [app] in ND; inversion ND; auto]. cbn [app] in ND. clear -ND. induction c as [|z c IH]; [constructor|]. cbn [app] in ND. inversion ND as [|? ? NI ND']; subst.
    constructor; [|exact (IH ND')]. intro I. apply NI. apply in_or_app. left. exact I.
  - inversion ND as [|? ? NI ND']; subst. constructor; [|exact (IH ND')]. intro I. apply NI. rewrite !in_app_iff in *. tauto.
Qed.
Lemma belongs_name us u o r : belongs us u o r -> version (u_ref u) = NAME -> u_id u = o.
Proof. intros B V. destruct B as [u _ _|u v o r _ V2 _ _]; [reflexivity|]. rewrite V in V2. discriminate V2. Qed.
Lemma plain_some u : plain_type u -> uuid_zero u = false.
Proof.
  intro P. unfold plain_type, uuid2form in P. destruct (find_form FORMS 0 u) as [i|] eqn:E.
  - assert (G : forall l j i, find_form l j u = Some i -> exists w, In w l /\ u = mkUuid w 0).
    { clear. induction l as [|w l IH]; intros j i E; [discriminate|]. cbn [find_form] in E. destruct (uuid_eqb u (mkUuid w 0)) eqn:Q.
      - apply uuid_eqb_eq in Q. exists w. split; [left; reflexivity|exact Q].
      - destruct (IH _ _ E) as (w' & I & EQ). exists w'. split; [right; exact I|exact EQ]. }
    destruct (G _ _ _ E) as (w & _ & ->). unfold uuid_zero. cbn [uvalue]. destruct (N.eqb_spec w 0) as [->|]; [|reflexivity]. exfalso. vm_compute in E. first [discriminate E|assert (Q : i = 0) by congruence; subst i; destruct P as [P|[P|[P|[]]]]; vm_compute in P; discriminate P].
  - destruct (uuid_eqb u FATAL) eqn:Q; [apply uuid_eqb_eq in Q; subst u; reflexivity|]. exfalso. destruct P as [P|[P|[P|[]]]]; vm_compute in P; discriminate P.
Qed.

Section Mem.
Variable fbits : bytes -> N.
Variable fuel : nat.
Notation b_jread := (b_jread fbits fuel).
Notation b_jprev := (b_jprev fbits fuel).
Notation acts := (acts family b_jread b_write).
Notation mread := (read bytes [] (merge_as fbits fuel)).

(* what reads and writes do to the records of the frame *)
Lemma jread_mem m w k m' w' f s : sorted_store w -> b_jread m w k = Done (m', w', f, s) -> w' = w \/ exists fb sb, mread w k [] = Done (w', fb, sb).
Proof.
  intros SS J. unfold BranchModel.b_jread in J. apply rbind_done in J as ([fa sa] & _ & J). destruct sa; try (injection J as _ <- _ _; left; reflexivity).
  apply rbind_done in J as ([[w1 fb] sb] & R & J). right. exists fb, sb. assert (E : w1 = w'); [|subst; exact R].
  destruct sb; try (injection J as _ <- _ _; reflexivity). destruct (blank fa); [injection J as _ <- _ _; reflexivity|]. destruct (blank fb); [injection J as _ <- _ _; reflexivity|].
  apply rbind_done in J as ([r s1] & _ & J). injection J as _ <- _ _. reflexivity.
Qed.
(* a key under which little was written *)
Lemma acts_few k x ws y : only_writes ws -> acts x ws y -> sorted_store (snd x) -> (length (contents (snd x) k ++ contents (writes_of ws) k) <= 1)%nat ->
  contents (snd y) k = contents (snd x) k ++ contents (writes_of ws) k.
Proof.
  intros OW A SS. induction A as [|ws m w k1 m' w' f s A IH J|ws m w k1 f w' A IH W|ws m w f m' s A IH W]; intro L.
  - cbn. rewrite app_nil_r. reflexivity.
  - specialize (IH OW L). cbn [fst snd] in *. destruct (acts_mem fbits fuel _ _ _ OW A SS) as (_ & S1 & _). cbn [snd] in S1. rewrite <- IH in L |- *. clear IH.
    apply (jread_mem _ _ _ _ _ _ _ S1) in J as [->|(fb & sb & R)]; [reflexivity|].
    pose proof (read_ok (F := bytes) [] (merge_as fbits fuel) w k1 [] S1) as K.
    destruct (contents w k1) as [|a [|b l]] eqn:C; [rewrite K in R; injection R as <- _ _; reflexivity|rewrite K in R; injection R as <- _ _; reflexivity|].
    destruct K as [K1 K2]. rewrite K1 in R. apply rbind_done in R as ([r s1] & M & R). injection R as <- _ _.
    destruct (K2 (match r with Some f0 => f0 | None => [] end)) as [_ K3]. rewrite K3. destruct (key_eqb k k1) eqn:E; [|reflexivity].
    exfalso. apply key_eqb_eq in E. subst k1. rewrite C in L. cbn in L. lia.
  - apply Forall_app in OW as [OW _]. rewrite writes_of_app, contents_app in *. cbn [fst snd] in *. rewrite app_assoc in *.
    assert (L1 : (length (contents (snd x) k ++ contents (writes_of ws) k) <= 1)%nat) by (rewrite app_length in L; lia).
    specialize (IH OW L1). destruct (acts_mem fbits fuel _ _ _ OW A SS) as (_ & S1 & _). cbn [snd] in S1.
    pose proof (write_ok w k1 f S1) as K. rewrite W in K. destruct K as (_ & K2 & _ & K3). rewrite K2, IH. cbn [writes_of flat_map app before_end].
    destruct (key_eqb k1 KEY_END); [discriminate K3|]. reflexivity.
  - apply Forall_app in OW as [_ OW]. inversion OW; contradiction.
Qed.
(* a log *)
Definition pieces (fs : list bytes) (W : list uop) : Prop :=
  exists ds, Forall2 frame_text fs ds /\ Forall (fun d => d <> []) ds /\ map bare (concat ds) = W.
Lemma bound_pieces W d2 a b : log_bound fuel W -> map bare (concat W) = a ++ map bare (concat d2) ++ b -> log_bound fuel d2.
Proof.
  intros B E. eapply log_bound_sub; [| | |exact B]; rewrite ?E.
  - intros u I. rewrite !in_app_iff. auto.
  - rewrite <- (map_length bare (concat W)), E, !app_length, map_length. lia.
  - rewrite !room_app. lia.
Qed.
Lemma read_piece k w w' f s W : key_form k = LOG_RAW_FORM -> sorted_store w -> pieces (contents w k) (map bare (concat W)) -> log_bound fuel W -> mread w k [] = Done (w', f, s) ->
  s = StOK /\ (contents w k = [] -> f = []) /\ (contents w k <> [] -> contents w' k = [f] /\ pieces [f] (map bare (concat W))).
Proof.
  intros FK SS (ds & F & N & E) B R. pose proof (read_ok (F := bytes) [] (merge_as fbits fuel) w k [] SS) as K.
  destruct (contents w k) as [|a [|b l]] eqn:C.
  - rewrite K in R. injection R as <- <- <-. split; [reflexivity|]. split; [reflexivity|]. intro Q. contradiction.
  - rewrite K in R. injection R as <- <- <-. split; [reflexivity|]. split; [discriminate|]. intros _. rewrite C. split; [reflexivity|]. exists ds. auto.
  - destruct K as [K1 K2]. rewrite K1 in R. apply rbind_done in R as ([r s1] & M & R). injection R as <- <- <-.
    destruct (frame_texts _ _ F) as (A2 & B2). assert (BD : log_bound fuel ds) by (apply (bound_pieces W ds [] [] B); cbn [app]; rewrite app_nil_r; symmetry; exact E).
    destruct (log_text fbits fuel _ ds A2 B2 BD) as (g & MG & FL & SG). rewrite FK, MG in M. injection M as <- <-.
    split; [reflexivity|]. split; [discriminate|]. intros _. destruct (K2 g) as [_ K3]. rewrite K3, key_eqb_refl. split; [reflexivity|].
    exists [denote (log_calls (concat ds))]. split; [constructor; [split; assumption|constructor]|]. cbn [concat]. rewrite app_nil_r, bare_log. split; [|exact E].
    constructor; [|constructor]. intro Q. apply (f_equal (map bare)) in Q. rewrite bare_log in Q. inversion F as [|? d ? ds1 _ _]; subst. inversion N; subst. destruct d; [contradiction|discriminate].
Qed.
Lemma read_other k k1 w w' f s : k <> k1 -> sorted_store w -> mread w k1 [] = Done (w', f, s) -> contents w' k = contents w k.
Proof.
  intros NE SS R. pose proof (read_ok (F := bytes) [] (merge_as fbits fuel) w k1 [] SS) as K.
  destruct (contents w k1) as [|a [|b l]] eqn:C; [rewrite K in R; injection R as <- _ _; reflexivity|rewrite K in R; injection R as <- _ _; reflexivity|].
  destruct K as [K1 K2]. rewrite K1 in R. apply rbind_done in R as ([r s1] & M & R). injection R as <- _ _.
  destruct (K2 (match r with Some f0 => f0 | None => [] end)) as [_ K3]. rewrite K3, (key_eqb_neq _ _ NE). reflexivity.
Qed.
Lemma acts_pieces k x ws y : key_form k = LOG_RAW_FORM -> only_writes ws -> acts x ws y -> sorted_store (snd x) -> contents (snd x) k = [] ->
  forall dss, Forall2 frame_text (contents (writes_of ws) k) dss -> Forall (fun d => d <> []) dss -> log_bound fuel dss -> pieces (contents (snd y) k) (map bare (concat dss)).
Proof.
  intros FK OW A SS C0. induction A as [|ws m w k1 m' w' f s A IH J|ws m w k1 f w' A IH W|ws m w f m' s A IH W]; intros dss F N B.
  - inversion F; subst. rewrite C0. exists []. split; [constructor|]. split; [constructor|reflexivity].
  - specialize (IH OW dss F N B). cbn [fst snd] in *. destruct (acts_mem fbits fuel _ _ _ OW A SS) as (_ & S1 & _). cbn [snd] in S1.
    apply (jread_mem _ _ _ _ _ _ _ S1) in J as [->|(fb & sb & R)]; [exact IH|].
    destruct (key_eqb k k1) eqn:EK; [|rewrite (read_other k k1 w w' fb sb); [exact IH|intros ->; rewrite key_eqb_refl in EK; discriminate|exact S1|exact R]].
    apply key_eqb_eq in EK. subst k1. destruct (read_piece k w w' fb sb dss FK S1 IH B R) as (_ & _ & P).
    destruct (contents w k) as [|a l] eqn:C; [|destruct P as [P1 P2]; [discriminate|]; rewrite P1; exact P2].
    pose proof (read_ok (F := bytes) [] (merge_as fbits fuel) w k [] S1) as K. rewrite C in K. rewrite K in R. injection R as <- _ _. rewrite C. exact IH.
  - apply Forall_app in OW as [OW _]. rewrite writes_of_app, contents_app in F. apply Forall2_app_inv_l in F as (d1 & d2 & F1 & F2 & ->). apply Forall_app in N as [N1 N2].
    specialize (IH OW d1 F1 N1 (log_bound_prefix fuel _ _ B)). destruct IH as (es & G1 & G2 & G3). destruct (acts_mem fbits fuel _ _ _ OW A SS) as (_ & S1 & _). cbn [fst snd] in *.
    pose proof (write_ok w k1 f S1) as K. rewrite W in K. destruct K as (_ & K2 & _ & K3). rewrite K2. cbn [before_end]. cbn [writes_of flat_map app] in F2.
    destruct (key_eqb k1 KEY_END); [discriminate K3|]. exists (es ++ d2). split; [apply Forall2_app; assumption|]. split; [apply Forall_app; auto|].
    rewrite !concat_app, !map_app, G3. reflexivity.
  - apply Forall_app in OW as [_ OW]. inversion OW; contradiction.
Qed.
(* the last key up to k *)
Lemma mem_prev w k : sorted_store w ->
  let ib := it_seek bytes w (new_iter bytes []) k true in
  (it_key bytes w ib = Done KEY_END /\ forall x, In x (map fst w) -> key_lt k x) \/
  exists kb, it_key bytes w ib = Done kb /\ In kb (map fst w) /\ ~ key_lt k kb /\ (forall x, In x (map fst w) -> ~ key_lt k x -> ~ key_lt kb x) /\
    forall f i, it_value bytes [] (merge_as fbits fuel) w ib = Done (f, i) -> (kb <> k \/ exists a, contents w kb = [a]) -> In f (contents w kb).
Proof.
  intros SS ib. destruct (parts_exist w k SS) as (lo & eqs & hi & P). pose proof P as (E & L & M & G).
  assert (HIGH : eqs = [] -> lo = [] -> forall x, In x (map fst w) -> key_lt k x).
  { intros -> -> x I. cbn [app] in E. subst w. apply in_map_iff in I as (r & <- & I). unfold above in G. rewrite Forall_forall in G. exact (G r I). }
  unfold ib. clear ib. unfold it_seek. rewrite (lower_parts _ _ _ _ _ P). cbn [andb new_iter it_merged it_len].
  assert (NTH : nth_error w (length lo) = nth_error (eqs ++ hi) 0) by (rewrite E, nth_error_app2, Nat.sub_diag by lia; reflexivity).
  assert (LAND : eqs = [] -> lo <> [] -> exists kb, it_key bytes w (scroll bytes w (Nat.pred (length lo)) []) = Done kb /\ In kb (map fst w) /\ ~ key_lt k kb /\
    (forall x, In x (map fst w) -> ~ key_lt k x -> ~ key_lt kb x) /\
    forall f i, it_value bytes [] (merge_as fbits fuel) w (scroll bytes w (Nat.pred (length lo)) []) = Done (f, i) -> (kb <> k \/ exists a, contents w kb = [a]) -> In f (contents w kb)).
  { intros -> LN. cbn [app] in E. destruct (exists_last LN) as (lo' & [k0 g] & EL). subst lo. rewrite app_length. cbn [length]. replace (Nat.pred (length lo' + 1)) with (length lo') by lia.
    assert (S2 : sorted_store (lo' ++ (k0, g) :: hi)) by (rewrite <- app_assoc in E; cbn [app] in E; rewrite <- E; exact SS).
    assert (LK : key_lt k0 k) by (unfold below in L; rewrite Forall_forall in L; apply (L (k0, g)); apply in_or_app; right; left; reflexivity).
    assert (HD : run_length bytes k0 hi = 0%nat).
    { destruct hi as [|[k1 f1] hi]; [reflexivity|]. cbn [run_length]. rewrite key_eqb_neq; [reflexivity|]. intros ->. inversion G as [|? ? Q _]. cbn [fst] in Q. exact (key_lt_irrefl _ (key_lt_trans _ _ _ LK Q)). }
    assert (SC : scroll bytes w (length lo') [] = mkIter bytes (length lo') (length lo' + 1) [] 1).
    { unfold scroll. rewrite E, <- app_assoc. cbn [app]. rewrite skipn_app, skipn_all, Nat.sub_diag. cbn [skipn app run_length]. rewrite key_eqb_refl, HD. reflexivity. }
    rewrite SC. assert (NX : nth_error w (length lo') = Some (k0, g)) by (rewrite E, <- app_assoc; cbn [app]; rewrite nth_error_app2, Nat.sub_diag by lia; reflexivity).
    exists k0. split; [unfold it_key; cbn [it_len it_b]; rewrite NX; reflexivity|].
    split; [rewrite E, <- app_assoc, map_app, in_app_iff; right; left; reflexivity|]. split; [intro K; exact (key_lt_irrefl _ (key_lt_trans _ _ _ LK K))|]. split.
    - intros y I NL. rewrite E, <- app_assoc in I. cbn [app] in I. rewrite map_app, in_app_iff in I. destruct I as [I|[<-|I]].
      + apply in_map_iff in I as (z & <- & I). apply sorted_app in S2 as (_ & _ & S2). apply (S2 z (k0, g) I). left. reflexivity.
      + apply key_lt_irrefl.
      + exfalso. apply in_map_iff in I as (z & <- & I). unfold above in G. rewrite Forall_forall in G. apply NL, G, I.
    - intros f i Q _. unfold it_value in Q. cbn [it_len it_b] in Q. rewrite NX in Q. injection Q as <- _. rewrite E, <- app_assoc. unfold contents. apply (in_map snd _ (k0, g)). apply filter_In.
      split; [apply in_or_app; right; left; reflexivity|]. cbn [fst]. apply key_eqb_refl. }
  rewrite NTH. destruct eqs as [|[k0 f] eqs].
  - cbn [app]. destruct lo as [|r lo].
    + left. specialize (HIGH eq_refl eq_refl). split; [|exact HIGH]. cbn [app] in E. subst w. destruct hi as [|[k1 f1] hi]; [reflexivity|]. cbn [nth_error length].
      rewrite key_eqb_neq by (intros ->; inversion G as [|? ? Q _]; exact (key_lt_irrefl _ Q)). reflexivity.
    + right. specialize (LAND eq_refl ltac:(discriminate)). destruct hi as [|[k1 f1] hi]; cbn [nth_error].
      * assert (Q : (length w =? 0)%nat = false) by (rewrite E; reflexivity). rewrite Q. exact LAND.
      * rewrite key_eqb_neq by (intros ->; inversion G as [|? ? Q _]; exact (key_lt_irrefl _ Q)). cbn [negb]. exact LAND.
  - right. assert (k0 = k) by (inversion M; assumption). subst k0. cbn [app nth_error]. rewrite key_eqb_refl. cbn [negb].
    destruct (scroll_run lo k ((k, f) :: eqs) hi (@nil N) M ltac:(discriminate) G L) as [RU _]. rewrite <- E in RU.
    exists k. split; [exact (key_run _ _ _ _ _ _ RU)|]. split; [rewrite E, map_app, in_app_iff; right; left; reflexivity|]. split; [apply key_lt_irrefl|].
    split; [intros x I NL; exact NL|]. intros f0 i Q [NE|(a & C)]; [contradiction|].
    pose proof (value_run (F := bytes) [] (fun _ => true) (merge_as fbits fuel) _ _ _ _ _ _ RU) as V. rewrite C in V. rewrite V in Q. injection Q as <- _. rewrite C. left. reflexivity.
Qed.

(* ---- the records of the frame's first chains ---- *)
Definition lodged (w : mem) (hs : list chain) : Prop :=
  sorted_store w /\ (forall k, In k (map fst w) <-> exists h, In h hs /\ In k [meta_key (ch_id h); logkey h; statekey h]) /\
  (forall k, key_form k = LOG_RAW_FORM -> pieces (contents w k) (says_ops (filed k hs))) /\
  (forall h, In h hs -> contents w (meta_key (ch_id h)) = [ch_record h]).
Lemma keep_part A B C : keep_bound fuel (A ++ B ++ C) [] -> spanless (A ++ B ++ C) -> keep_bound fuel B [] /\ spanless B.
Proof.
  intros (M & L & N & R) SP. cbn [map length] in *. change (room []) with 0%nat in R. rewrite app_nil_r in M. rewrite !app_length in L, N. rewrite !room_app in R.
  split; [|intros a b I J; apply SP; rewrite !in_app_iff; auto]. split; [|cbn [map length]; change (room []) with 0%nat; split; [lia|split; lia]].
  cbn [map]. rewrite app_nil_r. eapply mergeable_incl; [exact M|]. apply incl_appr, incl_appl, incl_refl.
Qed.
Lemma keep_mid a A b B : keep_bound fuel (a ++ A ++ b ++ B) [] -> keep_bound fuel (a ++ b) [].
Proof.
  intros (M & L & N & R). cbn [map length] in *. change (room []) with 0%nat in R. rewrite app_nil_r in M. rewrite !app_length in L, N. rewrite !room_app in R.
  split; [cbn [map]; rewrite app_nil_r; eapply mergeable_incl; [exact M|]; apply incl_app; [apply incl_appl, incl_refl|apply incl_appr, incl_appr, incl_appl, incl_refl]|].
  cbn [map length]. change (room []) with 0%nat. rewrite app_length, room_app. split; [lia|split; lia].
Qed.
Lemma chain_parts U H hs : sound U -> good U H -> incl hs H -> keep_bound fuel (says_ops hs) [] ->
  exists dss, Forall2 frame_text (map ch_text hs) dss /\ Forall (fun d => d <> []) dss /\ map bare (concat dss) = says_ops hs.
Proof.
  intros [MU _] G IH (_ & _ & LB & RB). cbn [map length] in LB, RB. change (room []) with 0%nat in RB. pose proof G as (PR & CN & _ & _ & _ & IN). revert IH LB RB.
  induction hs as [|h hs IHs]; intros IH LB RB.
  - exists []. split; [constructor|]. split; [constructor|reflexivity].
  - change (h :: hs) with ([h] ++ hs) in LB, RB |- *. rewrite says_app, says_one in LB, RB. rewrite app_length in LB. rewrite room_app in RB.
    destruct IHs as (dss & F & N & E); [intros x I; apply IH; right; exact I|lia|lia|].
    pose proof (IH h (or_introl eq_refl)) as I. rewrite Forall_forall in PR. destruct (PR h I) as (_ & LK & TX & _).
    assert (QL : length (as_ops (ch_ops h)) = length (ch_ops h)) by (unfold as_ops; apply map_length).
    destruct (chain_text (ch_ops h) (ch_text h) U) as (d0 & F0 & E0); try assumption.
    + rewrite Forall_forall in *. intros c J. apply CN. apply in_flat_map. eauto.
    + intros u J. apply IN. apply in_map_iff in J as (c & <- & J). apply says_in. eauto.
    + rewrite QL in LB. lia.
    + lia.
    + exists (d0 :: dss). split; [constructor; [exact F0|exact F]|]. split; [constructor; [|exact N]|].
      * intros ->. discriminate E0.
      * cbn [concat]. rewrite map_app, E0, E, says_app, says_one. reflexivity.
Qed.
Lemma lodged_acts U H hs d ws m w : sound U -> good U (H ++ hs) -> fits fuel (H ++ hs) -> only_writes ws -> acts (d, []) ws (m, w) ->
  writes_of ws = flat_map ch_records hs -> m = d /\ lodged w hs.
Proof.
  intros SU G FT OW A AW. destruct (acts_mem fbits fuel _ _ _ OW A ltac:(constructor)) as (E & SW & CW). cbn [fst snd] in *. split; [exact E|].
  split; [exact SW|]. split; [|split].
  - intro k. rewrite <- contents_in, CW, AW, (contents_in (flat_map ch_records hs)). split.
    + intros [Q|Q]; [exfalso; exact (Q eq_refl)|]. rewrite in_map_iff in Q. destruct Q as (r & <- & Q). apply in_flat_map in Q as (h & I & J). exists h. split; [exact I|]. rewrite <- record_keys. apply in_map. exact J.
    + intros (h & I & J). right. rewrite <- record_keys in J. apply in_map_iff in J as (r & <- & J). apply in_map. apply in_flat_map. eauto.
  - intros k FK. destruct (FT k FK) as [KB SP]. rewrite filed_app, says_app in KB, SP. rewrite <- (app_nil_r (says_ops (filed k hs))) in KB, SP.
    destruct (keep_part _ _ _ KB SP) as [KB2 SP2].
    destruct (chain_parts U (H ++ hs) (filed k hs) SU G) as (dss & F & N & ED); [intros x I; apply in_or_app; right; eapply filed_in; exact I|exact KB2|].
    rewrite <- ED. apply (acts_pieces k _ _ _ FK OW A); [constructor|reflexivity| |exact N|].
    + rewrite AW, records_filed; [exact F|]. rewrite FK. discriminate.
    + apply log_of_keep; rewrite ED; assumption.
  - intros h I. assert (K : key_id_ok (ch_id h)) by (apply (op_ids U (H ++ hs) h (ch_head h) SU G); [apply in_or_app; right; exact I|apply head_in]).
    pose proof (acts_few (meta_key (ch_id h)) _ _ _ OW A ltac:(constructor)) as Q. cbn [snd] in Q. rewrite AW in Q.
    rewrite (records_meta U (H ++ hs) hs _ SU G (incl_appr _ (incl_refl _)) K) in Q. rewrite one_of_them in Q; [|apply turn_heads|exact I].
    + apply Q. cbn. lia.
    + destruct G as (_ & _ & T & _). rewrite says_app in T. apply in_turn_app in T. apply T.
Qed.

(* ---- the log of an object in both stores ---- *)
Notation rread := (rocks_read fbits fuel).
(* the first event of an object creates it *)
Definition rooted (H : list chain) : Prop :=
  forall h, In h H -> exists r rest, says_ops (filed (logkey h) H) = r :: rest /\ version (u_ref r) = NAME /\ u_ref r = ch_rdt h.
Lemma filed_none U H k : good U H -> key_form k = LOG_RAW_FORM -> (forall h, In h H -> logkey h <> k) -> filed k H = [].
Proof.
  intros G FK N. rewrite (filed_filter U H k G FK). clear G. induction H as [|h H IH]; [reflexivity|]. cbn [filter]. rewrite key_eqb_neq by (apply N; left; reflexivity).
  apply IH. intros x I. apply N. right. exact I.
Qed.
Lemma rooted_step U H h : good U (H ++ [h]) -> good U H -> rooted H -> (exists h1, In h1 H /\ ch_obj h1 = ch_obj h) \/ (creates h /\ version (ch_rdt h) = NAME) -> sound U -> rooted (H ++ [h]).
Proof.
  intros G2 G R C SU x I. rewrite filed_app, says_app. apply in_app_iff in I as [I|[<-|[]]].
  - destruct (R x I) as (r & rest & E & V & T). rewrite E. cbn [app]. exists r. eexists. split; [reflexivity|]. auto.
  - destruct C as [(h1 & I1 & EO)|[[C1 C2] V]].
    + destruct (R h1 I1) as (r & rest & E & V & T). assert (EK : logkey h = logkey h1) by (unfold logkey; rewrite EO; reflexivity). rewrite EK, E. cbn [app]. exists r. eexists. split; [reflexivity|]. split; [exact V|].
      rewrite T. apply (obj_type U (H ++ [h])); [exact SU|exact G2|apply in_or_app; auto|apply in_or_app; right; left; reflexivity|exact EO].
    + destruct (in_dec key_dec (logkey h) (map logkey H)) as [Q|Q].
      * apply in_map_iff in Q as (h1 & EK & I1). destruct (R h1 I1) as (r & rest & E & V2 & T). rewrite <- EK, E. cbn [app]. exists r. eexists. split; [reflexivity|]. split; [exact V2|].
        rewrite T. apply (obj_type U (H ++ [h])); [exact SU|exact G2|apply in_or_app; auto|apply in_or_app; right; left; reflexivity|].
        destruct (obj_ids U (H ++ [h]) h SU G2) as (K & _); [apply in_or_app; right; left; reflexivity|]. destruct (obj_ids U H h1 SU G I1) as (K1 & _).
        apply (key_inj _ _ LOG_RAW_FORM LOG_RAW_FORM K1 K ltac:(reflexivity) ltac:(reflexivity) EK).
      * rewrite (filed_none U H (logkey h) G (form_of_log h)) by (intros y J E; apply Q; rewrite <- E; apply in_map; exact J). cbn [says_ops flat_map as_ops map app].
        assert (F : exists l, filed (logkey h) [h] = h :: l).
        { unfold filed. cbn [flat_map]. change (key_of (ch_obj h) LOG_RAW_FORM) with (logkey h). rewrite key_eqb_refl. eexists. cbn [app]. reflexivity. }
        destruct F as (l & ->). unfold says_ops, as_ops. cbn [flat_map ch_ops map app]. eexists. eexists. split; [reflexivity|]. change (u_ref (bare (rop_of (ch_head h)))) with (text_ref (ch_head h)). rewrite <- C2. auto.
Qed.
Lemma log_said d k W : key_form k = LOG_RAW_FORM -> log_at d k W -> keep_bound fuel W [] -> spanless W -> W <> [] ->
  exists text ops, cell_get fbits fuel k (cell_at d k) = Done (GValue text) /\ frame_says text ops /\ map bare ops = W.
Proof.
  intros FK LA KB SP NE. apply log_inv_at in LA as (ds & LI & E). subst W.
  destruct (log_get_small fbits fuel k FK (cell_at d k) ds LI (log_of_keep fuel ds KB SP)) as (text & ops & G & FL & EO & SM).
  { intro Q. destruct LI as (es & F2 & E2). rewrite Q in F2. inversion F2; subst. apply NE. rewrite <- E2. reflexivity. }
  exists text, ops. split; [exact G|]. split; [split; assumption|exact EO].
Qed.
Lemma log_not_end k : key_form k = LOG_RAW_FORM -> k <> KEY_END.
Proof. intro FK. apply (key_not_end _ LOG_RAW_FORM); [exact FK|intro Q; vm_compute in Q; discriminate Q]. Qed.
(* the branch's records of a log *)
Lemma main_log U d H k : sound U -> good U H -> base d H -> fits fuel H -> key_form k = LOG_RAW_FORM ->
  says_ops (filed k H) = [] /\ rread d k = Done ([], KOk) \/
  exists text ops, cell_get fbits fuel k (cell_at d k) = Done (GValue text) /\ rread d k = Done (text, KOk) /\ frame_says text ops /\ map bare ops = says_ops (filed k H) /\ ops <> [].
Proof.
  intros SU G (IO & KS & LG & _) FT FK. destruct (in_dec key_dec k (map logkey H)) as [Q|Q].
  - right. apply in_map_iff in Q as (h & <- & I). destruct (FT (logkey h) FK) as [KB SP].
    destruct (log_said d (logkey h) _ FK (LG _ FK) KB SP (says_filed H h I)) as (text & ops & CG & FS & E). exists text, ops. split; [exact CG|].
    split; [apply read_of; [apply log_not_end; exact FK|exact CG]|]. split; [exact FS|]. split; [exact E|]. intros ->. apply (says_filed H h I). rewrite <- E. reflexivity.
  - left. assert (NH : forall h, In h H -> logkey h <> k) by (intros h I E; apply Q; rewrite <- E; apply in_map; exact I).
    rewrite (filed_none U H k G FK NH). split; [reflexivity|]. assert (NK : ~ In k (map fst d)).
    { rewrite KS. intros [->|(h & I & J)]; [vm_compute in FK; discriminate FK|]. destruct J as [J|[J|[J|[]]]].
      - subst k. rewrite meta_key_form in FK. discriminate.
      - exact (NH h I J).
      - pose proof G as (_ & _ & _ & _ & TY & _). rewrite Forall_forall in TY. destruct (TY h I) as [_ OF]. subst k. rewrite (form_of_state h OF) in FK. destruct OF as [_ OF]. rewrite FK in OF. unfold LOG_RAW_FORM, META_META_FORM in OF. lia. }
    unfold rocks_read. rewrite (key_eqb_neq _ _ (log_not_end k FK)), (cell_at_absent _ _ NK). reflexivity.
Qed.
(* a frame with ops is not blank *)
Lemma said_text f ops : frame_says f ops -> ops <> [] -> blank f = false.
Proof. intros [FL _] NE. destruct f; [apply empty_frame in FL; contradiction|reflexivity]. Qed.
(* two pieces of a log *)
Lemma two_pieces U G1 hs k fa opa fb opb : sound U -> good U (G1 ++ hs) -> fits fuel (G1 ++ hs) -> rooted G1 -> Forall (fun h => plain_type (ch_rdt h)) hs -> key_form k = LOG_RAW_FORM ->
  frame_says fa opa -> map bare opa = says_ops (filed k G1) -> opa <> [] -> frame_says fb opb -> opb <> [] ->
  (exists A B, says_ops (filed k hs) = A ++ map bare opb ++ B) ->
  exists text ops, merge_frames fbits fuel [fa; fb] = Done (Some text, StOK) /\ frame_says text ops /\
    Permutation (map bare ops) (map bare opa ++ map bare opb) /\ subl (map bare opa) (map bare ops) /\ subl (map bare opb) (map bare ops).
Proof.
  intros SU G FT RT PL FK FA EA NA FB NB (A & B & EB). destruct opa as [|oa da]; [contradiction|]. destruct opb as [|ob db]; [contradiction|].
  destruct (FT k FK) as [KB SP]. rewrite filed_app, says_app, EB, <- EA in KB, SP.
  assert (KP : keep_bound fuel (map bare ((oa :: da) ++ ob :: db)) []).
  { rewrite map_app. exact (keep_mid _ _ _ _ KB). }
  assert (NE : filed k hs <> []) by (intro Q; rewrite Q in EB; cbn in EB; destruct A; discriminate EB).
  destruct (filed k hs) as [|h0 fl] eqn:EF; [contradiction|]. assert (I0 : In h0 (filed k hs)) by (rewrite EF; left; reflexivity). pose proof (filed_in _ _ _ I0) as I1.
  assert (EFG : filed k G1 <> []) by (intro Q; rewrite Q in EA; discriminate EA). destruct (filed k G1) as [|g0 gl] eqn:EG; [contradiction|].
  assert (J0 : In g0 (filed k G1)) by (rewrite EG; left; reflexivity). pose proof (filed_in _ _ _ J0) as J1.
  assert (GA : good U G1 -> True) by auto. clear GA.
  assert (WHO : forall h, In h (filed k (G1 ++ hs)) -> logkey h = k).
  { intros h I. rewrite (filed_filter U _ k G FK) in I. apply filter_In in I as [_ I]. apply key_eqb_eq in I. exact I. }
  assert (K0 : logkey h0 = k) by (apply WHO; rewrite filed_app; apply in_or_app; right; exact I0). assert (K1 : logkey g0 = k) by (apply WHO; rewrite filed_app; apply in_or_app; left; exact J0).
  assert (EO : ch_obj h0 = ch_obj g0).
  { destruct (obj_ids U _ h0 SU G ltac:(apply in_or_app; right; exact I1)) as (Q1 & _). destruct (obj_ids U _ g0 SU G ltac:(apply in_or_app; left; exact J1)) as (Q2 & _).
    apply (key_inj _ _ LOG_RAW_FORM LOG_RAW_FORM Q1 Q2 ltac:(reflexivity) ltac:(reflexivity)). change (logkey h0 = logkey g0). congruence. }
  assert (ET : ch_rdt h0 = ch_rdt g0) by (apply (obj_type U (G1 ++ hs)); auto using in_or_app).
  destruct (RT g0 J1) as (r & rest & ER & VR & TR). rewrite K1, EG, <- EA in ER. cbn [map] in ER. assert (EQ : bare oa = r) by congruence.
  assert (PT : plain_type (r_ref oa)) by (change (r_ref oa) with (u_ref (bare oa)); rewrite EQ, TR, <- ET; rewrite Forall_forall in PL; exact (PL h0 I1)).
  (* the second part creates nothing *)
  assert (VB : version (r_ref ob) <> NAME).
  { intro VN. assert (IB : In (bare ob) (says_ops (filed k hs))) by (rewrite EF, EB; apply in_or_app; right; left; reflexivity).
    apply says_in in IB as (h2 & c2 & I2 & IC & EC). pose proof (filed_in _ _ _ I2) as I3. pose proof G as (_ & _ & IT & BL & _). pose proof (BL h2 c2 ltac:(apply in_or_app; right; exact I3) IC) as BC.
    rewrite <- EC in BC. assert (K2 : logkey h2 = k) by (apply WHO; rewrite filed_app; apply in_or_app; right; exact I2).
    assert (EO2 : ch_obj h2 = ch_obj g0).
    { destruct (obj_ids U _ h2 SU G ltac:(apply in_or_app; right; exact I3)) as (Q1 & _). destruct (obj_ids U _ g0 SU G ltac:(apply in_or_app; left; exact J1)) as (Q2 & _).
      apply (key_inj _ _ LOG_RAW_FORM LOG_RAW_FORM Q1 Q2 ltac:(reflexivity) ltac:(reflexivity)). change (logkey h2 = logkey g0). congruence. }
    assert (ID2 : u_id (bare ob) = ch_obj g0).
    { rewrite <- EO2. exact (belongs_name _ _ _ _ BC VN). }
    assert (IA : In (bare oa) (says_ops G1)).
    { assert (Q : In (bare oa) (says_ops (filed k G1))) by (rewrite EG, <- EA; left; reflexivity). apply says_in in Q as (h3 & c3 & Q1 & Q2 & Q3). apply says_in. exists h3, c3. split; [eapply filed_in; exact Q1|auto]. }
    assert (ID1 : u_id (bare oa) = ch_obj g0).
    { rewrite EQ. assert (IR : In r (says_ops (filed k G1))) by (rewrite EG, <- EA, <- EQ; left; reflexivity). apply says_in in IR as (h3 & c3 & Q1 & Q2 & Q3).
      pose proof (BL h3 c3 ltac:(apply in_or_app; left; eapply filed_in; exact Q1) Q2) as B3. rewrite <- Q3 in B3.
      assert (K3 : logkey h3 = k) by (apply WHO; rewrite filed_app; apply in_or_app; left; exact Q1).
      assert (EO3 : ch_obj h3 = ch_obj g0).
      { destruct (obj_ids U _ h3 SU G ltac:(apply in_or_app; left; eapply filed_in; exact Q1)) as (W1 & _). destruct (obj_ids U _ g0 SU G ltac:(apply in_or_app; left; exact J1)) as (W2 & _).
        apply (key_inj _ _ LOG_RAW_FORM LOG_RAW_FORM W1 W2 ltac:(reflexivity) ltac:(reflexivity)). change (logkey h3 = logkey g0). congruence. }
      rewrite <- EO3. exact (belongs_name _ _ _ _ B3 VR). }
    assert (IB2 : In (bare ob) (says_ops hs)) by (apply says_in; exists h2, c2; auto).
    rewrite says_app in IT. apply in_turn_app in IT as (_ & _ & T3). specialize (T3 _ _ IA IB2). unfold turn in T3. rewrite ID1, ID2 in T3. specialize (T3 eq_refl). rewrite uuid_ltb_irrefl in T3. discriminate. }
  assert (ND : NoDup (map r_id ((oa :: da) ++ ob :: db))).
  { assert (T : in_turn (says_ops (filed k (G1 ++ hs)))) by (rewrite (filed_filter U _ k G FK); apply filter_turn; apply G).
    rewrite filed_app, says_app, EG, EF, EB, <- EA in T. apply in_turn_nodup in T.
    assert (EM : map r_id ((oa :: da) ++ ob :: db) = map u_id (map bare ((oa :: da) ++ ob :: db))) by (rewrite map_map; reflexivity).
    rewrite EM. revert T. rewrite !map_app. clear. generalize (map u_id (map bare (oa :: da))) (map u_id A) (map u_id (map bare (ob :: db))) (map u_id B). intros a b c d ND.
    apply nodup_mid in ND. exact ND. }
  destruct KP as (M & L & N & R). cbn [map length] in M, L, N, R. change (room []) with 0%nat in R. rewrite app_nil_r in M. rewrite map_length in L, N.
  destruct (woven_frames fbits fuel fa fb oa da ob db FA FB) as (text & ops & MF & FS & PM & S1 & S2); try assumption.
  - change (version (u_ref (bare oa)) = NAME). rewrite EQ. exact VR.
  - apply plain_some. exact PT.
  - lia.
  - lia.
  - lia.
  - exists text, ops. rewrite map_app in PM. auto.
Qed.

(* the last key up to k in both stores *)
Lemma jprev_both d w k f : in_order d -> sorted_store w -> In KEY_ZERO (map fst d) -> key_lt k KEY_END -> b_jprev d w k = Done (f, ROk) ->
  exists ka g, In ka (map fst d) /\ ~ key_lt k ka /\ (forall x, In x (map fst d) -> ~ key_lt k x -> ~ key_lt ka x) /\ cell_get fbits fuel ka (cell_at d ka) = Done g /\
    ((forall x, In x (map fst w) -> ~ key_lt k x -> key_lt x ka) /\ f = match g with GValue f => f | _ => [] end \/
     exists kb fb, In kb (map fst w) /\ ~ key_lt k kb /\ (forall x, In x (map fst w) -> ~ key_lt k x -> ~ key_lt kb x) /\
       ((kb <> k \/ exists a, contents w kb = [a]) -> In fb (contents w kb)) /\
       (key_lt ka kb /\ f = fb \/
        ka = kb /\ exists r s, merge_frames fbits fuel [match g with GValue f => f | _ => [] end; fb] = Done (r, s) /\ (s = StOK -> f = match r with Some f => f | None => [] end))).
Proof.
  intros O SW Z KE J. unfold BranchModel.b_jprev in J. apply rbind_done in J as ([ia sa] & SK & J).
  destruct (last_upto_ok d k) as (lo & hi & ED & L & H & FF). unfold ri_seek, ri_new in SK. cbn [ri_snap] in SK. rewrite FF in SK. cbn [Nat.add] in SK.
  assert (HI : forall y, In y (map fst hi) -> key_lt k y).
  { clear -O ED H. assert (OH : in_order hi) by (subst d; induction lo; [exact O|cbn [app] in O; inversion O; auto]). intros y I.
    destruct hi as [|h hi]; [contradiction|]. specialize (H h hi eq_refl). inversion OH as [|? ? _ F]; subst. destruct I as [<-|I]; [exact H|].
    rewrite Forall_forall in F. apply in_map_iff in I as (r & <- & I). exact (key_lt_trans _ _ _ H (F r I)). }
  destruct lo as [|z lo0] eqn:QL.
  { exfalso. cbn [app] in ED. subst d. exact (key_zero_min _ (HI _ Z)). }
  destruct (@exists_last _ lo) as (lo' & [x c] & EL); [rewrite QL; discriminate|]. rewrite <- QL in *. clear QL z lo0. subst lo.
  assert (ED' : d = lo' ++ (x, c) :: hi) by (rewrite ED, <- app_assoc; reflexivity).
  assert (IX : In x (map fst d)) by (rewrite ED', map_app, in_app_iff; right; left; reflexivity).
  assert (SK2 : settle fbits fuel (mkRiter d (Some (length lo'))) = Done (ia, sa)).
  { destruct (lo' ++ [(x, c)]) as [|z0 l0] eqn:Q; [destruct lo'; discriminate|]. rewrite <- Q in SK. rewrite app_length in SK. cbn [length] in SK.
    replace (Nat.pred (length lo' + 1)) with (length lo') in SK by lia. exact SK. }
  clear SK. assert (NTH : nth_error d (length lo') = Some (x, c)) by (rewrite ED', nth_error_app2, Nat.sub_diag by lia; reflexivity).
  pose proof (cell_of d x c lo' hi O ED') as CA.
  unfold settle in SK2. unfold ri_value in SK2. cbn [ri_at ri_snap] in SK2. rewrite NTH in SK2. apply rbind_done in SK2 as (g & G & SK2).
  apply Forall_app in L as [_ L]. pose proof (Forall_inv L) as LX. cbn [fst] in LX.
  exists x, g. split; [exact IX|]. split; [exact LX|]. split; [|split; [rewrite CA; exact G|]].
  { intros y I NL. rewrite ED', map_app, in_app_iff in I. destruct I as [I|[<-|I]]; [|apply key_lt_irrefl|exfalso; exact (NL (HI y I))].
    assert (LT : key_lt y x).
    { clear -O ED' I. subst d. induction lo' as [|z lo IH]; [contradiction|]. cbn [app] in O. inversion O as [|? ? O1 F]; subst. destruct I as [<-|I]; [|apply IH; assumption].
      rewrite Forall_forall in F. apply (F (x, c)). apply in_or_app. right. left. reflexivity. }
    intro Q. exact (key_lt_irrefl _ (key_lt_trans _ _ _ LT Q)). }
  assert (XE : key_eqb x KEY_END = false) by (apply key_eqb_neq; intros ->; exact (LX KE)).
  assert (NF : g <> GFail) by (intros ->; injection SK2 as <- <-; discriminate).
  assert (SK3 : ia = mkRiter d (Some (length lo')) /\ sa = KOk) by (destruct g; [injection SK2 as <- <-; auto|injection SK2 as <- <-; auto|contradiction]). destruct SK3 as [-> ->].
  cbv zeta in J. unfold ri_key in J. cbn [ri_at ri_snap] in J. rewrite NTH, XE in J. unfold ri_value in J. cbn [ri_at ri_snap] in J. rewrite NTH, G in J. cbn [rbind] in J.
  destruct (mem_prev w k SW) as [(KB & HW)|(kb & KB & IB & LB & MB & VB)]; rewrite KB in J; cbn [rbind] in J.
  - change (key_eqb KEY_END KEY_END) with true in J. cbn match in J. rewrite key_eqb_refl in J. cbn [negb] in J.
    assert (EX : key_eqb KEY_END x = false) by (apply key_eqb_neq; intros <-; exact (LX KE)). rewrite EX in J. cbn [negb] in J. injection J as <-. left. split; [|reflexivity].
    intros y I NL. exfalso. exact (NL (HW y I)).
  - assert (BE : key_eqb kb KEY_END = false) by (apply key_eqb_neq; intros ->; exact (LB KE)). rewrite BE in J.
    set (ib := it_seek bytes w (new_iter bytes []) k true) in *.
    assert (CUT : key_lt kb x \/ key_lt x kb \/ x = kb) by (destruct (key_total kb x) as [Q|[Q|Q]]; auto).
    unfold key_max in J. destruct CUT as [LT|[LT|EQ]].
    + assert (E1 : key_ltb x kb = false) by (destruct (key_ltb x kb) eqn:Q; [exfalso; exact (key_lt_irrefl _ (key_lt_trans _ _ _ LT Q))|reflexivity]). rewrite E1 in J.
      rewrite key_eqb_refl in J. cbn [negb] in J. rewrite (key_eqb_neq kb x) in J by (intros ->; exact (key_lt_irrefl _ LT)). cbn [negb] in J. injection J as <-. left. split; [|reflexivity].
      intros y I NL. destruct (key_total y kb) as [Q|[->|Q]]; [exact (key_lt_trans _ _ _ Q LT)|exact LT|exfalso; exact (MB y I NL Q)].
    + assert (E1 : key_ltb x kb = true) by exact LT. rewrite E1 in J. rewrite (key_eqb_neq x kb) in J by (intros ->; exact (key_lt_irrefl _ LT)). cbn [negb] in J.
      apply rbind_done in J as (v & V & J). apply rbind_done in V as ([fb i] & V & V2). injection V2 as <-. injection J as <-. right. exists kb, fb. split; [exact IB|]. split; [exact LB|]. split; [exact MB|].
      split; [exact (VB fb i V)|]. left. auto.
    + subst kb. assert (E1 : key_ltb x x = false) by (destruct (key_ltb x x) eqn:Q; [exfalso; exact (key_lt_irrefl _ Q)|reflexivity]). rewrite E1, key_eqb_refl in J. cbn [negb] in J.
      apply rbind_done in J as (v & V & J). apply rbind_done in V as ([fb i] & V & V2). injection V2 as <-. apply rbind_done in J as ([r s] & M & J).
      right. exists x, fb. split; [exact IB|]. split; [exact LB|]. split; [exact MB|]. split; [exact (VB fb i V)|]. right. split; [reflexivity|]. exists r, s. split; [exact M|]. intros ->. injection J as <-. reflexivity.
Qed.

Lemma subl_whole {T} (a b : list T) : subl a b -> (length b <= length a)%nat -> a = b.
Proof.
  induction 1 as [|x a b H IH|x a b H IH]; intro L; cbn [length] in L.
  - reflexivity.
  - apply subl_length in H. lia.
  - f_equal. apply IH. lia.
Qed.
Lemma subl_filter {T} (p : T -> bool) a b : subl a b -> subl (filter p a) (filter p b).
Proof.
  induction 1 as [|x a b H IH|x a b H IH]; cbn [filter]; [apply subl_none| |]; destruct (p x); try exact IH; [apply subl_skip|apply subl_take]; exact IH.
Qed.
Lemma filter_perm {T} (p : T -> bool) a b : Permutation a b -> Permutation (filter p a) (filter p b).
Proof.
  induction 1 as [|x a b H IH|x y a|a b c H1 IH1 H2 IH2]; cbn [filter]; [constructor| | |eapply Permutation_trans; eassumption].
  - destruct (p x); [constructor|]; exact IH.
  - destruct (p x), (p y); try apply Permutation_refl. constructor.
Qed.
Lemma other_part {T} (p : T -> bool) a b r : subl a r -> Permutation r (a ++ b) -> filter p b = [] -> filter p r = filter p a.
Proof.
  intros S1 PM E. symmetry. apply subl_whole; [apply subl_filter; exact S1|]. apply (filter_perm p) in PM. rewrite filter_app, E, app_nil_r in PM. rewrite (Permutation_length PM). lia.
Qed.
Lemma fits_part A B C : fits fuel (A ++ B ++ C) -> fits fuel B.
Proof. intros FT k FK. destruct (FT k FK) as [KB SP]. rewrite !filed_app, !says_app in KB, SP. exact (keep_part _ _ _ KB SP). Qed.
Lemma frame_list f ops : frame_says f ops -> exists L, ops_of f L /\ as_ops L = map bare ops.
Proof. intro FS. destruct (frame_ops f ops FS) as (L & OL & ML & _). exists L. split; [exact OL|]. unfold as_ops. rewrite <- map_map with (f := rop_of) (g := bare), ML. reflexivity. Qed.
Lemma mem_log w hs k : lodged w hs -> fits fuel hs -> key_form k = LOG_RAW_FORM ->
  exists w' f, mread w k [] = Done (w', f, StOK) /\ (says_ops (filed k hs) = [] /\ f = [] \/ exists ops, frame_says f ops /\ ops <> [] /\ map bare ops = says_ops (filed k hs)).
Proof.
  intros (SS & _ & PC & _) FT FK. destruct (FT k FK) as [KB SP]. destruct (PC k FK) as (ds & F & N & E). rewrite <- E in *. pose proof (log_of_keep fuel ds KB SP) as LB.
  pose proof (read_ok (F := bytes) [] (merge_as fbits fuel) w k [] SS) as K. destruct (contents w k) as [|a [|b l]] eqn:C.
  - inversion F; subst. exists w, []. split; [exact K|]. left. auto.
  - inversion F as [|? d1 ? d2 F1 F2]; subst. inversion F2; subst. exists w, a. split; [exact K|]. right. exists d1. split; [exact F1|]. split; [exact (Forall_inv N)|]. cbn [concat]. rewrite app_nil_r. reflexivity.
  - destruct K as [K1 _]. destruct (frame_texts _ _ F) as (A2 & B2). destruct (log_text fbits fuel _ ds A2 B2 LB) as (g & MG & FL & SG). rewrite FK, MG in K1. cbn [rbind] in K1.
    eexists. exists g. split; [exact K1|]. right. exists (denote (log_calls (concat ds))). split; [split; assumption|]. rewrite bare_log. split; [|reflexivity].
    intro Q. apply (f_equal (map bare)) in Q. rewrite bare_log in Q. inversion F as [|? d ? ds1 _ _]; subst. inversion N; subst. destruct d; [contradiction|discriminate].
Qed.
Lemma not_meta U H u : good U H -> In u (says_ops H) -> u_ref u <> META_FORM_UUID.
Proof.
  intros G I. apply says_in in I as (h1 & c1 & I1 & IC & EC). pose proof G as (_ & _ & _ & BL & TY & _). pose proof (BL h1 c1 I1 IC) as BC. rewrite <- EC in BC. rewrite Forall_forall in TY. destruct (TY h1 I1) as [_ [_ OF]].
  intro Q. destruct BC as [u _ V|u v obj rdt _ V _ _].
  - rewrite Q in OF. assert (E8 : uuid2form META_FORM_UUID = META_META_FORM) by (vm_compute; reflexivity). rewrite E8 in OF. unfold LOG_RAW_FORM, META_META_FORM in OF. lia.
  - rewrite Q in V. vm_compute in V. discriminate V.
Qed.
Lemma filed_says k H u : In u (says_ops (filed k H)) -> In u (says_ops H).
Proof. intro I. apply says_in in I as (h & c & I & J & E). apply says_in. exists h, c. split; [eapply filed_in; exact I|auto]. Qed.
Lemma in_concat_split {T} (d : list T) ds : In d ds -> exists A B, concat ds = A ++ d ++ B.
Proof. intro I. apply in_split in I as (a & b & ->). exists (concat a), (concat b). rewrite concat_app. reflexivity. Qed.
Lemma pieces_in fs W f : pieces fs W -> In f fs -> exists ops, frame_says f ops /\ ops <> [] /\ exists A B, W = A ++ map bare ops ++ B.
Proof.
  intros (ds & F & N & E) I. assert (Q : exists d, In d ds /\ frame_text f d).
  { clear -F I. induction F as [|g d fs ds F1 F IH]; [destruct I|]. destruct I as [->|I]; [exists d; split; [left; reflexivity|exact F1]|]. destruct (IH I) as (d0 & I0 & F0). exists d0. split; [right; exact I0|exact F0]. }
  destruct Q as (d & ID & FT). exists d. split; [exact FT|]. split; [rewrite Forall_forall in N; exact (N d ID)|]. destruct (in_concat_split d ds ID) as (A & B & EC).
  exists (map bare A), (map bare B). rewrite <- E, EC, !map_app. reflexivity.
Qed.

Lemma sees_joined U d w H hs : sound U -> good U H -> good U (H ++ hs) -> base d H -> fits fuel (H ++ hs) -> H <> [] -> rooted H -> lodged w hs -> Forall (fun h => plain_type (ch_rdt h)) hs -> Forall recorded hs ->
  sees fbits fuel (fun y => forall h, In h hs -> uorigin (ch_id h) <> y) d w (H ++ hs).
Proof.
  intros SU GH G B FT NE RT LO PL RC.
  assert (FH : fits fuel H) by (apply (fits_part [] H hs); exact FT). assert (FS : fits fuel hs) by (apply (fits_part H hs []); rewrite app_nil_r; exact FT).
  pose proof B as (IO & KS & LG & MT). pose proof LO as (SW & KW & PC & MW). split.
  - intros id f c K J N.
    destruct (jprev_both d w (meta_key id) f IO SW) as (ka & g & IA & LA & MA & CG & CASES); [apply KS; left; reflexivity|apply key_before_end; exact K|exact J|].
    assert (KM : forall h, In h (H ++ hs) -> key_id_ok (ch_id h)) by (intros h I; apply (op_ids U (H ++ hs) h (ch_head h) SU G I (head_in h))).
    assert (OM : forall h, In h (H ++ hs) -> key_id_ok (ch_obj h)) by (intros h I; apply (obj_ids U (H ++ hs) h SU G I)).
    assert (LM : forall h, In h (H ++ hs) -> key_lt (logkey h) (meta_key id)) by (intros h I; rewrite meta_key_eq; apply form_key_lt; [exact (OM h I)|exact K|reflexivity|reflexivity|reflexivity]).
    assert (NL : forall a b, key_lt a b -> ~ key_lt b a) by (intros a b Q1 Q2; exact (key_lt_irrefl _ (key_lt_trans _ _ _ Q1 Q2))).
    assert (ALL : forall x, In x (map fst d) \/ In x (map fst w) <-> x = KEY_ZERO \/ exists h, In h (H ++ hs) /\ In x [meta_key (ch_id h); logkey h; statekey h]).
    { intro x. rewrite KS, KW. split.
      - intros [[Q|(h & I & Q)]|(h & I & Q)]; [auto|right; exists h; rewrite in_app_iff; auto|right; exists h; rewrite in_app_iff; auto].
      - intros [Q|(h & I & Q)]; [auto|]. apply in_app_iff in I as [I|I]; [left; right; eauto|right; eauto]. }
    (* the key found is the last one in both stores *)
    assert (TOP : exists k, (k = ka \/ In k (map fst w)) /\ (In k (map fst d) \/ In k (map fst w)) /\ ~ key_lt (meta_key id) k /\ (forall x, In x (map fst d) \/ In x (map fst w) -> ~ key_lt (meta_key id) x -> ~ key_lt k x) /\
      (k = ka /\ ~ In k (map fst w) /\ f = match g with GValue f => f | _ => [] end \/
       exists fb, ((k <> meta_key id \/ exists a, contents w k = [a]) -> In fb (contents w k)) /\ In k (map fst w) /\ (~ In k (map fst d) /\ f = fb \/
         ka = k /\ exists r s, merge_frames fbits fuel [match g with GValue f => f | _ => [] end; fb] = Done (r, s) /\ (s = StOK -> f = match r with Some f => f | None => [] end)))).
    { destruct CASES as [(LW & EF)|(kb & fb & IB & LB & MB & VB & [(LT & EF)|(EQ & r & s & MF & EF)])].
      - exists ka. split; [auto|]. split; [auto|]. split; [exact LA|]. split; [|left; split; [reflexivity|split; [|exact EF]]].
        + intros x [I|I] Q; [exact (MA x I Q)|]. apply NL. exact (LW x I Q).
        + intro I. exact (key_lt_irrefl _ (LW ka I LA)).
      - exists kb. split; [auto|]. split; [auto|]. split; [exact LB|]. split; [|right; exists fb; split; [exact VB|split; [exact IB|left; split; [|exact EF]]]].
        + intros x [I|I] Q; [|exact (MB x I Q)]. intro Q2. exact (MA x I Q (key_lt_trans _ _ _ LT Q2)).
        + intro I. exact (MA kb I LB LT).
      - subst kb. exists ka. split; [auto|]. split; [auto|]. split; [exact LA|]. split; [|right; exists fb; split; [exact VB|split; [exact IB|right; split; [reflexivity|exists r, s; auto]]]].
        intros x [I|I] Q; [exact (MA x I Q)|exact (MB x I Q)]. }
    clear CASES. destruct TOP as (k & _ & IK & LE & MX & HOW).
    assert (FL : forall h, In h (H ++ hs) -> ~ key_lt k (logkey h)).
    { intros h I. apply MX; [apply ALL; right; exists h; split; [exact I|right; left; reflexivity]|]. apply NL. exact (LM h I). }
    (* where it lands *)
    assert (RECORD : forall h, In h (H ++ hs) -> k = meta_key (ch_id h) -> (exists t, opof c = rec_op (ch_id h) (ch_obj h) (ch_rdt h) t) -> landing (H ++ hs) id c).
    { intros h I -> (t & E). left. exists h, t. split; [exact I|]. split; [exact E|]. split; [exact LE|]. intros h' I' L'. apply MX; [|exact L']. apply ALL. right. exists h'. split; [exact I'|left; reflexivity]. }
    assert (LOG : forall h, In h (H ++ hs) -> k = logkey h -> In (opof c) (says_ops (H ++ hs)) -> landing (H ++ hs) id c).
    { intros h I -> IC. right. split; [exact (not_meta U (H ++ hs) (opof c) G IC)|]. intros h' I'.
      destruct (key_total (meta_key id) (meta_key (ch_id h'))) as [Q|Q]; [exact Q|]. exfalso. apply (MX (meta_key (ch_id h'))).
      - apply ALL. right. exists h'. split; [exact I'|left; reflexivity].
      - destruct Q as [<-|Q]; [apply key_lt_irrefl|apply NL; exact Q].
      - rewrite meta_key_eq. apply form_key_lt; [exact (OM h I)|exact (KM h' I')|reflexivity|reflexivity|reflexivity]. }
    assert (NOSTATE : forall h, In h (H ++ hs) -> k = statekey h -> False).
    { intros h I ->. pose proof G as (_ & _ & _ & _ & TY & _). rewrite Forall_forall in TY. destruct (TY h I) as [_ [OF1 [OF|OF]]].
      - apply (FL h I). apply form_key_lt; [exact (OM h I)|exact (OM h I)|exact OF1|reflexivity|exact OF].
      - apply LE. rewrite meta_key_eq. apply form_key_lt; [exact K|exact (OM h I)|reflexivity|exact OF1|exact OF]. }
    assert (NOZERO : k = KEY_ZERO -> False).
    { intros ->. destruct H as [|h H]; [contradiction|]. apply (FL h (or_introl eq_refl)). destruct (key_total KEY_ZERO (logkey h)) as [Q|[E|Q]]; [exact Q| |exfalso; exact (key_zero_min _ Q)].
      exfalso. pose proof (form_of_log h) as Q. rewrite <- E in Q. vm_compute in Q. discriminate Q. }
    pose proof (turn_heads (H ++ hs) ltac:(apply G)) as ND. rewrite map_app in ND.
    assert (DIS : forall h h', In h H -> In h' hs -> meta_key (ch_id h) = meta_key (ch_id h') -> False).
    { intros h h' I I' E. apply meta_key_inj in E; [|apply KM, in_or_app; auto|apply KM, in_or_app; auto]. apply (in_map ch_id) in I, I'. rewrite <- E in I'.
      clear -ND I I'. induction (map ch_id H) as [|x l IH]; [destruct I|]. cbn [app] in ND. inversion ND as [|? ? NI ND']; subst. destruct I as [->|I]; [apply NI; apply in_or_app; right; exact I'|exact (IH ND' I)]. }
    assert (FORMS : forall h h', In h' (H ++ hs) -> In (meta_key (ch_id h)) [meta_key (ch_id h'); logkey h'; statekey h'] -> meta_key (ch_id h') = meta_key (ch_id h)).
    { intros h h' I' [Q|[Q|[Q|[]]]]; [exact Q| |].
      - exfalso. apply (f_equal key_form) in Q. rewrite meta_key_form, form_of_log in Q. discriminate.
      - exfalso. apply (f_equal key_form) in Q. destruct G as (_ & _ & _ & _ & TY & _). rewrite Forall_forall in TY. destruct (TY h' I') as [_ OF]. rewrite meta_key_form, (form_of_state h' OF) in Q. destruct OF as [_ OF]. rewrite Q in OF. unfold LOG_RAW_FORM, META_META_FORM in OF. lia. }
    (* the branch's part of a log *)
    assert (MAIN : forall h, k = logkey h -> k = ka -> In k (map fst d) -> exists text ops, g = GValue text /\ frame_says text ops /\ map bare ops = says_ops (filed k H) /\ ops <> []).
    { intros h EK EA I. subst k. rewrite <- EA in CG. destruct (main_log U d H (logkey h) SU GH B FH (form_of_log h)) as [(Q & _)|(text & ops & CG2 & _ & FSA & EO & NO)].
      - exfalso. apply KS in I as [I|(h' & I & J0)]; [apply NOZERO; congruence|]. destruct J0 as [J0|[J0|[J0|[]]]].
        + apply (f_equal key_form) in J0. rewrite meta_key_form, form_of_log in J0. discriminate.
        + rewrite <- J0 in Q. exact (says_filed H h' I Q).
        + apply (NOSTATE h'); [apply in_or_app; auto|congruence].
      - rewrite EA in CG, CG2. rewrite CG in CG2. injection CG2 as ->. exists text, ops. auto. }
    destruct HOW as [(EA & NW & EF)|(fb & VB & IW & HOW)].
    + (* in the branch alone *)
      subst ka. pose proof IA as IA0. apply KS in IA as [Q|(h & I & Q)]; [exfalso; exact (NOZERO Q)|]. assert (I2 : In h (H ++ hs)) by (apply in_or_app; auto). destruct Q as [Q|[Q|[Q|[]]]].
      * destruct (record_cell fbits fuel U d H h (fuel_one fuel H NE FH) SU GH B I) as (text & c' & t & CG' & N' & E). rewrite Q, CG in CG'. injection CG' as ->. subst f. rewrite N in N'. injection N' as <-.
        apply (RECORD h I2 (eq_sym Q)). exists t. exact E.
      * destruct (MAIN h (eq_sym Q) eq_refl IA0) as (text & ops & -> & FSA & EO & NO). subst f. destruct (frame_list text ops FSA) as (L & OL & EL). rewrite EO in EL.
        destruct L as [|c' L]; [exfalso; apply NO; apply (map_eq_nil bare); rewrite EO, <- EL; reflexivity|]. pose proof (ops_first _ _ _ OL) as N'. rewrite N in N'. injection N' as <-.
        apply (LOG h I2 (eq_sym Q)). rewrite says_app. apply in_or_app. left. apply (filed_says k). rewrite <- EL. left. reflexivity.
      * exfalso. exact (NOSTATE h I2 (eq_sym Q)).
    + assert (IW2 := IW). apply KW in IW as (h & I & Q). assert (I2 : In h (H ++ hs)) by (apply in_or_app; auto). destruct Q as [Q|[Q|[Q|[]]]].
      * (* a record of the frame *)
        assert (IFB : In fb (contents w k)) by (apply VB; right; exists (ch_record h); rewrite <- Q; apply MW; exact I). rewrite <- Q, (MW h I) in IFB. destruct IFB as [<-|[]].
        assert (ND0 : ~ In k (map fst d)). { rewrite KS. intros [Q2|(h' & I' & Q2)]; [exact (NOZERO Q2)|]. rewrite <- Q in Q2. apply FORMS in Q2; [|apply in_or_app; auto]. exact (DIS h' h I' I Q2). }
        assert (EF : f = ch_record h) by (destruct HOW as [(_ & EF)|(EA & _)]; [exact EF|exfalso; apply ND0; rewrite <- EA; exact IA]). subst f.
        destruct (obj_ids U (H ++ hs) h SU G I2) as (_ & VO & _). assert (VR : value_id (ch_rdt h)) by (destruct G as (_ & _ & _ & _ & TY & _); rewrite Forall_forall in TY; apply TY; exact I2).
        rewrite Forall_forall in RC. destruct (record_says _ _ _ _ (RC h I) (tip_ok_time U (H ++ hs) h SU G I2) VO VR) as (t & FSR & _).
        destruct (frame_ops _ _ FSR) as (L & OL & ML & _). destruct L as [|c' L]; [discriminate ML|]. pose proof (ops_first _ _ _ OL) as N'. rewrite N in N'. injection N' as <-.
        apply (RECORD h I2 (eq_sym Q)). exists t. cbn [map] in ML. pose proof (f_equal (hd (rop_of c)) ML) as Q3. cbn [hd] in Q3. unfold opof. rewrite Q3. reflexivity.
      * assert (FK : key_form k = LOG_RAW_FORM) by (rewrite <- Q; apply form_of_log).
        assert (IFB : In fb (contents w k)) by (apply VB; left; intros ->; rewrite meta_key_form in FK; discriminate FK).
        destruct (pieces_in _ _ _ (PC k FK) IFB) as (opb & FSB & NB & AB). pose proof AB as (A & B0 & EAB). destruct HOW as [(NK & EF)|(EA & r & s & MF & EF)].
        -- subst f. destruct (frame_list fb opb FSB) as (L & OL & EL). destruct L as [|c' L]; [exfalso; apply NB; apply (map_eq_nil bare); rewrite <- EL; reflexivity|]. pose proof (ops_first _ _ _ OL) as N'. rewrite N in N'. injection N' as <-.
           apply (LOG h I2 (eq_sym Q)). rewrite says_app. apply in_or_app. right. apply (filed_says k). rewrite EAB, <- EL. apply in_or_app. right. left. reflexivity.
        -- destruct (MAIN h (eq_sym Q) (eq_sym EA) ltac:(rewrite <- EA; exact IA)) as (text & opa & -> & FSA & EO & NA).
           destruct (two_pieces U H hs k text opa fb opb SU G FT RT PL FK FSA EO NA FSB NB AB) as (mt & ops & MF2 & FSM & PM & _). rewrite MF in MF2. injection MF2 as -> ->. specialize (EF eq_refl). cbn match in EF. subst f.
           destruct (frame_list mt ops FSM) as (L & OL & EL). destruct L as [|c' L].
           { exfalso. rewrite <- EL in PM. apply Permutation_nil in PM. apply app_eq_nil in PM as [PM _]. apply NA. apply (map_eq_nil bare). exact PM. }
           pose proof (ops_first _ _ _ OL) as N'. rewrite N in N'. injection N' as <-. apply (LOG h I2 (eq_sym Q)).
           assert (IC : In (opof c) (map bare opa ++ map bare opb)) by (apply (Permutation_in _ PM); rewrite <- EL; left; reflexivity). rewrite says_app. apply in_app_iff in IC as [IC|IC]; apply in_or_app.
           ++ left. apply (filed_says k). rewrite <- EO. exact IC.
           ++ right. apply (filed_says k). rewrite EAB. apply in_or_app. right. apply in_or_app. left. exact IC.
      * exfalso. exact (NOSTATE h I2 (eq_sym Q)).
  - intros h I. set (k := logkey h). assert (FK : key_form k = LOG_RAW_FORM) by apply form_of_log.
    destruct (mem_log w hs k LO FS FK) as (w' & fb & RB & MEM). rewrite filed_app, says_app. unfold BranchModel.b_jread.
    assert (FRESH : forall y, (forall h, In h hs -> uorigin (ch_id h) <> y) -> filter (of_yarn y) (says_ops (filed k hs)) = []).
    { intros y FR. assert (Q : forall u, In u (says_ops (filed k hs)) -> of_yarn y u = false).
      { intros u IU. apply says_in in IU as (h0 & c & I0 & IC & ->). apply filed_in in I0. destruct (op_ids U (H ++ hs) h0 c SU G ltac:(apply in_or_app; auto) IC) as (_ & O & _). unfold of_yarn. rewrite opof_id, O. apply N.eqb_neq. exact (FR h0 I0). }
      clear -Q. induction (says_ops (filed k hs)) as [|u l IH]; [reflexivity|]. cbn [filter]. rewrite (Q u (or_introl eq_refl)). apply IH. intros v J. apply Q. right. exact J. }
    destruct (main_log U d H k SU GH B FH FK) as [(QA & RA)|(fa & opa & _ & RA & FSA & EA & NA)].
    + rewrite QA, RA. cbn [rbind]. rewrite RB. cbn [rbind blank]. cbn [app]. destruct MEM as [(Q & _)|(opb & FSB & NB & EB)].
      * exfalso. assert (Q2 : says_ops (filed k (H ++ hs)) = []) by (rewrite filed_app, says_app, QA, Q; reflexivity). exact (says_filed (H ++ hs) h I Q2).
      * destruct (frame_list fb opb FSB) as (L & OL & EL). rewrite EB in EL. exists d, w', fb, L. split; [reflexivity|]. split; [exact OL|]. rewrite EL. split; [apply Permutation_refl|]. split; [|reflexivity].
        intros h' I'. apply in_app_iff in I' as [I'|I']; [|apply chain_subl; exact I']. pose proof (chain_subl h' _ I') as Q. rewrite QA in Q. inversion Q.
    + rewrite RA. cbn [rbind]. rewrite RB. cbn [rbind]. rewrite (said_text fa opa FSA NA). destruct MEM as [(Q & ->)|(opb & FSB & NB & EB)].
      * cbn [blank]. rewrite Q, app_nil_r. destruct (frame_list fa opa FSA) as (L & OL & EL). rewrite EA in EL. exists d, w', fa, L. split; [reflexivity|]. split; [exact OL|]. rewrite EL. split; [apply Permutation_refl|]. split; [|reflexivity].
        intros h' I'. apply in_app_iff in I' as [I'|I']; [apply chain_subl; exact I'|]. pose proof (chain_subl h' _ I') as Q0. rewrite Q in Q0. inversion Q0.
      * rewrite (said_text fb opb FSB NB).
        destruct (two_pieces U H hs k fa opa fb opb SU G FT RT PL FK FSA EA NA FSB NB) as (text & ops & MF & FSM & PM & S1 & S2); [exists [], []; rewrite app_nil_r; symmetry; exact EB|].
        rewrite MF. cbn [rbind]. destruct (frame_list text ops FSM) as (L & OL & EL). exists d, w', text, L. split; [reflexivity|]. split; [exact OL|]. rewrite EL, <- EA, <- EB. split; [exact PM|]. split.
        { intros h' I'. apply in_app_iff in I' as [I'|I']; apply chain_subl in I'; [rewrite <- EA in I'; exact (subl_trans _ _ S1 _ I')|rewrite <- EB in I'; exact (subl_trans _ _ S2 _ I')]. }
        intros y FR. rewrite filter_app, EB, (FRESH y FR), app_nil_r. apply (other_part _ _ (map bare opb)); [exact S1|exact PM|]. rewrite EB. exact (FRESH y FR).
Qed.

(* ---- the chains of a frame ---- *)
Notation accepted := (ReplicaSpec.accepted family b_jread b_jprev b_write).
Lemma accepted_records x hs ws y : accepted x hs ws y -> Forall recorded hs.
Proof.
  induction 1 as [|hs ws m w ws' y H IH A E|hs ws m w h ws' y H IH AD A E]; [constructor|exact IH|].
  apply Forall_app. split; [exact IH|]. constructor; [|constructor]. destruct AD as (_ & _ & _ & R & _). exact R.
Qed.
Lemma plain_chains U H : sound U -> good U H -> plain_objects U -> Forall (fun h => plain_type (ch_rdt h)) H.
Proof.
  intros SU G P. apply Forall_forall. intros h I. destruct (obj_ids U H h SU G I) as (_ & _ & h' & c & I' & J & _ & R & V).
  pose proof G as (_ & _ & _ & _ & _ & IN). unfold plain_objects in P. rewrite Forall_forall in P. specialize (P (opof c)). rewrite opof_ref, R in P. apply P; [|exact V]. apply IN, says_in. eauto.
Qed.
Lemma frame_good U d H hs ws y : accepted (d, []) hs ws y -> sound U -> good U H -> base d H -> H <> [] -> rooted H ->
  only_writes ws -> fits fuel (H ++ hs) -> apart U hs -> Forall canonical (flat_map ch_ops hs) -> incl (as_ops (flat_map ch_ops hs)) U -> good U (H ++ hs) /\ rooted (H ++ hs).
Proof.
  intros A SU GH B NE RT. remember (d, @nil (key * bytes)) as x eqn:EX in A. induction A as [|hs ws m w ws' y A IH AC E|hs ws m w h ws' y A IH AD AC E]; intros OW FT AP CN IU.
  - rewrite app_nil_r. auto.
  - apply Forall_app in OW as [OW1 OW2]. apply IH; assumption.
  - subst x. apply Forall_app in OW as [OW1 OW2]. destruct AP as [ND PL]. rewrite removelast_last in PL.
    assert (FT1 : fits fuel (H ++ hs)) by (apply (fits_part [] (H ++ hs) [h]); cbn [app]; rewrite <- app_assoc; exact FT).
    rewrite flat_map_app in CN, IU. cbn [flat_map] in CN, IU. rewrite app_nil_r in CN, IU. apply Forall_app in CN as [CN1 CN2]. unfold as_ops in IU. rewrite map_app in IU. fold (as_ops (flat_map ch_ops hs)) in IU. fold (as_ops (ch_ops h)) in IU.
    apply incl_app_inv in IU as [IU1 IU2].
    destruct (IH OW1 FT1) as [G1 R1]; [|assumption|assumption|].
    { split; [|destruct PL as [PL|PL]; [left|right; exact PL]; apply Forall_forall; intros z I; rewrite Forall_forall in PL; apply PL; clear -I; induction hs as [|a [|b l] IHl]; [exact I|destruct I|destruct I as [<-|I]; [left; reflexivity|right; exact (IHl I)]]].
      intros a g b h0 c EH RY. apply (ND a g b h0 (c ++ [h])); [rewrite EH, <- !app_assoc; cbn [app]; rewrite <- !app_assoc; reflexivity|exact RY]. }
    assert (PL2 : Forall (fun h => plain_type (ch_rdt h)) hs) by (destruct PL as [PL|PL]; [exact PL|]; pose proof (plain_chains U _ SU G1 PL) as Q; apply Forall_app in Q; apply Q).
    assert (FR : text_ref (ch_head h) = YARN_FORM_UUID -> forall h0, In h0 hs -> uorigin (ch_id h0) <> uorigin (ch_id h)).
    { intros RY h0 I. apply in_split in I as (a & b & ->). apply (ND a h0 b h []); [rewrite <- app_assoc; reflexivity|exact RY]. }
    pose proof (accepted_acts _ _ _ _ _ _ _ _ A) as AA. pose proof (accepted_writes _ _ _ _ _ _ _ _ A) as AW.
    destruct (good_step fbits fuel (fun y => forall h0, In h0 hs -> uorigin (ch_id h0) <> y) U m w (H ++ hs) h SU G1) as [G2 RO]; [|exact FR|exact AD|exact CN2|exact IU2|].
    + intros m' w' AZ. pose proof (acts_app _ _ _ _ _ _ _ _ AA AZ) as A2. rewrite app_nil_r in A2.
      destruct (lodged_acts U H hs d ws m' w' SU G1 FT1 OW1 A2 AW) as [-> LO]. apply (sees_joined U d w' H hs); try assumption. eapply accepted_records. exact A.
    + rewrite <- app_assoc in G2. split; [exact G2|]. rewrite app_assoc. apply (rooted_step U (H ++ hs) h); [rewrite <- app_assoc; exact G2|exact G1|exact R1| |exact SU].
      destruct RO as [RO|RO]; [left; exact RO|right; split; [exact RO|]]. destruct (obj_ids U (H ++ hs ++ [h]) h SU G2) as (_ & _ & h' & c & _ & _ & _ & _ & V); [apply in_or_app; right; apply in_or_app; right; left; reflexivity|exact V].
Qed.
End Mem.

(* ---- the life of a branch ---- *)
Section Story.
Variable sha : bytes -> bytes.
Variable fbits : bytes -> N.
Variable active : N.
Variable fuel : nat.
Notation b_jread := (b_jread fbits fuel).
Notation b_jprev := (b_jprev fbits fuel).
Notation accepted := (ReplicaSpec.accepted family b_jread b_jprev b_write).
Notation admitted := (ReplicaSpec.admitted family b_jread b_jprev b_write).

Lemma spanless_incl U V : incl V U -> spanless U -> spanless V.
Proof. intros I SP a b J K. apply SP; auto. Qed.
Lemma keep_more W E1 E2 us : keep_bound fuel W (E1 ++ E2) -> spanless (W ++ map bare (E1 ++ E2)) -> incl us (map bare E1) ->
  (length us <= 4 * length E1)%nat -> (room us <= 4 * room (map bare E1))%nat -> keep_bound fuel (W ++ us) E2 /\ spanless ((W ++ us) ++ map bare E2).
Proof.
  apply (keep_step fuel KEY_ZERO frame_says spanless); [intro Q; vm_compute in Q; discriminate Q|auto|exact spanless_incl].
Qed.
Definition roomy (H : list chain) (E : list rop) : Prop :=
  forall k, key_form k = LOG_RAW_FORM -> keep_bound fuel (says_ops (filed k H)) E /\ spanless (says_ops (filed k H) ++ map bare E).
Lemma roomy_fits H E : roomy H E -> fits fuel H.
Proof.
  intros R k FK. destruct (R k FK) as [KB SP]. assert (KB0 : keep_bound fuel (says_ops (filed k H)) (E ++ [])) by (rewrite app_nil_r; exact KB).
  destruct (keep_more (says_ops (filed k H)) E [] [] KB0) as [A B]; [rewrite app_nil_r; exact SP|intros u []|cbn; lia|cbn; lia|].
  cbn [map] in B. rewrite !app_nil_r in *. auto.
Qed.
Lemma roomy_step f d hs H E : frame_says f d -> events_only f -> chains_of f hs -> Forall proper hs -> roomy H (filter event_op d ++ E) -> roomy (H ++ hs) E.
Proof.
  intros FS EO CO PR R k FK. destruct (R k FK) as [KB SP]. rewrite filed_app, says_app.
  destruct (chain_events f d hs FS EO CO PR) as [SL _]. destruct (filed_measure k hs) as (M1 & M2 & M3).
  pose proof (subl_length _ _ SL) as SL1. pose proof (subl_room _ _ SL) as SL2. rewrite twice_length, map_length in SL1. rewrite twice_room in SL2.
  apply (keep_more (says_ops (filed k H)) (filter event_op d) E (says_ops (filed k hs)) KB SP); [|lia|lia].
  intros u J. apply twice_in. eapply subl_in; [exact SL|]. apply M3. exact J.
Qed.
Lemma roomy_less d H E : roomy H (filter event_op d ++ E) -> roomy H E.
Proof.
  intros R k FK. destruct (R k FK) as [KB SP]. destruct (keep_more (says_ops (filed k H)) (filter event_op d) E [] KB SP) as [A B]; [intros u []|cbn; lia|cbn; lia|].
  rewrite app_nil_r in *. auto.
Qed.

Lemma story_good U d es ss hss d' : story fbits fuel d es ss hss d' -> Forall (apart U) hss -> sound U -> forall E H,
  received es ss E -> incl (map bare E) U -> H <> [] -> good U H -> rooted H -> base d H -> roomy H E ->
  good U (H ++ concat hss) /\ base d' (H ++ concat hss) /\ fits fuel (H ++ concat hss).
Proof.
  intros ST SHORT SU. induction ST as [d|d e s hs d1 es ss hss d2 GR SO ST IH]; intros E H RV IU NE G RT B RM.
  - cbn [concat]. rewrite app_nil_r. split; [exact G|]. split; [exact B|]. eapply roomy_fits. exact RM.
  - inversion SHORT as [|? ? SH1 SH2]; subst. cbn [concat]. rewrite app_assoc. pose proof (roomy_fits H E RM) as FT. pose proof (fuel_one fuel H NE FT) as F1.
    assert (STEP : exists E1 E2, E = E1 ++ E2 /\ received es ss E2 /\ received [e] [s] E1 /\ roomy (H ++ hs) E2 /\ Forall canonical (flat_map ch_ops hs) /\ incl (as_ops (flat_map ch_ops hs)) U).
    { inversion RV as [|? ? ? dd ? ? E2 FS RV2|? ? ? s0 ? ? ? NK RV2|? ? ? ? ? RV2|? ? ? ? ? ? RV2]; subst.
      - exists (filter event_op dd), E2. split; [reflexivity|]. split; [exact RV2|]. split; [rewrite <- (app_nil_r (filter event_op dd)); apply rv_frame; [exact FS|constructor]|].
        destruct SO as [->|(now' & rs' & f' & EQ & _ & EO & CO & PR)].
        + rewrite app_nil_r. split; [apply (roomy_less dd); exact RM|]. split; [constructor|intros u []].
        + injection EQ as <- <- <-. split; [eapply roomy_step; eassumption|]. destruct (chain_events _ _ _ FS EO CO PR) as [SL CA]. split; [exact CA|].
          intros u J. apply IU. rewrite map_app. apply in_or_app. left. apply twice_in. eapply subl_in; eassumption.
      - exists [], E. destruct SO as [->|(now' & rs' & f' & _ & EQ & _)]; [|contradiction]. rewrite app_nil_r. split; [reflexivity|]. split; [exact RV2|]. split; [apply rv_refused; [exact NK|constructor]|]. split; [exact RM|]. split; [constructor|intros u []].
      - exists [], E. destruct SO as [->|(now' & rs' & f' & EQ & _)]; [|discriminate]. rewrite app_nil_r. split; [reflexivity|]. split; [exact RV2|]. split; [apply rv_open; constructor|]. split; [exact RM|]. split; [constructor|intros u []].
      - exists [], E. destruct SO as [->|(now' & rs' & f' & EQ & _)]; [|discriminate]. rewrite app_nil_r. split; [reflexivity|]. split; [exact RV2|]. split; [apply rv_compact; constructor|]. split; [exact RM|]. split; [constructor|intros u []]. }
    destruct STEP as (E1 & E2 & -> & RV2 & RV1 & RM2 & CA & IA).
    assert (GR1 : good U (H ++ hs) /\ rooted (H ++ hs)).
    { destruct GR as [(-> & _)|(ws & m & w & f & batch & OW & A & WR & BB)]; [rewrite app_nil_r; auto|].
      apply (frame_good fbits fuel U d H hs ws (m, w) A); try assumption. exact (roomy_fits _ _ RM2). }
    destruct GR1 as [G1 R1].
    assert (RC : Forall recorded hs).
    { destruct GR as [(-> & _)|(ws & m & w & f & batch & OW & A & WR & BB)]; [constructor|]. eapply (accepted_records fbits fuel). exact A. }
    assert (B1 : base d1 (H ++ hs)).
    { apply (base_grows fbits fuel U d H hs d1); try assumption. intros k FK. rewrite filed_app, says_app. destruct B as (IO & _ & LG & _).
      assert (ST1 : story fbits fuel d [e] [s] [hs] d1) by (eapply story_more; [exact GR|exact SO|constructor]). destruct (RM k FK) as [KB SP].
      pose proof (log_kept sha fbits fuel d [e] [s] [hs] d1 E1 k (says_ops (filed k H)) IO ST1 RV1 FK (LG k FK)) as LK. cbn [concat] in LK. rewrite app_nil_r in LK.
      apply LK.
      - destruct KB as (M & L & N & R). rewrite map_app in M. rewrite app_length in L, N. rewrite map_app, room_app in R. split; [eapply mergeable_incl; [exact M|]|].
        + apply incl_app; [apply incl_appl, incl_refl|apply incl_appr, incl_appl, incl_refl].
        + split; [lia|]. split; lia.
      - eapply spanless_incl; [|exact SP]. rewrite map_app. apply incl_app; [apply incl_appl, incl_refl|apply incl_appr, incl_appl, incl_refl]. }
    apply (IH SH2 E2 (H ++ hs) RV2); try assumption.
    + intros u J. apply IU. rewrite map_app. apply in_or_app. right. exact J.
    + intro Q. apply app_eq_nil in Q as [Q _]. contradiction.
Qed.
End Story.
