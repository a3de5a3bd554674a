(* Yarns and objects over the life of a branch. *)
From Coq Require Import Sorted Permutation.
From Verif Require Import Prelude UuidModel UuidSpec UuidProofs KeyModel KeyProofs CodecModel CodecSpec TextModel TextSpec BuilderSpec BuilderProofs MergeModel MergeSpec MergeProofs MergeTextModel
  TextMergeSpec TextCursors MergeKeeps TextMerge SizeProofs TextMergeTheorems StoreModel StoreSpec StoreProofs StoreTheorems RocksModel RocksSpec RocksProofs RocksTheorems MetaModel MetaTheorems ClockModel
  ReplicaModel ReplicaSpec ReplicaProofs ReplicaTheorems BranchModel BranchSpec BranchProofs BranchTheorems DurableSpec DurableProofs DurableTheorems YarnSpec.

(* ---- chain records ---- *)
Lemma emit_bits f : forall bits bc bc' ds, enc_emit f 6 bits bc = (bc', ds) -> N.of_nat (length ds) * 6 + bc' = bc /\ Forall (fun d => d < 64) ds.
Proof.
  induction f as [|f IH]; intros bits bc bc' ds E; cbn [enc_emit] in E.
  - injection E as <- <-. split; [cbn; lia|constructor].
  - destruct (6 <=? bc) eqn:L; [|injection E as <- <-; split; [cbn; lia|constructor]]. apply N.leb_le in L.
    destruct (enc_emit f 6 bits (bc - 6)) as [r ds'] eqn:Q. injection E as <- <-. destruct (IH _ _ _ _ Q) as [A B]. split; [cbn [length]; lia|].
    constructor; [|exact B]. change (2 ^ 6 - 1) with (N.ones 6). rewrite N.land_ones. apply N.mod_lt. discriminate.
Qed.
Lemma loop_bits n : forall raw bits bc ds, encode_loop 6 n raw bits bc = Some ds ->
  N.of_nat (length ds) * 6 <= 8 * N.of_nat n + bc + 6 /\ Forall (fun d => d < 64) ds.
Proof.
  induction n as [|n IH]; intros raw bits bc ds E; cbn [encode_loop] in E.
  - injection E as <-. destruct (0 <? bc); [|split; [cbn; lia|constructor]]. split; [cbn [length]; lia|]. constructor; [|constructor].
    change (2 ^ 6 - 1) with (N.ones 6). rewrite N.land_ones. apply N.mod_lt. discriminate.
  - destruct raw as [|b t]; [discriminate|]. cbv zeta in E. destruct (enc_emit _ 6 _ (bc + 8)) as [bc' d1] eqn:Q.
    destruct (encode_loop 6 n t _ bc') as [d2|] eqn:Q2; [|discriminate]. cbn [option_map] in E. injection E as <-.
    destruct (emit_bits _ _ _ _ _ Q) as [A B]. destruct (IH _ _ _ _ Q2) as [C D]. rewrite app_length. split; [lia|]. apply Forall_app. auto.
Qed.
Lemma hash_text raw h : sha2_base64 (mkSha2 256 raw) = Some h -> (length h <= 44)%nat /\ Forall (fun cp => 48 <= cp < 128) h.
Proof.
  unfold sha2_base64, encode, encode_digits. cbn [hbits known_bits]. destruct (encode_loop 6 (N.to_nat (256 / 8)) raw 0 0) as [ds|] eqn:E; [|discriminate].
  cbn [option_map]. intro Q. injection Q as <-. destruct (loop_bits _ _ _ _ _ E) as [A B]. change (N.of_nat (N.to_nat (256 / 8))) with 32 in A.
  rewrite map_length. split; [lia|]. apply Forall_map. eapply Forall_impl; [|exact B]. intros d L. cbn beta in *.
  assert (K : forallb (fun d => (48 <=? nth (N.to_nat d) BASE_PUNCT 0) && (nth (N.to_nat d) BASE_PUNCT 0 <? 128)) (map N.of_nat (seq 0 64)) = true) by (vm_compute; reflexivity).
  rewrite forallb_forall in K. specialize (K d). apply andb_prop in K; [|apply in_map_iff; exists (N.to_nat d); split; [apply N2Nat.id|apply in_seq; cbn [Nat.add]; clear K; lia]].
  destruct K as [K1 K2]. apply N.leb_le in K1. apply N.ltb_lt in K2. auto.
Qed.
Definition value_id (u : uuid) : Prop := id_ok u /\ ~ float_like (write_uuid u).
Definition rec_op (id obj rdt : uuid) (h : list N) : uop := mkUop id META_FORM_UUID [VUuid obj; VUuid rdt; VStr (Some h)].
Lemma meta_id_ok : id_ok META_FORM_UUID.
Proof. split; [split|]; reflexivity. Qed.
Lemma record_says f id obj rdt : is_record f id obj rdt -> tip_ok id -> value_id obj -> value_id rdt ->
  exists h, frame_says f [mkRop id META_FORM_UUID [VUuid obj; VUuid rdt; VStr (Some h)] RAW] /\ uop_ok (rec_op id obj rdt h) /\ (length h <= 44)%nat.
Proof.
  intros (raw & h & SH & OP) [OK NI] [O1 O2] [R1 R2]. destruct (hash_text _ _ SH) as [LH FH]. exists h.
  assert (UO : uop_ok (rec_op id obj rdt h)).
  { split; [exact OK|]. split; [exact meta_id_ok|]. cbn [u_vals rec_op]. repeat apply Forall_cons; [destruct O1; split; [assumption|split; assumption]|destruct R1; split; [assumption|split; assumption]| |constructor].
    cbn [value_ok]. eapply Forall_impl; [|exact FH]. intros cp [A B]. cbn beta in *. change (2 ^ 21) with 2097152. lia. }
  destruct (build_calls_frame [UAppend (rec_op id obj rdt h)] canon_writes) as (text & BT & FL).
  { cbn [good_calls]. split; [exact UO|]. split; [intro Q; contradiction|]. split; [|exact Logic.I].
    unfold continues. intro Q. exfalso. apply andb_true_iff in Q as [Q _]. apply andb_true_iff in Q as [Q _]. apply uuid_eqb_eq in Q. contradiction. }
  { reflexivity. }
  unfold build_calls in BT. cbn [calls_of rec_op u_id u_ref u_vals] in BT. unfold one_op in OP.
  destruct (wop_of_op id META_FORM_UUID [VUuid obj; VUuid rdt; VStr (Some h)]) as [o|] eqn:EW; [|discriminate]. cbn [option_map] in BT. assert (text = f) by congruence. subst text.
  split; [|auto]. split; [exact FL|]. pose proof (build_len _ _ OP) as BL. unfold wop_of_op in EW. cbn [wvals_of wval_of_value option_map] in EW. injection EW as <-.
  unfold cmds_room, wop_room in BL. cbn [map w_vals value_text list_sum fold_right app length] in BL. rewrite !app_length in BL. cbn [length] in BL.
  pose proof (write_uuid_len obj). pose proof (write_uuid_len rdt).
  pose proof (esc_len h ltac:(eapply Forall_impl; [|exact FH]; intros cp [_ B]; exact B)) as EL.

  clear SH OP BT FL UO FH. change (2 ^ 32) with 4294967296. assert (length f <= 600)%nat; [|lia]. destruct (is_ambiguous obj), (is_ambiguous rdt); cbn [length] in BL; lia.
Qed.

(* ---- reads when nothing is in memory ---- *)
Section Bare.
Variable fbits : bytes -> N.
Variable fuel : nat.
Notation b_jread := (b_jread fbits fuel).
Notation b_jprev := (b_jprev fbits fuel).
Notation rread := (rocks_read fbits fuel).
Notation acts := (acts family b_jread b_write).

Lemma jread_bare d k d' w' f s : b_jread d [] k = Done (d', w', f, s) -> d' = d /\ w' = [] /\ (s = ROk -> rread d k = Done (f, KOk)).
Proof.
  intro J. unfold BranchModel.b_jread in J. apply rbind_done in J as ([fa sa] & R & J).
  destruct sa; try (injection J as <- <- <- <-; split; [reflexivity|split; [reflexivity|discriminate]]).
  assert (E : read bytes [] (merge_as fbits fuel) [] k [] = Done ([], [], StOK)) by reflexivity. rewrite E in J. cbn [rbind blank] in J.
  destruct fa as [|x fa]; cbn [blank] in J; injection J as <- <- <- <-; auto.
Qed.
Lemma acts_bare d ws y : acts (d, []) ws y -> only_writes ws -> writes_of ws = [] -> y = (d, []).
Proof.
  intro A. remember (d, @nil (key * bytes)) as x eqn:EX in A. induction A as [|ws m w k1 m' w' f s A IH J|ws m w k1 f w' A IH W|ws m w f m' s A IH W]; intros OW E.
  - exact EX.
  - specialize (IH OW E). injection IH as -> ->. destruct (jread_bare _ _ _ _ _ _ J) as (-> & -> & _). reflexivity.
  - rewrite writes_of_app in E. apply app_eq_nil in E as [_ E]. discriminate.
  - apply Forall_app in OW as [_ OW]. inversion OW; contradiction.
Qed.
(* the last key up to k *)
Lemma jprev_bare d k f s : in_order d -> In KEY_ZERO (map fst d) -> key_lt k KEY_END -> b_jprev d [] k = Done (f, s) -> s = ROk ->
  exists k' g, In k' (map fst d) /\ ~ key_lt k k' /\ (forall x, In x (map fst d) -> ~ key_lt k x -> ~ key_lt k' x) /\
    cell_get fbits fuel k' (cell_at d k') = Done g /\ f = match g with GValue f => f | _ => [] end.
Proof.
  intros O Z KE J ->. unfold BranchModel.b_jprev in J. apply rbind_done in J as ([ia sa] & SK & J).
  destruct (last_upto_ok d k) as (lo & hi & ED & L & H & FF). unfold ri_seek, ri_new in SK. cbn [ri_snap] in SK. rewrite FF in SK. cbn [Nat.add] in SK.
  assert (HI : forall y, In y (map fst hi) -> key_lt k y).
  { clear -O ED H. assert (OH : in_order hi) by (subst d; induction lo; [exact O|cbn [app] in O; inversion O; auto]). intros y I.
    destruct hi as [|h hi]; [contradiction|]. specialize (H h hi eq_refl). inversion OH as [|? ? _ F]; subst. destruct I as [<-|I]; [exact H|].
    rewrite Forall_forall in F. apply in_map_iff in I as (r & <- & I). exact (key_lt_trans _ _ _ H (F r I)). }
  destruct lo as [|z lo0] eqn:QL.
  { exfalso. cbn [app] in ED. subst d. exact (key_zero_min _ (HI _ Z)). }
  destruct (@exists_last _ lo) as (lo' & [x c] & EL); [rewrite QL; discriminate|]. rewrite <- QL in *. clear QL z lo0. subst lo.
  assert (ED' : d = lo' ++ (x, c) :: hi) by (rewrite ED, <- app_assoc; reflexivity).
  assert (IX : In x (map fst d)) by (rewrite ED', map_app, in_app_iff; right; left; reflexivity).
  assert (SK2 : settle fbits fuel (mkRiter d (Some (length lo'))) = Done (ia, sa)).
  { destruct (lo' ++ [(x, c)]) as [|z0 l0] eqn:Q; [destruct lo'; discriminate|]. rewrite <- Q in SK. rewrite app_length in SK. cbn [length] in SK.
    replace (Nat.pred (length lo' + 1)) with (length lo') in SK by lia. exact SK. }
  clear SK. assert (NTH : nth_error d (length lo') = Some (x, c)) by (rewrite ED', nth_error_app2, Nat.sub_diag by lia; reflexivity).
  pose proof (cell_of d x c lo' hi O ED') as CA.
  unfold settle in SK2. unfold ri_value in SK2. cbn [ri_at ri_snap] in SK2. rewrite NTH in SK2. apply rbind_done in SK2 as (g & G & SK2).
  apply Forall_app in L as [_ L]. pose proof (Forall_inv L) as LX. cbn [fst] in LX.
  exists x, g. split; [exact IX|]. split; [exact LX|]. split; [|split; [rewrite CA; exact G|]].
  { intros y I NL. rewrite ED', map_app, in_app_iff in I. destruct I as [I|[<-|I]]; [|apply key_lt_irrefl|exfalso; exact (NL (HI y I))].
    assert (LT : key_lt y x).
    { clear -O ED' I. subst d. induction lo' as [|z lo IH]; [contradiction|]. cbn [app] in O. inversion O as [|? ? O1 F]; subst. destruct I as [<-|I]; [|apply IH; assumption].
      rewrite Forall_forall in F. apply (F (x, c)). apply in_or_app. right. left. reflexivity. }
    intro Q. exact (key_lt_irrefl _ (key_lt_trans _ _ _ LT Q)). }
  assert (XE : key_eqb x KEY_END = false) by (apply key_eqb_neq; intros ->; exact (LX KE)).
  assert (NF : g <> GFail) by (intros ->; injection SK2 as <- <-; discriminate).
  assert (SK3 : ia = mkRiter d (Some (length lo')) /\ sa = KOk) by (destruct g; [injection SK2 as <- <-; auto|injection SK2 as <- <-; auto|contradiction]). destruct SK3 as [-> ->].
  cbn [rbind] in J. unfold it_seek in J. cbn [StoreModel.lower_bound nth_error new_iter it_merged it_len length Nat.eqb negb andb] in J.
  cbn [it_key it_len rbind] in J. unfold ri_key in J. cbn [ri_at ri_snap] in J. rewrite NTH in J. rewrite XE in J.
  change (key_eqb KEY_END KEY_END) with true in J. cbn match in J. rewrite key_eqb_refl in J. cbn [negb] in J.
  assert (EX : key_eqb KEY_END x = false) by (apply key_eqb_neq; intros <-; exact (LX KE)). rewrite EX in J. cbn [negb] in J.
  unfold ri_value in J. cbn [ri_at ri_snap] in J. rewrite NTH, G in J. cbn [rbind] in J. injection J as <-. reflexivity.
Qed.
End Bare.

(* ---- ids, keys, events ---- *)
Lemma time_key u : id_ok u -> version u = TIME -> uvalue u <= NEVER_W -> key_id_ok u.
Proof.
  intros [[_ _] O] V NV. split; [assert (NEVER_W < 2 ^ 60) by reflexivity; lia|]. unfold version, word_flags in V. rewrite shiftr_div in V.
  change 3 with (N.ones 2) in V. rewrite N.land_ones in V. exists (uorigin u mod 2 ^ 60). split; [apply N.mod_lt; discriminate|].
  change (2 ^ 60) with 1152921504606846976 in *. change (2 ^ 62) with 4611686018427387904 in O. change (2 ^ 2) with 4 in V. unfold TIME in *. dlia.
Qed.
Definition meta_key (u : uuid) : key := key_as u META_FORM_UUID.
Lemma meta_key_eq u : meta_key u = key_of u META_META_FORM.
Proof. unfold meta_key, key_as. assert (E : uuid2form META_FORM_UUID = META_META_FORM) by (vm_compute; reflexivity). rewrite E. reflexivity. Qed.
Lemma meta_key_inj u v : key_id_ok u -> key_id_ok v -> meta_key u = meta_key v -> u = v.
Proof. rewrite !meta_key_eq. intros A B E. apply (key_inj u v META_META_FORM META_META_FORM); [exact A|exact B|reflexivity|reflexivity|exact E]. Qed.
Lemma meta_key_form u : key_form (meta_key u) = META_META_FORM.
Proof. rewrite meta_key_eq. apply key_form_of. reflexivity. Qed.
Lemma meta_key_lt u v : key_id_ok u -> key_id_ok v -> (key_lt (meta_key u) (meta_key v) <-> uorigin u < uorigin v \/ uorigin u = uorigin v /\ uvalue u < uvalue v).
Proof.
  intros A B. rewrite !meta_key_eq. pose proof (key_order u v META_META_FORM META_META_FORM A B ltac:(reflexivity) ltac:(reflexivity)) as Q. unfold key_lt. rewrite Q.
  cbn [fields_lt]. split; [intros [Q1|(_ & [Q1|(Q1 & [Q2|(_ & [])])])]; [lia|auto..]|intros [Q1|(Q1 & Q2)]; right; split; auto].
Qed.
Lemma form_key_lt u v f g : key_id_ok u -> key_id_ok v -> f < 256 -> g < 256 -> f < g -> key_lt (key_of u f) (key_of v g).
Proof. intros A B F G L. unfold key_lt. apply key_order; try assumption. cbn [fields_lt]. auto. Qed.
Lemma uuid_lt_value u v : uorigin u = uorigin v -> uuid_ltb u v = true <-> uvalue u < uvalue v.
Proof.
  intro E. unfold uuid_ltb. rewrite E, N.ltb_irrefl, andb_false_r, orb_false_r. apply N.ltb_lt.
Qed.
Lemma same_uuid u v : uorigin u = uorigin v -> uvalue u = uvalue v -> u = v.
Proof. destruct u, v. cbn. intros -> ->. reflexivity. Qed.

Definition opof (c : cursor) : uop := bare (rop_of c).
Lemma opof_id c : u_id (opof c) = text_id c. Proof. reflexivity. Qed.
Lemma opof_ref c : u_ref (opof c) = text_ref c. Proof. reflexivity. Qed.
Lemma says_app a b : says_ops (a ++ b) = says_ops a ++ says_ops b.
Proof. unfold says_ops. rewrite flat_map_app, map_app. reflexivity. Qed.
Lemma says_one h : says_ops [h] = as_ops (ch_ops h).
Proof. unfold says_ops, as_ops. cbn [flat_map]. rewrite app_nil_r. reflexivity. Qed.
Lemma says_in u hs : In u (says_ops hs) <-> exists h c, In h hs /\ In c (ch_ops h) /\ u = opof c.
Proof.
  unfold says_ops. rewrite in_map_iff. split.
  - intros (c & <- & I). apply in_flat_map in I as (h & I & J). exists h, c. auto.
  - intros (h & c & I & J & ->). exists c. split; [reflexivity|]. apply in_flat_map. eauto.
Qed.

(* ---- order ---- *)
Lemma in_turn_app a b : in_turn (a ++ b) <-> in_turn a /\ in_turn b /\ forall u v, In u a -> In v b -> turn u v.
Proof.
  unfold in_turn. induction a as [|x a IH]; cbn [app].
  - split; [intro S; split; [constructor|split; [exact S|intros u v []]]|intros (_ & S & _); exact S].
  - split.
    + intro S0. inversion S0 as [|? ? S1 F]; subst. apply IH in S1 as (A & B & C). apply Forall_app in F as [F1 F2]. split; [constructor; assumption|]. split; [exact B|].
      intros u v [<-|I] J; [rewrite Forall_forall in F2; auto|auto].
    + intros (A & B & C). inversion A as [|? ? S1 F]; subst. constructor; [apply IH; split; [exact S1|split; [exact B|intros u v I J; apply C; [right; exact I|exact J]]]|].
      apply Forall_app. split; [exact F|]. apply Forall_forall. intros v J. apply C; [left; reflexivity|exact J].
Qed.
Lemma in_turn_nodup us : in_turn us -> NoDup (map u_id us).
Proof.
  induction 1 as [|u us S0 IH F]; [constructor|]. cbn [map]. constructor; [|exact IH]. intro I. apply in_map_iff in I as (v & E & I).
  rewrite Forall_forall in F. specialize (F v I). unfold turn in F. rewrite E in F. rewrite (uuid_ltb_irrefl (u_id u)) in F. specialize (F eq_refl). discriminate.
Qed.
Lemma nodup_ids us a b : NoDup (map u_id us) -> In a us -> In b us -> u_id a = u_id b -> a = b.
Proof.
  induction us as [|x us IH]; intros ND IA IB E; [destruct IA|]. cbn [map] in ND. inversion ND as [|? ? NI ND']; subst.
  destruct IA as [<-|IA], IB as [<-|IB]; [reflexivity|exfalso; apply NI; rewrite E; apply in_map; exact IB|exfalso; apply NI; rewrite <- E; apply in_map; exact IA|auto].
Qed.
Lemma linked_turn h : linked (ch_head h) (ch_rest h) -> in_turn (as_ops (ch_ops h)).
Proof.
  unfold ch_ops. generalize (ch_head h) (ch_rest h). clear h. intros c cs L. pose proof (linked_increasing cs c L) as I. unfold in_turn, as_ops. unfold increasing_ids in I.
  rewrite <- map_map with (f := rop_of) (g := bare).
  induction I as [|o l S0 IH F]; [constructor|]. cbn [map]. constructor; [exact IH|]. rewrite Forall_map. eapply Forall_impl; [|exact F]. intros p K _. exact K.
Qed.
Lemma linked_after cs : forall c d, linked c cs -> In d cs -> uuid_ltb (text_id c) (text_id d) = true.
Proof.
  intros c d L I. pose proof (linked_increasing cs c L) as S0. cbn [map] in S0. inversion S0 as [|? ? _ F]; subst. rewrite Forall_forall in F. apply (F (rop_of d)). apply in_map. exact I.
Qed.

(* ---- belonging ---- *)
Lemma belongs_more us us' u obj rdt : incl us us' -> belongs us u obj rdt -> belongs us' u obj rdt.
Proof. intros I B. induction B; [apply bl_root; auto|eapply bl_next; eauto]. Qed.
Lemma belongs_in us u obj rdt : belongs us u obj rdt -> In u us.
Proof. destruct 1; assumption. Qed.
Lemma belongs_root us u obj rdt : belongs us u obj rdt -> exists r, In r us /\ u_id r = obj /\ u_ref r = rdt /\ version rdt = NAME.
Proof. induction 1 as [u I V|u v obj rdt I V E B IH]; [exists u; auto|exact IH]. Qed.
Lemma belongs_type us u v obj rdt rdt' : NoDup (map u_id us) -> belongs us u obj rdt -> belongs us v obj rdt' -> rdt = rdt'.
Proof.
  intros ND A B. apply belongs_root in A as (r & I & E & <- & _). apply belongs_root in B as (r' & I' & E' & <- & _).
  rewrite (nodup_ids us r r' ND I I'); [reflexivity|congruence].
Qed.
Lemma belongs_one us u obj rdt obj' rdt' : NoDup (map u_id us) -> belongs us u obj rdt -> belongs us u obj' rdt' -> obj = obj' /\ rdt = rdt'.
Proof.
  intros ND A. revert obj' rdt'. induction A as [u I V|u v obj rdt I V E B IH]; intros obj' rdt' B'.
  - destruct B' as [u I' V'|u v' obj' rdt' I' V' E' B']; [auto|]. rewrite V in V'. discriminate.
  - destruct B' as [u I' V'|u v' obj' rdt' I' V' E' B']; [rewrite V in V'; discriminate|]. apply IH.
    rewrite (nodup_ids us v v' ND (belongs_in _ _ _ _ B) (belongs_in _ _ _ _ B')); [exact B'|congruence].
Qed.

(* ---- walks along a log ---- *)
Lemma run_first c0 x r c : run_to c0 (x :: r) c -> next c0 = NOk x.
Proof.
  intro R. change (x :: r) with ([x] ++ r) in R. apply run_to_split in R as (c1 & R & _). inversion R as [|l c2 c' R2 N E]; subst.
  destruct l as [|y l]; [|destruct l; discriminate]. cbn [app] in E. injection E as ->. inversion R2 as [|l' ? ? ? ? E2]; subst; [exact N|destruct l'; discriminate].
Qed.
Lemma ops_prefix log l c L : run_to (cursor_of log) l c -> ops_of log L -> exists rest, L = l ++ rest.
Proof.
  intros R (cL & e & RL & ST). destruct (Nat.le_gt_cases (length l) (length L)) as [LE|GT].
  - exists (skipn (length l) L). pose proof (firstn_skipn (length l) L) as E. rewrite <- E in RL. apply run_to_split in RL as (c1 & R1 & _).
    destruct (run_to_det _ _ _ R _ _ R1) as [E1 _]; [rewrite firstn_length; lia|]. rewrite E1 at 1. symmetry. exact E.
  - exfalso. pose proof (firstn_skipn (length L) l) as E. rewrite <- E in R. apply run_to_split in R as (c1 & R1 & R2).
    destruct (run_to_det _ _ _ RL _ _ R1) as [_ E2]; [rewrite firstn_length; lia|]. subst c1.
    destruct (skipn (length L) l) as [|x r] eqn:EX; [apply (f_equal (@length cursor)) in EX; rewrite skipn_length in EX; cbn in EX; lia|].
    apply run_first in R2. rewrite R2 in ST. destruct ST; discriminate.
Qed.
Lemma split_same {T V} (f : T -> V) a c b : forall a' c' b', a ++ c :: b = a' ++ c' :: b' -> f c = f c' -> NoDup (map f (a ++ c :: b)) -> a = a' /\ c = c' /\ b = b'.
Proof.
  induction a as [|x a IH]; intros a' c' b' E FE ND.
  - destruct a' as [|y a']; [cbn in E; injection E as -> ->; auto|]. exfalso. cbn [app] in E. injection E as <- ->. cbn [app map] in ND. inversion ND as [|? ? NI _]; subst.
    apply NI. rewrite FE. apply in_map. apply in_or_app. right. left. reflexivity.
  - destruct a' as [|y a'].
    + exfalso. cbn [app] in E. injection E as <- <-. cbn [app map] in ND. inversion ND as [|? ? NI _]; subst. apply NI. rewrite <- FE. apply in_map. apply in_or_app. right. left. reflexivity.
    + cbn [app] in E. injection E as <- E. cbn [app map] in ND. inversion ND as [|? ? _ ND']; subst. destruct (IH _ _ _ E FE ND') as (-> & -> & ->). auto.
Qed.
Lemma linked_same cs : forall c cs' c', as_ops (c :: cs) = as_ops (c' :: cs') -> linked c cs -> linked c' cs'.
Proof.
  induction cs as [|d cs IH]; intros c cs' c' E L.
  - destruct cs' as [|d' cs']; [exact Logic.I|discriminate].
  - destruct cs' as [|d' cs']; [discriminate|]. destruct L as (L1 & L2 & L3 & L4).
    pose proof (f_equal (hd (opof c)) E) as Ea. pose proof (f_equal (@tl uop) E) as Eb. change (opof c = opof c') in Ea. change (as_ops (d :: cs) = as_ops (d' :: cs')) in Eb.
    pose proof (f_equal (hd (opof c)) Eb) as Ec. change (opof d = opof d') in Ec.
    assert (I1 : text_id c = text_id c') by exact (f_equal u_id Ea). assert (I2 : text_id d = text_id d') by exact (f_equal u_id Ec).
    assert (I3 : text_ref d = text_ref d') by exact (f_equal u_ref Ec). cbn [linked]. rewrite <- I1, <- I2, <- I3.
    split; [exact L1|]. split; [exact L2|]. split; [exact L3|]. apply (IH d cs' d'); [exact Eb|exact L4].
Qed.
Definition of_yarn (y : N) (u : uop) : bool := uorigin (u_id u) =? y.
Lemma yarn_ops head l : as_ops (filter (same_yarn head) l) = filter (of_yarn (uorigin head)) (as_ops l).
Proof.
  induction l as [|c l IH]; [reflexivity|]. cbn [filter]. change (as_ops (c :: l)) with (opof c :: as_ops l). cbn [filter].
  assert (E : same_yarn head c = of_yarn (uorigin head) (opof c)) by reflexivity. rewrite <- E. destruct (same_yarn head c); [|exact IH].
  change (opof c :: as_ops (filter (same_yarn head) l) = opof c :: filter (of_yarn (uorigin head)) (as_ops l)). rewrite IH. reflexivity.
Qed.
Lemma walk_yarn L A c0 cs : filter (of_yarn (uorigin (text_id c0))) (as_ops L) = A ++ as_ops (c0 :: cs) -> linked c0 cs -> NoDup (map u_id (as_ops L)) ->
  forall l1 c l2, L = l1 ++ c :: l2 -> text_id c = text_id c0 ->
  linked c (filter (same_yarn (text_id c0)) l2) /\ as_ops (filter (same_yarn (text_id c0)) l2) = as_ops cs.
Proof.
  intros E LK ND l1 c l2 EL TC. rewrite <- yarn_ops in E. assert (SC : same_yarn (text_id c0) c = true) by (unfold same_yarn; apply N.eqb_eq; congruence).
  assert (EF : filter (same_yarn (text_id c0)) L = filter (same_yarn (text_id c0)) l1 ++ c :: filter (same_yarn (text_id c0)) l2) by (rewrite EL, filter_app; cbn [filter]; rewrite SC; reflexivity).
  assert (ND2 : NoDup (map (fun x => u_id (opof x)) (filter (same_yarn (text_id c0)) L))).
  { assert (K : forall (f : cursor -> bool) l, NoDup (map u_id (as_ops l)) -> NoDup (map (fun x => u_id (opof x)) (filter f l))).
    { clear. intros f l. induction l as [|x l IH]; intro ND; [constructor|]. change (as_ops (x :: l)) with (opof x :: as_ops l) in ND. cbn [map] in ND. inversion ND as [|? ? NI ND']; subst. cbn [filter].
      destruct (f x); [|apply IH; exact ND']. cbn [map]. constructor; [|apply IH; exact ND']. intro J. apply NI. apply in_map_iff in J as (y & E & J). apply filter_In in J as [J _].
      assert (J2 : In (u_id (opof y)) (map u_id (as_ops l))) by (apply in_map; apply (in_map (fun c => bare (rop_of c))); exact J).
      assert (E2 : u_id (opof y) = u_id (opof x)) by exact E. rewrite E2 in J2. exact J2. }
    apply K. exact ND. }
  rewrite EF in E, ND2. unfold as_ops in E. apply map_eq_app in E as (LA & LR & E1 & E2 & E3). cbn [map] in E3. apply map_eq_cons in E3 as (c1 & LT & E7 & E8 & E9). subst LR.
  assert (EC : text_id c1 = text_id c0) by exact (f_equal u_id E8).
  destruct (split_same (fun x => u_id (opof x)) _ c _ LA c1 LT E1) as (_ & -> & ->); [change (text_id c = text_id c1); congruence|exact ND2|].
  split; [|exact E9]. apply (linked_same cs c0 LT c1); [|exact LK]. unfold as_ops. cbn [map]. rewrite E8, E9. reflexivity.
Qed.

(* ---- texts ---- *)
Lemma frame_ops f d : frame_says f d -> exists l, ops_of f l /\ map rop_of l = d /\ Forall canonical l.
Proof.
  intros [FL SM]. destruct (frame_visits f d FL SM) as (cs & (c' & N & V) & F).
  assert (O2 : ops_of f cs) by (destruct (DurableProofs.visits_run _ [] _ _ _ (run_here _) N V) as (e & d0 & R & St); exists e, d0; auto).
  exists cs. split; [exact O2|]. apply (frame_cursors f d cs); [split; assumption|exact O2].
Qed.
Lemma ops_first f c l : ops_of f (c :: l) -> next (cursor_of f) = NOk c.
Proof. intros (e & d & R & _). exact (run_first _ _ _ _ R). Qed.
Lemma float_starts s : float_like s -> exists x t, s = x :: t /\ is_dec x.
Proof. intros (a & e & b & -> & NE & F & _). destruct a as [|x a]; [contradiction|]. inversion F; subst. exists x, (a ++ e :: b). auto. Qed.
Definition starts_dec (s : bytes) : bool := match s with x :: _ => (48 <=? x) && (x <=? 57) | [] => false end.
Lemma not_float s : starts_dec s = false -> ~ float_like s.
Proof.
  intros E F. apply float_starts in F as (x & t & -> & D). cbn [starts_dec] in E. unfold is_dec in D. apply andb_false_iff in E. destruct E as [E|E]; apply N.leb_gt in E; lia.
Qed.
Lemma type_value u : uuid2form u <> ZERO_RAW_FORM -> uuid2form u <> ERROR_NO_FORM -> value_id u /\ uuid2form u < 256.
Proof.
  intros NZ NE. unfold uuid2form in *. destruct (find_form FORMS 0 u) as [i|] eqn:E; [|destruct (uuid_eqb u FATAL); contradiction].
  assert (G : forall l j i, find_form l j u = Some i -> j <= i < j + N.of_nat (length l) /\ exists w, In w l /\ u = mkUuid w 0).
  { clear. induction l as [|w l IH]; intros j i E; [discriminate|]. cbn [find_form] in E. destruct (uuid_eqb u (mkUuid w 0)) eqn:Q.
    - injection E as <-. apply uuid_eqb_eq in Q. cbn [length]. split; [lia|]. exists w. split; [left; reflexivity|exact Q].
    - destruct (IH _ _ E) as (A & w' & I & EQ). cbn [length]. split; [lia|]. exists w'. split; [right; exact I|exact EQ]. }
  destruct (G _ _ _ E) as (LI & w & I & ->). change (N.of_nat (length FORMS)) with 20 in LI. split; [|lia].
  assert (K : forallb (fun w => (w <? 2 ^ 64) && negb (starts_dec (write_uuid (mkUuid w 0)))) FORMS = true) by (vm_compute; reflexivity).
  rewrite forallb_forall in K. specialize (K w I). apply andb_prop in K as [K1 K2]. apply N.ltb_lt in K1. apply negb_true_iff in K2.
  split; [|apply not_float; exact K2]. split; [split; [exact K1|reflexivity]|reflexivity].
Qed.

(* ---- what is known of the stored chains ---- *)
Definition own_form (f : N) : Prop := f < 256 /\ (f < LOG_RAW_FORM \/ META_META_FORM < f).
Definition sound (U : list uop) : Prop := mergeable U /\ calm U.
Definition good (U : list uop) (H : list chain) : Prop :=
  Forall proper H /\ Forall canonical (flat_map ch_ops H) /\ in_turn (says_ops H) /\
  (forall h c, In h H -> In c (ch_ops h) -> belongs (says_ops H) (opof c) (ch_obj h) (ch_rdt h)) /\
  Forall (fun h => value_id (ch_rdt h) /\ own_form (uuid2form (ch_rdt h))) H /\ incl (says_ops H) U.
Definition fits (fuel : nat) (H : list chain) : Prop :=
  forall k, key_form k = LOG_RAW_FORM -> keep_bound fuel (says_ops (filed k H)) [] /\ spanless (says_ops (filed k H)).
Definition logkey (h : chain) : key := key_of (ch_obj h) LOG_RAW_FORM.
Definition statekey (h : chain) : key := key_as (ch_obj h) (ch_rdt h).
(* the records of the branch: the tip's and those of the chains *)
Definition base (d : family) (H : list chain) : Prop :=
  in_order d /\
  (forall k, In k (map fst d) <-> k = KEY_ZERO \/ exists h, In h H /\ In k [meta_key (ch_id h); logkey h; statekey h]) /\
  (forall k, key_form k = LOG_RAW_FORM -> log_at d k (says_ops (filed k H))) /\
  (forall h, In h H -> exists t, state_at d (meta_key (ch_id h)) [rec_op (ch_id h) (ch_obj h) (ch_rdt h) t] /\
     uop_ok (rec_op (ch_id h) (ch_obj h) (ch_rdt h) t) /\ (length t <= 44)%nat).

Lemma head_in h : In (ch_head h) (ch_ops h). Proof. left. reflexivity. Qed.
Lemma op_ids U H h c : sound U -> good U H -> In h H -> In c (ch_ops h) ->
  In (opof c) (says_ops H) /\ uorigin (text_id c) = uorigin (ch_id h) /\ version (text_id c) = TIME /\ id_ok (text_id c) /\ uvalue (text_id c) < NEVER_W /\ key_id_ok (text_id c).
Proof.
  intros [M [CA _]] (PR & CN & _ & _ & _ & IN) IH IC. rewrite Forall_forall in PR. destruct (PR h IH) as (V & L & _).
  assert (I : In (opof c) (says_ops H)) by (apply says_in; eauto). pose proof (linked_origins _ _ _ L IC) as O. fold (ch_id h) in O.
  assert (VT : version (text_id c) = TIME) by (rewrite <- V; apply version_origin; exact O).
  specialize (IN _ I). destruct M as [UO _]. rewrite Forall_forall in UO, CA. destruct (UO _ IN) as [ID _]. specialize (CA _ IN). cbn beta in CA. rewrite opof_id in *.
  split; [exact I|]. split; [exact O|]. split; [exact VT|]. split; [exact ID|]. split; [exact CA|]. apply time_key; [exact ID|exact VT|lia].
Qed.
Lemma obj_ids U H h : sound U -> good U H -> In h H ->
  key_id_ok (ch_obj h) /\ value_id (ch_obj h) /\ exists h' c, In h' H /\ In c (ch_ops h') /\ text_id c = ch_obj h /\ text_ref c = ch_rdt h /\ version (ch_rdt h) = NAME.
Proof.
  intros SU G IH. pose proof G as (_ & _ & _ & BL & _ & IN). destruct (belongs_root _ _ _ _ (BL h (ch_head h) IH (head_in h))) as (r & IR & E1 & E2 & VN).
  apply says_in in IR as (h' & c & IH' & IC & ->). rewrite opof_id, opof_ref in *. destruct (op_ids U H h' c SU G IH' IC) as (I & _ & _ & ID & _ & K).
  rewrite <- E1. split; [exact K|]. split; [|exists h', c; rewrite E1, E2; auto 6]. split; [exact ID|]. destruct SU as [_ [_ CT]]. rewrite Forall_forall in CT.
  specialize (CT _ (IN _ I)). rewrite opof_id, opof_ref, E2 in CT. apply CT. exact VN.
Qed.
Lemma obj_type U H h h' : sound U -> good U H -> In h H -> In h' H -> ch_obj h = ch_obj h' -> ch_rdt h = ch_rdt h'.
Proof.
  intros _ (_ & _ & IT & BL & _) I I' E. pose proof (BL h _ I (head_in h)) as B1. pose proof (BL h' _ I' (head_in h')) as B2. rewrite E in B1.
  eapply belongs_type; [apply in_turn_nodup; exact IT|exact B1|exact B2].
Qed.
Lemma form_of_log h : key_form (logkey h) = LOG_RAW_FORM.
Proof. apply key_form_of. reflexivity. Qed.
Lemma form_of_state h : own_form (uuid2form (ch_rdt h)) -> key_form (statekey h) = uuid2form (ch_rdt h).
Proof. intros [A _]. apply key_form_of. exact A. Qed.
(* the chains in a log *)
Lemma filed_filter U H k : good U H -> key_form k = LOG_RAW_FORM -> filed k H = filter (fun h => key_eqb (logkey h) k) H.
Proof.
  intros (_ & _ & _ & _ & TY & _) FK. clear -TY FK. induction H as [|h H IH]; [reflexivity|]. inversion TY as [|? ? [_ T1] T2]; subst.
  change (filed k (h :: H)) with (filed k ([h] ++ H)). rewrite filed_app, (IH T2). cbn [filter]. unfold filed. cbn [flat_map]. rewrite app_nil_r.
  assert (E : key_eqb (key_as (ch_obj h) (ch_rdt h)) k = false).
  { apply key_eqb_neq. intro Q. pose proof (form_of_state h T1) as FS. unfold statekey in FS. rewrite Q, FK in FS. destruct T1 as [_ T1]. rewrite <- FS in T1. unfold LOG_RAW_FORM, META_META_FORM in T1. lia. }
  rewrite E, app_nil_r. unfold logkey. destruct (key_eqb (key_of (ch_obj h) LOG_RAW_FORM) k); reflexivity.
Qed.
Lemma filter_turn p H : in_turn (says_ops H) -> in_turn (says_ops (filter p H)).
Proof.
  induction H as [|h H IH]; intro T; [exact T|]. change (h :: H) with ([h] ++ H) in T. rewrite says_app in T. apply in_turn_app in T as (T1 & T2 & T3). specialize (IH T2).
  cbn [filter]. destruct (p h); [|exact IH]. change (h :: filter p H) with ([h] ++ filter p H). rewrite says_app. apply in_turn_app. split; [exact T1|]. split; [exact IH|].
  intros u v I J. apply T3; [exact I|]. apply says_in in J as (h' & c & J1 & J2 & ->). apply filter_In in J1 as [J1 _]. apply says_in. eauto.
Qed.

(* ---- reading the records ---- *)
Lemma uuids_at c x y t : skipn 2 (c_op c) <> [] -> r_vals (rop_of c) = [VUuid x; VUuid y; t] -> uuid_at c 2 = Some x /\ uuid_at c 3 = Some y.
Proof.
  intros _ R3. unfold rop_of in R3. cbn [r_vals] in R3. unfold uuid_at.
  destruct (c_op c) as [|a0 [|a1 [|a2 [|a3 l]]]]; try discriminate R3. cbn [skipn map] in R3. cbn [nth_error].
  assert (Q2 : value_of (c_buf c) a2 = VUuid x) by congruence. assert (Q3 : value_of (c_buf c) a3 = VUuid y) by congruence.
  destruct a2; cbn [value_of] in Q2; try discriminate Q2. destruct a3; cbn [value_of] in Q3; try discriminate Q3.
  injection Q2 as ->. injection Q3 as ->. auto.
Qed.
Lemma record_uuids c id obj rdt t : opof c = rec_op id obj rdt t -> text_id c = id /\ text_ref c = META_FORM_UUID /\ uuid_at c 2 = Some obj /\ uuid_at c 3 = Some rdt.
Proof.
  intro E. pose proof (f_equal u_id E) as E1. pose proof (f_equal u_ref E) as E2. pose proof (f_equal u_vals E) as E3. change (text_id c = id) in E1. change (text_ref c = META_FORM_UUID) in E2.
  change (r_vals (rop_of c) = [VUuid obj; VUuid rdt; VStr (Some t)]) in E3. split; [exact E1|]. split; [exact E2|]. apply (uuids_at c obj rdt (VStr (Some t))); [|exact E3].
  intro Q. unfold rop_of in E3. cbn [r_vals] in E3. rewrite Q in E3. discriminate.
Qed.
Lemma record_mergeable u : uop_ok u -> uvalue (u_id u) < 2 ^ 64 - 1 -> u_ref u = META_FORM_UUID -> u_id u <> inc NIL -> mergeable [u].
Proof.
  intros OK LV RM NI. split; [constructor; [exact OK|constructor]|]. split; [intros a b [<-|[]] [<-|[]] _; reflexivity|].
  assert (N1 : forall a b : uop, In a [origin_op; u] -> In b [u] -> u_id b = inc (u_id a) -> False).
  { intros a b [<-|[<-|[]]] [<-|[]] E; [exact (NI E)|]. pose proof (inc_gt (u_id u) LV) as G. rewrite <- E in G. rewrite uuid_ltb_irrefl in G. discriminate. }
  split; [intros a b I J E; exfalso; exact (N1 a b I J E)|].
  assert (N2 : forall a b : uop, In a [origin_op; u] -> In b [u] -> continues a b = false).
  { intros a b I J. destruct (continues a b) eqn:C; [|reflexivity]. exfalso. unfold continues in C. apply andb_prop in C as [C _]. apply andb_prop in C as [C _]. apply uuid_eqb_eq in C. exact (N1 a b I J C). }
  split; [intros a b I J C; rewrite (N2 a b (or_intror I) J) in C; discriminate|]. intros b J. apply N2; [left; reflexivity|exact J].
Qed.
Lemma tip_ok_time U H h : sound U -> good U H -> In h H -> tip_ok (ch_id h).
Proof.
  intros SU G I. destruct (op_ids U H h _ SU G I (head_in h)) as (_ & _ & V & ID & _). apply time_tip; assumption.
Qed.
Lemma filed_ops U H h : sound U -> good U H -> In h H ->
  forall h', In h' (filed (logkey h) H) <-> In h' H /\ ch_obj h' = ch_obj h.
Proof.
  intros SU G I h'. rewrite (filed_filter U H _ G (form_of_log h)), filter_In. split; intros [A B]; (split; [exact A|]).
  - apply key_eqb_eq in B. destruct (obj_ids U H h SU G I) as (K & _). destruct (obj_ids U H h' SU G A) as (K' & _).
    destruct (key_inj _ _ LOG_RAW_FORM LOG_RAW_FORM K' K ltac:(reflexivity) ltac:(reflexivity) B) as [Q _]. exact Q.
  - unfold logkey. rewrite B. apply key_eqb_refl.
Qed.

Lemma chain_subl h H : In h H -> subl (as_ops (ch_ops h)) (says_ops H).
Proof.
  intro I. apply in_split in I as (A & B & ->). rewrite says_app. change (as_ops (ch_ops h)) with ([] ++ as_ops (ch_ops h)). apply subl_app; [apply subl_nil|]. change (h :: B) with ([h] ++ B). rewrite says_app, says_one.
  rewrite <- (app_nil_r (as_ops (ch_ops h))) at 1. apply subl_app; [apply subl_refl|apply subl_nil].
Qed.
Lemma linked_last cs : forall c x, linked c cs -> In x (c :: cs) -> uuid_ltb (text_id (last cs c)) (text_id x) = false.
Proof.
  induction cs as [|d r IH]; intros c x L I.
  - destruct I as [<-|[]]. apply uuid_ltb_irrefl.
  - destruct L as (L1 & L2 & L3 & L4). assert (E : last (d :: r) c = last r d) by (clear; revert d; induction r as [|z r IH]; intro d; [reflexivity|cbn [last] in *; destruct r; [reflexivity|apply IH]]).
    rewrite E. destruct I as [<-|I]; [|apply IH; assumption]. destruct (uuid_ltb (text_id (last r d)) (text_id c)) eqn:Q; [|reflexivity]. exfalso.
    specialize (IH d d L4 (or_introl eq_refl)). pose proof (uuid_ltb_trans _ _ _ Q L2) as Q2. congruence.
Qed.
Lemma subl_after {T} (x : T) r l1 l2 : subl (x :: r) (l1 ++ x :: l2) -> ~ In x l1 -> subl r l2.
Proof.
  induction l1 as [|y l1 IH]; intros S1 NI; cbn [app] in S1.
  - assert (K : subl (x :: r) l2 \/ subl r l2) by (inversion S1; subst; auto). destruct K as [K|K]; [|exact K]. eapply subl_trans; [exact K|]. apply subl_skip, subl_refl.
  - apply IH; [|intro J; apply NI; right; exact J]. inversion S1; subst; [assumption|]. exfalso. apply NI. left. reflexivity.
Qed.

Section Reads.
Variable fbits : bytes -> N.
Variable fuel : nat.
Notation b_jread := (b_jread fbits fuel).
Notation b_jprev := (b_jprev fbits fuel).
Notation rread := (rocks_read fbits fuel).

Lemma jread_found d k d' w' f s : b_jread d [] k = Done (d', w', f, s) -> s <> RNotFound.
Proof.
  intro J. unfold BranchModel.b_jread in J. apply rbind_done in J as ([fa sa] & R & J).
  destruct sa; try (injection J as _ _ _ <-; discriminate).
  assert (E : read bytes [] (merge_as fbits fuel) [] k [] = Done ([], [], StOK)) by reflexivity. rewrite E in J. cbn [rbind blank] in J.
  destruct fa as [|x fa]; cbn [blank] in J; injection J as _ _ _ <-; discriminate.
Qed.
Lemma jprev_found d w k f s : b_jprev d w k = Done (f, s) -> s <> RNotFound.
Proof.
  intro J. unfold BranchModel.b_jprev in J. apply rbind_done in J as ([ia sa] & SK & J). destruct sa; try (injection J as _ <-; discriminate).
  cbv zeta in J. apply rbind_done in J as (kb & _ & J).
  match type of J with (if ?b then _ else _) = _ => destruct b end; [apply rbind_done in J as (x & _ & J); injection J as _ <-; discriminate|].
  match type of J with (if ?b then _ else _) = _ => destruct b end; [apply rbind_done in J as (x & _ & J); injection J as _ <-; discriminate|].
  apply rbind_done in J as (fa & _ & J). apply rbind_done in J as (fb & _ & J). apply rbind_done in J as ([r st] & _ & J).
  destruct st; [injection J as _ <-; discriminate|..];
  (match type of J with match ?o with _ => _ end = _ => destruct o; [injection J as _ <-; discriminate|discriminate] end).
Qed.

(* the log of an object *)
Lemma log_cell d k W : key_form k = LOG_RAW_FORM -> log_at d k W -> keep_bound fuel W [] -> spanless W -> W <> [] ->
  exists text L, cell_get fbits fuel k (cell_at d k) = Done (GValue text) /\ ops_of text L /\ as_ops L = W.
Proof.
  intros FK LA KB SP NE. apply log_inv_at in LA as (ds & LI & E). subst W.
  destruct (log_get_small fbits fuel k FK (cell_at d k) ds LI (log_of_keep fuel ds KB SP)) as (text & ops & G & FL & EO & SM).
  { intro Q. destruct LI as (es & F2 & E2). rewrite Q in F2. inversion F2; subst. apply NE. rewrite <- E2. reflexivity. }
  destruct (frame_ops text ops (conj FL SM)) as (L & OL & ML & _). exists text, L. split; [exact G|]. split; [exact OL|].
  unfold as_ops. rewrite <- map_map with (f := rop_of) (g := bare), ML. exact EO.
Qed.
Lemma key_not_end k f : key_form k = f -> f <> key_form KEY_END -> k <> KEY_END.
Proof. intros A B ->. apply B. symmetry. exact A. Qed.
Lemma says_filed H h : In h H -> says_ops (filed (logkey h) H) <> [].
Proof.
  intros I Q. pose proof (filed_log h H I) as J. assert (K : In (opof (ch_head h)) (says_ops (filed (logkey h) H))) by (apply says_in; exists h, (ch_head h); split; [exact J|split; [apply head_in|reflexivity]]).
  rewrite Q in K. destruct K.
Qed.
Lemma read_log U d H h : sound U -> good U H -> base d H -> fits fuel H -> In h H ->
  exists log L, rread d (logkey h) = Done (log, KOk) /\ ops_of log L /\ as_ops L = says_ops (filed (logkey h) H).
Proof.
  intros SU G (IO & KS & LG & _) FT I. destruct (FT (logkey h) (form_of_log h)) as [KB SP].
  destruct (log_cell d (logkey h) _ (form_of_log h) (LG _ (form_of_log h)) KB SP (says_filed H h I)) as (text & L & CG & OL & EL).
  exists text, L. split; [|auto]. apply read_of; [|exact CG]. apply (key_not_end _ LOG_RAW_FORM); [apply form_of_log|intro Q; vm_compute in Q; discriminate Q].
Qed.
(* the record of a chain *)
Lemma record_cell U d H h : (1 <= fuel)%nat -> sound U -> good U H -> base d H -> In h H ->
  exists text c t, cell_get fbits fuel (meta_key (ch_id h)) (cell_at d (meta_key (ch_id h))) = Done (GValue text) /\
    next (cursor_of text) = NOk c /\ opof c = rec_op (ch_id h) (ch_obj h) (ch_rdt h) t.
Proof.
  intros F1 SU G (_ & _ & _ & MT) I. destruct (MT h I) as (t & SA & UO & LT). set (u := rec_op (ch_id h) (ch_obj h) (ch_rdt h) t) in *.
  apply union_inv_at in SA as (ds & UI & ED). destruct (op_ids U H h _ SU G I (head_in h)) as (_ & _ & VT & ID & NV & K). fold (ch_id h) in VT, ID, NV, K.
  destruct (tip_ok_time U H h SU G I) as [_ NI].
  assert (MG : mergeable [u]).
  { apply record_mergeable; [exact UO| |reflexivity|exact NI]. cbn [u_id u rec_op]. change (2 ^ 64 - 1) with 18446744073709551615. assert (NEVER_W < 18446744073709551615) by reflexivity. lia. }
  assert (RM : (room [u] <= 1000)%nat).
  { unfold room, u, rec_op. cbn. lia. }
  assert (UB : union_bound fuel ds).
  { unfold union_bound. rewrite ED. assert (LD : length (concat ds) = 1%nat) by (rewrite <- (map_length bare), ED; reflexivity). rewrite LD.
    split; [exact MG|]. split; [exact F1|]. split; [reflexivity|]. change (2 ^ 32) with 4294967296. lia. }
  assert (NDS : ds <> []) by (intros ->; discriminate ED).
  destruct (union_get_small fbits fuel (meta_key (ch_id h))) with (c := cell_at d (meta_key (ch_id h))) (W := ds) as (text & us & CG & FL & INC & IU & SM & LU & _); [rewrite meta_key_form; cbn; auto|exact UI|exact UB|exact NDS| |].
  { intro Q. destruct UI as (es & SY & _). unfold RocksProofs.says in SY. destruct SY as (F2 & SE & _). rewrite Q in F2. inversion F2; subst.
    specialize (SE u). rewrite ED in SE. destruct SE as [_ SE]. destruct (SE (or_introl eq_refl)). }
  rewrite ED in IU. assert (EU : us = [u]).
  { assert (LD : length (concat ds) = 1%nat) by (rewrite <- (map_length bare), ED; reflexivity). rewrite LD in LU. assert (J : In u us) by (apply IU; left; reflexivity).
    destruct us as [|x [|y l]]; [destruct J| |cbn in LU; lia]. destruct J as [->|[]]. reflexivity. }
  subst us. destruct (frame_ops text (chunk_of [u]) (conj FL SM)) as (L & OL & ML & _).
  destruct L as [|c L]; [discriminate ML|]. exists text, c, t. split; [exact CG|]. split; [exact (ops_first _ _ _ OL)|].
  cbn [map] in ML. assert (Q : rop_of c = hd (rop_of c) (chunk_of [u])) by (rewrite <- ML; reflexivity). unfold opof. rewrite Q. reflexivity.
Qed.

Lemma fuel_one H : H <> [] -> fits fuel H -> (1 <= fuel)%nat.
Proof. intros NE FT. destruct H as [|h H]; [contradiction|]. destruct (FT (logkey h) (form_of_log h)) as [(_ & L & _) _]. lia. Qed.
Lemma key_before_end u : key_id_ok u -> key_lt (meta_key u) KEY_END.
Proof.
  intros K. destruct (key_total (meta_key u) KEY_END) as [L|[E|L]]; [exact L| |exfalso; refine (key_end_max _ _ L); rewrite meta_key_eq; apply key_of_bounds; reflexivity].
  exfalso. apply (key_not_end _ META_META_FORM (meta_key_form u)); [intro Q; vm_compute in Q; discriminate Q|exact E].
Qed.
(* the record at or before an id: that of the last chain up to it, if any *)
Definition landing (H : list chain) (id : uuid) (c : cursor) : Prop :=
  (exists h t, In h H /\ opof c = rec_op (ch_id h) (ch_obj h) (ch_rdt h) t /\ ~ key_lt (meta_key id) (meta_key (ch_id h)) /\
     forall h', In h' H -> ~ key_lt (meta_key id) (meta_key (ch_id h')) -> ~ key_lt (meta_key (ch_id h)) (meta_key (ch_id h'))) \/
  (text_ref c <> META_FORM_UUID /\ forall h', In h' H -> key_lt (meta_key id) (meta_key (ch_id h'))).
Lemma land U d H id f : sound U -> good U H -> base d H -> fits fuel H -> H <> [] -> key_id_ok id -> b_jprev d [] (meta_key id) = Done (f, ROk) ->
  exists c, next (cursor_of f) = NOk c /\ landing H id c.
Proof.
  intros SU G B FT NE K J. pose proof B as (IO & KS & LG & MT).
  destruct (jprev_bare fbits fuel d (meta_key id) f ROk IO) as (k & g & IK & LE & MX & CG & EF); [apply KS; left; reflexivity|apply key_before_end; exact K|exact J|reflexivity|].
  assert (FL : forall h, In h H -> ~ key_lt k (logkey h)).
  { intros h I. apply MX; [apply KS; right; exists h; split; [exact I|right; left; reflexivity]|].
    destruct (obj_ids U H h SU G I) as (KO & _). intro Q. rewrite meta_key_eq in Q. exact (key_lt_irrefl _ (key_lt_trans _ _ _ Q (form_key_lt (ch_obj h) id LOG_RAW_FORM META_META_FORM KO K ltac:(reflexivity) ltac:(reflexivity) ltac:(reflexivity)))). }
  apply KS in IK. destruct IK as [->|(h & I & IK)].
  { exfalso. destruct H as [|h H]; [contradiction|]. apply (FL h (or_introl eq_refl)). destruct (key_total KEY_ZERO (logkey h)) as [L|[E|L]]; [exact L| |exfalso; exact (key_zero_min _ L)].
    exfalso. pose proof (form_of_log h) as Q. rewrite <- E in Q. vm_compute in Q. discriminate Q. }
  destruct IK as [<-|[<-|[<-|[]]]].
  - destruct (record_cell U d H h (fuel_one H NE FT) SU G B I) as (text & c & t & CG' & N & E). rewrite CG in CG'. injection CG' as ->. subst f.
    exists c. split; [exact N|]. left. exists h, t. split; [exact I|]. split; [exact E|]. split; [exact LE|]. intros h' I' L'. apply MX; [|exact L'].
    apply KS. right. exists h'. split; [exact I'|left; reflexivity].
  - destruct (FT (logkey h) (form_of_log h)) as [KB SP].
    destruct (log_cell d (logkey h) _ (form_of_log h) (LG _ (form_of_log h)) KB SP (says_filed H h I)) as (text & L & CG' & OL & EL).
    rewrite CG in CG'. injection CG' as ->. subst f. pose proof (says_filed H h I) as NS. rewrite <- EL in NS. destruct L as [|c L]; [contradiction|]. exists c. split; [exact (ops_first _ _ _ OL)|]. right. split.
    + assert (IC : In (opof c) (says_ops (filed (logkey h) H))) by (rewrite <- EL; left; reflexivity). apply says_in in IC as (h1 & c1 & I1 & IC & EC).
      apply filed_in in I1. pose proof G as (_ & _ & _ & BL & TY & _). pose proof (BL h1 c1 I1 IC) as BC. rewrite <- EC in BC. rewrite Forall_forall in TY. destruct (TY h1 I1) as [_ [_ OF]].
      intro Q. change (u_ref (opof c) = META_FORM_UUID) in Q. destruct BC as [u _ V|u v obj rdt _ V _ _].
      * rewrite Q in OF. assert (E8 : uuid2form META_FORM_UUID = META_META_FORM) by (vm_compute; reflexivity). rewrite E8 in OF. unfold LOG_RAW_FORM, META_META_FORM in OF. lia.
      * rewrite Q in V. vm_compute in V. discriminate V.
    + intros h' I'. destruct (obj_ids U H h SU G I) as (KO & _). destruct (op_ids U H h' _ SU G I' (head_in h')) as (_ & _ & _ & _ & _ & KH).
      destruct (key_total (meta_key id) (meta_key (ch_id h'))) as [Q|Q]; [exact Q|]. exfalso. apply (MX (meta_key (ch_id h'))).
      * apply KS. right. exists h'. split; [exact I'|left; reflexivity].
      * destruct Q as [<-|Q]; [apply key_lt_irrefl|]. intro Q2. exact (key_lt_irrefl _ (key_lt_trans _ _ _ Q Q2)).
      * rewrite meta_key_eq. apply form_key_lt; [exact KO|exact KH|reflexivity|reflexivity|reflexivity].
  - exfalso. destruct (obj_ids U H h SU G I) as (KO & _). pose proof G as (_ & _ & _ & _ & TY & _). rewrite Forall_forall in TY. destruct (TY h I) as [_ [OF1 [OF|OF]]].
    + apply (FL h I). apply form_key_lt; [exact KO|exact KO|exact OF1|reflexivity|exact OF].
    + apply LE. rewrite meta_key_eq. apply form_key_lt; [exact K|exact KO|reflexivity|exact OF1|exact OF].
Qed.
(* What is read from the two stores, if they hold the chains H: the record at or
   before an id; the log of an object, in which the order is kept within each
   chain, and for the yarns fresh in full. *)
Definition sees (fresh : N -> Prop) (m : family) (w : mem) (H : list chain) : Prop :=
  (forall id f c, key_id_ok id -> b_jprev m w (meta_key id) = Done (f, ROk) -> next (cursor_of f) = NOk c -> landing H id c) /\
  (forall h, In h H -> exists m' w' log L, b_jread m w (logkey h) = Done (m', w', log, ROk) /\ ops_of log L /\
     Permutation (as_ops L) (says_ops (filed (logkey h) H)) /\ (forall h', In h' (filed (logkey h) H) -> subl (as_ops (ch_ops h')) (as_ops L)) /\
     forall y, fresh y -> filter (of_yarn y) (as_ops L) = filter (of_yarn y) (says_ops (filed (logkey h) H))).
Lemma sees_bare U d H fresh : sound U -> good U H -> base d H -> fits fuel H -> H <> [] -> sees fresh d [] H.
Proof.
  intros SU G B FT NE. split.
  - intros id f c K J N. destruct (land U d H id f SU G B FT NE K J) as (c' & N' & L). rewrite N in N'. injection N' as <-. exact L.
  - intros h I. destruct (read_log U d H h SU G B FT I) as (log & L & RD & OL & EL). exists d, [], log, L.
    split; [|split; [exact OL|split; [rewrite EL; apply Permutation_refl|split; [intros h' I'; rewrite EL; apply chain_subl; exact I'|intros y _; rewrite EL; reflexivity]]]].
    unfold BranchModel.b_jread. rewrite RD. cbn [rbind]. assert (E : read bytes [] (merge_as fbits fuel) [] (logkey h) [] = Done ([], [], StOK)) by reflexivity. rewrite E. cbn [rbind blank].
    destruct log as [|x log]; cbn [blank]; reflexivity.
Qed.
Lemma ops_same log L L' : ops_of log L -> ops_of log L' -> L' = L.
Proof.
  intros OL OL'. destruct OL as (e1 & d1 & R1 & S1). destruct OL' as (e2 & d2 & R2 & S2). destruct (ops_prefix _ _ _ _ R1 (ex_intro _ e2 (ex_intro _ d2 (conj R2 S2)))) as (r1 & E1).
  destruct (ops_prefix _ _ _ _ R2 (ex_intro _ e1 (ex_intro _ d1 (conj R1 S1)))) as (r2 & E2). rewrite E1 in E2. rewrite <- app_assoc in E2.
  assert (r1 ++ r2 = []) as Q. { apply (app_inv_head L). rewrite app_nil_r. symmetry. exact E2. } apply app_eq_nil in Q as [-> _]. rewrite app_nil_r in E1. exact E1.
Qed.
(* a chain and the last one of its yarn up to an id *)
Lemma before_chain fresh U m w H id head obj rdt : sound U -> good U H -> sees fresh m w H -> key_id_ok id ->
  record_before family b_jprev m w id head obj rdt ->
  exists h, In h H /\ ch_id h = head /\ ch_obj h = obj /\ ch_rdt h = rdt /\ uorigin (ch_id h) = uorigin id /\ uvalue (ch_id h) <= uvalue id /\
    forall h', In h' H -> uorigin (ch_id h') = uorigin id -> uvalue (ch_id h') <= uvalue id -> uvalue (ch_id h') <= uvalue (ch_id h).
Proof.
  intros SU G [SL _] K (f & c & J & N & <- & UO & RF & U2 & U3). destruct (SL id f c K J N) as [(h & t & I & E & LE & MX)|[NM _]].
  - apply record_uuids in E as (E1 & _ & E2 & E3). destruct (op_ids U H h _ SU G I (head_in h)) as (_ & _ & _ & _ & _ & KH).
    fold (ch_id h) in KH. exists h. rewrite U2 in E2. injection E2 as ->. rewrite U3 in E3. injection E3 as ->. rewrite E1 in UO. split; [exact I|]. split; [congruence|]. do 2 (split; [reflexivity|]).
    split; [exact UO|]. rewrite (meta_key_lt _ _ K KH) in LE. split; [lia|]. intros h' I' O' V'. destruct (op_ids U H h' _ SU G I' (head_in h')) as (_ & _ & _ & _ & _ & KH'). fold (ch_id h') in KH'.
    specialize (MX h' I'). rewrite (meta_key_lt _ _ K KH'), (meta_key_lt _ _ KH KH') in MX. lia.
  - exfalso. contradiction.
Qed.

(* the chain with no later one in its yarn *)
Definition topmost (H : list chain) (h : chain) : Prop :=
  In h H /\ forall h', In h' H -> uorigin (ch_id h') = uorigin (ch_id h) -> uvalue (ch_id h') <= uvalue (ch_id h).
Lemma ops_upto h c : linked (ch_head h) (ch_rest h) -> In c (ch_ops h) -> uuid_ltb (ch_tip h) (text_id c) = false.
Proof.
  unfold ch_ops, ch_tip. revert c. generalize (ch_head h). induction (ch_rest h) as [|d r IH]; intros c0 c L I.
  - destruct I as [<-|[]]. apply uuid_ltb_irrefl.
  - destruct L as (L1 & L2 & L3 & L4). assert (E : last (d :: r) c0 = last r d) by (clear; revert d; induction r as [|x r IH]; intro d; [reflexivity|cbn [last] in *; destruct r; [reflexivity|apply IH]]).
    rewrite E. destruct I as [<-|I]; [|apply IH; assumption]. destruct (uuid_ltb (text_id (last r d)) (text_id c0)) eqn:Q; [|reflexivity]. exfalso.
    specialize (IH d d L4 (or_introl eq_refl)). pose proof (uuid_ltb_trans _ _ _ Q L2) as Q2. congruence.
Qed.
Lemma topmost_last U H h : sound U -> good U H -> topmost H h ->
  (forall u, In u (says_ops H) -> uorigin (u_id u) = uorigin (ch_id h) -> uuid_ltb (ch_tip h) (u_id u) = false) /\
  exists X Y, filed (logkey h) H = X ++ h :: Y /\ forall u, In u (says_ops Y) -> uorigin (u_id u) <> uorigin (ch_id h).
Proof.
  intros SU G [I MX]. pose proof G as (PR & _ & IT & _). assert (PH : forall h', In h' H -> linked (ch_head h') (ch_rest h')) by (intros h' I'; rewrite Forall_forall in PR; destruct (PR h' I') as (_ & L & _); exact L).
  assert (AFT : forall A B, in_turn (says_ops (A ++ h :: B)) -> incl B H -> forall u, In u (says_ops B) -> uorigin (u_id u) <> uorigin (ch_id h)).
  { intros A B T IB u IU O. rewrite says_app in T. apply in_turn_app in T as (_ & T & _). change (h :: B) with ([h] ++ B) in T. rewrite says_app in T. apply in_turn_app in T as (_ & _ & T).
    apply says_in in IU as (h' & c & J & IC & ->). rewrite opof_id in O. pose proof (linked_origins _ _ _ (PH h' (IB _ J)) IC) as O2. fold (ch_id h') in O2.
    assert (TT : turn (opof (ch_head h)) (opof (ch_head h'))).
    { apply T; apply says_in; [exists h, (ch_head h)|exists h', (ch_head h')]; (split; [|split; [apply head_in|reflexivity]]); [left; reflexivity|exact J]. }
    unfold turn in TT. rewrite !opof_id in TT. fold (ch_id h) (ch_id h') in TT. rewrite uuid_lt_value in TT by congruence. specialize (MX h' (IB _ J) ltac:(congruence)). specialize (TT ltac:(congruence)). lia. }
  split.
  - intros u IU O. apply in_split in I as (A & B & EH). rewrite EH in IU. rewrite says_app in IU. apply in_app_iff in IU. pose proof IT as T. rewrite EH in T. destruct IU as [IU|IU].
    + rewrite says_app in T. apply in_turn_app in T as (_ & _ & T).
      assert (TT : turn u (opof (ch_head h))) by (apply T; [exact IU|apply says_in; exists h, (ch_head h); split; [left; reflexivity|split; [apply head_in|reflexivity]]]).
      specialize (TT O). rewrite opof_id in TT. assert (LH : linked (ch_head h) (ch_rest h)) by (apply PH; rewrite EH; apply in_or_app; right; left; reflexivity).
      pose proof (ops_upto h (ch_head h) LH (head_in h)) as Q. apply uuid_ltb_asym. exact (uuid_lt_le_trans _ _ _ TT Q).
    + change (h :: B) with ([h] ++ B) in IU. rewrite says_app in IU. apply in_app_iff in IU. destruct IU as [IU|IU].
      * apply says_in in IU as (h' & c & [<-|[]] & IC & ->). rewrite opof_id. apply ops_upto; [|exact IC]. apply PH. rewrite EH. apply in_or_app. right. left. reflexivity.
      * exfalso. refine (AFT A B T _ u IU O). intros x J. rewrite EH. apply in_or_app. right. right. exact J.
  - pose proof (filed_log h H I) as J. apply in_split in J as (X & Y & E). exists X, Y. split; [exact E|]. intros u IU. apply (AFT X Y); [|intros x J; apply (filed_in (logkey h)); unfold logkey; rewrite E; apply in_or_app; right; right; exact J|exact IU].
    rewrite <- E. change (key_of (ch_obj h) LOG_RAW_FORM) with (logkey h). rewrite (filed_filter U H _ G (form_of_log h)). apply filter_turn. exact IT.
Qed.
Lemma last_as l : forall c l' c', as_ops (c :: l) = as_ops (c' :: l') -> text_id (last l c) = text_id (last l' c').
Proof.
  induction l as [|d l IH]; intros c l' c' E; destruct l' as [|d' l']; try discriminate E.
  - exact (f_equal u_id (f_equal (hd (opof c)) E)).
  - pose proof (f_equal (@tl uop) E) as Eb. change (as_ops (d :: l) = as_ops (d' :: l')) in Eb.
    assert (K : forall (x y : cursor) r, last (x :: r) y = last r x) by (intros x y r; clear; revert x; induction r as [|z r IH]; intro x; [reflexivity|cbn [last] in *; destruct r; [reflexivity|apply IH]]).
    rewrite !K. apply IH. exact Eb.
Qed.
(* from the head of the topmost chain, the log leads to its last event *)
Lemma walk_top U H h L : sound U -> good U H -> topmost H h -> Permutation (as_ops L) (says_ops (filed (logkey h) H)) ->
  filter (of_yarn (uorigin (ch_id h))) (as_ops L) = filter (of_yarn (uorigin (ch_id h))) (says_ops (filed (logkey h) H)) ->
  (exists l1 c l2, L = l1 ++ c :: l2 /\ text_id c = ch_id h) /\
  (forall l1 c l2, L = l1 ++ c :: l2 -> text_id c = ch_id h -> linked c (filter (same_yarn (ch_id h)) l2) /\ text_id (last (filter (same_yarn (ch_id h)) l2) c) = ch_tip h).
Proof.
  intros SU G TM PM EY. pose proof TM as [I _]. destruct (topmost_last U H h SU G TM) as (_ & X & Y & EF & NB).
  assert (PH : linked (ch_head h) (ch_rest h)) by (destruct G as (PR & _); rewrite Forall_forall in PR; destruct (PR h I) as (_ & Q & _); exact Q).
  assert (ND : NoDup (map u_id (as_ops L))).
  { eapply Permutation_NoDup; [apply Permutation_map, Permutation_sym; exact PM|]. apply in_turn_nodup. rewrite (filed_filter U H _ G (form_of_log h)). apply filter_turn. apply G. }
  assert (ES : filter (of_yarn (uorigin (ch_id h))) (as_ops L) = filter (of_yarn (uorigin (ch_id h))) (says_ops X) ++ as_ops (ch_head h :: ch_rest h)).
  { rewrite EY, EF, says_app. change (h :: Y) with ([h] ++ Y). rewrite says_app, says_one, !filter_app. f_equal.
    assert (F1 : filter (of_yarn (uorigin (ch_id h))) (as_ops (ch_ops h)) = as_ops (ch_ops h)).
    { assert (K : forall u, In u (as_ops (ch_ops h)) -> of_yarn (uorigin (ch_id h)) u = true).
      { intros u J. apply in_map_iff in J as (c & <- & J). unfold of_yarn. apply N.eqb_eq. exact (linked_origins _ _ _ PH J). }
      revert K. clear. generalize (as_ops (ch_ops h)). intros l K. induction l as [|x l IH]; [reflexivity|]. cbn [filter]. rewrite (K x (or_introl eq_refl)), IH; [reflexivity|]. intros y J. apply K. right. exact J. }
    assert (F2 : filter (of_yarn (uorigin (ch_id h))) (says_ops Y) = []).
    { revert NB. clear. generalize (says_ops Y). intros l K. induction l as [|x l IH]; [reflexivity|]. cbn [filter]. unfold of_yarn at 1. rewrite (proj2 (N.eqb_neq _ _) (K x (or_introl eq_refl))). apply IH. intros y J. apply K. right. exact J. }
    rewrite F1, F2, app_nil_r. reflexivity. }
  split.
  - assert (J : In (opof (ch_head h)) (as_ops L)).
    { apply (Permutation_in _ (Permutation_sym PM)). apply says_in. exists h, (ch_head h). split; [exact (filed_log h H I)|]. split; [apply head_in|reflexivity]. }
    apply in_map_iff in J as (c & E & J). apply in_split in J as (l1 & l2 & J). exists l1, c, l2. split; [exact J|]. exact (f_equal u_id E).
  - intros l1 c l2 E TC. destruct (walk_yarn L _ _ _ ES PH ND l1 c l2 E TC) as [LK AS]. split; [exact LK|]. unfold ch_tip, ch_id in *. apply last_as.
    assert (IC : In (opof c) (as_ops L)) by (rewrite E; apply (in_map (fun x => bare (rop_of x))), in_or_app; right; left; reflexivity).
    assert (IH0 : In (opof (ch_head h)) (as_ops L)).
    { assert (Q : In (opof (ch_head h)) (filter (of_yarn (uorigin (text_id (ch_head h)))) (as_ops L))) by (rewrite ES; apply in_or_app; right; left; reflexivity). apply filter_In in Q as [Q _]. exact Q. }
    change (opof c :: as_ops (filter (same_yarn (text_id (ch_head h))) l2) = opof (ch_head h) :: as_ops (ch_rest h)). rewrite AS. f_equal.
    exact (nodup_ids _ _ _ ND IC IH0 TC).
Qed.
(* if a walk from it ends, it ends there, even if the order is kept within that
   chain only *)
Lemma walk_ends U H h L : sound U -> good U H -> topmost H h -> Permutation (as_ops L) (says_ops (filed (logkey h) H)) -> subl (as_ops (ch_ops h)) (as_ops L) ->
  forall l1 c l2, L = l1 ++ c :: l2 -> text_id c = ch_id h -> linked c (filter (same_yarn (ch_id h)) l2) -> text_id (last (filter (same_yarn (ch_id h)) l2) c) = ch_tip h.
Proof.
  intros SU G TM PM SB l1 c l2 E TC LK. pose proof TM as [I _]. destruct (topmost_last U H h SU G TM) as (TL & _).
  assert (PH : linked (ch_head h) (ch_rest h)) by (destruct G as (PR & _); rewrite Forall_forall in PR; destruct (PR h I) as (_ & Q & _); exact Q).
  assert (ND : NoDup (map u_id (as_ops L))).
  { eapply Permutation_NoDup; [apply Permutation_map, Permutation_sym; exact PM|]. apply in_turn_nodup. rewrite (filed_filter U H _ G (form_of_log h)). apply filter_turn. apply G. }
  set (F := filter (same_yarn (ch_id h)) l2) in *.
  assert (IL : In (last F c) L).
  { assert (K : forall (b : list cursor) y, In (last b y) (y :: b)).
    { clear. intro b. induction b as [|z b IH]; intro y; [left; reflexivity|]. destruct b as [|w b]; [right; left; reflexivity|]. change (last (z :: w :: b) y) with (last (w :: b) y). destruct (IH y) as [Q|Q]; [left; exact Q|right; right; exact Q]. }
    rewrite E. apply in_or_app. right. destruct (K F c) as [Q|Q]; [left; exact Q|right]. unfold F in Q. apply filter_In in Q as [Q _]. exact Q. }
  assert (YL : uorigin (text_id (last F c)) = uorigin (ch_id h)).
  { assert (K : forall (b : list cursor) y, In (last b y) (y :: b)).
    { clear. intro b. induction b as [|z b IH]; intro y; [left; reflexivity|]. destruct b as [|w b]; [right; left; reflexivity|]. change (last (z :: w :: b) y) with (last (w :: b) y). destruct (IH y) as [Q|Q]; [left; exact Q|right; right; exact Q]. }
    destruct (K F c) as [Q|Q]; [rewrite <- Q, TC; reflexivity|]. unfold F in Q at 2. apply filter_In in Q as [_ Q]. apply N.eqb_eq in Q. exact Q. }
  assert (IO : In (opof (last F c)) (says_ops H)).
  { assert (Q : In (opof (last F c)) (as_ops L)) by (apply (in_map (fun x => bare (rop_of x))); exact IL). apply (Permutation_in _ PM) in Q. apply says_in in Q as (h' & x & Q1 & Q2 & Q3). apply says_in. exists h', x. split; [eapply filed_in; exact Q1|auto]. }
  specialize (TL _ IO YL). change (u_id (opof (last F c))) with (text_id (last F c)) in TL.
  (* the end of the chain is on the way *)
  assert (IT : exists x, In x (c :: F) /\ text_id x = ch_tip h).
  { assert (EC : opof c = opof (ch_head h)).
    { assert (IC : In (opof c) (as_ops L)) by (rewrite E; apply (in_map (fun x => bare (rop_of x))), in_or_app; right; left; reflexivity).
      assert (IH0 : In (opof (ch_head h)) (as_ops L)) by (eapply subl_in; [exact SB|left; reflexivity]). exact (nodup_ids _ _ _ ND IC IH0 TC). }
    assert (EA : as_ops L = as_ops l1 ++ opof (ch_head h) :: as_ops l2) by (rewrite E, <- EC; unfold as_ops; rewrite map_app; reflexivity).
    assert (S2 : subl (as_ops (ch_rest h)) (as_ops l2)).
    { apply (subl_after (opof (ch_head h)) _ (as_ops l1)); [rewrite <- EA; exact SB|]. intro J. rewrite EA, map_app in ND. cbn [map] in ND. apply NoDup_remove_2 in ND. apply ND. apply in_or_app. left. apply in_map. exact J. }
    unfold ch_tip. destruct (ch_rest h) as [|d r] eqn:ER; [exists c; split; [left; reflexivity|exact (f_equal u_id EC)]|].
    assert (K : In (last (d :: r) (ch_head h)) (d :: r)).
    { clear. revert d. induction r as [|z r IH]; intro d; [left; reflexivity|]. change (last (d :: z :: r) (ch_head h)) with (last (z :: r) (ch_head h)). right. apply IH. }
    pose proof (linked_origins _ _ _ PH (or_intror K)) as OT. set (z := last (d :: r) (ch_head h)) in *.
    assert (IZ : In (opof z) (as_ops l2)) by (eapply subl_in; [exact S2|apply (in_map (fun x => bare (rop_of x))); exact K]). apply in_map_iff in IZ as (x & EX & IX).
    assert (TX : text_id x = text_id z) by exact (f_equal u_id EX). exists x. split; [|exact TX]. right. unfold F. apply filter_In. split; [exact IX|]. unfold same_yarn. apply N.eqb_eq. rewrite TX. exact OT. }
  destruct IT as (x & IX & TX). pose proof (linked_last F c x LK IX) as Q. rewrite TX in Q. apply uuid_ltb_antisym; assumption.
Qed.
Lemma never_id origin : origin < 2 ^ 62 -> version (mkUuid NEVER_W origin) = TIME -> key_id_ok (mkUuid NEVER_W origin).
Proof. intros O V. apply time_key; [split; [split; [reflexivity|]|exact O]|exact V|cbn [uvalue]; lia]. cbn [uorigin]. change (2 ^ 64) with 18446744073709551616. change (2 ^ 62) with 4611686018427387904 in O. lia. Qed.
Lemma leads_top l1 c l2 head e : leads (l1 ++ c :: l2) head e -> exists a x b, l1 ++ c :: l2 = a ++ x :: b /\ text_id x = head /\ text_id (last (filter (same_yarn head) b) x) = e.
Proof. intros (a & x & b & E & T & _ & LS). exists a, x, b. auto. Qed.
(* the last event of a yarn is found *)
Lemma tip_found (fresh : N -> Prop) U m w H origin e obj rdt : sound U -> good U H -> sees fresh m w H -> origin < 2 ^ 62 -> version (mkUuid NEVER_W origin) = TIME ->
  yarn_tip family b_jread b_jprev m w origin e obj rdt ->
  e = mkUuid NEVER_W origin \/
  exists h, In h H /\ uorigin (ch_id h) = origin /\ ch_obj h = obj /\ ch_rdt h = rdt /\ e = ch_tip h /\ forall u, In u (says_ops H) -> uorigin (u_id u) = origin -> uuid_ltb e (u_id u) = false.
Proof.
  intros SU G SE O V (head & RB & Q). destruct (before_chain fresh U m w H _ head obj rdt SU G SE (never_id origin O V) RB) as (h & I & EH & EO & ER & UO & _ & MX). cbn [uorigin uvalue] in *.
  destruct Q as [Q|(log & L & (m' & w' & LI) & OL & LD)]; [left; exact Q|right].
  assert (TM : topmost H h).
  { split; [exact I|]. intros h' I' O'. apply MX; [exact I'|congruence|]. destruct (op_ids U H h' _ SU G I' (head_in h')) as (_ & _ & _ & _ & NV & _). fold (ch_id h') in NV. lia. }
  destruct SE as [_ SR]. destruct (SR h I) as (m2 & w2 & log' & L' & RD & OL' & PM & CO & _). unfold logkey in RD. rewrite EO, LI in RD. injection RD as _ _ <-. rewrite (ops_same _ _ _ OL OL') in *. clear L' OL'.
  destruct LD as (a & x & b & E & T & LK & LS). rewrite <- EH in *.
  pose proof (walk_ends U H h L SU G TM PM (CO h (filed_log h H I)) a x b E T LK) as LT. rewrite LS in LT. exists h. do 5 (split; [auto|]). intros u IU U1. rewrite LT. destruct (topmost_last U H h SU G TM) as [TL _]. apply TL; [exact IU|congruence].
Qed.
(* a yarn with no last event has no events *)
Lemma no_tip_new (fresh : N -> Prop) U m w H origin : sound U -> good U H -> sees fresh m w H -> fresh origin -> origin < 2 ^ 62 -> version (mkUuid NEVER_W origin) = TIME ->
  no_tip family b_jread b_jprev m w origin -> forall u, In u (says_ops H) -> uorigin (u_id u) <> origin.
Proof.
  intros SU G SE FR O V NT u IU UO. pose proof (never_id origin O V) as K. pose proof SE as [SL SR]. apply says_in in IU as (h1 & c1 & I1 & IC & ->). rewrite opof_id in UO.
  destruct (op_ids U H h1 _ SU G I1 IC) as (_ & O1 & _). destruct (op_ids U H h1 _ SU G I1 (head_in h1)) as (_ & _ & _ & _ & NV1 & K1). fold (ch_id h1) in NV1, K1.
  assert (LE1 : ~ key_lt (meta_key (mkUuid NEVER_W origin)) (meta_key (ch_id h1))) by (rewrite (meta_key_lt _ _ K K1); cbn [uorigin uvalue]; lia).
  assert (LAND : forall f c, b_jprev m w (key_as (mkUuid NEVER_W origin) META_FORM_UUID) = Done (f, ROk) -> next (cursor_of f) = NOk c -> uorigin (text_id c) = origin /\ text_ref c = META_FORM_UUID).
  { intros f c J N. destruct (SL _ f c K J N) as [(h & t & I & E & LE & MX)|[_ NM]]; [|exfalso; exact (LE1 (NM h1 I1))].
    apply record_uuids in E as (E1 & E2 & _). split; [|exact E2]. rewrite E1.
    destruct (op_ids U H h _ SU G I (head_in h)) as (_ & _ & _ & _ & _ & KH). fold (ch_id h) in KH. specialize (MX h1 I1 LE1). rewrite (meta_key_lt _ _ KH K1) in MX. rewrite (meta_key_lt _ _ K KH) in LE. cbn [uorigin uvalue] in LE. lia. }
  destruct NT as [(f & J)|[(f & c & J & N & Q)|(head & obj & rdt & log & RB & Q)]].
  - exact (jprev_found _ _ _ _ _ J eq_refl).
  - destruct (LAND f c J N) as [A A']. destruct Q; contradiction.
  - destruct (before_chain fresh U m w H _ head obj rdt SU G SE K RB) as (h & I & EH & EO & ER & UO2 & _ & MX). cbn [uorigin uvalue] in *.
    assert (TM : topmost H h).
    { split; [exact I|]. intros h' I' O'. apply MX; [exact I'|congruence|]. destruct (op_ids U H h' _ SU G I' (head_in h')) as (_ & _ & _ & _ & NV & _). fold (ch_id h') in NV. lia. }
    destruct (SR h I) as (m2 & w2 & log' & L & RD & OL & PM & _ & YO). specialize (YO origin FR). rewrite <- UO2 in YO. unfold logkey in RD. rewrite EO in RD.
    assert (LI : log_is family b_jread m w obj log ROk -> log = log') by (intros (m' & w' & Q2); rewrite RD in Q2; injection Q2 as _ _ <-; reflexivity).
    destruct (walk_top U H h L SU G TM PM YO) as [(l1 & c & l2 & E & TC) WT].
    destruct Q as [(m' & w' & Q)|[(Q & Q2)|(Q & l & x & e & R & LD & OX & NX)]].
    + rewrite RD in Q. injection Q as _ _ _ Q. discriminate Q.
    + apply LI in Q. subst log'. destruct OL as (ce & de & R & _). rewrite E in R. change (c :: l2) with ([c] ++ l2) in R. rewrite app_assoc in R. apply run_to_split in R as (c2 & R & _).
      pose proof (run_to_last _ _ _ _ R) as RL. subst c2. apply (Q2 c); [|congruence]. exists l1. exact R.
    + apply LI in Q. subst log'. destruct (ops_prefix _ _ _ _ R OL) as (rest & EL). destruct LD as (a & y & b & E2 & T & _ & LS).
      rewrite <- EH in *. rewrite E2 in EL. rewrite <- !app_assoc in EL. cbn [app] in EL.
      destruct (WT a y _ EL T) as [LK _]. rewrite filter_app in LK. cbn [filter] in LK. assert (SY : same_yarn (ch_id h) x = true) by (unfold same_yarn; apply N.eqb_eq; congruence). rewrite SY in LK.
      apply NX. rewrite <- LS. clear -LK. revert y LK. induction (filter (same_yarn (ch_id h)) b) as [|z r IH]; intros y LK.
      * cbn [app linked] in LK. cbn [last]. tauto.
      * cbn [app linked] in LK. destruct LK as (_ & _ & _ & LK). rewrite (IH z LK). f_equal. clear. revert z. induction r as [|w r IH]; intro z; [reflexivity|cbn [last] in *; destruct r; [reflexivity|apply IH]].
Qed.

(* ---- a chain is accepted ---- *)
Lemma chain_belongs us obj rdt cs : forall c, belongs us (opof c) obj rdt -> linked c cs -> incl (as_ops (c :: cs)) us -> version (text_id c) = TIME ->
  forall x, In x (c :: cs) -> belongs us (opof x) obj rdt.
Proof.
  induction cs as [|d cs IH]; intros c B L IN V x [<-|I]; [exact B|destruct I|exact B|]. destruct L as (L1 & L2 & L3 & L4).
  apply (IH d); [|exact L4|intros y J; apply IN; right; exact J|rewrite (version_origin _ _ L1); exact V|exact I].
  apply (bl_next us (opof d) (opof c)); [apply IN; right; left; reflexivity|rewrite opof_ref, L3; exact V|rewrite opof_id, opof_ref; auto|exact B].
Qed.
Lemma tip_in h : exists c, In c (ch_ops h) /\ text_id c = ch_tip h.
Proof.
  unfold ch_tip, ch_ops. exists (last (ch_rest h) (ch_head h)). split; [|reflexivity].
  generalize (ch_head h). induction (ch_rest h) as [|d r IH]; intro c; [left; reflexivity|]. destruct r as [|x r]; [right; left; reflexivity|].
  change (last (d :: x :: r) c) with (last (x :: r) c). specialize (IH c). destruct IH as [E|I]; [left; exact E|right; right; exact I].
Qed.
Lemma good_step (fresh : N -> Prop) U m w H h : sound U -> good U H -> (forall m' w', acts family b_jread b_write (m, w) [] (m', w') -> sees fresh m' w' H) -> (text_ref (ch_head h) = YARN_FORM_UUID -> fresh (uorigin (ch_id h))) ->
  admitted family b_jread b_jprev b_write m w h -> Forall canonical (ch_ops h) -> incl (as_ops (ch_ops h)) U ->
  good U (H ++ [h]) /\ ((exists h1, In h1 H /\ ch_obj h1 = ch_obj h) \/ creates h).
Proof.
  intros SU G SA FR (V & LK & RT & _ & OT & AD) CN IU. pose proof (SA m w (acts_none _ _ _ _)) as SE. pose proof G as (PR & CO & IT & BL & TY & IN). pose proof SU as [(UO & _) [NV CT]].
  assert (IHD : In (opof (ch_head h)) U) by (apply IU; left; reflexivity).
  assert (NVH : uvalue (ch_id h) < NEVER_W) by (rewrite Forall_forall in NV; exact (NV _ IHD)).
  assert (IDS : id_ok (ch_id h) /\ id_ok (text_ref (ch_head h))) by (rewrite Forall_forall in UO; destruct (UO _ IHD) as (A1 & A2 & _); auto).
  destruct IDS as [IDH IDR]. assert (ORG : uorigin (ch_id h) < 2 ^ 62) by apply IDH.
  assert (VN : version (mkUuid NEVER_W (uorigin (ch_id h))) = TIME) by (rewrite <- V; apply version_origin; reflexivity).
  assert (NNEV : forall e, e = mkUuid NEVER_W (uorigin (ch_id h)) -> uuid_ltb e (ch_id h) = true -> False).
  { intros e -> Q. rewrite uuid_lt_value in Q by reflexivity. cbn [uvalue] in Q. lia. }
  assert (ORD : forall u, In u (says_ops H) -> uorigin (u_id u) = uorigin (ch_id h) -> uuid_ltb (u_id u) (ch_id h) = true).
  { intros u I O. destruct AD as [(RY & NT & _)|(_ & e & obj & rdt & YT & LT & _)]; [exfalso; exact (no_tip_new fresh U m w H _ SU G SE (FR RY) ORG VN NT u I O)|].
    destruct (tip_found fresh U m w H _ e obj rdt SU G SE ORG VN YT) as [Q|(h0 & _ & _ & _ & _ & _ & MX)]; [exfalso; exact (NNEV e Q LT)|]. exact (uuid_le_lt_trans _ _ _ (MX u I O) LT). }
  assert (HEAD : belongs (says_ops (H ++ [h])) (opof (ch_head h)) (ch_obj h) (ch_rdt h) /\ value_id (ch_rdt h) /\ own_form (uuid2form (ch_rdt h)) /\ ((exists h1, In h1 H /\ ch_obj h1 = ch_obj h) \/ creates h)).
  { assert (INC : incl (says_ops H) (says_ops (H ++ [h]))) by (rewrite says_app; apply incl_appl, incl_refl).
    assert (IN2 : In (opof (ch_head h)) (says_ops (H ++ [h]))) by (rewrite says_app, says_one; apply in_or_app; right; left; reflexivity).
    assert (ROOT : creates h -> version (text_ref (ch_head h)) = NAME -> belongs (says_ops (H ++ [h])) (opof (ch_head h)) (ch_obj h) (ch_rdt h)) by (intros [-> ->] VV; exact (bl_root _ _ IN2 VV)).
    assert (OLD : forall h1 x, In h1 H -> In x (ch_ops h1) -> text_id x = text_ref (ch_head h) -> ch_obj h1 = ch_obj h -> ch_rdt h1 = ch_rdt h -> version (text_ref (ch_head h)) = TIME ->
      belongs (says_ops (H ++ [h])) (opof (ch_head h)) (ch_obj h) (ch_rdt h) /\ value_id (ch_rdt h) /\ own_form (uuid2form (ch_rdt h)) /\ ((exists h1, In h1 H /\ ch_obj h1 = ch_obj h) \/ creates h)).
    { intros h1 x I1 IX E1 E2 E3 VV. split.
      - apply (bl_next _ _ (opof x)); [exact IN2|exact VV|exact E1|]. apply (belongs_more _ _ _ _ _ INC). rewrite <- E2, <- E3. apply BL; assumption.
      - rewrite <- E3. rewrite Forall_forall in TY. destruct (TY h1 I1) as [T1 T2]. split; [exact T1|]. split; [exact T2|]. left. exists h1. auto. }
    destruct AD as [(RY & _ & CR)|(NY & e & obj & rdt & YT & LT & AD)].
    - split; [apply ROOT; [exact CR|rewrite RY; reflexivity]|]. pose proof CR as CR0. destruct CR as [_ ->]. rewrite RY. assert (E1 : uuid2form YARN_FORM_UUID = 1) by (vm_compute; reflexivity).
      destruct (type_value YARN_FORM_UUID) as [A1 _]; [rewrite E1; discriminate|rewrite E1; discriminate|]. split; [exact A1|]. rewrite E1. split; [split; [reflexivity|left; reflexivity]|right; exact CR0].
    - destruct (tip_found fresh U m w H _ e obj rdt SU G SE ORG VN YT) as [Q|(h0 & I0 & O0 & EO & ER & ET & _)]; [exfalso; exact (NNEV e Q LT)|].
      destruct AD as [(RE & EO2 & ER2)|[(VR & NZ & NERR & CR)|(VR & m' & w' & AC & AD)]].
      + destruct (tip_in h0) as (x & IX & TX). apply (OLD h0 x I0 IX); [congruence|congruence|congruence|]. rewrite RE, ET, <- TX. apply (op_ids U H h0 x SU G I0 IX).
      + split; [exact (ROOT CR VR)|]. pose proof CR as CR0. destruct CR as [_ CR]. rewrite CR. destruct (type_value _ NZ NERR) as [A1 A2]. split; [exact A1|].
        rewrite Forall_forall in CT. destruct (CT _ IHD VR) as [A3 _]. split; [split; [exact A2|exact A3]|right; exact CR0].
      + specialize (SA m' w' AC). specialize (RT VR).
        assert (RV : uvalue (text_ref (ch_head h)) < NEVER_W). { unfold uuid_ltb in RT. apply orb_prop in RT as [Q|Q]; [apply N.ltb_lt in Q; lia|apply andb_prop in Q as [Q _]; apply N.eqb_eq in Q; lia]. }
        destruct AD as [(head & RB & AD)|(Q & _)]; [|lia].
        destruct (before_chain fresh U m' w' H _ head _ _ SU G SA (time_key _ IDR VR (N.lt_le_incl _ _ RV)) RB) as (h1 & I1 & EH & EO1 & ER1 & _).
        destruct AD as [Q|(log & l & c & (m2 & w2 & LI) & R & LD)].
        * apply (OLD h1 (ch_head h1) I1 (head_in h1)); [change (ch_id h1 = text_ref (ch_head h)); congruence|exact EO1|exact ER1|exact VR].
        * destruct SA as [_ SR]. destruct (SR h1 I1) as (m3 & w3 & log' & L & RD & OL & EL & _). unfold logkey in RD. rewrite EO1, LI in RD. injection RD as _ _ <-.
          destruct (ops_prefix _ _ _ _ R OL) as (rest & ER'). destruct LD as (a & y & b & E & _ & _ & LS).
          assert (IZ : exists z, In z L /\ text_id z = text_ref (ch_head h)).
          { exists (last (filter (same_yarn head) b) y). split; [|exact LS]. rewrite ER', E. apply in_or_app. left. apply in_or_app. right.
            assert (K : forall f (b : list cursor) y, In (last (filter f b) y) (y :: b)).
            { clear. intros f b. induction b as [|z b IH]; intro y; [left; reflexivity|]. cbn [filter]. destruct (f z); [|destruct (IH y) as [Q|Q]; [left; exact Q|right; right; exact Q]].
              assert (E : last (z :: filter f b) y = last (filter f b) z) by (clear; generalize (filter f b); intro r; revert z; induction r as [|w r IH]; intro z; [reflexivity|cbn [last] in *; destruct r; [reflexivity|apply IH]]).
              rewrite E. right. apply IH. }
            apply K. }
          destruct IZ as (z & IZ & TZ). assert (IO : In (opof z) (says_ops (filed (logkey h1) H))) by (apply (Permutation_in _ EL); apply (in_map (fun x => bare (rop_of x))); exact IZ).
          apply says_in in IO as (h2 & x & I2 & IX & EX). apply (filed_ops U H h1 SU G I1) in I2 as [I2 EO2].
          apply (OLD h2 x I2 IX); [|congruence| |exact VR].
          -- rewrite <- TZ. symmetry. exact (f_equal u_id EX).
          -- rewrite <- ER1. apply (obj_type U H); auto. }
  destruct HEAD as (BH & VI & OF & RO). split; [|exact RO].
  split; [apply Forall_app; split; [exact PR|constructor; [|constructor]]; split; [exact V|split; [exact LK|split; [exact OT|exact RT]]]|].
  split; [rewrite flat_map_app; apply Forall_app; split; [exact CO|cbn [flat_map]; rewrite app_nil_r; exact CN]|].
  split; [|split; [|split]].
  - rewrite says_app, says_one. apply in_turn_app. split; [exact IT|]. split; [exact (linked_turn h LK)|]. intros u v I J O.
    apply in_map_iff in J as (c & <- & J). pose proof (linked_origins _ _ _ LK J) as O2. fold (ch_id h) in O2. change (uorigin (u_id u) = uorigin (text_id c)) in O.
    specialize (ORD u I ltac:(congruence)). change (uuid_ltb (u_id u) (text_id c) = true). destruct J as [<-|J]; [exact ORD|].
    exact (uuid_ltb_trans _ _ _ ORD (linked_after _ _ _ LK J)).
  - intros h' c I J. apply in_app_iff in I as [I|[<-|[]]].
    + apply (belongs_more (says_ops H)); [rewrite says_app; apply incl_appl, incl_refl|]. apply BL; assumption.
    + apply (chain_belongs _ _ _ (ch_rest h) (ch_head h)); [exact BH|exact LK| |exact V|exact J]. rewrite says_app, says_one. apply incl_appr, incl_refl.
  - apply Forall_app. split; [exact TY|]. constructor; [auto|constructor].
  - rewrite says_app, says_one. apply incl_app; [exact IN|exact IU].
Qed.
End Reads.

(* ---- the records after a step ---- *)
Section Grow.
Variable fbits : bytes -> N.
Variable fuel : nat.
Notation b_jread := (b_jread fbits fuel).
Notation b_jprev := (b_jprev fbits fuel).
Notation acts := (acts family b_jread b_write).
Notation accepted := (ReplicaSpec.accepted family b_jread b_jprev b_write).
Notation admitted := (ReplicaSpec.admitted family b_jread b_jprev b_write).

Lemma app_some {T} (a b : list T) : a ++ b <> [] <-> a <> [] \/ b <> [].
Proof. destruct a; cbn [app]; [tauto|]. split; [left; discriminate|intros _; discriminate]. Qed.
Lemma acts_mem x ws y : only_writes ws -> acts x ws y -> sorted_store (snd x) ->
  fst y = fst x /\ sorted_store (snd y) /\ forall k, contents (snd y) k <> [] <-> contents (snd x) k <> [] \/ contents (writes_of ws) k <> [].
Proof.
  intros OW A SS. induction A as [|ws m w k1 m' w' f s A IH J|ws m w k1 f w' A IH W|ws m w f m' s A IH W].
  - split; [reflexivity|]. split; [exact SS|]. intro k. cbn. tauto.
  - destruct (IH OW) as (E1 & S1 & C1). cbn [fst snd] in *. destruct (jread_keeps fbits fuel _ _ _ _ _ _ _ S1 J) as [-> S2]. split; [exact E1|]. split; [exact S2|].
    intro k. rewrite <- C1. clear -S1 J. unfold BranchModel.b_jread in J. apply rbind_done in J as ([fa sa] & _ & J). destruct sa; try (injection J as <- _ _; reflexivity).
    apply rbind_done in J as ([[w1 fb] sb] & R & J). assert (E : w1 = w').
    { destruct sb; try (injection J as <- _ _; reflexivity). destruct (blank fa); [injection J as <- _ _; reflexivity|]. destruct (blank fb); [injection J as <- _ _; reflexivity|].
      apply rbind_done in J as ([r s1] & _ & J). injection J as <- _ _. reflexivity. }
    subst w1. clear J. pose proof (read_ok (F := bytes) [] (merge_as fbits fuel) w k1 [] S1) as K.
    destruct (contents w k1) as [|a [|b l]] eqn:C; [rewrite K in R; injection R as <- _ _; reflexivity|rewrite K in R; injection R as <- _ _; reflexivity|].
    destruct K as [K1 K2]. rewrite K1 in R. apply rbind_done in R as ([r s1] & M & R). injection R as <- _ _.
    destruct (K2 (match r with Some f0 => f0 | None => [] end)) as [_ K3]. rewrite K3. destruct (key_eqb k k1) eqn:E; [|reflexivity]. apply key_eqb_eq in E. subst k1. rewrite C. split; discriminate.
  - apply Forall_app in OW as [OW _]. destruct (IH OW) as (E1 & S1 & C1). cbn [fst snd] in *. pose proof (write_ok w k1 f S1) as K. rewrite W in K. destruct K as (K1 & K2 & _ & K3).
    split; [exact E1|]. split; [exact K1|]. intro k. rewrite K2, writes_of_app, contents_app. cbn [writes_of flat_map app before_end].
    destruct (key_eqb k1 KEY_END); [discriminate K3|]. rewrite !app_some, C1. tauto.
  - apply Forall_app in OW as [_ OW]. inversion OW; contradiction.
Qed.
Lemma contents_flat {T} (f : T -> list (key * bytes)) l k : contents (flat_map f l) k = flat_map (fun x => contents (f x) k) l.
Proof. induction l as [|x l IH]; [reflexivity|]. cbn [flat_map]. rewrite contents_app, IH. reflexivity. Qed.
Lemma contents_in (l : list (key * bytes)) k : contents l k <> [] <-> In k (map fst l).
Proof.
  induction l as [|[k1 f] l IH]; [cbn; tauto|]. change ((k1, f) :: l) with ([(k1, f)] ++ l). rewrite contents_app, contents_one. cbn [app map fst In].
  destruct (key_eqb k1 k) eqn:E; [apply key_eqb_eq in E; subst; split; [auto|intros _; discriminate]|].
  cbn [app]. rewrite IH. split; [auto|]. intros [->|I]; [rewrite key_eqb_refl in E; discriminate|exact I].
Qed.
Lemma record_keys h : map fst (ch_records h) = [meta_key (ch_id h); logkey h; statekey h].
Proof. reflexivity. Qed.
(* the chain records among the records of chains *)
Lemma records_meta U H hs id : sound U -> good U H -> incl hs H -> key_id_ok id ->
  contents (flat_map ch_records hs) (meta_key id) = flat_map (fun h => if uuid_eqb (ch_id h) id then [ch_record h] else []) hs.
Proof.
  intros SU G IN K. rewrite contents_flat. assert (Q : forall h, In h hs -> contents (ch_records h) (meta_key id) = if uuid_eqb (ch_id h) id then [ch_record h] else []).
  { intros h I. specialize (IN h I). destruct (op_ids U H h _ SU G IN (head_in h)) as (_ & _ & _ & _ & _ & KH). fold (ch_id h) in KH. pose proof G as (_ & _ & _ & _ & TY & _).
    rewrite Forall_forall in TY. destruct (TY h IN) as [_ OF]. unfold ch_records. change [?a; ?b; ?c] with ([a] ++ [b] ++ [c]). rewrite !contents_app, !contents_one.
    assert (N1 : key_eqb (key_as (ch_obj h) LOG_FORM_UUID) (meta_key id) = false).
    { apply key_eqb_neq. intro Q. apply (f_equal key_form) in Q. rewrite meta_key_form in Q. change (key_as (ch_obj h) LOG_FORM_UUID) with (logkey h) in Q. rewrite form_of_log in Q. discriminate. }
    assert (N2 : key_eqb (key_as (ch_obj h) (ch_rdt h)) (meta_key id) = false).
    { apply key_eqb_neq. intro Q. apply (f_equal key_form) in Q. rewrite meta_key_form in Q. change (key_as (ch_obj h) (ch_rdt h)) with (statekey h) in Q. rewrite (form_of_state h OF) in Q.
      destruct OF as [_ OF]. rewrite Q in OF. unfold LOG_RAW_FORM, META_META_FORM in OF. lia. }
    rewrite N1, N2, !app_nil_r. change (key_as (ch_id h) META_FORM_UUID) with (meta_key (ch_id h)). destruct (uuid_eqb (ch_id h) id) eqn:E.
    - apply uuid_eqb_eq in E. subst id. rewrite key_eqb_refl. reflexivity.
    - rewrite key_eqb_neq; [reflexivity|]. intro Q. apply meta_key_inj in Q; [|exact KH|exact K]. subst id. rewrite (proj2 (uuid_eqb_eq _ _) eq_refl) in E. discriminate. }
  clear -Q. induction hs as [|h hs IH]; [reflexivity|]. cbn [flat_map]. rewrite Q by (left; reflexivity). f_equal. apply IH. intros x I. apply Q. right. exact I.
Qed.
Lemma turn_heads H : in_turn (says_ops H) -> NoDup (map ch_id H).
Proof.
  induction H as [|h H IH]; intro T; [constructor|]. change (h :: H) with ([h] ++ H) in T. rewrite says_app in T. apply in_turn_app in T as (_ & T2 & T3). cbn [map]. constructor; [|exact (IH T2)].
  intro I. apply in_map_iff in I as (h' & E & I). assert (Q : turn (opof (ch_head h)) (opof (ch_head h'))).
  { apply T3; apply says_in; [exists h, (ch_head h)|exists h', (ch_head h')]; (split; [|split; [apply head_in|reflexivity]]); [left; reflexivity|exact I]. }
  unfold turn in Q. rewrite !opof_id in Q. fold (ch_id h) (ch_id h') in Q. rewrite E in Q. specialize (Q eq_refl). rewrite uuid_ltb_irrefl in Q. discriminate.
Qed.
Lemma one_of_them (hs : list chain) h : NoDup (map ch_id hs) -> In h hs -> flat_map (fun x => if uuid_eqb (ch_id x) (ch_id h) then [ch_record x] else []) hs = [ch_record h].
Proof.
  induction hs as [|x hs IH]; intros ND I; [destruct I|]. cbn [map] in ND. inversion ND as [|? ? NI ND']; subst. cbn [flat_map]. destruct I as [->|I].
  - rewrite (proj2 (uuid_eqb_eq _ _) eq_refl). cbn [app]. f_equal. clear -NI. induction hs as [|y hs IH]; [reflexivity|]. cbn [flat_map]. destruct (uuid_eqb (ch_id y) (ch_id h)) eqn:E.
    + exfalso. apply NI. apply uuid_eqb_eq in E. rewrite <- E. left. reflexivity.
    + cbn [app]. apply IH. intro J. apply NI. right. exact J.
  - destruct (uuid_eqb (ch_id x) (ch_id h)) eqn:E; [|exact (IH ND' I)]. exfalso. apply NI. apply uuid_eqb_eq in E. rewrite E. apply in_map. exact I.
Qed.
Lemma none_of_them (hs : list chain) id : ~ In id (map ch_id hs) -> flat_map (fun x => if uuid_eqb (ch_id x) id then [ch_record x] else []) hs = [].
Proof.
  induction hs as [|x hs IH]; intro NI; [reflexivity|]. cbn [flat_map]. destruct (uuid_eqb (ch_id x) id) eqn:E.
  - exfalso. apply NI. apply uuid_eqb_eq in E. left. exact E.
  - cbn [app]. apply IH. intro J. apply NI. right. exact J.
Qed.
Lemma rec_bound id obj rdt t ds : (1 <= fuel)%nat -> tip_ok id -> uvalue id < NEVER_W -> uop_ok (rec_op id obj rdt t) -> (length t <= 44)%nat ->
  map bare (concat ds) = [rec_op id obj rdt t] -> union_bound fuel ds.
Proof.
  intros F1 [ID NI] NV UO LT ED. assert (MG : mergeable [rec_op id obj rdt t]).
  { apply record_mergeable; [exact UO| |reflexivity|exact NI]. cbn [u_id rec_op]. change (2 ^ 64 - 1) with 18446744073709551615. assert (NEVER_W < 18446744073709551615) by reflexivity. lia. }
  assert (RM : (room [rec_op id obj rdt t] <= 1000)%nat) by (unfold room, rec_op; cbn; lia).
  unfold union_bound. rewrite ED. assert (LD : length (concat ds) = 1%nat) by (rewrite <- (map_length bare), ED; reflexivity). rewrite LD.
  split; [exact MG|]. split; [exact F1|]. split; [reflexivity|]. change (2 ^ 32) with 4294967296. lia.
Qed.
Lemma meta_forms u : In (key_form (meta_key u)) [LWW_RDT_FORM; MX_RDT_FORM; YARN_RAW_FORM; META_META_FORM].
Proof. rewrite meta_key_form. cbn. auto. Qed.
Lemma meta_not_zero u : meta_key u <> KEY_ZERO.
Proof. intro Q. apply (f_equal key_form) in Q. rewrite meta_key_form in Q. vm_compute in Q. discriminate Q. Qed.
Definition recorded (h : chain) : Prop := is_record (ch_record h) (ch_id h) (ch_obj h) (ch_rdt h).

Lemma base_grows U d H hs d1 : (1 <= fuel)%nat -> sound U -> good U (H ++ hs) -> base d H -> Forall recorded hs -> grows fbits fuel d hs d1 ->
  (forall k, key_form k = LOG_RAW_FORM -> log_at d1 k (says_ops (filed k (H ++ hs)))) -> base d1 (H ++ hs).
Proof.
  intros F1 SU G B RC GR LG. pose proof B as (IO & KS & _ & MT).
  assert (IDS : forall h, In h (H ++ hs) -> tip_ok (ch_id h) /\ uvalue (ch_id h) < NEVER_W /\ key_id_ok (ch_id h)).
  { intros h I. destruct (op_ids U _ h _ SU G I (head_in h)) as (_ & _ & V & ID & NV & K). fold (ch_id h) in *. split; [apply time_tip; assumption|auto]. }
  assert (SAME : hs = [] -> d1 = d -> base d1 (H ++ hs)).
  { intros -> ->. rewrite app_nil_r in *. split; [exact IO|]. split; [exact KS|]. split; [exact LG|exact MT]. }
  destruct GR as [(-> & [->|[(ws & w & OW & A)|(k1 & ce & CP)]])|(ws & m & w & f & batch & OW & A & WR & BB)].
  - apply SAME; reflexivity.
  - destruct (acts_mem _ _ _ OW A ltac:(constructor)) as (E & _). cbn [fst] in E. apply SAME; [reflexivity|exact E].
  - rewrite app_nil_r in *. assert (KS1 : forall k, In k (map fst d1) <-> In k (map fst d)).
    { intro k. clear -CP. unfold compact in CP. destruct (existsb _ d) eqn:E; [|injection CP as <-; reflexivity]. apply rbind_done in CP as (c & _ & CP). injection CP as <-. rewrite put_keys.
      split; [|auto]. intros [->|I]; [|exact I]. apply existsb_exists in E as ([k2 c2] & I & E). cbn [fst] in E. apply key_eqb_eq in E. subst k2. apply (in_map fst) in I. exact I. }
    split; [|split; [|split; [exact LG|]]].
    + destruct (key_eqb k1 KEY_ZERO) eqn:EZ.
      * unfold compact in CP. destruct (existsb _ d); [|injection CP as <-; exact IO]. apply rbind_done in CP as (c & _ & CP). injection CP as <-. apply put_order. exact IO.
      * apply (compact_other fbits fuel KEY_ZERO d k1 ce d1 IO); [intros ->; rewrite key_eqb_refl in EZ; discriminate|exact CP].
    + intro k. rewrite KS1. apply KS.
    + intros h I. destruct (MT h I) as (t & SA & UO & LT). exists t. split; [|auto]. destruct (IDS h I) as (TO & NV & KI).
      set (k := meta_key (ch_id h)) in *. destruct (key_eqb k1 k) eqn:EK.
      * apply key_eqb_eq in EK. subst k1. apply union_inv_at in SA as (ds & UI & ED). apply union_inv_at. exists ds. split; [|exact ED].
        apply (compact_ok fbits fuel k (union_bound fuel) union_inv (union_partial fbits fuel k (meta_forms _)) (union_full fbits fuel k (meta_forms _)) d ce d1 ds IO UI); [|exact CP].
        eapply rec_bound; eassumption.
      * destruct (compact_other fbits fuel k d k1 ce d1 IO) as [_ C1]; [intros ->; rewrite key_eqb_refl in EK; discriminate|exact CP|]. unfold state_at in *. rewrite C1. exact SA.
  - pose proof (accepted_acts _ _ _ _ _ _ _ _ A) as AC. pose proof (accepted_writes _ _ _ _ _ _ _ _ A) as AW.
    destruct (acts_mem _ _ _ OW AC ltac:(constructor)) as (E & SW & CW). cbn [fst snd] in *. subst m. rewrite AW in CW.
    assert (KS1 : forall k, In k (map fst d1) <-> In k (map fst d) \/ k = KEY_ZERO \/ exists h, In h hs /\ In k [meta_key (ch_id h); logkey h; statekey h]).
    { intro k. pose proof (write_ok w KEY_ZERO f SW) as K. rewrite WR in K. destruct K as (_ & K & _). unfold b_batch, rocks_batch in BB. injection BB as <-. change (fold_left _ batch d) with (adds d batch).
      rewrite (adds_keys fbits), K. cbn [before_end]. change (key_eqb KEY_ZERO KEY_END) with false. cbn match. rewrite contents_one.
      assert (Q : contents w k <> [] <-> exists h, In h hs /\ In k [meta_key (ch_id h); logkey h; statekey h]).
      { rewrite CW, (contents_in (flat_map ch_records hs)). split.
        - intros [Q|Q]; [exfalso; exact (Q eq_refl)|]. rewrite in_map_iff in Q. destruct Q as (r & <- & Q). apply in_flat_map in Q as (h & I & J). exists h. split; [exact I|]. rewrite <- record_keys. apply in_map. exact J.
        - intros (h & I & J). right. rewrite <- record_keys in J. apply in_map_iff in J as (r & <- & J). apply in_map. apply in_flat_map. eauto. }
      destruct (key_eqb KEY_ZERO k) eqn:EZ.
      - apply key_eqb_eq in EZ. subst k. split; [auto|]. intros _. right. destruct (contents w KEY_ZERO); discriminate.
      - rewrite app_nil_r, Q. split; [intros [I|I]; auto|]. intros [I|[E|I]]; [left; exact I| |right; exact I]. rewrite E, key_eqb_refl in EZ. discriminate EZ. }
    assert (IO1 : in_order d1) by (unfold b_batch, rocks_batch in BB; injection BB as <-; apply (adds_at batch d KEY_ZERO IO)).
    split; [exact IO1|]. split; [|split; [exact LG|]].
    + intro k. rewrite KS1, KS. split.
      * intros [[->|(h & I & J)]|[->|(h & I & J)]]; [auto|right; exists h; rewrite in_app_iff; auto|auto|right; exists h; rewrite in_app_iff; auto].
      * intros [->|(h & I & J)]; [auto|]. apply in_app_iff in I as [I|I]; [left; right; eauto|right; right; eauto].
    + pose proof (turn_heads (H ++ hs) ltac:(apply G)) as ND. rewrite map_app in ND.
      assert (STEP : forall h t W dss, In h (H ++ hs) -> uop_ok (rec_op (ch_id h) (ch_obj h) (ch_rdt h) t) -> (length t <= 44)%nat -> union_inv (ce_value (cell_at d (meta_key (ch_id h)))) (ce_operands (cell_at d (meta_key (ch_id h)))) W ->
        Forall2 text_frame (contents (flat_map ch_records hs) (meta_key (ch_id h))) dss -> map bare (concat (W ++ dss)) = [rec_op (ch_id h) (ch_obj h) (ch_rdt h) t] ->
        state_at d1 (meta_key (ch_id h)) [rec_op (ch_id h) (ch_obj h) (ch_rdt h) t]).
      { intros h t W dss I UO LT UI F2 ED. destruct (IDS h I) as (TO & NV & KI). set (k := meta_key (ch_id h)) in *. assert (UB : union_bound fuel (W ++ dss)) by (eapply rec_bound; eassumption).
        assert (J : joint k union_inv (d, w) (W ++ dss)).
        { apply (acts_joint fbits fuel k text_frame (union_bound fuel) union_inv (union_bound_prefix fuel) (union_write fbits) (union_partial fbits fuel k (meta_forms _))
            (fun v a b0 W => union_mem fbits fuel k v a b0 W (meta_forms _)) _ _ _ OW AC IO ltac:(constructor)); [|rewrite AW; exact F2|exact UB].
          unfold joint. cbn [fst snd]. rewrite app_nil_r. exact UI. }
        destruct (batch_inv k union_inv (meta_not_zero _) d w f batch d1 ROk _ IO SW J WR BB) as [_ P2]. apply union_inv_at. exists (W ++ dss). auto. }
      intros h I. pose proof I as I0. apply in_app_iff in I as [I|I].
      * destruct (MT h I) as (t & SA & UO & LT). exists t. split; [|auto]. apply union_inv_at in SA as (ds & UI & ED). apply (STEP h t ds []); try assumption; [|rewrite app_nil_r; exact ED].
        rewrite (records_meta U (H ++ hs) hs _ SU G (incl_appr _ (incl_refl _)) ltac:(apply IDS; exact I0)). rewrite none_of_them; [constructor|].
        intro J. apply (in_map ch_id) in I. clear -ND I J. induction (map ch_id H) as [|x l IH]; [destruct I|]. cbn [app] in ND. inversion ND as [|? ? NI ND']; subst. destruct I as [->|I]; [apply NI; apply in_or_app; right; exact J|exact (IH ND' I)].
      * rewrite Forall_forall in RC. destruct (IDS h I0) as (TO & NV & KI). destruct (obj_ids U (H ++ hs) h SU G I0) as (_ & VO & _).
        assert (VR : value_id (ch_rdt h)) by (destruct G as (_ & _ & _ & _ & TY & _); rewrite Forall_forall in TY; apply TY; exact I0).
        destruct (record_says _ _ _ _ (RC h I) TO VO VR) as (t & FS & UO & LT). exists t. split; [|auto].
        apply (STEP h t [] [[mkRop (ch_id h) META_FORM_UUID [VUuid (ch_obj h); VUuid (ch_rdt h); VStr (Some t)] RAW]]); try assumption.
        -- assert (NK : ~ In (meta_key (ch_id h)) (map fst d)).
           { rewrite KS. intros [Q|(h' & I' & J)]; [exact (meta_not_zero _ Q)|]. assert (I1 : In h' (H ++ hs)) by (apply in_or_app; auto).
             destruct J as [J|[J|[J|[]]]].
             - destruct (IDS h' I1) as (_ & _ & K'). apply meta_key_inj in J; [|exact K'|exact KI]. apply (in_map ch_id) in I, I'. rewrite J in I'.
               clear -ND I I'. induction (map ch_id H) as [|x l IH]; [destruct I'|]. cbn [app] in ND. inversion ND as [|? ? NI ND']; subst. destruct I' as [->|I']; [apply NI; apply in_or_app; right; exact I|exact (IH ND' I')].
             - apply (f_equal key_form) in J. rewrite meta_key_form, form_of_log in J. discriminate.
             - apply (f_equal key_form) in J. destruct G as (_ & _ & _ & _ & TY & _). rewrite Forall_forall in TY. destruct (TY h' I1) as [_ OF]. rewrite meta_key_form, (form_of_state h' OF) in J. destruct OF as [_ OF]. rewrite J in OF. unfold LOG_RAW_FORM, META_META_FORM in OF. lia. }
           rewrite (cell_at_absent _ _ NK). cbn [ce_value ce_operands cell0]. exists []. split; [|intro Q; exfalso; exact (Q eq_refl)]. split; [constructor|]. split; [intro u; reflexivity|]. split; reflexivity.
        -- rewrite (records_meta U (H ++ hs) hs _ SU G (incl_appr _ (incl_refl _)) KI). rewrite one_of_them; [|clear -ND; induction (map ch_id H) as [|x l IH]; [exact ND|cbn [app] in ND; inversion ND; auto]|exact I].
           constructor; [|constructor]. destruct FS as [FL SM]. split; [exact FL|]. split; [|exact SM]. cbn. repeat constructor.
        -- reflexivity.
Qed.
End Grow.

