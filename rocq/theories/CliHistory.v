(* C65: names given by one process are there for the next ones. *)
From Coq Require Import Sorted.
From Verif Require ClockTheorems.
From Verif Require Import Prelude UuidModel UuidProofs KeyModel KeyProofs CodecModel CodecTheorems TextModel TextSpec BuilderSpec MetaTheorems MergeModel MergeSpec MergeTextModel
  TextMergeSpec TextCursors MergeKeeps TextMerge SizeProofs TextMergeTheorems StoreModel StoreSpec StoreProofs StoreTheorems RocksModel RocksSpec RocksProofs MetaModel ClockModel
  ReplicaModel ReplicaSpec ReplicaProofs ReplicaTheorems BranchModel BranchSpec BranchProofs BranchTheorems DurableSpec DurableProofs DurableTheorems
  ForkModel HostModel HostSpec HostProofs HostTheorems NamesModel NamesSpec NamesTheorems CliModel CliSpec CliProofs CliTheorems.

(* ---- a new replica has no names ---- *)
Section Start.
Variable sha : bytes -> bytes.
Variable fbits : bytes -> N.
Variable fuel : nat.
Notation jread := (b_jread fbits fuel).
Notation jprev := (b_jprev fbits fuel).
Notation acts := (acts family jread b_write).

Lemma acts_none k x ws y : only_writes ws -> acts x ws y -> in_order (fst x) -> sorted_store (snd x) -> contents (snd x) k = [] -> contents (writes_of ws) k = [] -> contents (snd y) k = [].
Proof.
  intros OW A O SS C0. induction A as [|ws m w k1 m' w' f s A IH J|ws m w k1 f w' A IH W|ws m w f m' s A IH W]; intro CW; [exact C0| | |].
  - specialize (IH OW CW). destruct (acts_cell fbits fuel k _ _ _ OW A O SS) as (O1 & S1 & _). cbn [fst snd] in *.
    unfold BranchModel.b_jread in J. apply rbind_done in J as ([fa sa] & _ & J). destruct sa; try (injection J as <- <- _ _; exact IH; fail).
    apply rbind_done in J as ([[w1 fb] sb] & R & J). assert (C1 : contents w1 k = []).
    { pose proof (read_ok (F := bytes) [] (merge_as fbits fuel) w k1 [] S1) as K. destruct (contents w k1) as [|a [|b l]] eqn:C; [rewrite K in R; injection R as <- _ _; exact IH|rewrite K in R; injection R as <- _ _; exact IH|].
      destruct K as [K1 K2]. rewrite K1 in R. apply rbind_done in R as ([r s1] & M & R). injection R as <- _ _. destruct (K2 (match r with Some f0 => f0 | None => [] end)) as [_ K3]. rewrite K3.
      destruct (key_eqb k k1) eqn:E; [|exact IH]. apply key_eqb_eq in E. subst k1. rewrite IH in C. discriminate C. }
    destruct sb; try (injection J as <- <- _ _; exact C1; fail). destruct (blank fa); [injection J as <- <- _ _; exact C1|]. destruct (blank fb); [injection J as <- <- _ _; exact C1|].
    apply rbind_done in J as ([r s1] & _ & J). injection J as <- <- _ _. exact C1.
  - rewrite writes_of_app, contents_app in CW. apply app_eq_nil in CW as [C1 C2]. apply Forall_app in OW as [OW _]. specialize (IH OW C1). destruct (acts_cell fbits fuel k _ _ _ OW A O SS) as (O1 & S1 & _). cbn [fst snd] in *.
    pose proof (write_ok w k1 f S1) as K. rewrite W in K. destruct K as (_ & K & _). rewrite K, IH. cbn [app]. cbn [writes_of flat_map app] in C2. cbn [before_end]. destruct (key_eqb k1 KEY_END); [reflexivity|exact C2].
  - apply Forall_app in OW as [_ OW]. inversion OW; contradiction.
Qed.

Lemma other_form id form : form < 256 -> form <> LWW_RDT_FORM -> key_eqb (key_of id form) NAMES_KEY = false.
Proof. intros A B. apply key_eqb_neq. intro E. apply B. rewrite <- (key_form_of id form A), E. reflexivity. Qed.
Lemma saved_names d ev c c1 cell st cx s st2 s2 now : tipped d NIL -> d = [(KEY_ZERO, cell)] -> version ev = TIME -> uvalue ev < NEVER_W ->
  text_id c = ev -> text_ref c = YARN_FORM_UUID -> next c = NEnd c1 -> valid c = true ->
  save_chain sha fbits family jread jprev fuel (commit_on family d now [] NIL) c = Done (st, cx, s) -> save family b_batch st = Done (st2, s2) ->
  cell_at (s_main family st2) NAMES_KEY = cell0.
Proof.
  intros T D VT NV TI TR NE V SC SV. destruct (first_chain sha fbits fuel _ _ ev c c1 _ _ _ _ _ T D VT NV TI TR NE V SC) as [-> TP].
  destruct (save_chain_inv sha fbits family jread jprev b_write fuel _ _ _ _ _ V SC) as (ws & MV & OW & OK). destruct (OK eq_refl) as (h & l & HC & AD & WR & _). clear OK.
  destruct MV as [A1 A2]. cbn [commit_on s_main s_mem s_base] in A1, A2.
  assert (CW : contents (writes_of ws) NAMES_KEY = []).
  { rewrite WR. unfold admitted in AD. cbv zeta in AD. destruct AD as (_ & _ & _ & _ & _ & [(_ & _ & _ & RD)|(K & _)]); [|rewrite HC, TR in K; congruence].
    rewrite HC, TR in RD. unfold ch_records, key_as. rewrite RD. change [?a; ?b; ?e] with ([a] ++ [b] ++ [e]). rewrite !contents_app, !contents_one.
    change (uuid2form META_FORM_UUID) with META_META_FORM. change (uuid2form LOG_FORM_UUID) with LOG_RAW_FORM. change (uuid2form YARN_FORM_UUID) with YARN_RAW_FORM.
    rewrite !other_form by (vm_compute; congruence). reflexivity. }
  assert (IO : in_order d) by apply T. destruct (acts_cell fbits fuel NAMES_KEY _ _ _ OW A1 IO ltac:(constructor)) as (O1 & S1 & C1). cbn [fst snd] in O1, S1, C1.
  pose proof (acts_none NAMES_KEY _ _ _ OW A1 IO ltac:(constructor) eq_refl CW) as C2. cbn [snd] in C2. clear SC.
  assert (CD : cell_at d NAMES_KEY = cell0) by (rewrite D; cbn [cell_at]; rewrite key_eqb_neq; [reflexivity|intro K; apply names_not_zero; symmetry; exact K]).
  assert (EV : ev <> NIL) by (intros ->; discriminate).
  unfold save in SV. rewrite TP, A2 in SV. rewrite (eqb_other _ _ EV) in SV. change (uuid_eqb NIL NIL) with true in SV. cbn [negb andb] in SV.
  assert (LN : uuid_ltb ev NIL = false).
  { unfold uuid_ltb. cbn [uvalue uorigin NIL]. assert (Z : forall n, (n <? 0) = false) by (intro n; apply N.ltb_ge; lia). rewrite !Z, !andb_false_r. reflexivity. }
  rewrite LN in SV. destruct (one_op ev ZERO_FORM_UUID []) as [f|] eqn:OP; [|discriminate]. destruct (write bytes (s_mem family st) KEY_ZERO f) as [w sw] eqn:WW.
  assert (SW : sw = StOK) by (unfold write in WW; change (key_eqb KEY_ZERO KEY_END) with false in WW; congruence). subst sw. cbn [rstatus_of is_ok negb] in SV.
  apply rbind_done in SV as ([m s3] & B & SV). injection SV as <- <-. cbn [s_main].
  pose proof (write_ok (s_mem family st) KEY_ZERO f S1) as K. rewrite WW in K. destruct K as (_ & K & _).
  unfold b_batch, rocks_batch in B. injection B as <- _. destruct (adds_at w (s_main family st) NAMES_KEY O1) as [O2 E]. unfold adds in *. rewrite E, C1, CD, K, C2. cbn [before_end].
  change (key_eqb KEY_ZERO KEY_END) with false. cbn iota. rewrite contents_one, key_eqb_neq by (intro Q; apply names_not_zero; symmetry; exact Q). reflexivity.
Qed.
Strategy expand [h_new].
Lemma new_names reading h s : reading < NEVER_W -> h_new sha fbits fuel reading = Done (h, s) -> exists d, left_by h = [(NIL, d)] /\ cell_at d NAMES_KEY = cell0.
Proof.
  intros L H. unfold h_new in H. apply rbind_done in H as ([d s0] & BC & H). destruct (first_store _ _ BC) as (-> & T & c0 & D). clear BC. cbn [is_ok negb] in H.
  apply rbind_done in H as ([h1 s1] & RO & H). destruct (first_open _ _ _ _ _ T RO) as [ST NW]. rewrite ST, NW in H. clear RO ST NW h1 s1.
  cbn [find_store] in H. rewrite (proj2 (uuid_eqb_eq NIL NIL) eq_refl) in H. cbn iota in H. cbn [br_main br_tip] in H.
  remember (uuid_time reading 0) as ev eqn:EE.
  assert (VT : version ev = TIME) by (subst ev; apply ClockTheorems.time_version).
  assert (NV : uvalue ev < NEVER_W) by (subst ev; exact L).
  assert (TK : tip_ok ev) by (subst ev; apply uuid_time_ok; eapply N.lt_trans; [exact L|reflexivity]). clear EE.
  destruct (one_reads ev YARN_FORM_UUID TK) as (fy & c & c1 & FY & NX & W & TM & V & NE & _); [split; [split|]; reflexivity|].
  rewrite FY in H. unfold next_any in H. rewrite NX in H. cbn [rbind] in H.
  apply rbind_done in H as ([[st cx] s1] & SC & H). apply rbind_done in H as ([st2 s2] & SV & Q).
  assert (TI : text_id c = ev) by (unfold wop_of_cursor in W; unfold text_id; congruence).
  assert (TR : text_ref c = YARN_FORM_UUID) by (unfold wop_of_cursor in W; unfold text_ref; congruence).
  pose proof (saved_names _ _ _ _ _ _ _ _ _ _ _ T D VT NV TI TR NE V SC SV) as CN. clear SC SV FY NX.
  assert (EH : h = mkHost 0 NIL false [(NIL, mkBranch (s_main family st2) NIL)]) by congruence. clear Q. rewrite EH.
  exists (s_main family st2). split; [reflexivity|exact CN].
Qed.
Strategy transparent [h_new].
End Start.

(* ---- the names given, as ops ---- *)
Definition name_op (t o : N) (n v : uuid) : uop := mkUop (uuid_time t o) NIL [VUuid n; VUuid v].
Inductive hist : list (invocation * proc) -> list uop -> Prop :=
| hist_none : hist [] []
| hist_other l W x : hist l W -> given x = None -> hist (l ++ [x]) W
| hist_name l W x n v t o : hist l W -> given x = Some (n, v) -> v <> NIL -> hd 0 (i_readings (fst x)) <= t -> t <= p_clock (snd x) -> hist (l ++ [x]) (W ++ [name_op t o n v]).

Lemma pairs_snoc {T} (R : T -> T -> Prop) l x : ForallOrdPairs R (l ++ [x]) -> ForallOrdPairs R l /\ Forall (fun a => R a x) l.
Proof.
  induction l as [|a l IH]; intro H; [split; constructor|]. inversion H as [|? ? A B]; subst. destruct (IH B) as [C D]. apply Forall_app in A as [A1 A2].
  split; constructor; auto. inversion A2; assumption.
Qed.
Lemma pairs_on {T} (R : T -> T -> Prop) l x : ForallOrdPairs R l -> Forall (fun a => R a x) l -> ForallOrdPairs R (l ++ [x]).
Proof.
  induction l as [|a l IH]; intros A B; cbn [app]; [constructor; constructor|]. inversion A as [|? ? A1 A2]; subst. inversion B as [|? ? B1 B2]; subst. constructor; [apply Forall_app; auto|auto].
Qed.
Lemma pairs_prefix {T} (R : T -> T -> Prop) a b : ForallOrdPairs R (a ++ b) -> ForallOrdPairs R a.
Proof. induction a as [|x a IH]; intro H; [constructor|]. inversion H as [|? ? A B]; subst. apply Forall_app in A as [A _]. constructor; auto. Qed.

Lemma given_wf i p n v : given (i, p) = Some (n, v) -> (uuid_wf n /\ uorigin n < 2 ^ 62) /\ (uuid_wf v /\ uorigin v < 2 ^ 62).
Proof.
  unfold given. cbn [fst snd]. destruct (p_status p); try discriminate. unfold says_name. destruct (i_args i) as [|a [|b [|c [|d [|e [|f [|g r]]]]]]]; try discriminate.
  - destruct (bytes_eqb a W_create && bytes_eqb b W_as); [|discriminate]. intro H. injection H as <- <-. split; [apply parse_uuid_wf|].
    destruct (uuid_time_ok NEVER_W (i_random i)) as [K _]; [reflexivity|exact K].
  - destruct (bytes_eqb a W_name && bytes_eqb c W_as); [|discriminate]. intro H. injection H as <- <-. split; apply parse_uuid_wf.
  - destruct (bytes_eqb a W_name && bytes_eqb c W_as && bytes_eqb e W_on && uuid_eqb (parse_uuid f) NIL); [|discriminate]. intro H. injection H as <- <-. split; apply parse_uuid_wf.
Qed.
Definition apart_ops (a b : uop) : Prop := uvalue (u_id a) + 1 < uvalue (u_id b).
Definition name_shaped (u : uop) : Prop := exists t o n v, u = name_op t o n v /\ v <> NIL /\ t < NEVER_W.
Lemma hist_ops l W : hist l W -> Forall (fun x => calm (fst x) (snd x)) l -> spaced l -> Forall no_numbers l ->
  Forall uop_ok W /\ ForallOrdPairs apart_ops W /\ Forall name_shaped W /\ (length W <= length l)%nat /\ Forall (fun u => exists x, In x l /\ uvalue (u_id u) <= p_clock (snd x)) W.
Proof.
  induction 1 as [|l W x H IH G|l W x n v t o H IH G NV R1 R2]; intros C S N; [split; [constructor|]; split; [constructor|]; split; [constructor|]; split; constructor| |].
  - apply Forall_app in C as [C _]. apply pairs_snoc in S as [S _]. apply Forall_app in N as [N _]. destruct (IH C S N) as (A1 & A2 & A3 & A4 & A5).
    split; [exact A1|]. split; [exact A2|]. split; [exact A3|]. split; [rewrite app_length; lia|]. eapply Forall_impl; [|exact A5]. intros u (y & Y & L). exists y. split; [apply in_or_app; auto|exact L].
  - apply Forall_app in C as [C Cx]. apply pairs_snoc in S as [S Sx]. apply Forall_app in N as [N Nx]. destruct (IH C S N) as (A1 & A2 & A3 & A4 & A5).
    apply Forall_inv in Cx. apply Forall_inv in Nx. destruct x as [i p]. destruct Cx as (_ & _ & CL). cbn [fst snd] in *. destruct (given_wf _ _ _ _ G) as [WN WV]. unfold no_numbers in Nx. rewrite G in Nx. destruct Nx as [FN FV].
    assert (TL : t < NEVER_W) by lia. split; [|split; [|split; [|split]]].
    + apply Forall_app. split; [exact A1|]. constructor; [|constructor]. split; [|split].
      * cbn [name_op u_id]. apply (uuid_time_ok t o). eapply N.lt_trans; [exact TL|reflexivity].
      * cbn [name_op u_ref]. split; [split|]; reflexivity.
      * cbn [name_op u_vals]. constructor; [|constructor; [|constructor]]; cbn [value_ok]; tauto.
    + apply pairs_on; [exact A2|]. eapply Forall_impl; [|exact A5]. intros u (y & Y & L). unfold apart_ops. cbn [name_op u_id uuid_time uvalue].
      rewrite Forall_forall in Sx. specialize (Sx y Y). cbn beta in Sx. cbn [fst snd] in Sx. lia.
    + apply Forall_app. split; [exact A3|]. constructor; [|constructor]. exists t, o, n, v. auto.
    + rewrite !app_length. cbn [length]. lia.
    + apply Forall_app. split; [eapply Forall_impl; [|exact A5]; intros u (y & Y & L); exists y; split; [apply in_or_app; auto|exact L]|].
      constructor; [|constructor]. exists (i, p). split; [apply in_or_app; right; left; reflexivity|]. exact R2.
Qed.
Lemma pairs_cases {T} (R : T -> T -> Prop) l a b : ForallOrdPairs R l -> In a l -> In b l -> a = b \/ R a b \/ R b a.
Proof.
  induction 1 as [|x l F P IH]; intros A B; [destruct A|]. rewrite Forall_forall in F. destruct A as [<-|A], B as [<-|B]; auto.
Qed.
Lemma apart_mergeable W : Forall uop_ok W -> ForallOrdPairs apart_ops W -> Forall name_shaped W -> mergeable W.
Proof.
  intros OK AP NS. rewrite Forall_forall in NS. assert (INC : forall u, uvalue u < NEVER_W -> uvalue (inc u) = uvalue u + 1).
  { intros u L. unfold inc, inc_by. cbn [uvalue]. rewrite N.mod_small; [reflexivity|]. change two64 with 18446744073709551616. change NEVER_W with 1134907106097364992 in L. lia. }
  assert (TV : forall u, In u W -> uvalue (u_id u) < NEVER_W /\ uorigin (u_id u) <> 0 /\ u_ref u = NIL).
  { intros u I. destruct (NS u I) as (t & o & n & v & -> & _ & L). cbn [name_op u_id u_ref]. split; [exact L|]. split; [|reflexivity]. rewrite ClockTheorems.time_origin. change TIME with 2. change (2 ^ 60) with 1152921504606846976. lia. }
  assert (NO : forall a b, In a W -> In b W -> u_id b <> inc (u_id a)).
  { intros a b A B E. destruct (TV a A) as (LA & _). apply (f_equal uvalue) in E. rewrite INC in E by exact LA. destruct (pairs_cases _ _ _ _ AP A B) as [<-|[K|K]]; [lia| |]; unfold apart_ops in K; lia. }
  assert (NZ : forall b, In b W -> u_id b <> inc NIL).
  { intros b B E. destruct (TV b B) as (_ & O & _). apply O. rewrite E. reflexivity. }
  split; [exact OK|]. split; [|split; [|split]].
  - intros a b A B E. destruct (pairs_cases _ _ _ _ AP A B) as [K|[K|K]]; [exact K| |]; unfold apart_ops in K; rewrite E in K; lia.
  - intros a b [<-|A] B E; [exfalso; exact (NZ b B E)|exfalso; exact (NO a b A B E)].
  - intros a b A B E. exfalso. unfold continues in E. apply andb_prop in E as [E _]. apply andb_prop in E as [E _]. apply uuid_eqb_eq in E. exact (NO a b A B E).
  - intros b B. unfold continues. change (u_id origin_op) with NIL. rewrite (eqb_other _ _ (NZ b B)). reflexivity.
Qed.
Lemma name_rooms W : Forall name_shaped W -> room W = (152 * length W)%nat.
Proof.
  induction 1 as [|u W (t & o & n & v & -> & _) F IH]; [reflexivity|]. unfold room in *. cbn [map length]. unfold list_sum in *. cbn [fold_right]. rewrite IH. unfold op_room. cbn [name_op u_vals map value_room]. unfold list_sum. cbn [fold_right]. lia.
Qed.
Lemma hist_bound fuel l W : hist l W -> Forall (fun x => calm (fst x) (snd x)) l -> spaced l -> Forall no_numbers l -> (length l < fuel)%nat -> N.of_nat (length l) < 2 ^ 24 -> keep_bound fuel W [].
Proof.
  intros H C S N L1 L2. destruct (hist_ops _ _ H C S N) as (A1 & A2 & A3 & A4 & _). unfold keep_bound. cbn [map length]. change (room []) with 0%nat. rewrite app_nil_r, (name_rooms _ A3). change (2 ^ 24) with 16777216 in L2. change (2 ^ 32) with 4294967296.
  split; [exact (apart_mergeable _ A1 A2 A3)|]. split; [lia|]. split; lia.
Qed.
Lemma hist_sorted l W : hist l W -> Forall (fun x => calm (fst x) (snd x)) l -> spaced l -> Forall no_numbers l -> StronglySorted newer W.
Proof.
  intros H C S N. destruct (hist_ops _ _ H C S N) as (_ & A2 & _). clear - A2. induction A2 as [|a W F P IH]; [constructor|]. apply SSorted_cons; [exact IH|]. eapply Forall_impl; [|exact F].
  intros b K. unfold newer, uuid_ltb. unfold apart_ops in K. assert (E : (uvalue (u_id a) <? uvalue (u_id b)) = true) by (apply N.ltb_lt; lia). rewrite E. reflexivity.
Qed.
(* of the ops, the last one is the last name given *)
Lemma last_snoc n x : forall l, last_given n (l ++ [x]) = match given x with Some (m, v) => if uuid_eqb m n then Some v else last_given n l | None => last_given n l end.
Proof.
  induction l as [|y l IH]; cbn [app last_given].
  - destruct (given x) as [[m v]|]; [destruct (uuid_eqb m n)|]; reflexivity.
  - rewrite IH. destruct (given x) as [[m v]|]; [destruct (uuid_eqb m n); reflexivity|]; reflexivity.
Qed.
Lemma hist_last n l W : hist l W -> names_get (rev (assigns W)) n = last_given n l.
Proof.
  induction 1 as [|l W x H IH G|l W x m v t o H IH G NV R1 R2]; [reflexivity| |]; rewrite last_snoc, G; [exact IH|].
  unfold assigns. rewrite flat_map_app, rev_app_distr. fold (assigns W). cbn [flat_map name_op u_vals pair_of rev app]. unfold names_get in *. cbn [find fst]. destruct (uuid_eqb m n); [reflexivity|exact IH].
Qed.
Lemma hist_values l W n v : hist l W -> current W n v -> v <> NIL.
Proof.
  intros H (u & I & G & _). revert I. induction H as [|l W x H IH GX|l W x m v0 t o H IH GX NV R1 R2]; intro I; [destruct I|exact (IH I)|].
  apply in_app_iff in I as [I|[<-|[]]]; [exact (IH I)|]. unfold gives in G. cbn [name_op u_vals] in G. injection G as _ <-. exact NV.
Qed.

(* ---- the names in the database ---- *)
Definition named_by (fs : world) (W : list uop) : Prop := exists d, In (NIL, d) fs /\ (W = [] -> cell_at d NAMES_KEY = cell0) /\ state_at d NAMES_KEY W.
Lemma state_same d d' k W : cell_at d' k = cell_at d k -> state_at d k W -> state_at d' k W.
Proof. intros E H. unfold state_at in *. rewrite E. exact H. Qed.
Lemma state_none d : cell_at d NAMES_KEY = cell0 -> state_at d NAMES_KEY [].
Proof.
  intro E. unfold state_at. rewrite E. cbn [cell0 ce_value ce_operands held app]. exists []. split; [constructor|]. cbn [concat map length]. split; [tauto|]. split; [lia|]. split; [lia|]. intro K. contradiction K. reflexivity.
Qed.
Section History.
Variable sha : bytes -> bytes.
Variable fbits : bytes -> N.
Variable fuel : nat.
Variable order : list (uuid * uuid) -> list (uuid * uuid).
Hypothesis FB : 2 * N.of_nat fuel < ROOM.
Notation cli := (cli sha fbits fuel order).
Notation meta_names := (meta_names fbits fuel).
Notation means := (means fbits fuel).
Notation session := (session sha fbits fuel order).

Lemma name_step a b now rs n v b' u W : in_order (br_main b) -> b_name a b now rs n v = Done (b', u) -> (W = [] -> cell_at (br_main b) NAMES_KEY = cell0) ->
  state_at (br_main b) NAMES_KEY W -> keep_bound fuel (W ++ [mkUop u NIL [VUuid n; VUuid v]]) [] ->
  state_at (br_main b') NAMES_KEY (W ++ [mkUop u NIL [VUuid n; VUuid v]]).
Proof.
  clear FB. intros O H _ SA KB. unfold b_name in H. destruct (one_op _ NIL [VUuid n; VUuid v]) as [f|] eqn:F; [|discriminate].
  apply rbind_done in H as ([d s] & H & Q). remember (snd (clock_now a now (hd 0 rs) (uorigin (br_tip b)))) as u0 eqn:EU. cbn [br_main]. assert (b' = mkBranch d (br_tip b) /\ u = u0) as [-> ->] by (split; congruence). clear Q. cbn [br_main].
  remember (mkUop u0 NIL [VUuid n; VUuid v]) as op eqn:EO.
  assert (FS : frame_says f [mkRop (u_id op) (u_ref op) (u_vals op) RAW]).
  { destruct KB as (M & _ & _ & R). cbn [map] in *. rewrite app_nil_r in M. apply (one_text op (W ++ [op])); [exact M|apply in_or_app; right; left; reflexivity| |subst op; reflexivity|subst op; exists n, v; reflexivity|subst op; exact F].
    change (room []) with 0%nat in R. lia. }
  unfold b_write, rocks_write in H. rewrite (key_eqb_neq _ _ names_not_end) in H. cbn [andb] in H. injection H as <- <-.
  destruct SA as (ds & F2 & U & L & R & V). unfold state_at. rewrite add_at by exact O. rewrite key_eqb_refl. cbn [ce_value ce_operands].
  exists (ds ++ [[mkRop (u_id op) (u_ref op) (u_vals op) RAW]]). split.
  { rewrite app_assoc. apply Forall2_app; [exact F2|]. constructor; [|constructor]. split; [exact FS|]. constructor; constructor. }
  assert (EA : bare (mkRop (u_id op) (u_ref op) (u_vals op) RAW) = op) by (subst op; reflexivity).
  rewrite !concat_app, !map_app, !app_length, !room_app. cbn [concat app map length]. rewrite EA. split.
  { intro x. rewrite !in_app_iff, U. reflexivity. }
  split; [lia|]. split; [lia|].
  intro NV. destruct (V NV) as (us & ds' & -> & I). exists us. eexists. split; [reflexivity|exact I].
Qed.
(* what ReadNames makes of it *)
Lemma names_at fs W : named_by fs W -> keep_bound fuel W [] -> exists l, meta_names fs l /\ forall n v, names_get l n = Some v <-> current W n v.
Proof.
  clear FB. intros (d & I & Z & SA) KB. destruct W as [|w W].
  - exists []. split; [|intros n v; split; [discriminate|intros (u & [] & _)]]. exists d. split; [exact I|].
    assert (0 < fuel)%nat by (destruct KB as (_ & L & _); cbn [length] in L; lia).
    unfold b_names, b_jread, rocks_read. cbn [br_main]. rewrite (key_eqb_neq _ _ names_not_end), (Z eq_refl). cbn [cell_get cell0 ce_value ce_operands rbind].
    assert (RE : read bytes [] (merge_as fbits fuel) [] NAMES_KEY [] = Done ([], [], StOK)) by reflexivity. rewrite RE. cbn [rbind BranchModel.blank is_ok negb].
    destruct fuel as [|m]; [lia|]. cbn [names_loop]. assert (NE : exists c, next (cursor_of []) = NEnd c) by (eexists; vm_compute; reflexivity). destruct NE as (c & ->). reflexivity.
  - destruct (names_read sha fbits fuel (mkBranch d NIL) (w :: W) SA KB ltac:(discriminate)) as (l & BN & K). exists l. split; [|exact K]. exists d. split; [exact I|exact BN].
Qed.
Lemma names_one fs l l' : NoDup (map fst fs) -> meta_names fs l -> meta_names fs l' -> l = l'.
Proof.
  clear FB. intros ND (d & I & B) (d' & I' & B'). assert (d = d') as ->; [|congruence]. clear B B'. induction fs as [|[j x] fs IH]; [destruct I|]. cbn [map fst] in ND. inversion ND as [|? ? N1 N2]; subst.
  assert (X : forall z, In (NIL, z) fs -> In NIL (map fst fs)) by (intros z Q; change NIL with (fst (NIL, z)); apply in_map; exact Q).
  destruct I as [I|I], I' as [K|K]; [congruence|injection I as -> ->; destruct (N1 (X _ K))|injection K as -> ->; destruct (N1 (X _ I))|auto].
Qed.
(* the store of the metadata in an open replica *)
Lemma main_of h fr d : sound h fr -> In (NIL, d) (left_by h) -> exists m, find_store (h_stores h) NIL = Some m /\ br_main m = d /\ in_order d.
Proof.
  clear FB. intros S I. destruct (family_find _ _ _ (proj1 (proj2 S)) I) as (m & F & <-). exists m. split; [exact F|]. split; [reflexivity|]. exact (sound_order _ _ _ _ S F).
Qed.
Lemma hist_given l W i p n v u : hist l W -> given (i, p) = Some (n, v) -> v <> NIL -> (exists t o, u = uuid_time t o) -> hd 0 (i_readings i) <= uvalue u -> uvalue u <= p_clock p ->
  hist (l ++ [(i, p)]) (W ++ [mkUop u NIL [VUuid n; VUuid v]]).
Proof. clear FB. intros H G NV (t & o & ->) A B. exact (hist_name l W (i, p) n v t o H G NV A B). Qed.
Lemma name_id a b now rs n v b' u : b_name a b now rs n v = Done (b', u) -> exists t o, u = uuid_time t o.
Proof. clear FB. intro H. unfold b_name in H. destruct (one_op _ NIL _) as [f|]; [|discriminate]. apply rbind_done in H as ([d s] & _ & H). injection H as _ <-. unfold clock_now. cbn [snd]. eauto. Qed.

Lemma other_verb i verb args : i_args i = verb :: args -> bytes_eqb verb W_create = false -> bytes_eqb verb W_name = false -> says_name i = None.
Proof. clear FB. intros E A B. unfold says_name. rewrite E, A, B. destruct args as [|x [|y [|z [|u [|v [|w r]]]]]]; reflexivity. Qed.
Lemma step_names fs l W i p : world_ok fs -> named_by fs W -> hist l W -> keep_bound fuel W [] -> calm i p -> cli fs i = Done p ->
  (forall W', hist (l ++ [(i, p)]) W' -> keep_bound fuel W' []) -> exists W', hist (l ++ [(i, p)]) W' /\ named_by (p_families p) W'.
Proof.
  intros WO NB HI KB CM H BD. assert (OTHER : given (i, p) = None -> named_by (p_families p) W -> exists W', hist (l ++ [(i, p)]) W' /\ named_by (p_families p) W') by (intros G N; exists W; split; [apply hist_other; assumption|exact N]).
  destruct (cli_out _ _ _ order FB _ _ _ WO CM H) as (h & h' & [((S & O & AC & NZ) & LF & PF & PC & OUT & _)|(IA & PF & PS & _)]).
  2:{ apply OTHER; [unfold given; cbn [fst snd]; rewrite PS; unfold says_name; rewrite IA; reflexivity|]. rewrite PF. exact NB. }
  pose proof NB as (d & I & Z & SA). rewrite <- LF in I. destruct (main_of _ _ _ S I) as (m & FM & <- & IO). rewrite PF. unfold left_by. fold (families (h_stores h')).
  assert (NONE : changes i = false -> given (i, p) = None) by (intro Q; unfold given; cbn [fst snd]; rewrite (quiet_name _ Q); destruct (p_status p); reflexivity).
  remember (p_status p) as ps eqn:EP. destruct OUT as [h' s ST Q|args h' m2 b f d2 IA FM2 F W0 C|w args id b h' IA M NI F ST|args m2 f d2 h' IA FM2 W0 ST|x n tail id b b' u h' IA TL VX F BN R1 R2 ST].
  - exists W. split; [apply hist_other; [exact HI|]|].
    + unfold given. cbn [fst snd]. rewrite <- EP. destruct s; try reflexivity. apply quiet_name. apply Q. exact Logic.I.
    + exists (br_main m). split; [rewrite ST; exact I|]. auto.
  - rewrite FM in FM2. injection FM2 as <-. destruct (write_but _ _ _ _ _ IO active_not_end W0) as [SB _].
    assert (FN : find_store (h_stores h ++ [(branch_id (i_random i), b)]) NIL = Some m) by (rewrite (find_app _ _ _ _ F), (eqb_other _ _ (branch_nil _)); exact FM).
    assert (CN : cell_at d2 NAMES_KEY = cell_at (br_main m) NAMES_KEY) by (apply SB; intros [K|[]]; exact (active_not_names K)).
    destruct C as [(SN & ST)|(tag & now & rs & u & b2 & SN & BN & R1 & R2 & ST)].
    + exists W. split; [apply hist_other; [exact HI|unfold given; cbn [fst snd]; rewrite <- EP; exact SN]|]. destruct (put_split _ _ (mkBranch d2 (br_tip m)) _ FN) as (l1 & l2 & _ & E2). exists d2. rewrite ST, E2.
      split; [apply in_or_app; right; left; reflexivity|]. rewrite CN. split; [exact Z|]. exact (state_same _ _ _ _ CN SA).
    + assert (HN : hist (l ++ [(i, p)]) (W ++ [mkUop u NIL [VUuid tag; VUuid (branch_id (i_random i))]])).
      { apply hist_given; [exact HI|unfold given; cbn [fst snd]; rewrite <- EP; exact SN|apply branch_nil|exact (name_id _ _ _ _ _ _ _ _ BN)|exact R1|rewrite PC; exact R2]. }
      exists (W ++ [mkUop u NIL [VUuid tag; VUuid (branch_id (i_random i))]]). split; [exact HN|]. destruct (put_split _ _ b2 _ FN) as (l1 & l2 & _ & E2). exists (br_main b2). rewrite ST, E2.
      split; [apply in_or_app; right; left; reflexivity|]. split; [intro K; apply app_eq_nil in K as [_ K]; discriminate K|].
      eapply (name_step _ (mkBranch d2 (br_tip m))); [|exact BN| | |exact (BD _ HN)]; cbn [br_main].
      * destruct (sound_tipped _ _ _ _ S FM) as (t & T & _). eapply (tipped_write _ _ _ _ _ _ active_not_zero T W0).
      * rewrite CN. exact Z.
      * exact (state_same _ _ _ _ CN SA).
  - exists W. split; [apply hist_other; [exact HI|unfold given; cbn [fst snd]; rewrite <- EP; exact (other_verb _ _ _ IA eq_refl eq_refl)]|].
    exists (br_main m). split; [|auto]. destruct (drop_split _ _ _ (proj1 (proj2 S)) F) as (l1 & l2 & E1 & E2). rewrite ST, E2. unfold left_by in I. fold (families (h_stores h)) in I. rewrite E1 in I.
    apply in_app_iff in I as [I|[I|I]]; [apply in_or_app; auto|injection I as K _; congruence|apply in_or_app; auto].
  - rewrite FM in FM2. injection FM2 as <-. destruct (write_but _ _ _ _ _ IO active_not_end W0) as [SB _].
    assert (CN : cell_at d2 NAMES_KEY = cell_at (br_main m) NAMES_KEY) by (apply SB; intros [K|[]]; exact (active_not_names K)).
    exists W. split; [apply hist_other; [exact HI|unfold given; cbn [fst snd]; rewrite <- EP; exact (other_verb _ _ _ IA eq_refl eq_refl)]|].
    destruct (put_split _ _ (mkBranch d2 (br_tip m)) _ FM) as (l1 & l2 & _ & E2). exists d2. rewrite ST, E2.
    split; [apply in_or_app; right; left; reflexivity|]. rewrite CN. split; [exact Z|]. exact (state_same _ _ _ _ CN SA).
  - destruct (names_at _ _ NB KB) as (names & MN & NC). destruct (put_split _ _ b' _ F) as (l1 & l2 & E1 & E2).
    assert (VN : parse_uuid x <> NIL) by (intro K; rewrite K in VX; discriminate VX).
    destruct (uuid_eqb id NIL) eqn:EI.
    + apply uuid_eqb_eq in EI. subst id. rewrite FM in F. injection F as <-.
      assert (SN : says_name i = Some (parse_uuid n, parse_uuid x)).
      { unfold says_name. rewrite IA. destruct TL as [[-> _]|(w & -> & M)]; [reflexivity|]. assert (PW : parse_uuid w = NIL).
        { remember NIL as z eqn:EZ in M. destruct M as [_|l0 id V NN MN2 G]; [exact EZ|]. exfalso. subst id. rewrite LF in MN2. rewrite (names_one _ _ _ (world_nodup _ WO) MN2 MN) in G. apply NC in G. exact (hist_values _ _ _ _ HI G eq_refl). }
        rewrite PW. reflexivity. }
      assert (HN : hist (l ++ [(i, p)]) (W ++ [mkUop u NIL [VUuid (parse_uuid n); VUuid (parse_uuid x)]])).
      { apply hist_given; [exact HI|unfold given; cbn [fst snd]; rewrite <- EP; exact SN|exact VN|exact (name_id _ _ _ _ _ _ _ _ BN)|exact R1|rewrite PC; exact R2]. }
      exists (W ++ [mkUop u NIL [VUuid (parse_uuid n); VUuid (parse_uuid x)]]). split; [exact HN|]. exists (br_main b'). rewrite ST, E2.
      split; [apply in_or_app; right; left; reflexivity|]. split; [intro K; apply app_eq_nil in K as [_ K]; discriminate K|]. exact (name_step _ _ _ _ _ _ _ _ _ IO BN Z SA (BD _ HN)).
    + assert (NI : id <> NIL) by (intros ->; rewrite (proj2 (uuid_eqb_eq _ _) eq_refl) in EI; discriminate EI). exists W. split; [apply hist_other; [exact HI|]|].
      * unfold given. cbn [fst snd]. rewrite <- EP. unfold says_name. rewrite IA. destruct TL as [[_ K]|(w & -> & M)]; [contradiction|].
        destruct (uuid_eqb (parse_uuid w) NIL) eqn:EW; [|change (bytes_eqb W_name W_name && bytes_eqb W_as W_as && bytes_eqb W_on W_on && false) with false; reflexivity].
        exfalso. apply uuid_eqb_eq in EW. destruct M as [_|l0 id V NN MN2 G]; [exact (NI EW)|exact (NN EW)].
      * exists (br_main m). split; [|auto]. rewrite ST, E2. unfold left_by in I. fold (families (h_stores h)) in I. rewrite E1 in I.
        apply in_app_iff in I as [I|[I|I]]; [apply in_or_app; auto|injection I as K _; congruence|apply in_or_app; right; right; exact I].
Qed.
Lemma compact_names fs W id k e h s : world_ok fs -> named_by fs W -> keep_bound fuel W [] -> h_compact fbits fuel (shut fs) id k e = Done (h, s) -> named_by (left_by h) W.
Proof.
  clear FB. intros WO (d & I & Z & SA) KB C. destruct WO as [S0 _]. assert (I0 := I). rewrite <- (left_shut fs) in I. destruct (main_of _ _ _ S0 I) as (m & FM & <- & IO).
  destruct (compact_inv _ _ _ _ _ _ _ _ C) as (_ & _ & _ & _ & [(_ & ST)|(b & d & F & CP & ST)]).
  { exists (br_main m). split; [unfold left_by; rewrite ST; exact I|auto]. }
  destruct (put_split _ _ (mkBranch d (br_tip b)) _ F) as (l1 & l2 & E1 & E2). cbn [br_main] in E2.
  assert (L : left_by h = l1 ++ (id, d) :: l2) by (unfold left_by; rewrite ST; exact E2). rewrite L. unfold left_by in I. fold (families (h_stores (shut fs))) in I. rewrite E1 in I.
  destruct (uuid_eqb id NIL) eqn:EI.
  - apply uuid_eqb_eq in EI. subst id. rewrite FM in F. injection F as <-. exists d. split; [apply in_or_app; right; left; reflexivity|]. split.
    + intro K. specialize (Z K). destruct (key_eqb k NAMES_KEY) eqn:EK.
      * apply key_eqb_eq in EK. subst k. unfold compact in CP. destruct (existsb _ _); [|injection CP as <-; exact Z]. rewrite Z in CP. unfold cell_compact in CP. cbn [cell0 ce_operands] in CP.
        assert (Q : d = put (br_main m) NAMES_KEY cell0) by (destruct e as [a c|c]; rewrite ?skipn_nil, ?firstn_nil in CP; cbn [rbind] in CP; congruence).
        rewrite Q, put_at by exact IO. rewrite key_eqb_refl. reflexivity.
      * destruct (compact_other fbits fuel NAMES_KEY _ _ _ _ IO (fun Q => eq_ind_r (fun j => key_eqb j NAMES_KEY = false -> False) (fun R => eq_ind true (fun t => match t with true => True | false => False end) Logic.I false (eq_trans (eq_sym (key_eqb_refl NAMES_KEY)) R)) Q EK) CP) as [_ E]. rewrite E. exact Z.
    + assert (SP : story fbits fuel (br_main m) [BCompact k e] [ROk] [[]] d).
      { apply (story_more fbits fuel (br_main m) (BCompact k e) ROk [] d [] [] [] d); [left; split; [reflexivity|right; right; eauto]|left; reflexivity|constructor]. }
      destruct (state_story sha fbits fuel (br_main m) _ _ _ d [] NAMES_KEY W IO SP ltac:(apply rv_compact; constructor) names_key_form SA KB) as [SA1 _].
      cbn in SA1. rewrite app_nil_r in SA1. exact SA1.
  - exists (br_main m). split; [|auto]. assert (NI : id <> NIL) by (intros ->; rewrite (proj2 (uuid_eqb_eq _ _) eq_refl) in EI; discriminate EI).
    apply in_app_iff in I as [I|[I|I]]; [apply in_or_app; auto|injection I as K _; congruence|apply in_or_app; right; right; exact I].
Qed.
Lemma pairs_first {T} (R : T -> T -> Prop) a b : ForallOrdPairs R (a ++ b) -> ForallOrdPairs R a.
Proof. clear FB. induction a as [|x a IH]; cbn [app]; intro H; [constructor|]. inversion H as [|? ? F P]; subst. constructor; [|exact (IH P)]. apply Forall_app in F. tauto. Qed.
Lemma session_names fs l fs' : session fs l fs' -> forall pre W, world_ok fs -> named_by fs W -> hist pre W ->
  Forall (fun x => calm (fst x) (snd x)) (pre ++ l) -> spaced (pre ++ l) -> Forall no_numbers (pre ++ l) -> (length (pre ++ l) < fuel)%nat -> N.of_nat (length (pre ++ l)) < 2 ^ 24 ->
  exists W', hist (pre ++ l) W' /\ named_by fs' W'.
Proof.
  induction 1 as [fs|fs i p r fs' C S IH|fs id k e h s r fs' C S IH]; intros pre W WO NB HI CM SP NN L1 L2.
  - rewrite app_nil_r. eauto.
  - assert (E : pre ++ (i, p) :: r = (pre ++ [(i, p)]) ++ r) by (rewrite <- app_assoc; reflexivity). rewrite E in *.
    pose proof (proj1 (proj1 (Forall_app _ _ _) CM)) as CM1. pose proof (pairs_first _ _ _ SP) as SP1. pose proof (proj1 (proj1 (Forall_app _ _ _) NN)) as NN1.
    assert (LA : (length (pre ++ [(i, p)]) < fuel)%nat) by (rewrite app_length in L1; clear FB; lia). assert (LB : N.of_nat (length (pre ++ [(i, p)])) < 2 ^ 24) by (rewrite app_length in L2; clear FB; lia).
    assert (BD : forall W', hist (pre ++ [(i, p)]) W' -> keep_bound fuel W' []) by (intros W' H; exact (hist_bound _ _ _ H CM1 SP1 NN1 LA LB)).
    assert (KB : keep_bound fuel W []).
    { apply (hist_bound _ pre); [exact HI|exact (proj1 (proj1 (Forall_app _ _ _) CM1))|exact (pairs_first _ _ _ SP1)|exact (proj1 (proj1 (Forall_app _ _ _) NN1))| |]; rewrite app_length in LA, LB; clear FB; lia. }
    assert (CI : calm i p) by (apply Forall_app in CM1 as [_ K]; inversion K as [|? ? K1 K2]; subst; exact K1).
    destruct (step_names _ _ _ _ _ WO NB HI KB CI C BD) as (W1 & H1 & N1). apply (IH (pre ++ [(i, p)]) W1); auto. exact (proj2 (C64_effect _ _ _ order FB _ _ _ WO CI C)).
  - assert (KB : keep_bound fuel W []).
    { apply (hist_bound _ pre); [exact HI|exact (proj1 (proj1 (Forall_app _ _ _) CM))|exact (pairs_first _ _ _ SP)|exact (proj1 (proj1 (Forall_app _ _ _) NN))| |]; rewrite app_length in L1, L2; clear FB; lia. }
    apply (IH pre W); auto.
    + apply (C64_session sha fbits fuel order FB fs [] (left_by h)); [eapply ses_compact; [exact C|constructor]|constructor|exact WO].
    + exact (compact_names _ _ _ _ _ _ _ WO NB KB C).
Qed.

(* The names a replica holds after any number of commands, each a process of its
   own, with RocksDB compacting anything in between: each name means what the
   last command that gave it said. *)
Theorem C65_names reading fs0 s l fs : reading < NEVER_W -> init sha fbits fuel reading = Done (fs0, s) -> session fs0 l fs ->
  Forall (fun x => calm (fst x) (snd x)) l -> spaced l -> Forall no_numbers l -> (length l < fuel)%nat -> N.of_nat (length l) < 2 ^ 24 ->
  exists names, meta_names fs names /\ forall n, names_get names n = last_given n l.
Proof.
  intros R0 IN SE CM SP NN L1 L2. destruct (C64_init sha fbits fuel reading fs0 s R0 IN) as (_ & WO & _). apply init_inv in IN as (h & HN & ->).
  destruct (new_names sha fbits fuel reading h s R0 HN) as (d & LD & CD).
  assert (NB : named_by (left_by h) []) by (exists d; rewrite LD; split; [left; reflexivity|]; split; [auto|]; apply state_none; exact CD).
  destruct (session_names _ _ _ SE [] [] WO NB hist_none CM SP NN L1 L2) as (W & HI & NB'). cbn [app] in HI.
  destruct (names_at _ _ NB' (hist_bound _ _ _ HI CM SP NN L1 L2)) as (names & MN & NC). exists names. split; [exact MN|]. intro n.
  rewrite <- (hist_last n l W HI). pose proof (hist_sorted _ _ HI CM SP NN) as SO. destruct (names_get names n) as [v|] eqn:E1.
  - symmetry. apply (newest W n v SO). apply NC. exact E1.
  - destruct (names_get (rev (assigns W)) n) as [v|] eqn:E2; [|reflexivity]. apply (newest W n v SO) in E2. apply NC in E2. congruence.
Qed.
(* so a word that is a name stands for what it was last given to, and for nothing
   if it was never given *)
Theorem C65_means reading fs0 s l fs w id : reading < NEVER_W -> init sha fbits fuel reading = Done (fs0, s) -> session fs0 l fs ->
  Forall (fun x => calm (fst x) (snd x)) l -> spaced l -> Forall no_numbers l -> (length l < fuel)%nat -> N.of_nat (length l) < 2 ^ 24 ->
  version (parse_uuid w) = NAME -> parse_uuid w <> NIL -> (means fs w id <-> last_given (parse_uuid w) l = Some id).
Proof.
  intros R0 IN SE CM SP NN L1 L2 V NZ. destruct (C65_names reading fs0 s l fs R0 IN SE CM SP NN L1 L2) as (names & MN & K). rewrite <- (K (parse_uuid w)). split.
  - intros [[Q|Q]|l0 i V0 NZ0 MN0 G]; [contradiction|contradiction|]. destruct (C64_init sha fbits fuel reading fs0 s R0 IN) as (_ & WO & _).
    rewrite (names_one _ _ _ (world_nodup _ (C64_session sha fbits fuel order FB _ _ _ SE CM WO)) MN MN0). exact G.
  - intro G. exact (means_name _ _ _ _ _ _ V NZ MN G).
Qed.
End History.
Print Assumptions C65_names.
Print Assumptions C65_means.
