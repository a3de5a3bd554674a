(* C50: the names of a branch. *)
From Coq Require Import Sorted.
From Verif Require ClockTheorems CompareTheorems.
From Verif Require Import Prelude UuidModel UuidProofs KeyModel KeyProofs CodecModel TextModel TextSpec BuilderSpec BuilderProofs MetaTheorems MergeModel MergeSpec MergeTextModel
  TextMergeSpec TextCursors MergeKeeps TextMerge SizeProofs TextMergeTheorems StoreModel StoreSpec StoreProofs StoreTheorems RocksModel RocksSpec RocksProofs MetaModel ClockModel
  ReplicaModel ReplicaSpec ReplicaProofs ReplicaTheorems BranchModel BranchSpec BranchProofs BranchTheorems DurableSpec DurableProofs DurableTheorems NamesModel NamesSpec.

(* ---- reading the names ---- *)
Definition pair_of (vs : list value) : list (uuid * uuid) := match vs with [VUuid n; VUuid v] => [(n, v)] | _ => [] end.
Lemma pair_cursor c : match skipn 2 (c_op c) with [AUuid n; AUuid v] => [(n, v)] | _ => [] end = pair_of (r_vals (rop_of c)).
Proof.
  unfold rop_of. cbn [r_vals]. destruct (skipn 2 (c_op c)) as [|a [|b [|d l]]]; cbn [map]; [reflexivity| | |].
  - destruct a; reflexivity.
  - destruct a; [destruct b| | |]; reflexivity.
  - destruct a; [destruct b| | |]; reflexivity.
Qed.
Lemma names_walk m : forall c cs ops l, then_visits c cs -> Forall2 (lit_cursor canon) cs ops -> (length cs < m)%nat ->
  names_loop m c l = Done (rev (flat_map (fun o => pair_of (r_vals o)) ops) ++ l).
Proof.
  induction m as [|m IH]; intros c cs ops l (c' & N & V) F L; [lia|]. cbn [names_loop]. unfold text_next in N.
  inversion V as [? D|? c2 cs2 D N2 V2]; subst.
  - inversion F; subst. cbn [flat_map rev app]. rewrite D in N. destruct (next c) as [x|x|x|]; try discriminate; reflexivity.
  - rewrite D in N. destruct (next c) as [x|x|x|]; try discriminate. injection N as ->. inversion F as [|? o ? ops2 (E & _) F2]; subst.
    rewrite (IH c' cs2 ops2 _ ltac:(exists c2; auto) F2 ltac:(cbn [length] in L; lia)). f_equal. cbn [flat_map]. rewrite <- pair_cursor.
    rewrite rev_app_distr, <- app_assoc. f_equal. destruct (skipn 2 (c_op c')) as [|[n| | |] [|[v| | |] [|]]]; reflexivity.
Qed.
Definition assigns (us : list uop) : list (uuid * uuid) := flat_map (fun u => pair_of (u_vals u)) us.
Lemma assigns_bare ops : flat_map (fun o => pair_of (r_vals o)) ops = assigns (map bare ops).
Proof. unfold assigns. rewrite !flat_map_concat_map, map_map. reflexivity. Qed.
Lemma gives_pair u n v : gives u n v <-> pair_of (u_vals u) = [(n, v)].
Proof.
  unfold gives, pair_of. split; [intros ->; reflexivity|]. destruct (u_vals u) as [|[a| | |] [|[b| | |] [|]]]; try discriminate. intro Q. injection Q as -> ->. reflexivity.
Qed.
Lemma pair_cases vs : pair_of vs = [] \/ exists n v, pair_of vs = [(n, v)].
Proof. unfold pair_of. destruct vs as [|[a| | |] [|[b| | |] [|]]]; eauto. Qed.
Definition newer (a b : uop) : Prop := uuid_ltb (u_id a) (u_id b) = true.
Lemma sorted_last {T} (R : T -> T -> Prop) l x : StronglySorted R (l ++ [x]) -> StronglySorted R l /\ Forall (fun y => R y x) l.
Proof.
  induction l as [|a l IH]; intro H; [split; constructor|]. cbn [app] in H. inversion H as [|? ? H1 H2]; subst. destruct (IH H1) as [A B].
  apply Forall_app in H2 as [H2 H3]. split; constructor; try assumption. inversion H3; assumption.
Qed.
Lemma newest us n v : StronglySorted newer us -> (names_get (rev (assigns us)) n = Some v <-> current us n v).
Proof.
  induction us as [|u us IH] using rev_ind; intro O.
  - split; [discriminate|]. intros (u & [] & _).
  - apply sorted_last in O as [O1 O2]. specialize (IH O1). rewrite Forall_forall in O2.
    unfold assigns. rewrite flat_map_app, rev_app_distr. fold (assigns us). cbn [flat_map]. rewrite app_nil_r.
    assert (OLD : (forall w, ~ gives u n w) -> (current us n v <-> current (us ++ [u]) n v)).
    { intro NG. split; intros (x & I & G & K).
      - exists x. split; [apply in_or_app; left; exact I|]. split; [exact G|]. intros u' v' J G'. apply in_app_iff in J as [J|[<-|[]]]; [eapply K; eassumption|].
        exfalso. eapply NG; exact G'.
      - apply in_app_iff in I as [I|[<-|[]]]; [|exfalso; eapply NG; exact G]. exists x. split; [exact I|]. split; [exact G|].
        intros u' v' J. apply K. apply in_or_app. left. exact J. }
    destruct (pair_cases (u_vals u)) as [E|(a & b & E)]; rewrite E; cbn [rev app].
    + rewrite IH. apply OLD. intros w G. apply gives_pair in G. congruence.
    + unfold names_get. cbn [find fst]. destruct (uuid_eqb a n) eqn:EN.
      * apply uuid_eqb_eq in EN. subst a. cbn [option_map snd]. assert (G : gives u n b) by (apply gives_pair; exact E). split.
        -- intro Q. injection Q as <-. exists u. split; [apply in_or_app; right; left; reflexivity|]. split; [exact G|].
           intros u' v' J G'. apply in_app_iff in J as [J|[<-|[]]]; [right; apply O2; exact J|left; reflexivity].
        -- intros (x & I & GX & K). destruct (K u b ltac:(apply in_or_app; right; left; reflexivity) G) as [<-|LT].
           ++ apply gives_pair in GX. congruence.
           ++ exfalso. apply in_app_iff in I as [I|[<-|[]]].
              ** pose proof (uuid_ltb_trans _ _ _ (O2 x I) LT) as Z. rewrite uuid_ltb_irrefl in Z. discriminate.
              ** rewrite uuid_ltb_irrefl in LT. discriminate.
      * change (names_get (rev (assigns us)) n = Some v <-> current (us ++ [u]) n v). rewrite IH. apply OLD.
        intros w G. apply gives_pair in G. rewrite E in G. injection G as -> ->. rewrite (proj2 (uuid_eqb_eq _ _) eq_refl) in EN. discriminate.
Qed.
Lemma current_same U V n v : (forall u, In u U <-> In u V) -> current U n v -> current V n v.
Proof. intros E (u & I & G & K). exists u. split; [apply E; exact I|]. split; [exact G|]. intros u' v' J. apply K. apply E. exact J. Qed.
Lemma increasing_newer us : increasing_ids (chunk_of us) -> StronglySorted newer us.
Proof.
  intro I. assert (E : map bare (chunk_of us) = us) by (unfold chunk_of; apply bare_denote). rewrite <- E. clear E.
  induction I as [|x l J IH FO]; [constructor|]. cbn [map]. apply SSorted_cons; [exact IH|]. rewrite Forall_map. exact FO.
Qed.
Lemma newer_nodup us : StronglySorted newer us -> NoDup us.
Proof.
  induction 1 as [|x l J IH FO]; constructor; [|exact IH]. intro I. rewrite Forall_forall in FO. specialize (FO x I). unfold newer in FO.
  rewrite uuid_ltb_irrefl in FO. discriminate.
Qed.

(* ---- writing a name ---- *)
Lemma one_text u U f : mergeable U -> In u U -> N.of_nat (room U) < 2 ^ 32 -> u_ref u = NIL -> (exists n v, gives u n v) ->
  one_op (u_id u) (u_ref u) (u_vals u) = Some f -> frame_says f [mkRop (u_id u) (u_ref u) (u_vals u) RAW].
Proof.
  intros (OK & _ & FIT & _ & NC) I R RN (n & v & G) F. rewrite Forall_forall in OK. specialize (OK u I). destruct u as [id ref vals]. cbn [u_id u_ref u_vals] in *.
  unfold gives in G. cbn [u_vals] in G. subst ref vals.
  destruct (build_calls_frame [UAppend (mkUop id NIL [VUuid n; VUuid v])] canon_writes) as (text & BT & FL).
  { cbn [good_calls]. split; [exact OK|]. split; [apply (FIT origin_op _ (or_introl eq_refl) I)|]. split; [|exact Logic.I].
    intro Q. specialize (NC _ I). unfold origin_op in *. rewrite NC in Q. discriminate. }
  { reflexivity. }
  assert (text = f) by (unfold build_calls in BT; unfold one_op in F; cbn [calls_of option_map wop_of_op wvals_of wval_of_value u_id u_ref u_vals] in BT; cbn [option_map wop_of_op wvals_of wval_of_value] in F; unfold wop_of_op in *; cbn [option_map wvals_of wval_of_value] in *; congruence).
  subst text. split; [exact FL|]. unfold one_op, wop_of_op in F. cbn [option_map wvals_of wval_of_value] in F. apply build_len in F.
  assert (L : (cmds_room [BAppend (mkWop id NIL [WUuid n; WUuid v])] <= room U)%nat).
  { assert (RU : (room [mkUop id NIL [VUuid n; VUuid v]] <= room U)%nat).
    { clear -I. unfold room. induction U as [|x U IH]; [destruct I|]. cbn [map list_sum fold_right] in *. unfold list_sum in *. destruct I as [->|I]; [lia|]. specialize (IH I). lia. }
    eapply Nat.le_trans; [|exact RU]. unfold cmds_room, room, wop_room, op_room. cbn [map list_sum fold_right w_vals u_vals value_room value_text].
    pose proof (write_uuid_len n). pose proof (write_uuid_len v). rewrite !app_length. destruct (is_ambiguous n), (is_ambiguous v); cbn [length]; lia. }
  change (2 ^ 32) with 4294967296 in *. lia.
Qed.

Lemma names_key_form : In (key_form NAMES_KEY) [LWW_RDT_FORM; MX_RDT_FORM; YARN_RAW_FORM]. Proof. left. reflexivity. Qed.
Lemma names_not_zero : NAMES_KEY <> KEY_ZERO. Proof. apply form_key_neq. discriminate. Qed.
Lemma names_not_end : NAMES_KEY <> KEY_END. Proof. apply form_key_neq. discriminate. Qed.

Section Names.
Variable sha : bytes -> bytes.
Variable fbits : bytes -> N.
Variable active : N.
Variable fuel : nat.
Notation b_step := (b_step sha fbits active fuel).
Notation b_run := (b_run sha fbits active fuel).
Notation n_run := (n_run sha fbits active fuel).
Notation n_step := (n_step sha fbits active fuel).
Notation b_names := (b_names fbits fuel).

Lemma bound_part W A E1 E2 : keep_bound fuel (W ++ A) (E1 ++ E2) -> keep_bound fuel W E1.
Proof.
  intros (M & L & N & R). rewrite !app_length in L, N. rewrite map_app, !room_app in R. split; [|split; [lia|split; lia]].
  eapply mergeable_incl; [exact M|]. rewrite map_app. intros u I. rewrite !in_app_iff in *. tauto.
Qed.
Lemma bound_moves W A E1 E2 us : keep_bound fuel (W ++ A) (E1 ++ E2) ->
  incl us (map bare E1) -> (length us <= 4 * length E1)%nat -> (room us <= 4 * room (map bare E1))%nat -> keep_bound fuel ((W ++ us) ++ A) E2.
Proof.
  intros (M & L & N & R) I LU RU. rewrite !app_length in L, N. rewrite map_app, !room_app in R. split; [|rewrite !app_length, !room_app; split; [lia|split; lia]].
  eapply mergeable_incl; [exact M|]. rewrite map_app. intros u J. rewrite !in_app_iff in *. destruct J as [[[J|J]|J]|J]; auto.
Qed.
Lemma story_measure d es ss hss d' k : story fbits fuel d es ss hss d' -> forall E, received es ss E ->
  incl (says_ops (filed k (concat hss))) (map bare E) /\ (length (says_ops (filed k (concat hss))) <= 4 * length E)%nat /\
  (room (says_ops (filed k (concat hss))) <= 4 * room (map bare E))%nat.
Proof.
  induction 1 as [d|d e s hs d1 es ss hss d2 G SO ST IH]; intros E RV.
  - cbn. split; [intros u []|split; lia].
  - cbn [concat]. rewrite filed_app. assert (SA : forall a b, says_ops (a ++ b) = says_ops a ++ says_ops b) by (intros a b; unfold says_ops; rewrite flat_map_app, map_app; reflexivity).
    rewrite SA, app_length, room_app. destruct SO as [->|(now & rs & f & -> & -> & EO & CO & PR)].
    + cbn [filed flat_map says_ops map app length room list_sum fold_right]. 
      inversion RV as [|? ? ? dd ? ? E2 FS RV2|? ? ? ? ? ? ? NE RV2|? ? ? ? ? RV2|? ? ? ? ? ? RV2]; subst; try (apply (IH _ RV2)).
      destruct (IH _ RV2) as (A & B & C). rewrite map_app, room_app, app_length. split; [apply incl_appr; exact A|]. split; [lia|]. cbn. lia.
    + inversion RV as [|? ? ? dd ? ? E2 FS RV2|? ? ? ? ? ? ? NE RV2| |]; subst; [|contradiction]. destruct (IH _ RV2) as (A & B & C).
      destruct (chain_events f dd hs FS EO CO PR) as [SL _]. destruct (filed_measure k hs) as (M1 & M2 & M3).
      pose proof (subl_length _ _ SL) as SL1. pose proof (subl_room _ _ SL) as SL2. rewrite twice_length, map_length in SL1. rewrite twice_room in SL2.
      rewrite map_app, room_app, app_length. split; [|split; lia]. apply incl_app; [apply incl_appl|apply incl_appr; exact A].
      intros u J. apply twice_in. eapply subl_in; [exact SL|]. apply M3. exact J.
Qed.
Lemma received_split e es s ss E : received (e :: es) (s :: ss) E -> exists E1 E2, E = E1 ++ E2 /\ received [e] [s] E1 /\ received es ss E2.
Proof.
  intro RV. inversion RV as [|? ? ? dd ? ? E2 FS RV2|? ? ? ? ? ? ? NE RV2|? ? ? ? ? RV2|? ? ? ? ? ? RV2]; subst.
  - exists (filter event_op dd), E2. split; [reflexivity|]. split; [|exact RV2]. rewrite <- (app_nil_r (filter _ _)). constructor; [exact FS|constructor].
  - exists [], E. split; [reflexivity|]. split; [|exact RV2]. apply rv_refused; [exact NE|constructor].
  - exists [], E. split; [reflexivity|]. split; [|exact RV2]. apply rv_open. constructor.
  - exists [], E. split; [reflexivity|]. split; [|exact RV2]. apply rv_compact. constructor.
Qed.

(* an assignment is a record under the names' key *)
Lemma name_kept id b t now rs n v b' u W A E : healthy id b t -> b_name active b now rs n v = Done (b', u) ->
  let a := assignment active id now rs n v in
  state_at (br_main b) NAMES_KEY W -> keep_bound fuel (W ++ a :: A) E ->
  healthy id b' t /\ br_tip b' = br_tip b /\ u = u_id a /\ state_at (br_main b') NAMES_KEY (W ++ [a]).
Proof.
  intros (T & TB & Y & YB) H a SA KB. unfold b_name in H. rewrite YB in H.
  destruct (one_op (snd (clock_now active now (hd 0 rs) (uorigin id))) NIL [VUuid n; VUuid v]) as [f|] eqn:F; [|discriminate].
  apply rbind_done in H as ([d s] & H & Q). injection Q as <- <-. cbn [br_main br_tip].
  assert (FS : frame_says f [mkRop (u_id a) (u_ref a) (u_vals a) RAW]).
  { destruct KB as (M & _ & _ & R). apply (one_text a (W ++ a :: A)); [eapply mergeable_incl; [exact M|apply incl_appl, incl_refl]|apply in_or_app; right; left; reflexivity|lia|reflexivity| |exact F].
    exists n, v. reflexivity. }
  assert (T2 := tipped_write _ _ _ _ _ _ names_not_zero T H).
  split; [split; [exact T2|auto]|]. split; [reflexivity|]. split; [reflexivity|].
  unfold b_write, rocks_write in H. rewrite (key_eqb_neq _ _ names_not_end) in H. cbn [andb] in H. injection H as <- <-.
  destruct T as (O & _ & _). destruct SA as (ds & F2 & U & L & R & V). unfold state_at. rewrite add_at by exact O. rewrite key_eqb_refl. cbn [ce_value ce_operands].
  exists (ds ++ [[mkRop (u_id a) (u_ref a) (u_vals a) RAW]]). split.
  { rewrite app_assoc. apply Forall2_app; [exact F2|]. constructor; [|constructor]. split; [exact FS|]. constructor; constructor. }
  assert (EA : bare (mkRop (u_id a) (u_ref a) (u_vals a) RAW) = a) by reflexivity.
  rewrite !concat_app, !map_app, !app_length, !room_app. cbn [concat app map length]. rewrite EA. split.
  { intro x. rewrite !in_app_iff, U. reflexivity. }
  split; [lia|]. split; [lia|].
  intro NV. destruct (V NV) as (us & ds' & -> & I). exists us. eexists. split; [reflexivity|exact I].
Qed.

Lemma names_kept id : version id = TIME -> forall es b b' ss t W E, healthy id b t -> 
  (forall e, In (NBranch e) es -> clocks e) -> (forall now rs f, In (NBranch (BReceive now rs f)) es -> events_only f) ->
  n_run id b es = Done (b', ss) -> received (map fst (others es ss)) (map snd (others es ss)) E ->
  state_at (br_main b) NAMES_KEY W -> keep_bound fuel (W ++ assigned active id es) E ->
  exists hs W', keeps (br_tip b) t (map fst (others es ss)) (map snd (others es ss)) hs /\
    state_at (br_main b') NAMES_KEY W' /\ keep_bound fuel W' [] /\ incl (says_ops (filed NAMES_KEY hs)) (map bare E) /\
    forall u, In u W' <-> In u W \/ In u (assigned active id es) \/ In u (says_ops (filed NAMES_KEY hs)).
Proof.
  intro VT. induction es as [|e es IH]; intros b b' ss t W E HT C EO R RV SA KB; cbn [NamesModel.n_run] in R.
  - injection R as <- <-. exists [], W. split; [constructor|]. split; [exact SA|]. split.
    + cbn [assigned flat_map] in KB. apply (bound_part W [] [] E). exact KB.
    + split; [intros u []|]. intro u. cbn. tauto.
  - apply rbind_done in R as ([b1 s] & R1 & R). apply rbind_done in R as ([b2 ss2] & R2 & Q). injection Q as <- <-.
    destruct e as [e|now rs n v]; cbn [NamesModel.n_step] in R1; cbn [others map fst snd assigned flat_map] in *.
    + apply received_split in RV as (E1 & E2 & -> & RV1 & RV2).
      assert (C1 : Forall clocks [e]) by (apply Forall_cons; [apply C; left; reflexivity|constructor]).
      assert (EO1 : forall now rs f, In (BReceive now rs f) [e] -> events_only f) by (intros now rs f [->|[]]; eapply EO; left; reflexivity).
      assert (RR : b_run id b [e] = Done (b1, [s])) by (cbn [BranchModel.b_run]; rewrite R1; reflexivity).
      destruct (run_keeps sha fbits active fuel id VT [e] b b1 [s] t HT C1 RR EO1) as (hss & KP & ST).
      destruct (run_tip sha fbits active fuel id VT [e] b b1 [s] t HT C1 RR) as (t1 & HT1 & _ & RM). specialize (RM EO1).
      destruct (state_story sha fbits fuel (br_main b) [e] [s] hss (br_main b1) E1 NAMES_KEY W ltac:(apply HT) ST RV1 names_key_form SA (bound_part _ _ _ _ KB)) as [SA1 _].
      destruct (story_measure _ _ _ _ _ NAMES_KEY ST E1 RV1) as (M1 & M2 & M3).
      pose proof (bound_moves _ _ _ _ _ KB M1 M2 M3) as KB1.
      destruct (IH b1 b2 ss2 t1 _ E2 HT1 (fun x I => C x (or_intror I)) (fun a b0 c I => EO a b0 c (or_intror I)) R2 RV2 SA1 KB1) as (hs & W' & KP2 & SA2 & KB2 & INC & U).
      inversion KP as [|? ? ? ? o1 u1 hs1 ? ? hs0 RC STO KP0]; subst. inversion KP0; subst.
      inversion RM as [|? ? ? ? o2 u2 ? ? ? ? RC2 RM0]; subst. inversion RM0; subst.
      exists (hs1 ++ hs), W'. split.
      * eapply keeps_more; eassumption.
      * split; [exact SA2|]. split; [exact KB2|]. assert (EH : concat hss = hs1) by (rewrite app_nil_r in *; symmetry; assumption). rewrite EH in *.
        rewrite filed_app. split; [unfold says_ops in *; rewrite flat_map_app, !map_app; apply incl_app; [apply incl_appl; exact M1|apply incl_appr; exact INC]|].
        intro u. rewrite U. unfold says_ops. rewrite flat_map_app, map_app, !in_app_iff. fold (assigned active id es). cbn [In]. tauto.
    + apply rbind_done in R1 as ([b3 u] & R1 & Q). injection Q as <- <-. change ([assignment active id now rs n v] ++ ?l) with (assignment active id now rs n v :: l) in *.
      destruct (name_kept id b t now rs n v b3 u W _ E HT R1 SA KB) as (HT1 & BT & _ & SA1).
      assert (KB1 : keep_bound fuel ((W ++ [assignment active id now rs n v]) ++ assigned active id es) E) by (rewrite <- app_assoc; exact KB).
      destruct (IH b3 b2 ss2 t _ E HT1 (fun x I => C x (or_intror I)) (fun a b0 c I => EO a b0 c (or_intror I)) R2 RV SA1 KB1) as (hs & W' & KP2 & SA2 & KB2 & INC & U).
      exists hs, W'. rewrite BT in KP2. split; [exact KP2|]. split; [exact SA2|]. split; [exact KB2|]. split; [exact INC|]. intro x. rewrite U, in_app_iff. cbn [In app]. tauto.
Qed.

(* reading the names back *)
Lemma names_read b W : state_at (br_main b) NAMES_KEY W -> keep_bound fuel W [] -> W <> [] ->
  exists l, b_names b = Done (l, ROk) /\ forall n v, names_get l n = Some v <-> current W n v.
Proof.
  intros SA KB NW. apply union_inv_at in SA as (W0 & LI & EW). subst W. assert (B := union_of_keep fuel W0 KB Logic.I).
  assert (FM2 : In (key_form NAMES_KEY) [LWW_RDT_FORM; MX_RDT_FORM; YARN_RAW_FORM; META_META_FORM]) by (left; reflexivity).
  destruct (union_get_small fbits fuel NAMES_KEY FM2 (cell_at (br_main b) NAMES_KEY) W0 LI B) as (text & us & G & FL & I & U & SM & _).
  - intro Z. rewrite Z in NW. apply NW. reflexivity.
  - intro Z. destruct LI as (ds & (F & UU & _) & _). rewrite Z in F. inversion F; subst. destruct (map bare (concat W0)) as [|u us0] eqn:EM; [apply NW; reflexivity|].
    destruct (proj2 (UU u) (or_introl eq_refl)).
  - pose proof (read_of fbits fuel (br_main b) NAMES_KEY text names_not_end G) as RD.
    destruct (frame_visits text _ FL SM) as (cs & TV & LC).
    pose proof (increasing_newer us I) as SN.
    assert (LEN : (length cs < fuel)%nat).
    { rewrite (CompareTheorems.Forall2_len _ _ _ LC), chunk_length. destruct KB as (_ & L & _). cbn [length] in L.
      assert ((length us <= length (map bare (concat W0)))%nat) by (apply NoDup_incl_length; [apply newer_nodup; exact SN|intros u J; apply U; exact J]). lia. }
    pose proof (names_walk fuel (cursor_of text) cs _ [] TV LC LEN) as NL. rewrite app_nil_r, assigns_bare in NL. unfold chunk_of in NL. rewrite bare_denote in NL.
    exists (rev (assigns us)). split.
    + unfold b_names, b_jread. rewrite RD. cbn [rbind]. 
      assert (RE : read bytes [] (merge_as fbits fuel) [] NAMES_KEY [] = Done ([], [], StOK)) by reflexivity.
      rewrite RE. cbn [rbind]. destruct (BranchModel.blank text) eqn:BL.
      * destruct text as [|x text]; [|discriminate BL]. cbn [rbind is_ok negb]. rewrite NL. reflexivity.
      * cbn [BranchModel.blank rbind]. cbn [rbind is_ok negb]. rewrite NL. reflexivity.
    + intros n v. rewrite (newest us n v SN). split; apply current_same; [exact U|intro u; symmetry; apply U].
Qed.

(* Whatever happens to a branch: a name is what its newest assignment says, of
   all those the branch had, was given, or received as events of object 0. *)
Theorem C50_names id b t es b' ss W E : version id = TIME -> healthy id b t ->
  (forall e, In (NBranch e) es -> clocks e) -> (forall now rs f, In (NBranch (BReceive now rs f)) es -> events_only f) ->
  n_run id b es = Done (b', ss) -> received (map fst (others es ss)) (map snd (others es ss)) E ->
  state_at (br_main b) NAMES_KEY W -> keep_bound fuel (W ++ assigned active id es) E ->
  exists hs W', keeps (br_tip b) t (map fst (others es ss)) (map snd (others es ss)) hs /\
    incl (says_ops (filed NAMES_KEY hs)) (map bare E) /\
    (forall u, In u W' <-> In u W \/ In u (assigned active id es) \/ In u (says_ops (filed NAMES_KEY hs))) /\
    (W' <> [] -> exists l, b_names b' = Done (l, ROk) /\ forall n v, names_get l n = Some v <-> current W' n v).
Proof.
  intros VT HT C EO R RV SA KB. destruct (names_kept id VT es b b' ss t W E HT C EO R RV SA KB) as (hs & W' & KP & SA2 & KB2 & INC & U).
  exists hs, W'. split; [exact KP|]. split; [exact INC|]. split; [exact U|]. intro NW. apply names_read; assumption.
Qed.

(* A name was given to v at a moment when the clock had seen every other
   assignment of it: it is v. *)
Theorem C50_last id b t es1 now rs n v es2 b' ss W E : version id = TIME -> healthy id b t -> let es := es1 ++ NName now rs n v :: es2 in
  (forall e, In (NBranch e) es -> clocks e) -> (forall now rs f, In (NBranch (BReceive now rs f)) es -> events_only f) ->
  n_run id b es = Done (b', ss) -> received (map fst (others es ss)) (map snd (others es ss)) E ->
  state_at (br_main b) NAMES_KEY W -> keep_bound fuel (W ++ assigned active id es) E -> now + 1 < 2 ^ 64 ->
  (forall u w, In u (W ++ assigned active id (es1 ++ es2) ++ map bare E) -> gives u n w -> uvalue (u_id u) <= now) ->
  exists l, b_names b' = Done (l, ROk) /\ names_get l n = Some v.
Proof.
  intros VT HT es C EO R RV SA KB NM LE. destruct (C50_names id b t es b' ss W E VT HT C EO R RV SA KB) as (hs & W' & _ & INC & U & K).
  set (a := assignment active id now rs n v).
  assert (IA : In a W').
  { apply U. right. left. unfold es, assigned. rewrite flat_map_app. apply in_or_app. right. left. reflexivity. }
  destruct K as (l & RD & K); [intro Z; rewrite Z in IA; destruct IA|]. exists l. split; [exact RD|]. apply K. exists a. split; [exact IA|]. split; [reflexivity|].
  intros u w I G. apply U in I.
  assert (AB : now < uvalue (u_id a)).
  { unfold a, assignment, clock_now. cbn [u_id snd uuid_time uvalue]. destruct (now <? hd 0 rs) eqn:Q; [apply N.ltb_lt; exact Q|]. rewrite N.mod_small; [lia|].
    change two64 with (2 ^ 64). exact NM. }
  assert (OR : u = a \/ In u (W ++ assigned active id (es1 ++ es2) ++ map bare E)).
  { rewrite !in_app_iff. destruct I as [I|[I|I]]; [auto| |right; right; right; apply INC; exact I]. unfold es, assigned in I. rewrite flat_map_app in I. apply in_app_iff in I as [I|[I|I]].
    - right. right. left. unfold assigned. rewrite flat_map_app. apply in_or_app. left. exact I.
    - left. symmetry. exact I.
    - right. right. left. unfold assigned. rewrite flat_map_app. apply in_or_app. right. exact I. }
  destruct OR as [OR|OR]; [left; exact OR|]. right. specialize (LE u w OR G). unfold uuid_ltb.
  apply orb_true_iff. left. apply N.ltb_lt. lia.
Qed.

(* The same from the creation of the branch: there are no names at first. *)
Theorem C50_life now rs yarn tr b s now1 es b' s1 ss E : let ev := first_event active now rs yarn tr in let id := branch_id yarn in
  tr = true \/ yarn <> 0 -> uvalue ev < NEVER_W -> b_new sha fbits active fuel now rs yarn tr = Done (b, s) ->
  (forall e, In (NBranch e) es -> clocks e) -> (forall now rs f, In (NBranch (BReceive now rs f)) es -> events_only f) ->
  n_run id b (NBranch (BOpen now1) :: es) = Done (b', s1 :: ss) -> received (map fst (others es ss)) (map snd (others es ss)) E ->
  keep_bound fuel (assigned active id es) E ->
  exists hs W', keeps ev ev (map fst (others es ss)) (map snd (others es ss)) hs /\
    incl (says_ops (filed NAMES_KEY hs)) (map bare E) /\
    (forall u, In u W' <-> In u (assigned active id es) \/ In u (says_ops (filed NAMES_KEY hs))) /\
    (W' <> [] -> exists l, b_names b' = Done (l, ROk) /\ forall n v, names_get l n = Some v <-> current W' n v).
Proof.
  intros ev id Y NV H C EO R RV KB. subst ev id. cbn [NamesModel.n_run] in R. apply rbind_done in R as ([b1 s2] & R1 & R). apply rbind_done in R as ([b2 ss2] & R & Q). injection Q as -> -> ->.
  cbn [NamesModel.n_step] in R1.
  destruct (C47_created sha fbits active fuel _ _ _ _ _ _ Y NV H) as (-> & _ & _ & K). destruct (K _ _ _ R1) as (-> & BT & HT). clear K.
  assert (MB : br_main b1 = br_main b).
  { destruct (new_tip sha fbits active fuel _ _ _ _ _ _ NV H) as (_ & _ & T). cbn [BranchModel.b_step] in R1. apply rbind_done in R1 as ([[[d n'] t'] s1] & H1 & Q).
    destruct (first_time active now rs yarn tr) as [_ OR]. destruct (tipped_open fbits fuel _ _ _ _ _ _ _ _ T (or_introl (OR Y)) H1) as (-> & -> & ->). injection Q as <-. reflexivity. }
  assert (VT : version (branch_id yarn) = TIME) by apply ClockTheorems.time_version.
  assert (F0 : first_ops NAMES_KEY (first_event active now rs yarn tr) = []).
  { unfold first_ops. rewrite !key_eqb_neq; [reflexivity| |]; apply form_key_neq; unfold key_as, NAMES_KEY; rewrite !key_form_of by reflexivity; discriminate. }
  destruct (C48_created sha fbits active fuel now rs yarn tr b ROk NV H NAMES_KEY) as [_ SA].
  { rewrite F0. apply (bound_part [] (assigned active (branch_id yarn) es) [] E). exact KB. }
  rewrite F0 in SA. specialize (SA names_key_form). rewrite <- MB in SA.
  destruct (C50_names (branch_id yarn) b1 _ es b' ss [] E VT HT C EO R RV SA KB) as (hs & W' & KP & INC & U & K). rewrite BT in KP.
  exists hs, W'. split; [exact KP|]. split; [exact INC|]. split; [intro u; rewrite U; cbn [In]; tauto|exact K].
Qed.
End Names.
Print Assumptions C50_names.
Print Assumptions C50_last.
Print Assumptions C50_life.
