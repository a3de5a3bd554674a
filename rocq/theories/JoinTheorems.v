(* C36: the joined store. *)
From Coq Require Import Sorted.
From Verif Require Import Prelude UuidModel UuidSpec UuidProofs KeyModel CodecModel TextModel TextSpec BuilderSpec BuilderProofs MergeModel MergeSpec MergeTextModel
  MergeProofs RgaProofs MergeTheorems TextMergeSpec TextCursors TextMerge SizeProofs TextMergeTheorems StoreModel StoreSpec StoreProofs StoreTheorems JoinProofs.

Section Generic.
Context {F : Type}.
Variable fempty : F.
Variable is_empty : F -> bool.
Variable mergef : N -> list F -> res (option F * status).
Variable mergeany : list F -> res (option F * status).
Variable error_frame : status -> F.
Notation store := (list (key * F)).
Notation jwalk := (j_walk F fempty is_empty mergef mergeany error_frame).
Notation jread := (j_read F fempty is_empty mergef mergeany).

(* a walk from k visits the keys of the two stores, each once, in order. The
   value of a key that one store has is the value that store shows; the value
   of a key both have is the merge of the two, or an error frame. *)
Theorem C36_walk : forall a b k views, is_empty fempty = true ->
  sorted_store a -> Forall key64 (map fst a) -> sorted_store b -> Forall key64 (map fst b) -> key64 k ->
  total mergef a -> total mergef b -> jtotal fempty mergef mergeany a b ->
  exists a' b' l keys, jwalk a b k views = Done (a', b', l) /\
    StronglySorted key_lt keys /\ (forall x, In x keys <-> (In x (map fst a) \/ In x (map fst b)) /\ ~ key_lt x k /\ x <> KEY_END) /\
    map fst l = firstn (length views) keys /\
    map (fun '(_, f) => match f with Some _ => true | None => false end) l = firstn (length l) views /\
    (forall k f, In (k, Some f) l -> jshows fempty mergef mergeany error_frame k (contents a k) (contents b k) f) /\
    evolves mergef a a' (viewed l) /\ evolves mergef b b' (viewed l).
Proof.
  intros a b k views FE SA KA SB KB K64 TA TB TJ.
  destruct (parts_exist a k SA) as (la & ea & ha & PA). destruct (parts_exist b k SB) as (lb & eb & hb & PB).
  pose proof (pos_seek fempty a k la ea ha SA KA PA) as QA. pose proof (pos_seek fempty b k lb eb hb SB KB PB) as QB.
  destruct (sorted_keys (filter (fun x => negb (key_eqb x KEY_END)) (map fst (ea ++ ha) ++ map fst (eb ++ hb)))) as (keys & SK & IK).
  assert (IK2 : forall x, In x keys <-> (In x (map fst (ea ++ ha)) \/ In x (map fst (eb ++ hb))) /\ x <> KEY_END).
  { intro x. rewrite IK, filter_In, in_app_iff. split; intros [H1 H2]; (split; [exact H1|]).
    - intros ->. rewrite key_eqb_refl in H2. discriminate.
    - rewrite (key_eqb_neq _ _ H2). reflexivity. }
  set (k0 := key_min (head (ea ++ ha)) (head (eb ++ hb))).
  assert (K0 : forall x, key_lt x k -> key_lt x k0).
  { intros x L. assert (Q : forall rest, (forall y, In y (map fst rest) -> ~ key_lt y k) -> @key_lt x (@head F rest)).
    { intros [|[y f] r] H; cbn [head].
      - eapply key_lt_le_trans; [exact L|]. apply key_end_max. exact K64.
      - eapply key_lt_le_trans; [exact L|]. apply H. left. reflexivity. }
    unfold k0. destruct (min_cases (head (ea ++ ha)) (head (eb ++ hb))) as (_ & _ & [-> | ->]); apply Q; intros y I.
    - apply (parts_in _ _ _ _ _ _ PA) in I. apply I.
    - apply (parts_in _ _ _ _ _ _ PB) in I. apply I. }
  assert (DEC : forall x, key_lt x k \/ ~ key_lt x k).
  { intro x. unfold key_lt. destruct (key_ltb x k); [left; reflexivity|right; discriminate]. }
  destruct (jwalk_ok fempty is_empty mergef mergeany error_frame FE views a _ la _ b _ lb _ k0 keys QA QB TA TB TJ eq_refl) as (a' & b' & it' & l & W & M1 & M2 & SH & EA & EB).
  - intros x I. destruct (DEC x) as [D|D]; [left; apply K0; exact D|right]. apply (parts_in _ _ _ _ _ _ PA). auto.
  - intros x I. destruct (DEC x) as [D|D]; [left; apply K0; exact D|right]. apply (parts_in _ _ _ _ _ _ PB). auto.
  - exact SK.
  - exact IK2.
  - exists a', b', l, keys. split.
    + unfold j_walk, j_seek, new_jiter. cbn [j_a j_b]. rewrite (pos_key _ _ _ _ _ QA). cbn [rbind]. rewrite (pos_key _ _ _ _ _ QB). cbn [rbind].
      fold k0. rewrite W. reflexivity.
    + split; [exact SK|]. split.
      * intro x. rewrite IK2, (parts_in _ _ _ _ _ _ PA), (parts_in _ _ _ _ _ _ PB). tauto.
      * auto.
Qed.

(* reading: what one store has when the other one has nothing; else the merge *)
Definition reads_as (st : store) (k : key) (f : F) : Prop :=
  match contents st k with
  | [] => f = fempty
  | [x] => f = x
  | fs => mergef (key_form k) fs = Done (Some f, StOK)
  end.
Theorem C36_read : forall a b k old fa fb, is_empty fempty = true -> sorted_store a -> sorted_store b -> reads_as a k fa -> reads_as b k fb ->
  exists a' b', evolves mergef a a' (eq k) /\ evolves mergef b b' (eq k) /\
    (is_empty fa = true -> jread a b k old = Done (a', b', fb, StOK)) /\
    (is_empty fa = false -> is_empty fb = true -> jread a b k old = Done (a', b', fa, StOK)) /\
    (forall r s, is_empty fa = false -> is_empty fb = false -> mergeany [fa; fb] = Done (r, s) ->
       jread a b k old = Done (a', b', match r with Some f => f | None => old end, s)).
Proof.
  intros a b k old fa fb FE SA SB RA RB.
  assert (RD : forall st f, sorted_store st -> reads_as st k f ->
    exists st', StoreModel.read F fempty mergef st k fempty = Done (st', f, StOK) /\ evolves mergef st st' (eq k)).
  { intros st f SS R. destruct (C28_read fempty mergef st k fempty SS) as (R0 & R1 & R2). unfold reads_as in R.
    destruct (contents st k) as [|x [|y l]] eqn:CT.
    - subst f. exists st. split; [apply R0; reflexivity|apply evolves_refl; exact SS].
    - subst f. exists st. split; [apply R1; reflexivity|apply evolves_refl; exact SS].
    - destruct (R2 f ltac:(cbn [length]; lia) R) as (st' & E & S2 & CK & OTH & _). exists st'. split; [exact E|]. split; [exact S2|]. split.
      + intro x0. assert (CI : forall (s0 : store), In x0 (map fst s0) <-> contents s0 x0 <> []).
        { clear. intro s0. unfold contents. split.
          - intros I E. apply in_map_iff in I as (z & Z & I). apply map_eq_nil in E. assert (In z []) as [].
            rewrite <- E. apply filter_In. split; [exact I|]. apply key_eqb_eq. exact Z.
          - intro N. destruct (filter _ s0) as [|z r] eqn:Q; [contradiction|]. assert (I : In z (z :: r)) by (left; reflexivity). rewrite <- Q in I.
            apply filter_In in I as [I K]. apply key_eqb_eq in K. rewrite <- K. apply in_map. exact I. }
        rewrite !CI. destruct (key_total x0 k) as [H|[H|H]].
        * rewrite OTH; [reflexivity|]. intros ->. exact (key_lt_irrefl _ H).
        * subst x0. rewrite CK, CT. split; discriminate.
        * rewrite OTH; [reflexivity|]. intros ->. exact (key_lt_irrefl _ H).
      + intro x0. destruct (key_eqb x0 k) eqn:Q.
        * apply key_eqb_eq in Q. subst x0. right. split; [reflexivity|]. rewrite CT. split; [cbn [length]; lia|]. exists f, StOK. auto.
        * left. apply OTH. intros ->. rewrite key_eqb_refl in Q. discriminate. }
  destruct (RD a fa SA RA) as (a' & EA & VA). destruct (RD b fb SB RB) as (b' & EB & VB). exists a', b'. split; [exact VA|]. split; [exact VB|].
  unfold j_read. rewrite EA. cbn [rbind]. rewrite EB. cbn [rbind]. split; [intros ->; reflexivity|]. split; [intros -> ->; reflexivity|].
  intros r s -> -> ->. reflexivity.
Qed.
End Generic.
Print Assumptions C36_walk.
Print Assumptions C36_read.

(* ---- text ---- *)
Lemma empty_frame d : frame_lit canon [] d -> d = [].
Proof.
  intro H. destruct d as [|o d]; [reflexivity|]. exfalso.
  destruct (open_frames [[]] [o :: d]) as (cs & O & R & _); [constructor; [exact H|constructor]|constructor; [vm_compute; reflexivity|constructor]|].
  assert (E : open_cursors [[]] = Some []) by (vm_compute; reflexivity). rewrite O in E. injection E as ->. inversion R.
Qed.

(* the object's header: the op with the least id names the form *)
Definition headed (form : N) (W : list rop) : Prop :=
  exists h, In h (map bare W) /\ u_ref h = form_uuid form /\ forall u, In u (map bare W) -> uuid_ltb (u_id u) (u_id h) = false.

Section Text.
Variable fbits : bytes -> N.
Variable fuel : nat.
Notation tmerge := (merge_as fbits fuel).
Notation tstore := (list (key * bytes)).

Lemma held_read (st : tstore) k W : holds_ops st k W -> W <> [] -> mergeable (map bare W) ->
  In (key_form k) [LWW_RDT_FORM; MX_RDT_FORM; YARN_RAW_FORM; META_META_FORM] ->
  (length W <= fuel)%nat -> N.of_nat (length W) < 2 ^ 32 - 1 ->
  N.of_nat (room (map bare W)) < 2 ^ 32 ->
  exists f d, reads_as [] tmerge st k f /\ text_frame f d /\ (forall u, In u (map bare d) <-> In u (map bare W)) /\ (length d <= length W)%nat.
Proof.
  intros H NE M FM FU LN SM. pose proof H as (ds & FD & S & L & _). unfold reads_as. destruct (contents st k) as [|f [|f2 fs]] eqn:CT.
  - exfalso. inversion FD; subst. destruct W as [|w W]; [congruence|]. apply (S (bare w)). left. reflexivity.
  - inversion FD as [|? d ? ds' T FD']; subst. inversion FD'; subst. cbn [concat] in S, L. rewrite app_nil_r in S, L. exists f, d. auto.
  - destruct (merge_held fbits fuel st k W H M FM FU LN SM) as (text & us & EM & FL & I & U & LE & _ & SG). rewrite CT in EM. exists text, (chunk_of us).
    split; [exact EM|]. split; [split; [exact FL|split; [apply increasing_sorted; exact I|exact SG]]|]. split.
    + intro u. unfold chunk_of. rewrite bare_denote. apply U.
    + rewrite chunk_length. exact LE.
Qed.

Lemma form_found form (cs : list cursor) : In form [LWW_RDT_FORM; MX_RDT_FORM; YARN_RAW_FORM; META_META_FORM] -> cs <> [] ->
  Forall (fun c => valid c = true /\ text_ref c = form_uuid form) cs -> get_form cursor valid text_ref cs = Some form.
Proof.
  intros I N FA. destruct FA as [|c cs [V R] FA]; [congruence|]. unfold get_form. cbn [get_form_loop]. rewrite V, R. cbn [negb orb].
  assert (X : version (form_uuid form) = NAME /\ uuid_zero (form_uuid form) = false /\ uuid2form (form_uuid form) = form).
  { cbn [In] in I. repeat (destruct I as [<-|I]; [vm_compute; auto|]). destruct I. }
  destruct X as (X1 & X2 & X3). rewrite X1, N.eqb_refl. cbn [negb]. change (uuid_zero NIL) with true. cbn iota.
  assert (Q : get_form_loop cursor valid text_ref (form_uuid form) cs = Some (form_uuid form)).
  { clear -FA X1 X2. induction FA as [|c cs [V R] FA IH]; [reflexivity|]. cbn [get_form_loop]. rewrite V, R, X1, N.eqb_refl, X2. cbn [negb orb].
    rewrite (proj2 (uuid_eqb_eq _ _) eq_refl). exact IH. }
  rewrite Q. cbn [option_map]. rewrite X3. reflexivity.
Qed.

(* both stores hold ops of the object, its header among them: a read of the
   joined store returns the union *)
Theorem C36_text_read : forall a b k old Wa Wb,
  sorted_store a -> sorted_store b -> holds_ops a k Wa -> holds_ops b k Wb ->
  In (key_form k) [LWW_RDT_FORM; MX_RDT_FORM; YARN_RAW_FORM; META_META_FORM] ->
  headed (key_form k) Wa -> headed (key_form k) Wb -> mergeable (map bare (Wa ++ Wb)) ->
  (length (Wa ++ Wb) <= fuel)%nat -> N.of_nat (length (Wa ++ Wb)) < 2 ^ 32 - 1 ->
  N.of_nat (room (map bare (Wa ++ Wb))) < 2 ^ 32 ->
  exists a' b' text us, j_read bytes [] empty_text tmerge (merge_frames fbits fuel) a b k old = Done (a', b', text, StOK) /\
    frame_lit canon text (chunk_of us) /\ increasing_ids (chunk_of us) /\ (forall u, In u us <-> In u (map bare (Wa ++ Wb))) /\
    evolves tmerge a a' (eq k) /\ evolves tmerge b b' (eq k).
Proof.
  intros a b k old Wa Wb SA SB HA HB FM NA NB M FU LN SM. rewrite app_length in FU, LN. rewrite map_app, room_app in SM.
  assert (WA : Wa <> []) by (destruct NA as (h & I & _); intros ->; destruct I). assert (WB : Wb <> []) by (destruct NB as (h & I & _); intros ->; destruct I).
  assert (MA : mergeable (map bare Wa)) by (eapply mergeable_incl; [exact M|]; intros u I; rewrite map_app; apply in_or_app; left; exact I).
  assert (MB : mergeable (map bare Wb)) by (eapply mergeable_incl; [exact M|]; intros u I; rewrite map_app; apply in_or_app; right; exact I).
  destruct (held_read a k Wa HA WA MA FM ltac:(lia) ltac:(lia) ltac:(lia)) as (fa & da & RA & (FA & SDA & SMA) & UA & LA).
  destruct (held_read b k Wb HB WB MB FM ltac:(lia) ltac:(lia) ltac:(lia)) as (fb & db & RB & (FB & SDB & SMB) & UB & LB).
  assert (DNE : forall W d, W <> [] -> (forall u, In u (map bare d) <-> In u (map bare W)) -> d <> []).
  { intros W d N U ->. destruct W as [|w W]; [congruence|]. apply (U (bare w)). left. reflexivity. }
  pose proof (DNE Wa da WA UA) as DA. pose proof (DNE Wb db WB UB) as DB.
  assert (EA : empty_text fa = false) by (destruct fa; [apply empty_frame in FA; congruence|reflexivity]).
  assert (EB : empty_text fb = false) by (destruct fb; [apply empty_frame in FB; congruence|reflexivity]).
  assert (FF : Forall2 (frame_lit canon) [fa; fb] [da; db]) by (constructor; [exact FA|constructor; [exact FB|constructor]]).
  assert (SS : Forall small [fa; fb]) by (constructor; [exact SMA|constructor; [exact SMB|constructor]]).
  assert (UU : forall u, In u (map bare (concat [da; db])) <-> In u (map bare (Wa ++ Wb))).
  { intro u. cbn [concat]. rewrite app_nil_r, !map_app, !in_app_iff, UA, UB. reflexivity. }
  destruct (C44_union fbits fuel (key_form k) [fa; fb] [da; db] FF SS) as (text & us & EM & FL & I & U & _).
  { constructor; [exact SDA|constructor; [exact SDB|constructor]]. }
  { eapply mergeable_incl; [exact M|]. intros u J. apply UU. exact J. }
  { exact FM. }
  { cbn [concat]. rewrite app_nil_r, app_length. lia. }
  { cbn [concat]. rewrite app_nil_r, app_length. lia. }
  assert (MF : merge_frames fbits fuel [fa; fb] = Done (Some text, StOK)).
  { destruct (open_frames _ _ FF SS) as (cs & O & R & _). unfold merge_as in EM. unfold merge_frames. rewrite O in *.
    assert (FND : get_form cursor valid text_ref cs = Some (key_form k)).
    { assert (FO : forall W d c, headed (key_form k) W -> (forall u, In u (map bare d) <-> In u (map bare W)) -> mergeable (map bare W) -> d <> [] -> sorted_ids d ->
         valid c = true /\ reads valid text_next rop_of c d -> valid c = true /\ text_ref c = form_uuid (key_form k)).
      { intros W d c (h & HI & HR & HL) UD MW ND SD [V RC]. split; [exact V|]. destruct RC as [c0 V0|c0 c' l V0 NX RC]; [congruence|].
        change (text_ref c0) with (u_ref (bare (rop_of c0))). rewrite <- HR. f_equal.
        assert (I0 : In (bare (rop_of c0)) (map bare W)) by (apply UD; left; reflexivity).
        destruct MW as (_ & ID & _). apply (ID _ h I0 HI). apply UD in HI as HI'. apply in_map_iff in HI' as (o & <- & IO).
        specialize (HL _ I0). change (uuid_ltb (r_id (rop_of c0)) (r_id o) = false) in HL. change (r_id (rop_of c0) = r_id o).
        apply StronglySorted_inv in SD as [_ SD]. rewrite Forall_forall in SD. destruct IO as [<-|IO]; [reflexivity|].
        specialize (SD o IO). unfold id_le in SD. destruct (uuid_total (r_id (rop_of c0)) (r_id o)) as [T|[T|T]]; [congruence|exact T|congruence]. }
      destruct da as [|oa da']; [congruence|]. destruct db as [|ob db']; [congruence|]. cbn [filter nonempty] in R.
      inversion R as [|ca ? cs' ? RA1 R']; subst. inversion R' as [|cb ? cs'' ? RB1 R'']; subst. inversion R''; subst.
      apply form_found; [exact FM|discriminate|]. constructor; [exact (FO Wa _ ca NA UA MA DA SDA RA1)|]. constructor; [exact (FO Wb _ cb NB UB MB DB SDB RB1)|constructor]. }
    rewrite FND. exact EM. }
  destruct (C36_read [] empty_text tmerge (merge_frames fbits fuel) a b k old fa fb eq_refl SA SB RA RB) as (a' & b' & VA & VB & _ & _ & RJ).
  exists a', b', text, us. split; [apply (RJ (Some text) StOK EA EB MF)|]. split; [exact FL|]. split; [exact I|]. split; [|auto].
  intro u. rewrite U. apply UU.
Qed.
End Text.
Print Assumptions C36_text_read.
