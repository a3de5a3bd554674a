(* C51 for a branch: versions of an object are recalled from the log the branch
   has kept. *)
From Coq Require Import Sorted.
From Verif Require Import Prelude UuidModel UuidProofs KeyModel KeyProofs CodecModel TextModel TextSpec BuilderSpec BuilderProofs MergeModel MergeSpec MergeTextModel
  TextMergeSpec TextMerge SizeProofs TextMergeTheorems StoreModel StoreSpec StoreProofs RocksModel RocksSpec RocksProofs MetaModel ClockModel
  ReplicaModel ReplicaSpec ReplicaProofs BranchModel BranchSpec DurableSpec DurableProofs DurableTheorems LogModel LogTheorems.
From Verif Require LogSpec.
Notation upto := LogSpec.upto.
Notation settled := LogSpec.settled.
Notation dated := LogSpec.dated.

(* the ops of the chains a branch stores *)
Lemma proper_dated h : proper h -> Forall (fun c => dated (bare (rop_of c))) (ch_ops h).
Proof.
  intros (V & L & _ & B). unfold ch_ops, ch_id in *. assert (H : version (text_id (ch_head h)) = TIME /\ (version (text_ref (ch_head h)) = TIME ->
    uuid_ltb (text_ref (ch_head h)) (text_id (ch_head h)) = true)) by auto. clear V B. revert L H. generalize (ch_head h) as c. induction (ch_rest h) as [|d r IH]; intros c L H.
  - apply Forall_cons; [exact H|constructor].
  - apply Forall_cons; [exact H|]. destruct L as (LO & LT & LR & L). apply IH; [exact L|]. split; [rewrite (version_origin _ _ LO); apply H|].
    intros _. rewrite LR. exact LT.
Qed.
Lemma story_dated fbits fuel d es ss hss d' : story fbits fuel d es ss hss d' -> forall k, Forall dated (says_ops (filed k (concat hss))).
Proof.
  intros ST k. unfold says_ops. apply Forall_forall. intros u I. apply in_map_iff in I as (c & <- & I). apply in_flat_map in I as (h & I & J). apply filed_in in I.
  assert (P : proper h).
  { clear -ST I. induction ST as [|d e s hs d1 es ss hss d2 G SO ST IH]; [destruct I|]. cbn [concat] in I. apply in_app_iff in I as [I|I]; [|auto].
    destruct SO as [->|(now & rs & f & _ & _ & _ & _ & PR)]; [destruct I|]. rewrite Forall_forall in PR. auto. }
  pose proof (proper_dated h P) as F. rewrite Forall_forall in F. exact (F c J).
Qed.
Lemma dated_backwards ops : Forall dated (map bare ops) -> LogSpec.backwards ops.
Proof.
  intros F a b IA IB E. rewrite Forall_map, Forall_forall in F. destruct (F a IA) as [VA _]. destruct (F b IB) as [_ VB]. cbn [bare u_id u_ref] in *.
  rewrite <- E in VA. rewrite <- E. apply VB. exact VA.
Qed.
Lemma upto_absent v ops : (forall o, In o ops -> r_id o <> v) -> upto v ops = ops.
Proof.
  induction ops as [|o ops IH]; intro H; [reflexivity|]. cbn [LogSpec.upto]. destruct (uuid_eqb (r_id o) v) eqn:E.
  - apply uuid_eqb_eq in E. destruct (H o (or_introl eq_refl) E).
  - rewrite IH; [reflexivity|]. intros x I. apply H. right. exact I.
Qed.
Lemma settled_absent v ops : (forall o, In o ops -> r_id o <> v) -> settled v ops.
Proof. intros H l o p r -> E. destruct (H o); [apply in_elt|exact E]. Qed.

(* an object has the same chains under its log key and its state key *)
Lemma key_parts a b f g : f < 256 -> g < 256 -> key_of a f = key_of b g ->
  f = g /\ uorigin a mod 2 ^ 60 = uorigin b mod 2 ^ 60 /\ uvalue a mod 2 ^ 60 = uvalue b mod 2 ^ 60.
Proof.
  intros F G E. rewrite !key_of_eq in E by assumption. injection E as E1 E2.
  assert (HA : uorigin a mod 2 ^ 60 < 2 ^ 60) by (apply N.mod_lt; discriminate). assert (HB : uorigin b mod 2 ^ 60 < 2 ^ 60) by (apply N.mod_lt; discriminate).
  assert (VA : uvalue a mod 2 ^ 60 < 2 ^ 60) by (apply N.mod_lt; discriminate). assert (VB : uvalue b mod 2 ^ 60 < 2 ^ 60) by (apply N.mod_lt; discriminate).
  revert E1 E2 HA HB VA VB. generalize (uorigin a mod 2 ^ 60) (uorigin b mod 2 ^ 60) (uvalue a mod 2 ^ 60) (uvalue b mod 2 ^ 60).
  intros oa ob va vb E1 E2 HA HB VA VB. change (2 ^ 60) with 1152921504606846976 in *. change (2 ^ 56) with 72057594037927936 in *. dlia.
Qed.
Lemma same_object a b f g : f < 256 -> g < 256 -> key_of a f = key_of b f -> key_of a g = key_of b g.
Proof.
  intros F G E. destruct (key_parts a b f f F F E) as (_ & E1 & E2). rewrite !key_of_eq by exact G. rewrite E1, E2. reflexivity.
Qed.
Lemma find_form_below l : forall i u n, find_form l i u = Some n -> n < i + N.of_nat (length l).
Proof.
  induction l as [|f l IH]; intros i u n H; cbn [find_form] in H; [discriminate|]. cbn [length].
  destruct (uuid_eqb _ _); [injection H as <-; lia|]. specialize (IH _ _ _ H). lia.
Qed.
Lemma uuid2form_byte u : uuid2form u < 256.
Proof.
  unfold uuid2form. destruct (find_form FORMS 0 u) as [i|] eqn:E.
  - apply find_form_below in E.
    assert (L : length FORMS = 20%nat) by reflexivity. lia.
  - destruct (uuid_eqb u FATAL); reflexivity.
Qed.
Lemma filed_same obj form hs : form < 256 -> form <> LOG_RAW_FORM ->
  (forall h, In h hs -> key_of (ch_obj h) LOG_RAW_FORM = key_of obj LOG_RAW_FORM -> uuid2form (ch_rdt h) = form) ->
  forall h, In h (filed (key_of obj LOG_RAW_FORM) hs) <-> In h (filed (key_of obj form) hs).
Proof.
  intros F8 NL TY h. assert (L8 : LOG_RAW_FORM < 256) by reflexivity.
  assert (FI : forall k, In h (filed k hs) <-> In h hs /\ (key_of (ch_obj h) LOG_RAW_FORM = k \/ key_as (ch_obj h) (ch_rdt h) = k)).
  { clear. intro k. unfold filed. rewrite in_flat_map. split.
    - intros (x & I & J). apply in_app_iff in J as [J|J]; destruct (key_eqb _ k) eqn:E in J; try (destruct J; fail); destruct J as [<-|[]]; apply key_eqb_eq in E; auto.
    - intros (I & [E|E]); exists h; (split; [exact I|]); apply in_app_iff; [left|right]; rewrite E, (proj2 (key_eqb_eq k k) eq_refl); left; reflexivity. }
  rewrite !FI. unfold key_as. pose proof (uuid2form_byte (ch_rdt h)) as R8. split; intros (I & H); (split; [exact I|]).
  - assert (E : key_of (ch_obj h) LOG_RAW_FORM = key_of obj LOG_RAW_FORM).
    { destruct H as [H|H]; [exact H|]. destruct (key_parts _ _ _ _ R8 L8 H) as (Z & _). rewrite Z in H. exact H. }
    right. rewrite (TY h I E). apply (same_object _ _ LOG_RAW_FORM); assumption.
  - destruct H as [H|H]; [destruct (key_parts _ _ _ _ L8 F8 H) as (Z & _); congruence|].
    destruct (key_parts _ _ _ _ R8 F8 H) as (Z & _). rewrite Z in H. left. apply (same_object _ _ form); assumption.
Qed.

Section Recall.
Variable sha : bytes -> bytes.
Variable fbits : bytes -> N.
Variable active : N.
Variable fuel : nat.
Notation b_run := (b_run sha fbits active fuel).
Notation rread := (rocks_read fbits fuel).

(* the state a version of the object has, as recalled from a log text *)
Definition recalled (log : bytes) (v : uuid) (ops : list uop) : Prop :=
  exists text, log_state fbits fuel log v = Done (Some text, LMerge StOK) /\ frame_lit canon text (chunk_of ops) /\ increasing_ids (chunk_of ops).

Lemma log_recalled log o r v : frame_says log (o :: r) -> keep_bound fuel (map bare (o :: r)) [] -> Forall dated (map bare (o :: r)) ->
  In (uuid2form (r_ref o)) [LWW_RDT_FORM; MX_RDT_FORM; YARN_RAW_FORM] -> v <> NIL -> settled v (o :: r) ->
  exists us, recalled log v us /\ forall u, In u us <-> In u (map bare (upto v (o :: r))).
Proof.
  intros (FL & SM) (M & L & N & _) D FM NV ST. cbn [map] in M. rewrite app_nil_r in M. rewrite map_length in L, N. cbn [length] in L, N.
  assert (UI : incl (upto v (o :: r)) (o :: r)) by apply upto_incl.
  destruct (C51_state fbits fuel log v o r FL SM NV ST) as (text & us & LS & FT & IN & MEM).
  - cbn [In] in *. tauto.
  - intros a b IA IB. apply (dated_backwards (o :: r) D); apply UI; assumption.
  - eapply mergeable_incl; [exact M|]. exact (incl_map bare UI).
  - cbn [length]. lia.
  - cbn [length]. lia.
  - exists us. split; [|exact MEM]. exists text. auto.
Qed.

(* After any history of the branch: the log of an object is readable, and each
   version of the object is recalled from it with exactly the ops up to it. *)
Theorem C51_recall id b t es b' ss E : version id = TIME -> healthy id b t -> Forall clocks es ->
  (forall now rs f, In (BReceive now rs f) es -> events_only f) ->
  b_run id b es = Done (b', ss) -> received es ss E ->
  exists hs, keeps (br_tip b) t es ss hs /\
    forall k W, key_form k = LOG_RAW_FORM -> log_at (br_main b) k W -> Forall dated W -> keep_bound fuel W E -> spanless (W ++ map bare E) ->
      W ++ says_ops (filed k hs) <> [] ->
      exists log o r, rread (br_main b') k = Done (log, KOk) /\ frame_says log (o :: r) /\ map bare (o :: r) = W ++ says_ops (filed k hs) /\
        Forall dated (map bare (o :: r)) /\
        forall v, In (uuid2form (r_ref o)) [LWW_RDT_FORM; MX_RDT_FORM; YARN_RAW_FORM] -> v <> NIL -> settled v (o :: r) ->
          exists us, recalled log v us /\ forall u, In u us <-> In u (map bare (upto v (o :: r))).
Proof.
  intros VT HT C EO R RV. destruct (run_keeps sha fbits active fuel id VT es b b' ss t HT C R EO) as (hss & KP & ST).
  exists (concat hss). split; [exact KP|]. intros k W FM LA DW KB SP NV.
  destruct (log_kept sha fbits fuel (br_main b) es ss hss (br_main b') E k W) as (_ & KB2 & RD); try assumption; [apply HT|].
  destruct (RD NV) as (log & ops & RR & FS & EO2). destruct ops as [|o r]; [exfalso; apply NV; rewrite <- EO2; reflexivity|].
  rewrite <- EO2 in KB2.
  assert (D : Forall dated (map bare (o :: r))).
  { rewrite EO2. apply Forall_app. split; [exact DW|]. eapply story_dated. exact ST. }
  exists log, o, r. do 4 (split; [assumption|]). intros v F2 NN STL. exact (log_recalled log o r v FS KB2 D F2 NN STL).
Qed.

(* A version that is not in the log, such as one of the future, is the present
   state: the ops recalled are those stored under the object's state key. *)
Theorem C51_present id b t es b' ss E obj : version id = TIME -> healthy id b t -> Forall clocks es ->
  (forall now rs f, In (BReceive now rs f) es -> events_only f) ->
  b_run id b es = Done (b', ss) -> received es ss E ->
  exists hs, keeps (br_tip b) t es ss hs /\
    forall form W, let kl := key_of obj LOG_RAW_FORM in let ks := key_of obj form in
      In form [LWW_RDT_FORM; MX_RDT_FORM; YARN_RAW_FORM] ->
      (forall h, In h hs -> key_of (ch_obj h) LOG_RAW_FORM = kl -> uuid2form (ch_rdt h) = form) ->
      log_at (br_main b) kl W -> state_at (br_main b) ks W -> Forall dated W -> keep_bound fuel W E -> spanless (W ++ map bare E) ->
      W ++ says_ops (filed kl hs) <> [] ->
      exists log state o r us, rread (br_main b') kl = Done (log, KOk) /\ rread (br_main b') ks = Done (state, KOk) /\
        frame_lit canon log (o :: r) /\ frame_lit canon state (chunk_of us) /\
        (uuid2form (r_ref o) = form -> forall v, v <> NIL -> (forall x, In x (o :: r) -> r_id x <> v) -> recalled log v us).
Proof.
  intros VT HT C EO R RV. destruct (run_keeps sha fbits active fuel id VT es b b' ss t HT C R EO) as (hss & KP & ST).
  exists (concat hss). split; [exact KP|]. intros form W kl ks FM TY LA SA DW KB SP NV.
  assert (F8 : form < 256) by (clear -FM; cbn [In] in FM; destruct FM as [<-|[<-|[<-|[]]]]; vm_compute; reflexivity).
  assert (FL : form <> LOG_RAW_FORM) by (clear -FM; cbn [In] in FM; destruct FM as [<-|[<-|[<-|[]]]]; discriminate).
  assert (KL : key_form kl = LOG_RAW_FORM) by (apply key_form_of; reflexivity).
  assert (KS : key_form ks = form) by (apply key_form_of; exact F8).
  assert (SAME : forall u, In u (W ++ says_ops (filed kl (concat hss))) <-> In u (W ++ says_ops (filed ks (concat hss)))).
  { clear -TY FM F8 FL. assert (H : forall h, In h (filed kl (concat hss)) <-> In h (filed ks (concat hss))) by (apply filed_same; assumption).
    intro u. rewrite !in_app_iff. unfold says_ops. rewrite !in_map_iff. split; (intros [I|(c & EC & I)]; [left; exact I|right; exists c; split; [exact EC|]]);
      apply in_flat_map in I as (h & I & J); apply in_flat_map; exists h; (split; [apply H; exact I|exact J]). }
  destruct (log_kept sha fbits fuel (br_main b) es ss hss (br_main b') E kl W) as (_ & KB2 & RD); try assumption; [apply HT|].
  destruct (state_story sha fbits fuel (br_main b) es ss hss (br_main b') E ks W) as (_ & RS); try assumption; [apply HT|rewrite KS; exact FM|].
  destruct (RD NV) as (log & ops & RR & FS & EO2). destruct ops as [|o r]; [exfalso; apply NV; rewrite <- EO2; reflexivity|].
  destruct RS as (state & us & RR2 & FT & IN & MEM).
  { intro Z. rewrite Z in SAME. rewrite <- EO2 in SAME. exact (proj1 (SAME (bare o)) (or_introl eq_refl)). }
  exists log, state, o, r, us. split; [exact RR|]. split; [exact RR2|]. split; [apply FS|]. split; [exact FT|]. intros FO v NN AB. rewrite <- EO2 in KB2.
  assert (D : Forall dated (map bare (o :: r))).
  { rewrite EO2. apply Forall_app. split; [exact DW|]. eapply story_dated. exact ST. }
  destruct (log_recalled log o r v FS KB2 D ltac:(rewrite FO; exact FM) NN (settled_absent _ _ AB)) as (us2 & RC & MEM2).
  replace us with us2; [exact RC|]. destruct RC as (text & _ & _ & IN2). apply chunk_same; [exact IN2|exact IN|].
  intro u. rewrite MEM2, MEM, (upto_absent _ _ AB), EO2. apply SAME.
Qed.
End Recall.
Print Assumptions C51_recall.
Print Assumptions C51_present.
