(* Proofs about the joined store. *)
From Coq Require Import Sorted.
From Verif Require Import Prelude UuidModel KeyModel MergeModel StoreModel StoreSpec StoreProofs.

(* a finite set of keys in order *)
Lemma sorted_keys (l : list key) : exists ks, StronglySorted key_lt ks /\ forall x, In x ks <-> In x l.
Proof.
  induction l as [|k l (ks & S & I)]; [exists []; split; [constructor|reflexivity]|].
  assert (INS : forall ks, StronglySorted key_lt ks -> exists ks', StronglySorted key_lt ks' /\ forall x, In x ks' <-> k = x \/ In x ks).
  { clear. intros ks S. induction S as [|y ks S (ks' & S' & I') F]; [exists [k]; split; [repeat constructor|reflexivity]|].
    destruct (key_total k y) as [H|[H|H]].
    - exists (k :: y :: ks). split; [|reflexivity]. constructor; [constructor; assumption|]. constructor; [exact H|].
      rewrite Forall_forall in *. intros z J. eapply key_lt_trans; [exact H|apply F; exact J].
    - subst y. exists (k :: ks). split; [constructor; assumption|]. intro x. cbn [In]. tauto.
    - exists (y :: ks'). split.
      + constructor; [exact S'|]. rewrite Forall_forall in *. intros z J. apply I' in J as [<-|J]; [exact H|apply F; exact J].
      + intro x. cbn [In]. rewrite I'. tauto. }
  destruct (INS ks S) as (ks' & S' & I'). exists ks'. split; [exact S'|]. intro x. rewrite I'. cbn [In]. rewrite I. reflexivity.
Qed.

Section Join.
Context {F : Type}.
Variable fempty : F.
Variable is_empty : F -> bool.
Variable mergef : N -> list F -> res (option F * status).
Variable mergeany : list F -> res (option F * status).
Variable error_frame : status -> F.
Notation store := (list (key * F)).
Notation shows := (shows fempty mergef).

(* an iterator that has just been moved to the records of rest *)
Definition pos (st : store) (it : iter F) (lo rest : store) : Prop :=
  sorted_store st /\ st = lo ++ rest /\ strict lo rest /\ Forall key64 (map fst rest) /\ it = scroll F st (length lo) fempty.
Definition head (rest : store) : key := match rest with [] => KEY_END | (k, _) :: _ => k end.

Definition total (st : store) : Prop :=
  forall k, (2 <= length (contents st k))%nat -> exists x, mergef (key_form k) (contents st k) = Done x.
(* records of the keys in V may have been replaced by their merge *)
Definition evolves (st st' : store) (V : key -> Prop) : Prop :=
  sorted_store st' /\ (forall x, In x (map fst st') <-> In x (map fst st)) /\
  forall k, contents st' k = contents st k \/
    V k /\ (2 <= length (contents st k))%nat /\ exists g s, mergef (key_form k) (contents st k) = Done (Some g, s) /\ contents st' k = [g].

Lemma evolves_refl st (V : key -> Prop) : sorted_store st -> evolves st st V.
Proof. intro SS. split; [exact SS|]. split; [reflexivity|]. intro k. left. reflexivity. Qed.
Lemma evolves_weaken st st' (V W : key -> Prop) : evolves st st' V -> (forall k, V k -> W k) -> evolves st st' W.
Proof.
  intros (A & B & C) H. split; [exact A|]. split; [exact B|]. intro k. destruct (C k) as [Q|(Q1 & Q2)]; [left; exact Q|right; split; [apply H; exact Q1|exact Q2]].
Qed.
Lemma evolves_trans st st1 st2 (V1 V2 : key -> Prop) : evolves st st1 V1 -> evolves st1 st2 V2 -> evolves st st2 (fun k => V1 k \/ V2 k).
Proof.
  intros (A & B & C) (A2 & B2 & C2). split; [exact A2|]. split; [intro x; rewrite B2; apply B|]. intro k.
  destruct (C k) as [Q|(Q1 & Q2 & g & s & Q3 & Q4)], (C2 k) as [R|(R1 & R2 & g2 & s2 & R3 & R4)].
  - left. congruence.
  - right. split; [right; exact R1|]. rewrite Q in R2, R3. split; [exact R2|]. exists g2, s2. auto.
  - right. split; [left; exact Q1|]. split; [exact Q2|]. exists g, s. split; [exact Q3|congruence].
  - exfalso. rewrite Q4 in R2. cbn [length] in R2. clear -R2. lia.
Qed.
Lemma evolves_shows st st' V k f : evolves st st' V -> shows k (contents st' k) f -> shows k (contents st k) f.
Proof.
  intros (_ & _ & C) H. destruct (C k) as [Q|(_ & Q2 & g & s & Q3 & Q4)]; [rewrite Q in H; exact H|].
  rewrite Q4 in H. cbn [StoreProofs.shows] in H. subst f. unfold StoreProofs.shows. destruct (contents st k) as [|x [|y l]]; cbn [length] in Q2; [clear -Q2; lia|clear -Q2; lia|].
  exists (Some g), s. auto.
Qed.
Lemma evolves_empty st st' V k : evolves st st' V -> (contents st' k = [] <-> contents st k = []).
Proof.
  intros (_ & _ & C). destruct (C k) as [Q|(_ & Q2 & g & s & Q3 & Q4)]; [rewrite Q; reflexivity|]. rewrite Q4.
  split; [discriminate|]. intro E. rewrite E in Q2. cbn [length] in Q2. clear -Q2. lia.
Qed.
Lemma evolves_total st st' V : evolves st st' V -> total st -> total st'.
Proof.
  intros (_ & _ & C) T k L. destruct (C k) as [Q|(_ & Q2 & g & s & Q3 & Q4)]; [rewrite Q in *; apply T; exact L|].
  rewrite Q4 in L. cbn [length] in L. clear -L. lia.
Qed.

Lemma pos_key st it lo rest : pos st it lo rest -> it_key F st it = Done (head rest).
Proof.
  intros (SS & E & ST & K & ->). destruct rest as [|[k f] r].
  - rewrite app_nil_r in E. subst lo. rewrite scroll_end. reflexivity.
  - assert (SR : sorted_store ((k, f) :: r)) by (rewrite E in SS; apply sorted_app in SS; apply SS).
    destruct (rest_parts k f r SR) as (eqs & hi & ER & N & M & G). rewrite ER in E, ST.
    assert (L : below k lo).
    { apply Forall_forall. intros x I. destruct eqs as [|y eqs]; [congruence|]. inversion M as [|? ? Q _]; subst. apply ST; [exact I|left; reflexivity]. }
    destruct (scroll_run lo k eqs hi fempty M N G L) as [R _]. rewrite <- E in R. exact (key_run _ _ _ _ _ _ R).
Qed.

Hypothesis fempty_empty : is_empty fempty = true.

(* look at the value or not, then Next *)
Lemma visit st it lo rest k : pos st it lo rest -> head rest = k -> k <> KEY_END -> total st ->
  exists hi, above k hi /\ (forall x, In x (map fst rest) <-> x = k \/ In x (map fst hi)) /\ contents st k <> [] /\
  forall v : bool, exists f it1 st' it' lo',
    (if v then it_value F fempty mergef st it = Done (f, it1) /\ shows k (contents st k) f else it1 = it) /\
    it_key F st it1 = Done k /\ it_next F fempty is_empty st it1 = Done (st', it', StOK) /\
    pos st' it' lo' hi /\ evolves st st' (fun x => x = k /\ v = true).
Proof.
  intros (SS & E & ST & K64 & EI) H NE TOT. destruct rest as [|[k0 f0] r]; cbn [head] in H; [congruence|]. subst k0.
  assert (SR : sorted_store ((k, f0) :: r)) by (rewrite E in SS; apply sorted_app in SS; apply SS).
  destruct (rest_parts k f0 r SR) as (eqs & hi & ER & N & M & G). rewrite ER in *. clear ER f0 r.
  assert (L : below k lo).
  { apply Forall_forall. intros x I. destruct eqs as [|y eqs]; [congruence|]. inversion M as [|? ? Q _]; subst. apply ST; [exact I|left; reflexivity]. }
  destruct (scroll_run lo k eqs hi fempty M N G L) as [R MG]. rewrite <- E, <- EI in R, MG. clear EI.
  assert (KEQ : forall (l : store) x, all_at k l -> l <> [] -> (In x (map fst l) <-> x = k)).
  { clear. intros l x M N. unfold all_at in M. rewrite Forall_forall in M. split.
    - intro I. apply in_map_iff in I as (r & <- & I). apply M. exact I.
    - intros ->. destruct l as [|r l]; [congruence|]. left. apply M. left. reflexivity. }
  pose proof R as (P & _). pose proof (contents_parts _ _ _ _ _ P) as CP.
  assert (CN : contents st k <> []) by (rewrite CP; destruct eqs; [congruence|discriminate]).
  exists hi. split; [exact G|]. split; [intro x; rewrite map_app, in_app_iff, (KEQ eqs x M N); reflexivity|]. split; [exact CN|].
  (* Next from an iterator on the run *)
  assert (NEXT : forall it1 (V : Prop), at_run st it1 k lo eqs hi ->
     (is_empty (it_merged F it1) = false -> (2 <= length (contents st k))%nat -> V /\ exists s, mergef (key_form k) (contents st k) = Done (Some (it_merged F it1), s)) ->
     exists st' it' lo', it_next F fempty is_empty st it1 = Done (st', it', StOK) /\ pos st' it' lo' hi /\ evolves st st' (fun x => x = k /\ V)).
  { intros it1 V R1 MM. destruct (next_run fempty is_empty _ _ _ _ _ _ R1) as (eqs' & M' & N' & NX & CASE).
    exists (lo ++ eqs' ++ hi), (scroll F (lo ++ eqs' ++ hi) (length (lo ++ eqs')) fempty), (lo ++ eqs'). split; [exact NX|].
    assert (SS2 : sorted_store (lo ++ eqs' ++ hi)).
    { destruct (parts_sorted_of _ _ _ _ _ P SS) as [SL SH2]. exact (parts_sorted _ _ _ _ _ P SL SH2 eqs' M'). }
    split.
    - split; [exact SS2|]. split; [apply app_assoc|]. split.
      + intros x y I J. unfold above in G. rewrite Forall_forall in G. apply in_app_iff in I as [I|I].
        * apply ST; [exact I|apply in_or_app; right; exact J].
        * unfold all_at in M'. rewrite Forall_forall in M'. rewrite (M' x I). apply G. exact J.
      + split; [|reflexivity]. rewrite map_app, Forall_app in K64. apply K64.
    - split; [exact SS2|]. split.
      + intro x. rewrite E, !map_app, !in_app_iff, (KEQ eqs x M N), (KEQ eqs' x M' N'). reflexivity.
      + intro k1. pose proof (contents_replace _ _ _ _ _ eqs' P M' k1) as CR. rewrite CR. destruct (key_eqb k1 k) eqn:Q; [|left; reflexivity].
        apply key_eqb_eq in Q. subst k1. destruct CASE as [->|(L2 & NM & ->)]; [left; symmetry; exact CP|]. right.
        assert (L2' : (2 <= length (contents st k))%nat) by (rewrite CP, map_length; exact L2). destruct (MM NM L2') as (HV & s & MS).
        split; [split; [reflexivity|exact HV]|]. split; [exact L2'|]. exists (it_merged F it1), s. split; [exact MS|reflexivity]. }
  intros [|].
  - pose proof (value_run fempty is_empty mergef _ _ _ _ _ _ R) as VR.
    assert (VAL : exists f it1, it_value F fempty mergef st it = Done (f, it1) /\ shows k (contents st k) f /\ at_run st it1 k lo eqs hi /\
      (is_empty (it_merged F it1) = false -> (2 <= length (contents st k))%nat -> true = true /\ exists s, mergef (key_form k) (contents st k) = Done (Some (it_merged F it1), s))).
    { specialize (TOT k). unfold StoreProofs.shows. destruct (contents st k) as [|f [|f2 fs]] eqn:CT; [congruence| |].
      - exists f, it. split; [exact VR|]. split; [reflexivity|]. split; [exact R|]. intros _ Q. cbn [length] in Q. clear -Q. lia.
      - destruct (TOT ltac:(cbn [length]; clear; lia)) as [[r s] MF]. rewrite MF in VR. cbn [rbind] in VR. rewrite VR, MG. eexists _, _. split; [reflexivity|].
        split; [exists r, s; auto|]. split; [destruct R as (RA & RB & RC & RD & RE); repeat split; try assumption; apply RA|].
        cbn [it_merged]. intros NM _. split; [reflexivity|]. exists s. destruct r as [g|]; [exact MF|congruence]. }
    destruct VAL as (f & it1 & V1 & V2 & R1 & MM). destruct (NEXT it1 (true = true) R1 MM) as (st' & it' & lo' & N1 & N2 & N3).
    exists f, it1, st', it', lo'. split; [split; [exact V1|exact V2]|]. split; [exact (key_run _ _ _ _ _ _ R1)|]. auto.
  - destruct (NEXT it (false = true) R) as (st' & it' & lo' & N1 & N2 & N3).
    { intro Q. rewrite MG in Q. congruence. }
    exists fempty, it, st', it', lo'. split; [reflexivity|]. split; [exact (key_run _ _ _ _ _ _ R)|]. auto.
Qed.

(* the value the joined iterator shows *)
Definition jshows (k : key) (ca cb : list F) (f : F) : Prop :=
  (ca = [] /\ cb <> [] /\ shows k cb f) \/ (ca <> [] /\ cb = [] /\ shows k ca f) \/
  (ca <> [] /\ cb <> [] /\ exists fa fb r s, shows k ca fa /\ shows k cb fb /\ mergeany [fa; fb] = Done (r, s) /\
     f = match s with StOK => match r with Some g => g | None => fempty end | _ => error_frame s end).
Definition jtotal (a b : store) : Prop :=
  forall k fa fb, contents a k <> [] -> contents b k <> [] -> shows k (contents a k) fa -> shows k (contents b k) fb -> exists x, mergeany [fa; fb] = Done x.
Lemma jshows_back a a' V b b' W k f : evolves a a' V -> evolves b b' W -> jshows k (contents a' k) (contents b' k) f -> jshows k (contents a k) (contents b k) f.
Proof.
  intros EA EB H. pose proof (evolves_empty _ _ _ k EA) as QA. pose proof (evolves_empty _ _ _ k EB) as QB.
  destruct H as [(H1 & H2 & H3)|[(H1 & H2 & H3)|(H1 & H2 & fa & fb & r & s & H3 & H4 & H5 & H6)]].
  - left. split; [apply QA; exact H1|]. split; [intro Q; apply H2, QB, Q|exact (evolves_shows _ _ _ _ _ EB H3)].
  - right. left. split; [intro Q; apply H1, QA, Q|]. split; [apply QB; exact H2|exact (evolves_shows _ _ _ _ _ EA H3)].
  - right. right. split; [intro Q; apply H1, QA, Q|]. split; [intro Q; apply H2, QB, Q|]. exists fa, fb, r, s.
    split; [exact (evolves_shows _ _ _ _ _ EA H3)|]. split; [exact (evolves_shows _ _ _ _ _ EB H4)|]. auto.
Qed.
Lemma jtotal_on a a' V b b' W : evolves a a' V -> evolves b b' W -> jtotal a b -> jtotal a' b'.
Proof.
  intros EA EB T k fa fb NA NB SA SB. apply (T k).
  - intro Q. apply NA, (evolves_empty _ _ _ k EA), Q.
  - intro Q. apply NB, (evolves_empty _ _ _ k EB), Q.
  - exact (evolves_shows _ _ _ _ _ EA SA).
  - exact (evolves_shows _ _ _ _ _ EB SB).
Qed.

Lemma head_least st it lo rest x : pos st it lo rest -> In x (map fst rest) -> ~ key_lt x (head rest).
Proof.
  intros (SS & E & _) I. destruct rest as [|[k f] r]; [destruct I|]. cbn [head].
  assert (SR : sorted_store ((k, f) :: r)) by (rewrite E in SS; apply sorted_app in SS; apply SS). inversion SR as [|? ? _ S2]; subst.
  destruct I as [<-|I]; [apply key_lt_irrefl|]. apply in_map_iff in I as (z & <- & I). rewrite Forall_forall in S2. apply (S2 z I).
Qed.
Lemma not_here st it lo rest k : pos st it lo rest -> head rest <> k -> ~ key_lt (head rest) k -> ~ In k (map fst rest).
Proof. intros P N L I. destruct (key_total (head rest) k) as [H|[H|H]]; [contradiction|contradiction|]. exact (head_least _ _ _ _ _ P I H). Qed.
Notation jvalue := (j_value F fempty mergef mergeany error_frame).
Notation jnext := (j_next F fempty is_empty).
Notation look v a b it := (if v then rbind (jvalue a b it) (fun '(f, it1) => Done (Some f, it1)) else Done (None, it)).


Lemma no_contents (st : store) k : ~ In k (map fst st) -> contents st k = [].
Proof.
  intro N. unfold contents. rewrite filter_none; [reflexivity|]. apply Forall_forall. intros r I Q. apply N. rewrite <- Q. apply in_map. exact I.
Qed.
Lemma min_cases (a b : key) : ~ key_lt a (key_min a b) /\ ~ key_lt b (key_min a b) /\ (key_min a b = a \/ key_min a b = b).
Proof.
  unfold key_min. destruct (key_ltb b a) eqn:E.
  - split; [|split; [apply key_lt_irrefl|right; reflexivity]]. intro H. apply (key_lt_irrefl a). eapply key_lt_trans; [exact H|exact E].
  - split; [apply key_lt_irrefl|]. split; [apply key_not_lt; exact E|left; reflexivity].
Qed.
(* one round of a walk *)
Lemma jstep a ia la ra b ib lb rb (v : bool) k :
  pos a ia la ra -> pos b ib lb rb -> total a -> total b -> jtotal a b ->
  k = key_min (head ra) (head rb) -> k <> KEY_END ->
  (forall x, In x (map fst a) -> key_lt x k \/ In x (map fst ra)) -> (forall x, In x (map fst b) -> key_lt x k \/ In x (map fst rb)) ->
  exists fo it1 a' ia' la' ra' b' ib' lb' rb',
    look v a b (mkJ F ia ib k fempty) = Done (fo, it1) /\
    jnext a b it1 = Done (a', b', mkJ F ia' ib' (key_min (head ra') (head rb')) fempty, StOK) /\
    (if v then exists f, fo = Some f /\ jshows k (contents a k) (contents b k) f else fo = None) /\
    pos a' ia' la' ra' /\ pos b' ib' lb' rb' /\
    evolves a a' (fun x => x = k /\ v = true) /\ evolves b b' (fun x => x = k /\ v = true) /\
    (forall x, In x (map fst ra) <-> In x (map fst ra') \/ (x = k /\ head ra = k)) /\
    (forall x, In x (map fst rb) <-> In x (map fst rb') \/ (x = k /\ head rb = k)) /\
    above k ra' /\ above k rb'.
Proof.
  intros PA PB TA TB TJ EK NE BA BB. destruct (min_cases (head ra) (head rb)) as (LA & LB & MC). rewrite <- EK in *.
  pose proof (pos_key _ _ _ _ PA) as KA. pose proof (pos_key _ _ _ _ PB) as KB.
  assert (ABOVE : forall st it lo rest, pos st it lo rest -> head rest <> k -> ~ key_lt (head rest) k -> above k rest).
  { clear. intros st it lo rest P N L. apply Forall_forall. intros [x f] I. apply (in_map fst) in I. cbn [fst] in *.
    destruct (key_total k x) as [H|[H|H]]; [exact H| |].
    - subst x. exfalso. exact (not_here _ _ _ _ _ P N L I).
    - exfalso. pose proof (head_least _ _ _ _ _ P I) as Q. apply L. destruct (key_total (head rest) x) as [T|[T|T]]; [|rewrite T; exact H|contradiction].
      eapply key_lt_trans; eassumption. }
  assert (NOT : forall st it lo rest, pos st it lo rest -> head rest <> k -> ~ key_lt (head rest) k ->
     (forall x, In x (map fst st) -> key_lt x k \/ In x (map fst rest)) -> contents st k = []).
  { clear. intros st it lo rest P N L B. apply no_contents. intro I. destruct (B k I) as [Q|Q]; [exact (key_lt_irrefl _ Q)|].
    exact (not_here _ _ _ _ _ P N L Q). }
  destruct (key_eqb (head ra) k) eqn:HA, (key_eqb (head rb) k) eqn:HB.
  - (* both *)
    pose proof HA as HA'. pose proof HB as HB'. apply key_eqb_eq in HA', HB'.
    destruct (visit a ia la ra k PA HA' NE TA) as (ha & GA & IA & CA & VA). destruct (visit b ib lb rb k PB HB' NE TB) as (hb & GB & IB & CB & VB).
    destruct (VA v) as (fa & ia1 & a' & ia' & la' & VA1 & VA2 & VA3 & VA4 & VA5). destruct (VB v) as (fb & ib1 & b' & ib' & lb' & VB1 & VB2 & VB3 & VB4 & VB5).
    pose proof (pos_key _ _ _ _ VA4) as KA'. pose proof (pos_key _ _ _ _ VB4) as KB'.
    assert (LOOK : exists fo m, look v a b (mkJ F ia ib k fempty) = Done (fo, mkJ F ia1 ib1 k m) /\
       (if v then exists f, fo = Some f /\ jshows k (contents a k) (contents b k) f else fo = None)).
    { destruct v.
      - destruct VA1 as [VA1 SA], VB1 as [VB1 SB]. destruct (TJ k fa fb CA CB SA SB) as [[r s] MJ].
        unfold j_value. cbn [j_a j_b j_at j_merged]. rewrite KA, KB. cbn [rbind]. rewrite HA, HB. cbn [negb]. rewrite VA1. cbn [rbind]. rewrite VB1. cbn [rbind].
        rewrite MJ. cbn [rbind]. eexists _, _. split; [reflexivity|]. eexists. split; [reflexivity|]. right. right. split; [exact CA|]. split; [exact CB|].
        exists fa, fb, r, s. auto.
      - subst ia1 ib1. exists None, fempty. split; reflexivity. }
    destruct LOOK as (fo & m & LK & SH). exists fo, (mkJ F ia1 ib1 k m), a', ia', la', ha, b', ib', lb', hb.
    split; [exact LK|]. split.
    { unfold j_next. cbn [j_a j_b j_at j_merged]. rewrite VA2. cbn [rbind]. rewrite key_eqb_refl, VA3. cbn [rbind]. rewrite VB2. cbn [rbind].
      rewrite key_eqb_refl, VB3. cbn [rbind]. rewrite KA'. cbn [rbind]. rewrite KB'. cbn [rbind]. reflexivity. }
    split; [exact SH|]. do 4 (split; [assumption|]). split; [intro x; rewrite IA; tauto|]. split; [intro x; rewrite IB; tauto|]. auto.
  - (* only a *)
    pose proof HA as HA'. apply key_eqb_eq in HA'. assert (HB' : head rb <> k) by (intros Q; rewrite Q, key_eqb_refl in HB; discriminate).
    destruct (visit a ia la ra k PA HA' NE TA) as (ha & GA & IA & CA & VA).
    destruct (VA v) as (fa & ia1 & a' & ia' & la' & VA1 & VA2 & VA3 & VA4 & VA5).
    pose proof (pos_key _ _ _ _ VA4) as KA'. pose proof (NOT _ _ _ _ PB HB' LB BB) as CB.
    assert (LOOK : exists fo m, look v a b (mkJ F ia ib k fempty) = Done (fo, mkJ F ia1 ib k m) /\
       (if v then exists f, fo = Some f /\ jshows k (contents a k) (contents b k) f else fo = None)).
    { destruct v.
      - destruct VA1 as [VA1 SA]. 
        unfold j_value. cbn [j_a j_b j_at j_merged]. rewrite KA, KB. cbn [rbind]. rewrite HA, HB. cbn [negb]. rewrite VA1. cbn [rbind].
        eexists _, _. split; [reflexivity|]. eexists. split; [reflexivity|]. right. left. auto.
      - subst ia1. exists None, fempty. split; reflexivity. }
    destruct LOOK as (fo & m & LK & SH). exists fo, (mkJ F ia1 ib k m), a', ia', la', ha, b, ib, lb, rb.
    split; [exact LK|]. split.
    { unfold j_next. cbn [j_a j_b j_at j_merged]. rewrite VA2. cbn [rbind]. rewrite key_eqb_refl, VA3. cbn [rbind]. rewrite KB. cbn [rbind].
      rewrite HB. cbn [rbind]. rewrite KA'. cbn [rbind]. rewrite KB. cbn [rbind]. reflexivity. }
    split; [exact SH|]. do 3 (split; [assumption|]). split; [apply evolves_refl; apply PB|]. split; [intro x; rewrite IA; tauto|]. split; [intro x; tauto|].
    split; [exact GA|]. exact (ABOVE _ _ _ _ PB HB' LB).
  - (* only b *)
    pose proof HB as HB'. apply key_eqb_eq in HB'. assert (HA' : head ra <> k) by (intros Q; rewrite Q, key_eqb_refl in HA; discriminate).
    destruct (visit b ib lb rb k PB HB' NE TB) as (hb & GB & IB & CB & VB).
    destruct (VB v) as (fb & ib1 & b' & ib' & lb' & VB1 & VB2 & VB3 & VB4 & VB5).
    pose proof (pos_key _ _ _ _ VB4) as KB'. pose proof (NOT _ _ _ _ PA HA' LA BA) as CA.
    assert (LOOK : exists fo m, look v a b (mkJ F ia ib k fempty) = Done (fo, mkJ F ia ib1 k m) /\
       (if v then exists f, fo = Some f /\ jshows k (contents a k) (contents b k) f else fo = None)).
    { destruct v.
      - destruct VB1 as [VB1 SB]. 
        unfold j_value. cbn [j_a j_b j_at j_merged]. rewrite KA, KB. cbn [rbind]. rewrite HA. cbn [negb]. rewrite VB1. cbn [rbind].
        eexists _, _. split; [reflexivity|]. eexists. split; [reflexivity|]. left. auto.
      - subst ib1. exists None, fempty. split; reflexivity. }
    destruct LOOK as (fo & m & LK & SH). exists fo, (mkJ F ia ib1 k m), a, ia, la, ra, b', ib', lb', hb.
    split; [exact LK|]. split.
    { unfold j_next. cbn [j_a j_b j_at j_merged]. rewrite KA. cbn [rbind]. rewrite HA. cbn [rbind]. rewrite VB2. cbn [rbind].
      rewrite key_eqb_refl, VB3. cbn [rbind]. rewrite KA. cbn [rbind]. rewrite KB'. cbn [rbind]. reflexivity. }
    split; [exact SH|]. do 2 (split; [assumption|]). split; [apply evolves_refl; apply PA|]. split; [exact VB5|]. split; [intro x; tauto|]. split; [intro x; rewrite IB; tauto|].
    split; [exact (ABOVE _ _ _ _ PA HA' LA)|exact GB].
  - exfalso. destruct MC as [MC|MC]; rewrite <- MC, key_eqb_refl in *; discriminate.
Qed.

Definition viewed (l : list (key * option F)) (k : key) : Prop := exists f, In (k, Some f) l.

Lemma jwalk_ok views : forall a ia la ra b ib lb rb k ks,
  pos a ia la ra -> pos b ib lb rb -> total a -> total b -> jtotal a b ->
  k = key_min (head ra) (head rb) ->
  (forall x, In x (map fst a) -> key_lt x k \/ In x (map fst ra)) -> (forall x, In x (map fst b) -> key_lt x k \/ In x (map fst rb)) ->
  StronglySorted key_lt ks -> (forall x, In x ks <-> (In x (map fst ra) \/ In x (map fst rb)) /\ x <> KEY_END) ->
  exists a' b' it' l, j_walk_from F fempty is_empty mergef mergeany error_frame a b (mkJ F ia ib k fempty) views = Done (a', b', it', l) /\
    map fst l = firstn (length views) ks /\
    map (fun '(_, f) => match f with Some _ => true | None => false end) l = firstn (length l) views /\
    (forall k f, In (k, Some f) l -> jshows k (contents a k) (contents b k) f) /\
    evolves a a' (viewed l) /\ evolves b b' (viewed l).
Proof.
  induction views as [|v views IH]; intros a ia la ra b ib lb rb k ks PA PB TA TB TJ EK BA BB SK IK; cbn [j_walk_from].
  - eexists a, b, _, []. split; [reflexivity|]. split; [reflexivity|]. split; [reflexivity|]. split; [intros ? ? []|].
    split; apply evolves_refl; [apply PA|apply PB].
  - cbn [j_at]. destruct (key_eqb k KEY_END) eqn:KE.
    + apply key_eqb_eq in KE. eexists a, b, _, []. split; [reflexivity|]. assert (ks = []).
      { destruct ks as [|x ks]; [reflexivity|]. exfalso. destruct (proj1 (IK x) (or_introl eq_refl)) as [IX NX].
        destruct (min_cases (head ra) (head rb)) as (LA & LB & _). rewrite <- EK, KE in LA, LB.
        assert (X64 : key64 x /\ ~ key_lt x KEY_END).
        { destruct IX as [IX|IX].
          - split; [destruct PA as (_ & _ & _ & K & _); rewrite Forall_forall in K; apply K; exact IX|].
            pose proof (head_least _ _ _ _ _ PA IX) as Q. intro T. apply LA. destruct (key_total (head ra) x) as [H|[H|H]]; [|rewrite H; exact T|contradiction].
            eapply key_lt_trans; eassumption.
          - split; [destruct PB as (_ & _ & _ & K & _); rewrite Forall_forall in K; apply K; exact IX|].
            pose proof (head_least _ _ _ _ _ PB IX) as Q. intro T. apply LB. destruct (key_total (head rb) x) as [H|[H|H]]; [|rewrite H; exact T|contradiction].
            eapply key_lt_trans; eassumption. }
        destruct X64 as [X64 XL]. destruct (key_total x KEY_END) as [H|[H|H]]; [contradiction|contradiction|exact (key_end_max _ X64 H)]. }
      subst ks. split; [reflexivity|]. split; [reflexivity|]. split; [intros ? ? []|]. split; apply evolves_refl; [apply PA|apply PB].
    + assert (NE : k <> KEY_END) by (intros ->; rewrite key_eqb_refl in KE; discriminate).
      destruct (jstep a ia la ra b ib lb rb v k PA PB TA TB TJ EK NE BA BB)
        as (fo & it1 & a1 & ia' & la' & ra' & b1 & ib' & lb' & rb' & LK & NX & SH & PA' & PB' & EA & EB & IA & IB & GA & GB).
      rewrite LK. cbn [rbind]. rewrite NX. cbn [rbind].
      destruct (min_cases (head ra) (head rb)) as (LA & LB & MC). rewrite <- EK in *.
      assert (KIN : In k (map fst ra) \/ In k (map fst rb)).
      { destruct MC as [MC|MC]; [left; destruct ra as [|[x f] ra]|right; destruct rb as [|[x f] rb]]; cbn [head] in MC; try congruence; left; symmetry; exact MC. }
      assert (K64 : key64 k).
      { destruct KIN as [I|I]; [destruct PA as (_ & _ & _ & K & _)|destruct PB as (_ & _ & _ & K & _)]; rewrite Forall_forall in K; apply K; exact I. }
      assert (KLT : key_lt k (key_min (head ra') (head rb'))).
      { assert (Q : forall rest, above k rest -> key_lt k (head rest)).
        { intros [|[x f] r] G; [|inversion G; assumption]. cbn [head]. destruct (key_total k KEY_END) as [H|[H|H]]; [exact H|contradiction|].
          exfalso. exact (key_end_max _ K64 H). }
        destruct (min_cases (head ra') (head rb')) as (_ & _ & [-> | ->]); apply Q; assumption. }
      assert (BA' : forall x, In x (map fst a1) -> key_lt x (key_min (head ra') (head rb')) \/ In x (map fst ra')).
      { intros x I. destruct EA as (_ & EA & _). apply EA, BA in I as [I|I]; [left; eapply key_lt_trans; eassumption|].
        apply IA in I as [I|[-> _]]; [right; exact I|left; exact KLT]. }
      assert (BB' : forall x, In x (map fst b1) -> key_lt x (key_min (head ra') (head rb')) \/ In x (map fst rb')).
      { intros x I. destruct EB as (_ & EB & _). apply EB, BB in I as [I|I]; [left; eapply key_lt_trans; eassumption|].
        apply IB in I as [I|[-> _]]; [right; exact I|left; exact KLT]. }
      (* the remaining keys *)
      assert (KS : exists ks', ks = k :: ks' /\ StronglySorted key_lt ks' /\ forall x, In x ks' <-> (In x (map fst ra') \/ In x (map fst rb')) /\ x <> KEY_END).
      { assert (KI : In k ks) by (apply IK; split; [exact KIN|exact NE]).
        assert (LEAST : forall x, In x ks -> x = k \/ key_lt k x).
        { intros x I. apply IK in I as [[I|I] _].
          - apply IA in I as [I|[-> _]]; [right|left; reflexivity]. apply in_map_iff in I as (z & <- & I). unfold above in GA. rewrite Forall_forall in GA. apply GA, I.
          - apply IB in I as [I|[-> _]]; [right|left; reflexivity]. apply in_map_iff in I as (z & <- & I). unfold above in GB. rewrite Forall_forall in GB. apply GB, I. }
        destruct ks as [|y ks']; [destruct KI|]. apply StronglySorted_inv in SK as [SK' FK].
        assert (y = k).
        { destruct (LEAST y (or_introl eq_refl)) as [Q|Q]; [exact Q|]. destruct KI as [KI|KI]; [exact KI|]. rewrite Forall_forall in FK. specialize (FK k KI).
          exfalso. exact (key_lt_irrefl _ (key_lt_trans _ _ _ Q FK)). }
        subst y. eexists. split; [reflexivity|]. split; [exact SK'|]. intro x. rewrite Forall_forall in FK.
        assert (AK : In x (map fst ra') \/ In x (map fst rb') -> key_lt k x).
        { unfold above in GA, GB. rewrite Forall_forall in GA, GB. intros [I|I]; apply in_map_iff in I as (z & <- & I); auto. }
        split.
        - intro I. pose proof (FK x I) as LX. destruct (proj1 (IK x) (or_intror I)) as [IX NX']. split; [|exact NX'].
          assert (x <> k) by (intros ->; exact (key_lt_irrefl _ LX)). destruct IX as [IX|IX]; [apply IA in IX|apply IB in IX]; tauto.
        - intros [IX NX']. pose proof (AK IX) as LX. assert (I : In x (k :: ks')).
          { apply IK. split; [|exact NX']. destruct IX as [IX|IX]; [left; apply IA|right; apply IB]; left; exact IX. }
          destruct I as [I|I]; [subst x; exfalso; exact (key_lt_irrefl _ LX)|exact I]. }
      destruct KS as (ks' & -> & SK' & IK').
      destruct (IH a1 ia' la' ra' b1 ib' lb' rb' _ ks' PA' PB' (evolves_total _ _ _ EA TA) (evolves_total _ _ _ EB TB) (jtotal_on _ _ _ _ _ _ EA EB TJ) eq_refl BA' BB' SK' IK')
        as (a' & b' & it' & l & W & M1 & M2 & SHW & EA2 & EB2).
      rewrite W. cbn [rbind]. exists a', b', it', ((k, fo) :: l). split; [reflexivity|].
      split; [cbn [map fst length firstn]; rewrite M1; reflexivity|].
      split.
      { cbn [map length firstn]. rewrite M2. f_equal. destruct v; [destruct SH as (f & -> & _)|subst fo]; reflexivity. }
      split.
      { intros k1 f1 [I|I].
        - injection I as <- ->. destruct v; [|discriminate]. destruct SH as (f & Q & SH). injection Q as <-. exact SH.
        - exact (jshows_back _ _ _ _ _ _ _ _ EA EB (SHW _ _ I)). }
      assert (VW : forall x, (x = k /\ v = true) \/ viewed l x -> viewed ((k, fo) :: l) x).
      { intros x [[-> ->]|(f & I)].
        - destruct SH as (f & -> & _). exists f. left. reflexivity.
        - exists f. right. exact I. }
      split; (eapply evolves_weaken; [eapply evolves_trans; eassumption|exact VW]).
Qed.

Lemma pos_seek st k lo eqs hi : sorted_store st -> Forall key64 (map fst st) -> parts st k lo eqs hi ->
  pos st (it_seek F st (new_iter F fempty) k false) lo (eqs ++ hi).
Proof.
  intros SS K P. split; [exact SS|]. split; [apply P|]. split; [exact (parts_strict _ _ _ _ _ P)|]. split.
  - destruct P as (-> & _). rewrite map_app, Forall_app in K. apply K.
  - exact (seek_scroll _ _ _ _ _ _ P).
Qed.
Lemma parts_in (st : store) k (lo eqs hi : store) x : parts st k lo eqs hi -> (In x (map fst (eqs ++ hi)) <-> In x (map fst st) /\ ~ key_lt x k).
Proof. clear fempty_empty fempty is_empty mergef mergeany error_frame.
  intros (-> & L & M & G). unfold below, all_at, above in *. rewrite Forall_forall in *. rewrite (map_app _ lo), in_app_iff. split.
  - intro I. split; [right; exact I|]. apply in_map_iff in I as (z & <- & I). apply in_app_iff in I as [I|I].
    + rewrite (M z I). apply key_lt_irrefl.
    + intro Q. exact (key_lt_irrefl _ (key_lt_trans _ _ _ (G z I) Q)).
  - intros [[I|I] N]; [|exact I]. exfalso. apply in_map_iff in I as (z & <- & I). apply N, L, I.
Qed.
End Join.
