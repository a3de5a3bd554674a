(* Proofs about the stores. *)
From Coq Require Import Sorted.
From Verif Require Import Prelude UuidModel KeyModel MergeModel StoreModel StoreSpec.

(* ---- keys ---- *)
Lemma key_eqb_eq a b : key_eqb a b = true <-> a = b.
Proof.
  destruct a as [a1 a2], b as [b1 b2]. unfold key_eqb. cbn [kfirst ksecond]. rewrite andb_true_iff, !N.eqb_eq. split.
  - intros [-> ->]. reflexivity.
  - intro E. injection E as -> ->. auto.
Qed.
Lemma key_eqb_refl a : key_eqb a a = true.
Proof. apply key_eqb_eq. reflexivity. Qed.
Lemma key_eqb_neq a b : a <> b -> key_eqb a b = false.
Proof. intro H. destruct (key_eqb a b) eqn:E; [apply key_eqb_eq in E; contradiction|reflexivity]. Qed.
Lemma key_ltb_lt a b : key_lt a b <-> kfirst a < kfirst b \/ (kfirst a = kfirst b /\ ksecond a < ksecond b).
Proof. unfold key_lt, key_ltb. rewrite orb_true_iff, andb_true_iff, !N.ltb_lt, N.eqb_eq. reflexivity. Qed.
Lemma key_lt_irrefl a : ~ key_lt a a.
Proof. rewrite key_ltb_lt. lia. Qed.
Lemma key_lt_trans a b c : key_lt a b -> key_lt b c -> key_lt a c.
Proof. rewrite !key_ltb_lt. lia. Qed.
Lemma key_le_lt_trans a b c : ~ key_lt b a -> key_lt b c -> key_lt a c.
Proof. rewrite !key_ltb_lt. lia. Qed.
Lemma key_lt_le_trans a b c : key_lt a b -> ~ key_lt c b -> key_lt a c.
Proof. rewrite !key_ltb_lt. lia. Qed.
Lemma key_total a b : key_lt a b \/ a = b \/ key_lt b a.
Proof.
  rewrite !key_ltb_lt. destruct a as [a1 a2], b as [b1 b2]. cbn [kfirst ksecond].
  destruct (N.lt_trichotomy a1 b1) as [H|[->|H]]; [left; lia| |right; right; lia].
  destruct (N.lt_trichotomy a2 b2) as [H|[->|H]]; [left; lia|right; left; reflexivity|right; right; lia].
Qed.
Lemma key_end_max k : key64 k -> ~ key_lt KEY_END k.
Proof.
  intros [A B]. replace KEY_END with (mkKey 18446744073709551615 18446744073709551615) by (vm_compute; reflexivity).
  change (2 ^ 64) with 18446744073709551616 in A, B. rewrite key_ltb_lt. cbn [kfirst ksecond]. lia.
Qed.
Lemma key_zero_min k : ~ key_lt k KEY_ZERO.
Proof. replace KEY_ZERO with (mkKey 0 0) by (vm_compute; reflexivity). rewrite key_ltb_lt. cbn [kfirst ksecond]. lia. Qed.
Lemma key_not_lt a b : key_ltb a b = false <-> ~ key_lt a b.
Proof. unfold key_lt. destruct (key_ltb a b); split; congruence. Qed.

Section Lists.
Context {F : Type}.
Notation store := (list (key * F)).
Implicit Types st lo eqs hi : store.

Definition below (k : key) (l : store) : Prop := Forall (fun r => key_lt (fst r) k) l.
Definition above (k : key) (l : store) : Prop := Forall (fun r => key_lt k (fst r)) l.
Definition all_at (k : key) (l : store) : Prop := Forall (fun r => fst r = k) l.
(* the records before, at and after a key *)
Definition parts (st : store) (k : key) (lo eqs hi : store) : Prop :=
  st = lo ++ eqs ++ hi /\ below k lo /\ all_at k eqs /\ above k hi.

Lemma sorted_app (a b : store) : sorted_store (a ++ b) <->
  sorted_store a /\ sorted_store b /\ forall x y, In x a -> In y b -> ~ key_lt (fst y) (fst x).
Proof.
  unfold sorted_store. induction a as [|x a IH]; cbn [app].
  - split; [intro H; split; [constructor|split; [exact H|intros x y []]]|tauto].
  - split.
    + intro H. inversion H as [|? ? H1 H2]; subst. apply IH in H1 as (A & B & D). rewrite Forall_app in H2. destruct H2 as [H2 H3].
      split; [constructor; assumption|]. split; [exact B|]. intros u v [->|I] J; [|apply D; assumption].
      rewrite Forall_forall in H3. apply H3. exact J.
    + intros (A & B & D). inversion A as [|? ? A1 A2]; subst. constructor.
      * apply IH. split; [exact A1|]. split; [exact B|]. intros u v I J. apply D; [right; exact I|exact J].
      * apply Forall_app. split; [exact A2|]. apply Forall_forall. intros v J. apply D; [left; reflexivity|exact J].
Qed.

Lemma parts_exist st k : sorted_store st -> exists lo eqs hi, parts st k lo eqs hi.
Proof.
  induction st as [|[k0 f] st IH]; intro H.
  - exists [], [], []. repeat split; constructor.
  - inversion H as [|? ? H1 H2]; subst. destruct (IH H1) as (lo & eqs & hi & E & L & M & G).
    destruct (key_total k0 k) as [K|[->|K]].
    + exists ((k0, f) :: lo), eqs, hi. subst st. split; [reflexivity|]. split; [constructor; assumption|]. split; assumption.
    + assert (LN : lo = []).
      { destruct lo as [|[k1 f1] lo]; [reflexivity|]. exfalso. subst st. inversion H2 as [|? ? Q _]; subst. inversion L as [|? ? Q2 _]; subst. apply Q. exact Q2. }
      subst lo. exists [], ((k, f) :: eqs), hi. subst st. split; [reflexivity|]. split; [constructor|]. split; [constructor; [reflexivity|exact M]|exact G].
    + exists [], [], ((k0, f) :: st). split; [reflexivity|]. split; [constructor|]. split; [constructor|]. constructor; [exact K|].
      rewrite Forall_forall in *. intros r I. specialize (H2 r I). cbn [fst] in H2. eapply key_lt_le_trans; eassumption.
Qed.

Lemma parts_sorted st k lo eqs hi : parts st k lo eqs hi -> sorted_store lo -> sorted_store hi ->
  forall eqs', all_at k eqs' -> sorted_store (lo ++ eqs' ++ hi).
Proof.
  intros (-> & L & _ & G) SL SH eqs' M. unfold below, above, all_at in *. rewrite Forall_forall in *.
  apply sorted_app. split; [exact SL|]. split.
  - apply sorted_app. split; [|split; [exact SH|]].
    + clear -M. assert (Q : forall r, In r eqs' -> fst r = k) by exact M. clear M. unfold sorted_store.
      induction eqs' as [|x l IH]; constructor; [apply IH; intros r I; apply Q; right; exact I|].
      apply Forall_forall. intros r I. rewrite (Q x), (Q r); [apply key_lt_irrefl|right; exact I|left; reflexivity].
    + intros x y I J K. rewrite (M x I) in K. apply (key_lt_irrefl k). eapply key_lt_trans; [apply G; exact J|exact K].
  - intros x y I J K. specialize (L x I). apply in_app_iff in J as [J|J].
    + rewrite (M y J) in K. apply (key_lt_irrefl k). eapply key_lt_trans; eassumption.
    + specialize (G y J). apply (key_lt_irrefl k). eapply key_lt_trans; [exact G|]. eapply key_lt_trans; eassumption.
Qed.
Lemma parts_sorted_of st k lo eqs hi : parts st k lo eqs hi -> sorted_store st -> sorted_store lo /\ sorted_store hi.
Proof. intros (-> & _) H. apply sorted_app in H as (A & B & _). apply sorted_app in B as (_ & B & _). auto. Qed.

Lemma filter_none k (l : store) : Forall (fun r => fst r <> k) l -> filter (fun r => key_eqb (fst r) k) l = [].
Proof. induction 1 as [|r l H F0 IH]; [reflexivity|]. cbn [filter]. rewrite (key_eqb_neq _ _ H). exact IH. Qed.
Lemma filter_all k (l : store) : all_at k l -> filter (fun r => key_eqb (fst r) k) l = l.
Proof. induction 1 as [|r l H F0 IH]; [reflexivity|]. cbn [filter]. rewrite H, key_eqb_refl, IH. reflexivity. Qed.
Lemma below_ne k l : below k l -> Forall (fun r => fst r <> k) l.
Proof. apply Forall_impl. intros r H E. rewrite E in H. exact (key_lt_irrefl _ H). Qed.
Lemma above_ne k l : above k l -> Forall (fun r => fst r <> k) l.
Proof. apply Forall_impl. intros r H E. rewrite E in H. exact (key_lt_irrefl _ H). Qed.
Lemma contents_app (a b : store) k : contents (a ++ b) k = contents a k ++ contents b k.
Proof. unfold contents. rewrite filter_app, map_app. reflexivity. Qed.
Lemma contents_parts st k lo eqs hi : parts st k lo eqs hi -> contents st k = map snd eqs.
Proof.
  intros (-> & L & M & G). rewrite !contents_app. unfold contents.
  rewrite (filter_none k lo), (filter_none k hi), (filter_all k eqs); [cbn [map app]; apply app_nil_r|exact M|apply above_ne; exact G|apply below_ne; exact L].
Qed.
Lemma contents_other k k' l : all_at k l -> k' <> k -> contents l k' = [].
Proof.
  intros M N. unfold contents. rewrite filter_none; [reflexivity|]. revert M. apply Forall_impl. intros r E X. congruence.
Qed.
Lemma contents_replace st k lo eqs hi eqs' : parts st k lo eqs hi -> all_at k eqs' ->
  forall k', contents (lo ++ eqs' ++ hi) k' = if key_eqb k' k then map snd eqs' else contents st k'.
Proof.
  intros P M k'. destruct (key_eqb k' k) eqn:E.
  - apply key_eqb_eq in E. subst k'. destruct P as (_ & L & _ & G). apply (contents_parts _ k lo eqs' hi). split; [reflexivity|auto].
  - assert (N : k' <> k) by (intros ->; rewrite key_eqb_refl in E; discriminate). destruct P as (-> & L & MM & G).
    rewrite !contents_app, (contents_other k k' eqs), (contents_other k k' eqs'); auto.
Qed.

Lemma lower_parts st k lo eqs hi : parts st k lo eqs hi -> lower_bound F st k = length lo.
Proof.
  intros (-> & L & M & G). induction L as [|[k0 f] lo H L IH]; cbn [app lower_bound length].
  - assert (Q : forall l, Forall (fun r : key * F => key_ltb (fst r) k = false) l -> lower_bound F l k = O).
    { intros [|[k1 f1] l] FA; [reflexivity|]. inversion FA as [|? ? A _]; subst. cbn [fst] in A. cbn [lower_bound]. rewrite A. reflexivity. }
    apply Q. apply Forall_app. split.
    + revert M. apply Forall_impl. intros r ->. apply key_not_lt, key_lt_irrefl.
    + revert G. apply Forall_impl. intros r H. apply key_not_lt. intro K. apply (key_lt_irrefl k). eapply key_lt_trans; eassumption.
  - cbn [fst] in H. unfold key_lt in H. rewrite H, IH. reflexivity.
Qed.
Lemma upper_parts st k lo eqs hi : parts st k lo eqs hi -> upper_bound F st k = length (lo ++ eqs).
Proof.
  intros (-> & L & M & G). rewrite app_assoc.
  assert (Q : Forall (fun r => key_ltb k (fst r) = false) (lo ++ eqs)).
  { apply Forall_app. split.
    - revert L. apply Forall_impl. intros r H. apply key_not_lt. intro K. apply (key_lt_irrefl k). eapply key_lt_trans; eassumption.
    - revert M. apply Forall_impl. intros r ->. apply key_not_lt, key_lt_irrefl. }
  clear L M. induction Q as [|[k0 f] l H Q IH]; cbn [app upper_bound length].
  - destruct G as [|[k0 f] hi H G]; [reflexivity|]. cbn [fst] in H. cbn [upper_bound]. unfold key_lt in H. rewrite H. reflexivity.
  - cbn [fst] in H. rewrite H, IH. reflexivity.
Qed.
Lemma insert_parts st k lo eqs hi f : parts st k lo eqs hi -> insert F st (k, f) = lo ++ (eqs ++ [(k, f)]) ++ hi.
Proof.
  intros P. unfold insert, insert_at. cbn [fst]. rewrite (upper_parts _ _ _ _ _ P). destruct P as (-> & _).
  rewrite !app_assoc, <- !app_assoc. rewrite (app_assoc lo eqs hi), firstn_app, skipn_app, firstn_all, skipn_all, Nat.sub_diag.
  cbn [firstn skipn app]. rewrite app_nil_r, <- app_assoc. reflexivity.
Qed.
Lemma range_parts st k lo eqs hi : parts st k lo eqs hi -> range F st (length lo) (length (lo ++ eqs)) = map snd eqs.
Proof.
  intros (-> & _). unfold range. rewrite app_length. replace (length lo + length eqs - length lo)%nat with (length eqs) by lia.
  rewrite skipn_app, skipn_all, Nat.sub_diag. cbn [skipn app]. rewrite firstn_app, firstn_all, Nat.sub_diag. cbn [firstn]. rewrite app_nil_r. reflexivity.
Qed.
Lemma erase_parts st k lo eqs hi : parts st k lo eqs hi -> erase F st (length lo) (length (lo ++ eqs)) = lo ++ hi.
Proof.
  intros (-> & _). unfold erase. rewrite firstn_app, firstn_all, Nat.sub_diag. cbn [firstn]. rewrite app_nil_r. f_equal.
  rewrite app_assoc, skipn_app, skipn_all, Nat.sub_diag. reflexivity.
Qed.
Lemma all_at_one k (f : F) : all_at k [(k, f)].
Proof. constructor; [reflexivity|constructor]. Qed.

(* writing appends *)
Lemma insert_ok st k f : sorted_store st -> sorted_store (insert F st (k, f)) /\
  forall k', contents (insert F st (k, f)) k' = contents st k' ++ (if key_eqb k' k then [f] else []).
Proof.
  intro SS. destruct (parts_exist st k SS) as (lo & eqs & hi & P). rewrite (insert_parts _ _ _ _ _ f P).
  assert (M : all_at k (eqs ++ [(k, f)])) by (apply Forall_app; split; [apply P|apply all_at_one]).
  split.
  - destruct (parts_sorted_of _ _ _ _ _ P SS). eapply parts_sorted; eassumption.
  - intro k'. rewrite (contents_replace _ _ _ _ _ _ P M). destruct (key_eqb k' k) eqn:E.
    + apply key_eqb_eq in E. subst k'. rewrite map_app, (contents_parts _ _ _ _ _ P). reflexivity.
    + rewrite app_nil_r. reflexivity.
Qed.
Lemma insert_keys st k f x : In x (map fst (insert F st (k, f))) <-> x = k \/ In x (map fst st).
Proof.
  unfold insert, insert_at. rewrite map_app, in_app_iff. cbn [map fst In].
  assert (E : In x (map fst st) <-> In x (map fst (firstn (upper_bound F st k) st)) \/ In x (map fst (skipn (upper_bound F st k) st))).
  { rewrite <- in_app_iff, <- map_app, firstn_skipn. reflexivity. }
  rewrite E. intuition congruence.
Qed.

End Lists.

Section Proofs.
Context {F : Type}.
Variable fempty : F.
Variable is_empty : F -> bool.
Variable mergef : N -> list F -> res (option F * status).
Notation store := (list (key * F)).

(* reading *)
Lemma read_ok st k old : sorted_store st ->
  match contents st k with
  | [] => read F fempty mergef st k old = Done (st, fempty, StOK)
  | [f] => read F fempty mergef st k old = Done (st, f, StOK)
  | fs => read F fempty mergef st k old = rbind (mergef (key_form k) fs) (fun '(r, s) =>
            let result := match r with Some f => f | None => old end in
            Done (insert F (erase F st (lower_bound F st k) (upper_bound F st k)) (k, result), result, s)) /\
          forall g, sorted_store (insert F (erase F st (lower_bound F st k) (upper_bound F st k)) (k, g)) /\
            forall k', contents (insert F (erase F st (lower_bound F st k) (upper_bound F st k)) (k, g)) k' = if key_eqb k' k then [g] else contents st k'
  end.
Proof.
  intro SS. destruct (parts_exist st k SS) as (lo & eqs & hi & P).
  unfold read. rewrite (lower_parts _ _ _ _ _ P), (upper_parts _ _ _ _ _ P), (range_parts _ _ _ _ _ P), (erase_parts _ _ _ _ _ P), (contents_parts _ _ _ _ _ P).
  destruct (map snd eqs) as [|f [|f2 fs]]; [reflexivity|reflexivity|]. split; [reflexivity|].
  intros g. assert (P0 : parts (lo ++ hi) k lo [] hi) by (destruct P as (_ & L & _ & G); repeat split; [exact L|constructor|exact G]).
  rewrite (insert_parts _ _ _ _ _ g P0). cbn [app]. split.
  - destruct (parts_sorted_of _ _ _ _ _ P SS) as [SL SH]. exact (parts_sorted _ _ _ _ _ P SL SH [(k, g)] (all_at_one k g)).
  - intro k'. apply (contents_replace st k lo eqs hi [(k, g)] P (all_at_one k g)).
Qed.

(* ---- iterators ---- *)
Definition at_run (st : store) (it : iter F) (k : key) (lo eqs hi : store) : Prop :=
  parts st k lo eqs hi /\ eqs <> [] /\ it_b F it = length lo /\ it_e F it = length (lo ++ eqs) /\ it_len F it = length eqs.
Definition strict (lo rest : store) : Prop := forall x y, In x lo -> In y rest -> key_lt (fst x) (fst y).

Lemma run_length_parts k eqs hi : all_at k eqs -> above k hi -> run_length F k (eqs ++ hi) = length eqs.
Proof.
  intros M G. induction M as [|[k0 f] l E M IH]; cbn [app run_length length].
  - destruct G as [|[k0 f] hi H G]; [reflexivity|]. cbn [run_length fst] in *.
    rewrite key_eqb_neq; [reflexivity|]. intros ->. exact (key_lt_irrefl _ H).
  - cbn [fst] in E. subst k0. rewrite key_eqb_refl, IH. reflexivity.
Qed.
Lemma rest_parts k (f : F) (r : store) : sorted_store ((k, f) :: r) -> exists eqs hi : store, (k, f) :: r = eqs ++ hi /\ eqs <> [] /\ all_at k eqs /\ above k hi.
Proof.
  intro SR. destruct (parts_exist _ k SR) as (lo & eqs & hi & E & L & M & G).
  destruct lo as [|x lo].
  - exists eqs, hi. split; [exact E|]. split; [|auto]. intros ->. cbn [app] in E. subst hi. inversion G as [|? ? Q _]; subst. exact (key_lt_irrefl _ Q).
  - exfalso. injection E as E _. inversion L as [|? ? Q _]; subst x. exact (key_lt_irrefl _ Q).
Qed.
Lemma scroll_end lo m : scroll F lo (length lo) m = mkIter F (length lo) (length lo) m 0.
Proof. unfold scroll. rewrite skipn_all. reflexivity. Qed.
Lemma scroll_run lo k eqs hi m : all_at k eqs -> eqs <> [] -> above k hi -> below k lo ->
  at_run (lo ++ eqs ++ hi) (scroll F (lo ++ eqs ++ hi) (length lo) m) k lo eqs hi /\
  it_merged F (scroll F (lo ++ eqs ++ hi) (length lo) m) = m.
Proof.
  intros M N G L. unfold scroll. rewrite skipn_app, skipn_all, Nat.sub_diag. cbn [skipn app].
  destruct eqs as [|[k0 f] eqs]; [congruence|]. inversion M as [|? ? E M2]; subst. cbn [fst] in *. cbn [app].
  change ((k0, f) :: eqs ++ hi) with (((k0, f) :: eqs) ++ hi). rewrite (run_length_parts k0 ((k0, f) :: eqs) hi M G).
  split; [|reflexivity]. unfold at_run. cbn [it_b it_e it_len]. split; [repeat split; assumption|]. split; [discriminate|].
  split; [reflexivity|]. split; [rewrite app_length; reflexivity|reflexivity].
Qed.
Lemma nth_run (lo eqs hi : store) : eqs <> [] -> exists r, nth_error (lo ++ eqs ++ hi) (length lo) = Some r /\ In r eqs.
Proof. clear fempty is_empty mergef.
  intro N. rewrite nth_error_app2, Nat.sub_diag by lia. destruct eqs as [|r eqs]; [congruence|]. exists r. split; [reflexivity|left; reflexivity].
Qed.
Lemma key_run st it k lo eqs hi : at_run st it k lo eqs hi -> it_key F st it = Done k.
Proof. clear fempty is_empty mergef.
  intros ((E & L & M & G) & N & B & EE & LN). unfold it_key. rewrite LN, B. destruct (nth_run lo eqs hi N) as ([k0 f] & NE & I).
  subst st. destruct (length eqs) eqn:Z; [destruct eqs; [congruence|discriminate]|]. rewrite NE. unfold all_at in M. rewrite Forall_forall in M.
  rewrite (M _ I) at 1. specialize (M _ I). cbn [fst] in M. subst k0. reflexivity.
Qed.
Lemma value_run st it k lo eqs hi : at_run st it k lo eqs hi ->
  match contents st k with
  | [f] => it_value F fempty mergef st it = Done (f, it)
  | fs => it_value F fempty mergef st it = rbind (mergef (key_form k) fs) (fun '(r, _) =>
       let m := match r with Some f => f | None => it_merged F it end in Done (m, mkIter F (it_b F it) (it_e F it) m (it_len F it)))
  end.
Proof.
  intro R. pose proof (key_run _ _ _ _ _ _ R) as K. destruct R as (P & N & B & EE & LN).
  rewrite (contents_parts _ _ _ _ _ P). unfold it_value. rewrite LN. destruct eqs as [|[k1 f1] [|[k2 f2] eqs]]; [congruence| |].
  - cbn [map snd length]. rewrite B. destruct P as (-> & _). rewrite nth_error_app2, Nat.sub_diag by lia. reflexivity.
  - cbn [length]. rewrite K. cbn [rbind]. rewrite B, EE, (range_parts _ _ _ _ _ P). cbn [map snd]. reflexivity.
Qed.
Lemma next_run st it k lo eqs hi : at_run st it k lo eqs hi ->
  exists eqs', all_at k eqs' /\ eqs' <> [] /\
    it_next F fempty is_empty st it = Done (lo ++ eqs' ++ hi, scroll F (lo ++ eqs' ++ hi) (length (lo ++ eqs')) fempty, StOK) /\
    (eqs' = eqs \/ (2 <= length eqs)%nat /\ is_empty (it_merged F it) = false /\ eqs' = [(k, it_merged F it)]).
Proof.
  intro R. pose proof (key_run _ _ _ _ _ _ R) as K. destruct R as (P & N & B & EE & LN). unfold it_next. rewrite LN.
  assert (NZ : exists n, length eqs = S n) by (destruct eqs; [congruence|eexists; reflexivity]). destruct NZ as [n NZ]. rewrite NZ.
  destruct (Nat.ltb 1 (S n) && negb (is_empty (it_merged F it))) eqn:C.
  - apply andb_prop in C as [C1 C2]. apply Nat.ltb_lt in C1. apply negb_true_iff in C2.
    exists [(k, it_merged F it)]. split; [apply all_at_one|]. split; [discriminate|]. split; [|right; split; [lia|auto]].
    rewrite K. cbn [rbind]. rewrite B, EE, (erase_parts _ _ _ _ _ P).
    assert (P0 : parts (lo ++ hi) k lo [] hi) by (destruct P as (_ & L & _ & G); repeat split; [exact L|constructor|exact G]).
    rewrite (upper_parts _ _ _ _ _ P0), app_nil_r. unfold insert_at. rewrite firstn_app, firstn_all, skipn_app, skipn_all, Nat.sub_diag.
    cbn [firstn skipn app]. rewrite app_nil_r, app_length. cbn [length]. rewrite Nat.add_1_r. reflexivity.
  - exists eqs. split; [apply P|]. split; [exact N|]. split; [|left; reflexivity]. rewrite EE. destruct P as (-> & _). reflexivity.
Qed.

Fixpoint distinct (l : store) : list key :=
  match l with
  | [] => []
  | (k, _) :: r => match r with
                   | (k', _) :: _ => if key_eqb k k' then distinct r else k :: distinct r
                   | [] => [k]
                   end
  end.
Lemma distinct_run k eqs hi : all_at k eqs -> eqs <> [] -> above k hi -> distinct (eqs ++ hi) = k :: distinct hi.
Proof.
  intros M. induction M as [|[k0 f] eqs E M IH]; intros N G; [congruence|]. cbn [fst] in E. subst k0.
  destruct eqs as [|[k1 f1] eqs].
  - cbn [app distinct]. destruct G as [|[k2 f2] hi H G]; [reflexivity|]. cbn [fst] in H.
    rewrite key_eqb_neq; [reflexivity|]. intros ->. exact (key_lt_irrefl _ H).
  - assert (k1 = k) by (inversion M; assumption). subst k1. cbn [app distinct] in *. rewrite key_eqb_refl. apply IH; [discriminate|exact G].
Qed.
Lemma distinct_in (l : store) x : In x (distinct l) <-> In x (map fst l).
Proof. clear fempty is_empty mergef.
  induction l as [|[k f] l IH]; [reflexivity|]. cbn [distinct map fst In]. destruct l as [|[k' f'] l].
  - reflexivity.
  - destruct (key_eqb k k') eqn:E.
    + apply key_eqb_eq in E. subst k'. rewrite IH. cbn [map fst In]. tauto.
    + cbn [In]. rewrite IH. reflexivity.
Qed.
Lemma distinct_sorted (l : store) : sorted_store l -> StronglySorted key_lt (distinct l).
Proof.
  induction l as [|[k f] l IH]; intro SL; [constructor|]. inversion SL as [|? ? S1 S2]; subst. specialize (IH S1). cbn [distinct].
  destruct l as [|[k' f'] l]; [repeat constructor|]. destruct (key_eqb k k') eqn:E; [exact IH|]. constructor; [exact IH|].
  apply Forall_forall. intros x I. apply distinct_in in I. apply in_map_iff in I as ([k1 f1] & <- & I). cbn [fst].
  inversion S2 as [|? ? Q _]; subst. cbn [fst] in Q.
  assert (KK : key_lt k k').
  { destruct (key_total k k') as [H|[H|H]]; [exact H| |contradiction]. subst k'. rewrite key_eqb_refl in E. discriminate. }
  destruct I as [I|I]; [injection I as -> ->; exact KK|]. inversion S1 as [|? ? _ S3]; subst. rewrite Forall_forall in S3. specialize (S3 _ I).
  cbn [fst] in S3. eapply key_lt_le_trans; eassumption.
Qed.
Definition visible (l : store) : list key := filter (fun k => negb (key_eqb k KEY_END)) (distinct l).

Hypothesis fempty_empty : is_empty fempty = true.

(* what a value() of a key with frames fs shows *)
Definition shows (k : key) (fs : list F) (f : F) : Prop :=
  match fs with
  | [x] => f = x
  | _ => exists r s, mergef (key_form k) fs = Done (r, s) /\ f = match r with Some g => g | None => fempty end
  end.
Definition walked (st : store) (rest : store) (views : list bool) (st' : store) (l : list (key * option F)) : Prop :=
  sorted_store st' /\ (forall x, In x (map fst st') <-> In x (map fst st)) /\
  map fst l = firstn (length views) (visible rest) /\
  map (fun '(_, f) => match f with Some _ => true | None => false end) l = firstn (length l) views /\
  (forall k f, In (k, Some f) l -> shows k (contents st k) f) /\
  (forall k, contents st' k = contents st k \/
     exists g s, In (k, Some g) l /\ (2 <= length (contents st k))%nat /\ is_empty g = false /\
                 mergef (key_form k) (contents st k) = Done (Some g, s) /\ contents st' k = [g]).

Lemma walked_none st rest views : sorted_store st -> firstn (length views) (visible rest) = [] -> walked st rest views st [].
Proof.
  intros SS E. split; [exact SS|]. split; [reflexivity|]. split; [symmetry; exact E|]. split; [reflexivity|]. split; [intros k f []|]. intro k. left. reflexivity.
Qed.

Lemma walk_ok views : forall st lo rest, sorted_store st -> st = lo ++ rest -> strict lo rest -> Forall key64 (map fst rest) ->
  match it_walk F fempty is_empty mergef st (scroll F st (length lo) fempty) views with
  | Done (st', _, l) => walked st rest views st' l
  | _ => exists k, (2 <= length (contents st k))%nat /\ forall x, mergef (key_form k) (contents st k) <> Done x
  end.
Proof.
  induction views as [|v views IH]; intros st lo rest SS E ST K64; cbn [it_walk].
  - apply walked_none; [exact SS|reflexivity].
  - destruct rest as [|[k f] r].
    + rewrite app_nil_r in E. subst lo. rewrite scroll_end. unfold it_key. cbn [it_len rbind]. rewrite key_eqb_refl.
      apply walked_none; [exact SS|reflexivity].
    + assert (SR : sorted_store ((k, f) :: r)) by (subst st; apply sorted_app in SS; apply SS).
      destruct (rest_parts k f r SR) as (eqs & hi & ER & N & M & G). rewrite ER in *. clear ER f r.
      assert (L : below k lo).
      { apply Forall_forall. intros x I. destruct eqs as [|y eqs]; [congruence|]. inversion M as [|? ? Q _]; subst. apply ST; [exact I|left; reflexivity]. }
      destruct (scroll_run lo k eqs hi fempty M N G L) as [R MG]. rewrite <- E in R, MG.
      set (it := scroll F st (length lo) fempty) in *. clearbody it.
      rewrite (key_run _ _ _ _ _ _ R). cbn [rbind].
      assert (DV : distinct (eqs ++ hi) = k :: distinct hi) by (apply distinct_run; assumption).
      destruct (key_eqb k KEY_END) eqn:KE.
      { apply key_eqb_eq in KE. subst k. apply walked_none; [exact SS|]. unfold visible. rewrite DV. cbn [filter]. rewrite key_eqb_refl. cbn [negb].
        destruct hi as [|[k1 f1] hi]; [apply firstn_nil|]. exfalso. inversion G as [|? ? Q _]; subst. cbn [fst] in Q.
        apply (key_end_max k1); [|exact Q]. rewrite Forall_forall in K64. apply K64. rewrite map_app, in_app_iff. right. left. reflexivity. }
      assert (VV : visible (eqs ++ hi) = k :: visible hi) by (unfold visible; rewrite DV; cbn [filter]; rewrite KE; reflexivity).
      pose proof (value_run _ _ _ _ _ _ R) as VR.
      assert (VAL : (if v then rbind (it_value F fempty mergef st it) (fun '(f, it1) => Done (Some f, it1)) else Done (None, it)) = Done (None, it) /\ v = false \/
        (exists f it1, (if v then rbind (it_value F fempty mergef st it) (fun '(f, it1) => Done (Some f, it1)) else Done (None, it)) = Done (Some f, it1) /\
           v = true /\ shows k (contents st k) f /\ at_run st it1 k lo eqs hi /\
           (is_empty (it_merged F it1) = false -> (2 <= length (contents st k))%nat ->
              it_merged F it1 = f /\ exists s, mergef (key_form k) (contents st k) = Done (Some f, s))) \/
        (2 <= length (contents st k))%nat /\ (forall x, mergef (key_form k) (contents st k) <> Done x) /\ v = true /\
           (rbind (it_value F fempty mergef st it) (fun '(f, it1) => Done (Some f, it1)) = Aborted \/
            rbind (it_value F fempty mergef st it) (fun '(f, it1) => Done (Some f, it1)) = Fuel)).
      { destruct v; [right|left; auto]. pose proof R as (P & _). pose proof (contents_parts _ _ _ _ _ P) as CP.
        assert (CN : contents st k <> []) by (rewrite CP; destruct eqs; [congruence|discriminate]).
        unfold shows. destruct (contents st k) as [|f [|f2 fs]] eqn:CT; [congruence| |].
        - left. exists f, it. rewrite VR. cbn [rbind]. split; [reflexivity|]. split; [reflexivity|]. split; [reflexivity|]. split; [exact R|].
          intros _ Q. cbn [length] in Q. lia.
        - destruct (mergef (key_form k) (f :: f2 :: fs)) as [[r s]| |] eqn:MF; cbn [rbind] in VR.
          + left. rewrite VR, MG. cbn [rbind]. eexists _, _. split; [reflexivity|]. split; [reflexivity|].
            split; [exists r, s; split; [reflexivity|reflexivity]|]. split.
            * destruct R as (A & B & C & D & H). repeat split; try assumption; apply A.
            * cbn [it_merged]. intros NE _. split; [reflexivity|]. exists s. destruct r as [g|]; [reflexivity|congruence].
          + right. rewrite VR. cbn [length rbind]. split; [lia|]. split; [intros x; congruence|]. auto.
          + right. rewrite VR. cbn [length rbind]. split; [lia|]. split; [intros x; congruence|]. auto. }
      destruct VAL as [[-> ->]|[(f & it1 & -> & -> & SH & R1 & MM)|(L2 & NM & -> & [-> | ->])]]; cbn [rbind]; [| |exists k; auto|exists k; auto].
      * (* not looked at *)
        destruct (next_run _ _ _ _ _ _ R) as (eqs' & M' & N' & NX & CASE). rewrite NX. cbn [rbind].
        assert (eqs' = eqs) by (destruct CASE as [H|(_ & H & _)]; [exact H|congruence]). subst eqs'.
        rewrite <- E. specialize (IH st (lo ++ eqs) hi SS). rewrite <- app_assoc in IH. specialize (IH E).
        assert (ST2 : strict (lo ++ eqs) hi).
        { intros x y I J. unfold above in G. rewrite Forall_forall in G. apply in_app_iff in I as [I|I].
          - apply ST; [exact I|apply in_or_app; right; exact J].
          - unfold all_at in M. rewrite Forall_forall in M. rewrite (M x I). apply G. exact J. }
        rewrite map_app, Forall_app in K64. specialize (IH ST2 (proj2 K64)).
        destruct (it_walk _ _ _ _ st _ views) as [[[st3 it3] l]| |] eqn:W; cbn [rbind]; [|exact IH|exact IH].
        destruct IH as (A & A2 & B & B2 & C & D). split; [exact A|]. split; [exact A2|]. split; [cbn [map fst length firstn]; rewrite VV, B; reflexivity|].
        split; [cbn [map length firstn]; rewrite B2; reflexivity|]. split.
        -- intros k1 f1 [I|I]; [discriminate|apply C; exact I].
        -- intro k1. destruct (D k1) as [D1|(g & s & D1 & D2)]; [left; exact D1|right; exists g, s; split; [right; exact D1|exact D2]].
      * (* looked at *)
        destruct (next_run _ _ _ _ _ _ R1) as (eqs' & M' & N' & NX & CASE). rewrite NX. cbn [rbind].
        pose proof R1 as (P & _). pose proof (contents_parts _ _ _ _ _ P) as CP.
        assert (SS2 : sorted_store (lo ++ eqs' ++ hi)).
        { destruct (parts_sorted_of _ _ _ _ _ P SS) as [SL SH2]. exact (parts_sorted _ _ _ _ _ P SL SH2 eqs' M'). }
        pose proof (contents_replace _ _ _ _ _ eqs' P M') as CR.
        specialize (IH (lo ++ eqs' ++ hi) (lo ++ eqs') hi SS2 (app_assoc _ _ _)).
        assert (ST2 : strict (lo ++ eqs') hi).
        { intros x y I J. unfold above in G. rewrite Forall_forall in G. apply in_app_iff in I as [I|I].
          - apply ST; [exact I|apply in_or_app; right; exact J].
          - unfold all_at in M'. rewrite Forall_forall in M'. rewrite (M' x I). apply G. exact J. }
        rewrite map_app, Forall_app in K64. specialize (IH ST2 (proj2 K64)).
        assert (KEYS : forall x, In x (map fst (lo ++ eqs' ++ hi)) <-> In x (map fst st)).
        { intro x. rewrite E, !map_app, !in_app_iff.
          assert (Q : forall l : store, all_at k l -> l <> [] -> (In x (map fst l) <-> x = k)).
          { clear. intros l M N. unfold all_at in M. rewrite Forall_forall in M. split.
            - intro I. apply in_map_iff in I as (r & <- & I). apply M. exact I.
            - intros ->. destruct l as [|r l]; [congruence|]. left. apply M. left. reflexivity. }
          rewrite (Q eqs M N), (Q eqs' M' N'). reflexivity. }
        (* the case of a key other than k, or k not collapsed *)
        assert (CK : forall k1, contents (lo ++ eqs' ++ hi) k1 = contents st k1 \/
                     k1 = k /\ (2 <= length (contents st k))%nat /\ is_empty f = false /\ contents (lo ++ eqs' ++ hi) k = [f] /\
                     exists s, mergef (key_form k) (contents st k) = Done (Some f, s)).
        { intro k1. rewrite !CR. destruct (key_eqb k1 k) eqn:Q; [|left; reflexivity]. apply key_eqb_eq in Q. subst k1.
          destruct CASE as [->|(L2 & NE & ->)]; [left; symmetry; exact CP|]. right. split; [reflexivity|].
          assert (L2' : (2 <= length (contents st k))%nat) by (rewrite CP, map_length; exact L2). destruct (MM NE L2') as [<- MS].
          split; [exact L2'|]. split; [exact NE|]. rewrite key_eqb_refl. split; [reflexivity|exact MS]. }
        destruct (it_walk _ _ _ _ (lo ++ eqs' ++ hi) _ views) as [[[st3 it3] l]| |] eqn:W; cbn [rbind].
        -- destruct IH as (A & A2 & B & B2 & C & D).
           assert (NK : forall g, ~ In (k, g) l).
           { intros g I. apply (in_map fst) in I. cbn [fst] in I. rewrite B in I.
             assert (IV : In k (visible hi)) by (rewrite <- (firstn_skipn (length views) (visible hi)); apply in_or_app; left; exact I).
             unfold visible in IV. apply filter_In in IV as [IV _]. apply distinct_in, in_map_iff in IV as (r & Q & J).
             unfold above in G. rewrite Forall_forall in G. specialize (G r J). rewrite Q in G. exact (key_lt_irrefl _ G). }
           split; [exact A|]. split; [intro x; rewrite A2; apply KEYS|]. split; [cbn [map fst length firstn]; rewrite VV, B; reflexivity|].
           split; [cbn [map length firstn]; rewrite B2; reflexivity|]. split.
           ++ intros k1 f1 [I|I]; [injection I as <- <-; exact SH|]. specialize (C _ _ I).
              destruct (CK k1) as [Q|(-> & _)]; [rewrite Q in C; exact C|exfalso; eapply NK; exact I].
           ++ intro k1. destruct (D k1) as [D1|(g & s & D1 & D2)].
              ** rewrite D1. destruct (CK k1) as [Q|(-> & Q1 & Q2 & Q3 & (s & Q4))]; [left; exact Q|right].
                 exists f, s. split; [left; reflexivity|]. auto.
              ** destruct (CK k1) as [Q|(-> & _)]; [|exfalso; eapply NK; exact D1]. rewrite Q in D2. right. exists g, s.
                 split; [right; exact D1|exact D2].
        -- destruct IH as (k1 & Q1 & Q2). destruct (CK k1) as [Q|(-> & _ & _ & Q & _)]; [rewrite Q in Q1, Q2; exists k1; auto|].
           rewrite Q in Q1. cbn [length] in Q1. lia.
        -- destruct IH as (k1 & Q1 & Q2). destruct (CK k1) as [Q|(-> & _ & _ & Q & _)]; [rewrite Q in Q1, Q2; exists k1; auto|].
           rewrite Q in Q1. cbn [length] in Q1. lia.
Qed.

Lemma seek_fresh st k lo eqs hi m : parts st k lo eqs hi ->
  it_seek F st (mkIter F 0 0 m 0) k false = match eqs ++ hi with [] => mkIter F (length lo) (length lo) m 0 | _ => scroll F st (length lo) m end.
Proof.
  clear fempty_empty fempty is_empty mergef. intro P. unfold it_seek. rewrite (lower_parts _ _ _ _ _ P). cbn [andb it_merged it_len]. destruct P as (-> & _).
  rewrite nth_error_app2, Nat.sub_diag by lia. destruct (eqs ++ hi) as [|[k0 f] r]; reflexivity.
Qed.
Lemma seek_scroll st k lo eqs hi : parts st k lo eqs hi -> it_seek F st (new_iter F fempty) k false = scroll F st (length lo) fempty.
Proof.
  intro P. unfold new_iter. rewrite (seek_fresh _ _ _ _ _ _ P). destruct P as (-> & _). destruct (eqs ++ hi); [|reflexivity].
  rewrite app_nil_r, scroll_end. reflexivity.
Qed.
Lemma parts_strict st k lo eqs hi : parts st k lo eqs hi -> strict lo (eqs ++ hi).
Proof.
  intros (_ & L & M & G) x y I J. unfold below, all_at, above in *. rewrite Forall_forall in *. specialize (L x I).
  apply in_app_iff in J as [J|J]; [rewrite (M y J); exact L|]. eapply key_lt_trans; [exact L|apply G; exact J].
Qed.

Lemma walk_result st k views lo eqs hi : sorted_store st -> Forall key64 (map fst st) -> parts st k lo eqs hi ->
  match walk F fempty is_empty mergef st k views with
  | Done (st', l) => walked st (eqs ++ hi) views st' l
  | _ => exists k, (2 <= length (contents st k))%nat /\ forall x, mergef (key_form k) (contents st k) <> Done x
  end.
Proof.
  intros SS K64 P. unfold walk. rewrite (seek_scroll _ _ _ _ _ P).
  pose proof (walk_ok views st lo (eqs ++ hi) SS (proj1 P) (parts_strict _ _ _ _ _ P)) as W.
  assert (K2 : Forall key64 (map fst (eqs ++ hi))).
  { destruct P as (-> & _). rewrite map_app, Forall_app in K64. apply K64. }
  specialize (W K2). destruct (it_walk _ _ _ _ st _ views) as [[[st3 it3] l]| |]; cbn [rbind]; exact W.
Qed.
Lemma visible_from st k lo eqs hi : sorted_store st -> parts st k lo eqs hi ->
  StronglySorted key_lt (visible (eqs ++ hi)) /\
  forall x, In x (visible (eqs ++ hi)) <-> In x (map fst st) /\ ~ key_lt x k /\ x <> KEY_END.
Proof.
  intros SS P. assert (SR : sorted_store (eqs ++ hi)) by (destruct P as (-> & _); apply sorted_app in SS; apply SS).
  pose proof (distinct_sorted _ SR) as D. unfold visible. split.
  - clear -D. induction D as [|a l D IH FO]; [constructor|]. cbn [filter]. destruct (negb (key_eqb a KEY_END)); [|exact IH].
    constructor; [exact IH|]. rewrite Forall_forall in *. intros x I. apply filter_In in I. apply FO, I.
  - intro x. rewrite filter_In, distinct_in. destruct P as (-> & L & M & G). unfold below, all_at, above in *. rewrite Forall_forall in *.
    assert (KE : negb (key_eqb x KEY_END) = true <-> x <> KEY_END).
    { destruct (key_eqb x KEY_END) eqn:Q; cbn [negb].
      - apply key_eqb_eq in Q. split; [discriminate|congruence].
      - split; [|reflexivity]. intros _ ->. rewrite key_eqb_refl in Q. discriminate. }
    rewrite KE. split.
    + intros [I NE]. split; [rewrite map_app, in_app_iff; right; exact I|]. split; [|exact NE].
      apply in_map_iff in I as (r & <- & I). apply in_app_iff in I as [I|I].
      * rewrite (M r I). apply key_lt_irrefl.
      * intro K. apply (key_lt_irrefl k). eapply key_lt_trans; [apply G; exact I|exact K].
    + intros (I & NL & NE). split; [|exact NE]. rewrite map_app, in_app_iff in I. destruct I as [I|I]; [|exact I].
      exfalso. apply in_map_iff in I as (r & <- & I). apply NL, L, I.
Qed.

(* ---- histories ---- *)
Lemma write_ok st k f : sorted_store st ->
  let '(st', s) := write F st k f in
  sorted_store st' /\ (forall k', contents st' k' = contents st k' ++ contents (before_end [(k, f)]) k') /\
  (forall x, In x (map fst st') <-> In x (map fst st) \/ In x (map fst (before_end [(k, f)]))) /\
  s = (if key_eqb k KEY_END then StBadArgs else StOK).
Proof.
  intro SS. unfold write. cbn [before_end]. destruct (key_eqb k KEY_END).
  - split; [exact SS|]. split; [intro k'; rewrite app_nil_r; reflexivity|]. split; [intro x; cbn [map In]; tauto|reflexivity].
  - destruct (insert_ok st k f SS) as [A B]. split; [exact A|]. split; [|split; [|reflexivity]].
    + intro k'. rewrite B. f_equal. unfold contents. cbn [filter fst]. destruct (key_eqb k' k) eqn:Q.
      * apply key_eqb_eq in Q. subst k'. rewrite key_eqb_refl. reflexivity.
      * destruct (key_eqb k k') eqn:Q2; [apply key_eqb_eq in Q2; subst k'; rewrite key_eqb_refl in Q; discriminate|reflexivity].
    + intro x. rewrite insert_keys. cbn [map fst In]. intuition congruence.
Qed.
Lemma batch_ok l : forall st, sorted_store st ->
  let '(st', _) := write_batch F st l in
  sorted_store st' /\ (forall k', contents st' k' = contents st k' ++ contents (before_end l) k') /\
  (forall x, In x (map fst st') <-> In x (map fst st) \/ In x (map fst (before_end l))).
Proof.
  induction l as [|[k f] l IH]; intros st SS; cbn [write_batch before_end].
  - split; [exact SS|]. split; [intro k'; rewrite app_nil_r; reflexivity|]. intro x. cbn [map In]. tauto.
  - pose proof (write_ok st k f SS) as W. destruct (write F st k f) as [st1 s]. destruct W as (A & B & C & E).
    cbn [before_end] in B, C. destruct (key_eqb k KEY_END).
    + subst s. auto.
    + subst s. specialize (IH st1 A). destruct (write_batch F st1 l) as [st2 s2]. destruct IH as (A2 & B2 & C2).
      split; [exact A2|]. split.
      * intro k'. rewrite B2, B, <- app_assoc. f_equal. change ((k, f) :: before_end l) with ([(k, f)] ++ before_end l). rewrite contents_app. reflexivity.
      * intro x. rewrite C2, C. cbn [map In]. tauto.
Qed.

(* the records of a key after a call: what was written is appended, or they
   have been merged and the result has been shown *)
Definition tracks (st : store) (o : sop F) (out : sout F) (st' : store) (k : key) : Prop :=
  contents st' k = contents st k ++ contents (written_by o) k \/
  contents (written_by o) k = [] /\ (2 <= length (contents st k))%nat /\
  exists r s g, mergef (key_form k) (contents st k) = Done (r, s) /\ contents st' k = [g] /\ In g (shown_by k out) /\
    (r = Some g \/ r = None).

Definition op_keys (o : sop F) : list key := map fst (written_by o).
Lemma sstep_ok st o st' out : sorted_store st -> Forall key64 (map fst st) -> Forall key64 (op_keys o) ->
  sstep F fempty is_empty mergef st o = Done (st', out) ->
  sorted_store st' /\ Forall key64 (map fst st') /\ forall k, tracks st o out st' k.
Proof.
  intros SS K64 KO E. destruct o as [k f|l|k old|k views]; cbn [sstep] in E.
  - pose proof (write_ok st k f SS) as W. destruct (write F st k f) as [st1 s]. injection E as <- <-. destruct W as (A & B & C & _).
    split; [exact A|]. split; [|intro k'; left; apply B]. rewrite Forall_forall in *. intros x I. apply C in I as [I|I]; [auto|]. apply KO. exact I.
  - pose proof (batch_ok l st SS) as W. destruct (write_batch F st l) as [st1 s]. injection E as <- <-. destruct W as (A & B & C).
    split; [exact A|]. split; [|intro k'; left; apply B]. rewrite Forall_forall in *. intros x I. apply C in I as [I|I]; [auto|]. apply KO. exact I.
  - pose proof (read_ok st k old SS) as R. destruct (contents st k) as [|f [|f2 fs]] eqn:CT.
    + rewrite R in E. cbn [rbind] in E. injection E as <- <-. split; [exact SS|]. split; [exact K64|]. intro k'. left. cbn [written_by]. unfold contents at 3. cbn [filter map]. rewrite app_nil_r. reflexivity.
    + rewrite R in E. cbn [rbind] in E. injection E as <- <-. split; [exact SS|]. split; [exact K64|]. intro k'. left. cbn [written_by]. unfold contents at 3. cbn [filter map]. rewrite app_nil_r. reflexivity.
    + destruct R as [R Q]. rewrite R in E. destruct (mergef (key_form k) (f :: f2 :: fs)) as [[r s]| |] eqn:MF; cbn [rbind] in E; try discriminate.
      set (g := match r with Some f0 => f0 | None => old end) in *. specialize (Q g). destruct Q as [Q1 Q2]. injection E as <- <-.
      split; [exact Q1|]. split.
      * destruct (parts_exist st k SS) as (lo & eqs & hi & P). rewrite (lower_parts _ _ _ _ _ P), (upper_parts _ _ _ _ _ P), (erase_parts _ _ _ _ _ P).
        pose proof (contents_parts _ _ _ _ _ P) as CP. rewrite CT in CP.
        destruct P as (EP & _ & M & _). rewrite EP, !map_app, !Forall_app in K64. destruct K64 as (KA & KB & KC).
        apply Forall_forall. intros x I. apply insert_keys in I as [->|I].
        -- destruct eqs as [|[k0 f0] eqs]; [discriminate|]. inversion M as [|? ? M1 _]; subst. inversion KB; assumption.
        -- rewrite map_app, in_app_iff in I. rewrite Forall_forall in KA, KC. destruct I as [I|I]; auto.
      * intro k'. unfold tracks. rewrite Q2. destruct (key_eqb k' k) eqn:KE.
        -- apply key_eqb_eq in KE. subst k'. rewrite CT. right. split; [reflexivity|]. split; [cbn [length]; lia|]. exists r, s, g.
           split; [exact MF|]. split; [reflexivity|]. cbn [shown_by]. rewrite key_eqb_refl. split; [left; reflexivity|].
           unfold g. destruct r; auto.
        -- left. cbn [written_by]. unfold contents at 3. cbn [filter map]. rewrite app_nil_r. reflexivity.
  - destruct (parts_exist st k SS) as (lo & eqs & hi & P). pose proof (walk_result st k views lo eqs hi SS K64 P) as W.
    destruct (walk F fempty is_empty mergef st k views) as [[st1 l]| |]; cbn [rbind] in E; try discriminate. injection E as <- <-.
    destruct W as (A & A2 & _ & _ & _ & D). split; [exact A|]. split; [rewrite Forall_forall in *; intros x I; apply K64, A2, I|].
    intro k'. destruct (D k') as [Q|(g & s & Q1 & Q2 & _ & Q3 & Q4)].
    + left. cbn [written_by]. unfold contents at 3. cbn [filter map]. rewrite app_nil_r. exact Q.
    + right. split; [reflexivity|]. split; [exact Q2|]. exists (Some g), s, g. split; [exact Q3|]. split; [exact Q4|].
      split; [|left; reflexivity]. cbn [shown_by]. apply in_flat_map. exists (k', Some g). split; [exact Q1|]. rewrite key_eqb_refl. left. reflexivity.
Qed.
End Proofs.
