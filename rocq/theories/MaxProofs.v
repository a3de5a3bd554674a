(* The max register, the log and the dispatch on forms. *)
From Coq Require Import Sorted Permutation.
From Verif Require Import Prelude UuidModel UuidSpec UuidProofs KeyModel TextModel MergeModel MergeSpec MergeProofs MergeTextModel.

Section Max.
Variable C : Type.
Variable cvalid : C -> bool.
Variable cnext : C -> option (bool * C).
Variable cid cref : C -> uuid.
Variable cval : C -> option (N * N).
Variable cterm : C -> N.
Notation visits := (visits cvalid cnext).
Notation less := (less_max C cid cval).

Lemma less_irrefl : forall a, less a a = false.
Proof.
  intro a. unfold less_max. destruct (cval a) as [[v o]|]; [|apply uuid_ltb_irrefl].
  rewrite !N.ltb_irrefl, andb_false_r. reflexivity.
Qed.
Lemma less_le_trans : forall a b c, less a b = false -> less b c = false -> less a c = false.
Proof.
  intros a b c. unfold less_max. destruct (cval a) as [[va oa]|], (cval b) as [[vb ob]|], (cval c) as [[vc oc]|]; try congruence.
  - intros H1 H2. apply orb_false_iff in H1, H2. destruct H1 as [A1 A2], H2 as [B1 B2].
    apply N.ltb_ge in A1, B1. apply orb_false_iff. split; [apply N.ltb_ge; lia|].
    destruct (va =? vc) eqn:E; [|reflexivity]. apply N.eqb_eq in E.
    assert (vb = va) by lia. assert (vc = va) by lia. subst. rewrite N.eqb_refl in A2, B2. cbn [andb] in *.
    apply N.ltb_ge in A2, B2. apply N.ltb_ge. lia.
  - intros H1 H2. exact (uuid_le_trans _ _ _ H2 H1).
Qed.
Lemma less_asym : forall a b, less a b = true -> less b a = false.
Proof.
  intros a b. unfold less_max. destruct (cval a) as [[va oa]|], (cval b) as [[vb ob]|]; try congruence.
  - intro H. apply orb_true_iff in H. apply orb_false_iff.
    destruct H as [H|H]; [apply N.ltb_lt in H|apply andb_true_iff in H; destruct H as [E H]; apply N.eqb_eq in E; apply N.ltb_lt in H].
    + split; [apply N.ltb_ge; lia|]. destruct (vb =? va) eqn:E; [apply N.eqb_eq in E; lia|reflexivity].
    + split; [apply N.ltb_ge; lia|]. apply andb_false_iff. right. apply N.ltb_ge. lia.
  - apply uuid_ltb_asym.
Qed.

Definition best (m : C) (xs : list C) : C := fold_left (fun m y => if less m y then y else m) xs m.
Lemma best_ok : forall xs m, In (best m xs) (m :: xs) /\ forall y, In y (m :: xs) -> less (best m xs) y = false.
Proof.
  induction xs as [|x xs IH]; intro m.
  - split; [left; reflexivity|]. intros y [<-|[]]. apply less_irrefl.
  - cbn [best fold_left]. fold (best (if less m x then x else m) xs).
    destruct (IH (if less m x then x else m)) as [A B]. split.
    + destruct A as [A|A]; [|right; right; exact A]. rewrite <- A. destruct (less m x); [right; left|left]; reflexivity.
    + intros y I. assert (K : less (best (if less m x then x else m) xs) (if less m x then x else m) = false) by (apply B; left; reflexivity).
      destruct I as [<-|[<-|I]]; [| |apply B; right; exact I].
      * apply (less_le_trans _ _ _ K). destruct (less m x) eqn:L; [apply less_asym; exact L|apply less_irrefl].
      * apply (less_le_trans _ _ _ K). destruct (less m x) eqn:L; [apply less_irrefl|exact L].
Qed.
Lemma best_app : forall a b m, best m (a ++ b) = best (best m a) b.
Proof. intros. unfold best. apply fold_left_app. Qed.

Lemma max_scan_ok : forall fuel c xs m, visits c xs -> (length xs < fuel)%nat -> max_scan C cvalid cnext cid cval fuel m c = Done (best m xs).
Proof.
  induction fuel as [|f IH]; intros c xs m V L; [lia|]. cbn [max_scan]. inversion V as [? E|? c' l E NX V']; subst; rewrite E.
  - reflexivity.
  - rewrite NX. cbn [length] in L. rewrite (IH c' l); [reflexivity|exact V'|lia].
Qed.
Lemma max_loop_ok : forall fuel cs vs m, Forall2 visits cs vs -> (length (concat vs) < fuel)%nat ->
  max_loop C cvalid cnext cid cval fuel m cs = Done (best m (concat vs)).
Proof.
  intros fuel cs vs m F. revert m. induction F as [|c v cs vs V F IH]; intros m L; [reflexivity|].
  cbn [max_loop concat] in *. rewrite app_length in L. rewrite (max_scan_ok fuel c v m V); [|lia]. cbn [rbind].
  rewrite IH; [|lia]. rewrite best_app. reflexivity.
Qed.

Lemma visits_valid : forall c v, cvalid c = true -> visits c v ->
  exists c' w, v = c :: w /\ cnext c = Some (cvalid c', c') /\ visits c' w.
Proof. intros c v E V. inversion V as [? X|? c' w X NX V']; subst; [congruence|]. exists c', w. repeat split; assumption. Qed.

Lemma tail_ok : forall fuel cs vs, Forall2 visits cs vs -> cs <> [] -> Forall (fun v => v <> []) vs ->
  (length (concat vs) < fuel)%nat ->
  exists m before m' x, rev cs = m :: before /\ cnext m = Some (cvalid m', m') /\
    max_loop C cvalid cnext cid cval fuel m (m' :: before) = Done x /\
    In x (concat vs) /\ forall y, In y (concat vs) -> less x y = false.
Proof.
  intros fuel cs vs F NE NV L.
  assert (FR : Forall2 visits (rev cs) (rev vs)).
  { clear - F. induction F as [|c v cs vs V F IH]; [constructor|]. cbn [rev]. apply Forall2_app; [exact IH|]. constructor; [exact V|constructor]. }
  assert (PR : Permutation (concat (rev vs)) (concat vs)) by (apply perm_concat, Permutation_sym, Permutation_rev).
  destruct (rev cs) as [|m before] eqn:R.
  { exfalso. apply NE. rewrite <- (rev_involutive cs), R. reflexivity. }
  inversion FR as [|? v ? rv V FB E1 E2]; subst.
  assert (VN : v <> []).
  { rewrite Forall_forall in NV. apply NV. apply in_rev. rewrite <- E2. left. reflexivity. }
  assert (VM : cvalid m = true) by (inversion V; subst; [congruence|assumption]).
  destruct (visits_valid m v VM V) as [m' [w [-> [NX V']]]].
  exists m, before, m', (best m (concat (w :: rv))). split; [reflexivity|]. split; [exact NX|].
  pose proof (Permutation_length PR) as PL. rewrite <- E2 in PL. cbn [concat app length] in PL. rewrite app_length in PL.
  split; [apply max_loop_ok; [constructor; assumption|cbn [concat]; rewrite app_length; lia]|].
  destruct (best_ok (concat (w :: rv)) m) as [A B]. rewrite <- E2 in PR. cbn [concat app] in PR, A, B. split.
  - apply (Permutation_in _ PR). exact A.
  - intros y I. apply B. apply (Permutation_in _ (Permutation_sym PR)). exact I.
Qed.

Lemma max_plain : forall fuel c r vs, Forall2 visits (c :: r) vs -> Forall (fun v => v <> []) vs ->
  cref c <> MAX_FORM_UUID -> (length (concat vs) < fuel)%nat ->
  exists x, max_merge C cvalid cnext cid cref cval fuel (c :: r) = Done ([MAppend x; MEnd RAW], StOK) /\
    In x (concat vs) /\ forall y, In y (concat vs) -> less x y = false.
Proof.
  intros fuel c r vs F NV H L. destruct (tail_ok fuel (c :: r) vs F) as [m [b [m' [x [R [NX [ML [I B]]]]]]]]; try assumption; [discriminate|].
  unfold max_merge. assert (Q : cvalid c && uuid_eqb (cref c) MAX_FORM_UUID = false).
  { destruct (uuid_eqb (cref c) MAX_FORM_UUID) eqn:E; [|apply andb_false_r]. apply uuid_eqb_eq in E. congruence. }
  rewrite Q. cbn [rbind]. rewrite R, NX, ML. cbn [rbind app]. exists x. split; [reflexivity|]. split; assumption.
Qed.

Lemma max_header : forall fuel c v r vs, visits c (c :: v) -> Forall2 visits r vs -> Forall (fun w => w <> []) vs ->
  cref c = MAX_FORM_UUID -> v <> [] \/ r <> [] -> (length (v ++ concat vs) < fuel)%nat ->
  exists x, max_merge C cvalid cnext cid cref cval fuel (c :: r) = Done ([MAppend c; MAppend x; MEnd RAW], StOK) /\
    In x (v ++ concat vs) /\ forall y, In y (v ++ concat vs) -> less x y = false.
Proof.
  intros fuel c v r vs V F NV H D L. inversion V as [|? c1 ? E NX V1]; subst.
  unfold max_merge. rewrite E, H, (proj2 (uuid_eqb_eq _ _) eq_refl), NX. cbn [andb rbind].
  destruct v as [|y v].
  - assert (NR : r <> []) by (destruct D; [congruence|assumption]).
    destruct (tail_ok fuel r vs F NR NV L) as [m [b [m' [x [R [N2 [ML [I B]]]]]]]].
    cbn [rev]. rewrite R. cbn [app]. rewrite N2.
    assert (ML2 : max_loop C cvalid cnext cid cval fuel m (m' :: b ++ [c1]) = Done x).
    { assert (SPL : forall l m0 x0, max_loop C cvalid cnext cid cval fuel m0 l = Done x0 -> max_loop C cvalid cnext cid cval fuel m0 (l ++ [c1]) = Done x0).
      { induction l as [|a l IH]; intros m0 x0; cbn [app max_loop].
        - intro Q. injection Q as ->. rewrite (max_scan_ok fuel c1 [] x0 V1); [reflexivity|]. cbn [length] in *. lia.
        - destruct (max_scan C cvalid cnext cid cval fuel m0 a) as [z| |]; cbn [rbind]; [apply IH|discriminate|discriminate]. }
      apply (SPL (m' :: b)). exact ML. }
    rewrite ML2. cbn [rbind app]. exists x. split; [reflexivity|]. split; assumption.
  - assert (Y : y = c1) by (inversion V1; reflexivity). subst y.
    destruct (tail_ok fuel (c1 :: r) ((c1 :: v) :: vs)) as [m [b [m' [x [R [N2 [ML [I B]]]]]]]].
    + constructor; assumption.
    + discriminate.
    + constructor; [discriminate|exact NV].
    + exact L.
    + rewrite R, N2, ML. cbn [rbind app]. exists x. split; [reflexivity|]. split; [exact I|exact B].
Qed.

(* ---- the log ---- *)
Definition transcribe (c : C) : list (mcall C) := MAppend c :: if cterm c =? REDUCED then [] else [MEnd (cterm c)].
Lemma append_all_ok : forall fuel c v, visits c v -> (length v < fuel)%nat ->
  append_all C cvalid cnext cterm fuel c = Done (flat_map transcribe v).
Proof.
  induction fuel as [|f IH]; intros c v V L; [lia|]. cbn [append_all]. inversion V as [? E|? c' l E NX V']; subst; rewrite E.
  - reflexivity.
  - rewrite NX. cbn [length] in L. rewrite (IH c' l V'); [|lia]. cbn [rbind flat_map]. unfold transcribe. reflexivity.
Qed.
Lemma log_ok : forall fuel cs vs, Forall2 visits cs vs -> (length (concat vs) < fuel)%nat ->
  log_merge C cvalid cnext cterm fuel cs = Done (flat_map transcribe (concat vs), StOK).
Proof.
  intros fuel cs vs F. induction F as [|c v cs vs V F IH]; intro L; [reflexivity|].
  cbn [log_merge concat] in *. rewrite app_length in L. rewrite (append_all_ok fuel c v V); [|lia]. cbn [rbind].
  rewrite IH; [|lia]. cbn [rbind]. rewrite flat_map_app. reflexivity.
Qed.
Lemma last_ok : forall fuel cs c v, visits c v -> (length v < fuel)%nat ->
  last_merge C cvalid cnext cterm fuel (cs ++ [c]) = Done (flat_map transcribe v, StOK).
Proof.
  intros fuel cs c v V L. unfold last_merge. rewrite rev_app_distr. cbn [rev app].
  rewrite (append_all_ok fuel c v V L). reflexivity.
Qed.
End Max.

(* ---- text cursors as readers ---- *)
Lemma text_op : forall c, r_id (rop_of c) = text_id c /\ r_ref (rop_of c) = text_ref c.
Proof. intro c. split; reflexivity. Qed.

Lemma reads_visits : forall C cvalid cnext cop (c : C) l, reads cvalid cnext cop c l ->
  exists v, visits cvalid cnext c v /\ map cop v = l.
Proof.
  intros C cvalid cnext cop c l R. induction R as [c E|c c' l E NX R [v [V M]]].
  - exists []. split; [constructor; exact E|reflexivity].
  - exists (c :: v). split; [econstructor; eassumption|cbn [map]; congruence].
Qed.
