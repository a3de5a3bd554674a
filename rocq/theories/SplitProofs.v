(* Splitting a buffer into frames. *)
From Verif Require Import Prelude UuidModel CodecModel TextTable TextModel TextSpec.

Lemma find_term_spec d : forall x y, find_term d = (x, y) ->
  d = x ++ y /\ (forall i, term_at x i -> (i + 2 = length x)%nat) /\
  ((exists z, x = z ++ [46; 10]) \/ (y = [] /\ forall i, ~ term_at x i)).
Proof.
  induction d as [|c t IH]; intros x y H; cbn [find_term] in H.
  - injection H as <- <-. split; [reflexivity|]. split.
    + intros i [A _]. destruct i; discriminate.
    + right. split; [reflexivity|]. intros i [A _]. destruct i; discriminate.
  - destruct t as [|e t'].
    + injection H as <- <-. split; [reflexivity|]. split.
      * intros i [_ A]. destruct i; [discriminate|destruct i; discriminate].
      * right. split; [reflexivity|]. intros i [_ A]. destruct i; [discriminate|destruct i; discriminate].
    + destruct ((c =? 46) && (e =? 10)) eqn:E.
      * apply andb_prop in E as [E1 E2]. apply N.eqb_eq in E1, E2. subst c e. injection H as <- <-.
        split; [reflexivity|]. split.
        -- intros i [A B]. destruct i as [|[|i]]; cbn in A, B; [reflexivity|discriminate|].
           destruct i; discriminate.
        -- left. exists []. reflexivity.
      * destruct (find_term (e :: t')) as [x' y'] eqn:F. specialize (IH x' y' eq_refl).
        injection H as <- <-. destruct IH as (I1 & I2 & I3).
        assert (NT : ~ term_at (c :: x') 0).
        { intros [A B]. cbn [nth_error] in A, B. injection A as ->. destruct x' as [|e' x'']; [discriminate|].
          cbn [nth_error] in B. injection B as ->. cbn [app] in I1. injection I1 as -> _. discriminate E. }
        assert (TS : forall i, term_at (c :: x') (S i) -> term_at x' i) by (intros i [A B]; split; assumption).
        split; [cbn [app]; rewrite <- I1; reflexivity|]. split.
        -- intros [|i] T; [contradiction|]. apply TS, I2 in T. cbn [length]. lia.
        -- destruct I3 as [(z & Z)|(Y & Z)]; [left; exists (c :: z); rewrite Z; reflexivity|right].
           split; [exact Y|]. intros [|i] T; [contradiction|]. apply TS in T. exact (Z i T).
Qed.

Lemma skip_space_spec d : exists g, d = g ++ skip_space d /\ Forall white g /\
  (forall c r, skip_space d = c :: r -> ~ white c).
Proof.
  induction d as [|c t IH]; cbn [skip_space].
  - exists []. repeat split; [constructor|discriminate].
  - destruct (is_space c) eqn:E.
    + destruct IH as (g & G1 & G2 & G3). exists (c :: g). split; [cbn [app]; rewrite <- G1; reflexivity|].
      split; [|exact G3]. constructor; [|exact G2]. unfold is_space in E. unfold white. lia.
    + exists []. split; [reflexivity|]. split; [constructor|]. intros c' r H. injection H as <- <-.
      unfold is_space in E. unfold white. lia.
Qed.

Definition split_spec (d : bytes) (fs : list bytes) : Prop :=
  exists gaps, length gaps = length fs /\ d = glue fs gaps /\ Forall (Forall white) gaps /\
  (forall pre f post, fs = pre ++ f :: post ->
     (forall i, term_at f i -> (i + 2 = length f)%nat) /\
     (post <> [] -> exists z, f = z ++ [46; 10]) /\
     (pre <> [] -> exists c r, f = c :: r /\ ~ white c)).

Lemma split_loop_spec fuel : forall d, (length d < fuel)%nat -> split_spec d (split_loop fuel d).
Proof.
  induction fuel as [|fuel IH]; intros d L; [lia|]. cbn [split_loop].
  destruct (find_term d) as [x y] eqn:F. apply find_term_spec in F as (F1 & F2 & F3).
  destruct (skip_space_spec y) as (g & G1 & G2 & G3).
  destruct (skip_space y) as [|c r] eqn:S.
  - exists [g]. split; [reflexivity|]. split.
    + unfold glue. cbn [combine map concat]. rewrite app_nil_r in *. rewrite F1, G1. reflexivity.
    + split; [constructor; [exact G2|constructor]|]. intros pre f post E.
      destruct pre as [|p pre]; [|destruct pre; discriminate]. injection E as <- <-.
      split; [exact F2|]. split; congruence.
  - assert (Ly : (length (c :: r) < fuel)%nat).
    { destruct F3 as [(z & Z)|(Y & _)]; [|subst y; destruct g; discriminate].
      rewrite F1, Z, G1, !app_length in L. cbn [length] in *. lia. }
    destruct (IH (c :: r) Ly) as (gaps & H1 & H2 & H3 & H4).
    exists (g :: gaps). split; [cbn [length]; congruence|]. split.
    + unfold glue in *. cbn [combine map concat]. rewrite <- H2, <- app_assoc, <- G1. exact F1.
    + split; [constructor; assumption|]. intros pre f post E.
      destruct pre as [|p pre].
      * injection E as <- E. split; [exact F2|]. split; [|congruence]. intros _.
        destruct F3 as [Z|(Y & _)]; [exact Z|]. subst y. destruct g; discriminate.
      * injection E as <- E. destruct (H4 pre f post E) as (J1 & J2 & J3). split; [exact J1|].
        split; [exact J2|]. intros _. destruct pre as [|p' pre]; [|apply J3; discriminate].
        cbn [app] in E.
        (* the first frame of the rest starts where the white space ended *)
        destruct f as [|c' f'].
        -- exfalso. destruct fuel as [|fuel']; [lia|]. cbn [split_loop] in E.
           destruct (find_term (c :: r)) as [x' y'] eqn:F'. injection E as -> _.
           cbn [find_term] in F'. destruct r as [|e r']; [discriminate|].
           destruct ((c =? 46) && (e =? 10)); [discriminate|].
           destruct (find_term (e :: r')) as [x'' y'']. discriminate.
        -- exists c', f'. split; [reflexivity|].
           assert (c' = c); [|subst; eapply G3; reflexivity].
           rewrite E in H2. destruct gaps as [|g' gaps]; [rewrite E in H1; discriminate|].
           unfold glue in H2. cbn [combine map concat app] in H2. injection H2. auto.
Qed.

Lemma split_frames_spec d : split_spec d (split_frames d).
Proof. apply split_loop_spec. lia. Qed.
