(* C80: the terminators of a frame written anew. *)
From Coq Require Import String.
From Verif Require Import Prelude UuidModel UuidSpec UuidProofs KeyModel CodecModel TextModel TextSpec FrameProofs BuilderSpec BuilderProofs MergeModel MergeSpec MergeTextModel
  TextMergeSpec TextCursors TextMerge TextMergeTheorems Txt MergeCases TextMergeCases GcTheorems GcCases CompareModel CompareSpec CompareCases ReserModel ReserTheorems ReserCases.
Open Scope string_scope.
Open Scope N_scope.
Open Scope list_scope.

(* ops that make up one span: each continues the one before *)
Inductive one_span : list uop -> Prop :=
| span_one o : one_span [o]
| span_more a b l : uuid_eqb (u_id b) (inc (u_id a)) = true -> u_ref b = u_id a -> same_kind (u_vals a) (u_vals b) = true -> one_span (b :: l) -> one_span (a :: b :: l).

Lemma scan_same c : forall n m l l', scan n c = (l, SEnd) -> scan m c = (l', SEnd) -> l = l'.
Proof.
  intros n. revert c. induction n as [|n IH]; intros c m l l' A B; [discriminate|]. destruct m as [|m]; [discriminate|]. cbn [scan] in A, B.
  destruct (next c) as [c'|c'|c'|]; try discriminate; try congruence.
  destruct (scan n c') as [x e] eqn:E1. destruct (scan m c') as [y e'] eqn:E2. injection A as <- ->. injection B as <- ->. f_equal. exact (IH _ _ _ _ E1 E2).
Qed.
Lemma term_span us : forall u, (one_span (u :: us) -> term_after u (map UAppend us ++ [UEnd RAW]) = RAW) /\ (~ one_span (u :: us) -> term_after u (map UAppend us ++ [UEnd RAW]) = REDUCED).
Proof.
  induction us as [|v us IH]; intro u; cbn [map app term_after]; [split; [reflexivity|intro K; destruct K; constructor]|]. destruct (IH v) as [Y N]. split; intro K.
  - inversion K as [|? ? ? A B C D]; subst. unfold continues. rewrite A, (proj2 (uuid_eqb_eq _ _) B), C. cbn [andb]. exact (Y D).
  - destruct (continues u v) eqn:C; [|reflexivity]. apply N. intro Q. apply K. unfold continues in C. apply andb_true_iff in C as [C C3]. apply andb_true_iff in C as [C1 C2]. apply uuid_eqb_eq in C2.
    constructor; assumption.
Qed.
(* Whatever the terminators were: in a frame that was written anew the ops of the
   span at its end have a semicolon, and all ops before it a comma. *)
Theorem C80_terms t ops l : written_as t ops -> N.of_nat (length t) < 2 ^ 32 -> reads_as t l false ->
  map bare l = map bare ops /\
  forall pre o post, l = pre ++ o :: post -> (one_span (map bare (o :: post)) -> r_term o = RAW) /\ (~ one_span (map bare (o :: post)) -> r_term o = REDUCED).
Proof.
  intros W B (n & SC). unfold written_as in W. pose proof (scan_frame (CW := canon) t _ 0 W B) as S2. pose proof (scan_same _ _ _ _ _ SC S2) as ->.
  unfold chunk_of. rewrite bare_denote. split; [reflexivity|]. generalize (map bare ops). clear. intros us pre. revert us.
  induction pre as [|x pre IH]; intros [|u us] o post E; try discriminate E; cbn [map app denote] in E.
  - injection E as <- <-. cbn [map r_term]. rewrite bare_denote. assert (Q : bare (mkRop (u_id u) (u_ref u) (u_vals u) (term_after u (map UAppend us ++ [UEnd RAW]))) = u) by (destruct u; reflexivity).
    rewrite Q. apply term_span.
  - injection E as _ E. exact (IH us o post E).
Qed.
Print Assumptions C80_terms.
(* a query and a header, and two characters in a span *)
Example C80_terms_case :
  let f := txt "@1+A :lww? @2+A :rga! @3+A :2+A ('ab')?" in
  exists t, reserialize 100 [first_of f] = Done ([t], true) /\ map r_term (opsf f) = [QUERY; HEADER; QUERY; QUERY] /\ map r_term (opsf t) = [REDUCED; REDUCED; RAW; RAW] /\
  one_span (map bare (skipn 2 (opsf t))).
Proof.
  cbv zeta. eexists. split; [vm_compute; reflexivity|]. split; [vm_compute; reflexivity|]. split; [vm_compute; reflexivity|].
  match goal with |- one_span ?x => let y := eval vm_compute in x in change (one_span y) end. repeat (constructor; try reflexivity).
Qed.
