(* Comparison of frames: concrete cases and counterexamples for C39. *)
From Coq Require Import String.
From Verif Require Import Prelude UuidModel CodecModel TextTable TextModel MergeModel HashModel HashCases Txt CompareModel CompareSpec CompareTheorems.
Open Scope string_scope. Open Scope N_scope. Open Scope list_scope.

Definition fA : string := "@1+A :lww, @2+A 'k' 1.5 -3 >1+A; @~ :0 'a remark'; @5+B :2+A ('xy');".
Definition fB : string := "@~ :0 'another'; @1+A :lww; @2+A :1+A 'k' 1.50 -3 >1+A! @5+B :2+A 'x', 'y'?".
Definition fC : string := "@1+A :lww, @2+A 'k' 1.5 -4 >1+A; @5+B :2+A ('xy');".
Definition read_ops (s : string) : list rop := fst (scan 20 (cursor_of (txt s))).

Lemma readable_opsb fb l : forallb (fun o => forallb (fun v =>
    match v with
    | VStr None => false
    | VStr (Some l) => forallb (fun cp => cp <? 2 ^ 21) l
    | VFloat s => fb s <? 2 ^ 64
    | _ => true
    end) (r_vals o)) l = true -> readable_ops fb l.
Proof.
  intro H. apply Forall_forall. intros o I. rewrite forallb_forall in H. specialize (H o I). apply Forall_forall. intros v J.
  rewrite forallb_forall in H. specialize (H v J). destruct v as [u|z|[s|]|s]; cbn [readable_value]; try exact Logic.I; try discriminate H.
  - apply Forall_forall. intros cp K. rewrite forallb_forall in H. apply N.ltb_lt, H, K.
  - apply N.ltb_lt. exact H.
Qed.
Example C39_case :
  reads_as (txt fA) (read_ops fA) false /\ reads_as (txt fB) (read_ops fB) false /\ reads_as (txt fC) (read_ops fC) false /\
  readable_ops one_float (read_ops fA) /\ readable_ops one_float (read_ops fB) /\ readable_ops one_float (read_ops fC) /\
  List.length (content (read_ops fA)) = 4%nat /\ List.length (read_ops fA) = 5%nat /\
  compare_frames one_float 20 (txt fA) (txt fB) = Done COk /\ compare_frames one_float 20 (txt fA) (txt fC) = Done CBadValue.
Proof.
  do 3 (split; [exists 20%nat; vm_compute; reflexivity|]).
  do 3 (split; [apply readable_opsb; vm_compute; reflexivity|]).
  do 3 (split; [vm_compute; reflexivity|]). vm_compute. reflexivity.
Qed.

(* a rest that cannot be parsed does not matter *)
Theorem C39_malformed_refuted : exists f g lf lg, reads_as f lf false /\ reads_as g lg true /\ lf <> [] /\
  compare_frames one_float 20 f g = Done COk.
Proof.
  exists (txt "@1+A :lww;"), (txt "@1+A :lww; $$$"), (read_ops "@1+A :lww;"), (read_ops "@1+A :lww;").
  split; [exists 20%nat; vm_compute; reflexivity|]. split; [exists 20%nat; vm_compute; reflexivity|].
  split; [vm_compute; discriminate|]. vm_compute. reflexivity.
Qed.
(* a comment does matter if there is nothing else *)
Theorem C39_comment_refuted : exists f g lf lg, reads_as f lf false /\ reads_as g lg false /\ content lf = content lg /\
  compare_frames one_float 20 f g = Done CBadValue.
Proof.
  exists (txt "@~ :0 'a remark';"), (txt ""), (read_ops "@~ :0 'a remark';"), [].
  split; [exists 20%nat; vm_compute; reflexivity|]. split; [exists 20%nat; vm_compute; reflexivity|].
  split; vm_compute; reflexivity.
Qed.
(* cursors that have not been moved to the first op, as in db/test/memstore.cc:111
   and db/test/rocks.cc:101, compare as equal whatever their frames are *)
Theorem C39_unmoved : forall fb fuel f g, compare_with_cursors fb (S fuel) (cursor_of f) (cursor_of g) = Done COk.
Proof. reflexivity. Qed.
Print Assumptions C39_malformed_refuted.
Print Assumptions C39_comment_refuted.
Print Assumptions C39_unmoved.
