(* C46: which keys an iteration shows. *)
From Coq Require Import Sorted.
From Verif Require Import Prelude UuidModel KeyModel KeyProofs CodecModel TextModel MergeModel MergeTextModel StoreModel StoreSpec StoreProofs RocksModel RocksSpec RocksProofs RocksTheorems
  Txt MergeCases TextMergeCases StoreCases RocksCases.

Lemma sorted_split l r x y : StronglySorted key_lt (l ++ r) -> In x l -> In y r -> key_lt x y.
Proof.
  induction l as [|a l IH]; intros S I J; [destruct I|]. cbn [app] in S. inversion S as [|? ? S1 F]; subst. destruct I as [<-|I]; [|exact (IH S1 I J)].
  rewrite Forall_forall in F. apply F. apply in_or_app. right. exact J.
Qed.

Section RocksShown.
Variable fbits : bytes -> N.
Variable fuel : nat.
Notation run := (rrun fbits fuel []).
Notation rread := (rocks_read fbits fuel).
(* something was written under the key, from k on *)
Definition there (es : list revent) (k x : key) : Prop := put_under x es <> [] /\ ~ key_lt x k /\ x <> KEY_END.

(* An iteration from k on shows a key if and only if the key and all keys before
   it, from k on, can be read. *)
Theorem C46_shown es d k n : run es = Done d -> Forall key64 (map fst (accepted es)) ->
  (forall k', In k' (map fst d) -> exists g, cell_get fbits fuel k' (cell_at d k') = Done g) -> (length d < n)%nat ->
  exists it s l, ri_seek fbits fuel (ri_new d) k false = Done (it, s) /\ ri_walk fbits fuel n it = Done l /\
    forall x, In x (map fst l) <-> there es k x /\ forall y, there es k y -> ~ key_lt x y -> exists f, rread d y = Done (f, KOk).
Proof.
  intros E K64 TOT LN. destruct (C46_walk fbits fuel es d k n E K64 TOT LN) as (it & s & l & rest & SK & WK & SO & MEM & SH & RS).
  exists it, s, l. split; [exact SK|]. split; [exact WK|]. intro x.
  assert (READ : forall y, In y (map fst l) -> exists f, rread d y = Done (f, KOk)).
  { intros y I. apply in_map_iff in I as (r & <- & I). rewrite Forall_forall in SH. destruct (SH r I) as (f & _ & R). exists f. exact R. }
  split.
  - intro I. split; [apply MEM; apply in_or_app; left; exact I|]. intros y TY NL. apply READ. apply MEM in TY. apply in_app_or in TY as [J|J]; [exact J|].
    destruct NL. exact (sorted_split _ _ _ _ SO I J).
  - intros [TX ALL]. pose proof TX as IX. apply MEM in IX. apply in_app_or in IX as [J|J]; [exact J|exfalso].
    destruct RS as [->|(z & rest' & -> & R)]; [destruct J|].
    assert (TZ : there es k z) by (apply MEM; apply in_or_app; right; left; reflexivity).
    assert (NL : ~ key_lt x z).
    { destruct J as [<-|J]; [apply key_lt_irrefl|]. assert (L : key_lt z x) by (apply (sorted_split (map fst l ++ [z]) rest'); [rewrite <- app_assoc; exact SO|apply in_or_app; right; left; reflexivity|exact J]).
      intro Q. exact (key_lt_irrefl _ (key_lt_trans _ _ _ L Q)). }
    destruct (ALL z TZ NL) as (f & R2). rewrite R in R2. discriminate R2.
Qed.
End RocksShown.
Print Assumptions C46_shown.

(* the store of C46_hidden_refuted: the record between the two others cannot be read *)
Definition hidden : list revent := RWrite kC (text_for lwwA) :: stocked.
Example C46_shown_case :
  rrun no_floats 100 [] hidden = Done (ran hidden) /\ Forall key64 (map fst (accepted hidden)) /\
  (forall k', In k' (map fst (ran hidden)) -> exists g, cell_get no_floats 100 k' (cell_at (ran hidden) k') = Done g) /\ (length (ran hidden) < 9)%nat /\
  there hidden KEY_ZERO kL /\ there hidden KEY_ZERO kC /\ there hidden KEY_ZERO kA /\
  rocks_read no_floats 100 (ran hidden) kC = Done ([], KDbFail) /\ key_lt kL kC /\ key_lt kC kA.
Proof.
  split; [vm_compute; reflexivity|]. split; [apply key64b; vm_compute; reflexivity|].
  split; [apply (donesb (fun k => cell_get no_floats 100 k (cell_at (ran hidden) k))); vm_compute; reflexivity|]. split; [vm_compute; lia|].
  do 3 (split; [unfold there; split; [vm_compute; discriminate|split; vm_compute; discriminate]|]). split; [vm_compute; reflexivity|]. split; vm_compute; reflexivity.
Qed.
