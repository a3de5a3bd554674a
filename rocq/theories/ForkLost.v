(* C49: what a fork lacks. *)
From Coq Require Import Sorted.
From Verif Require Import Prelude UuidModel KeyModel KeyProofs CodecModel TextModel MergeModel StoreModel StoreSpec StoreProofs RocksModel RocksSpec RocksProofs MetaModel ClockModel
  ReplicaModel BranchModel BranchSpec BranchProofs ForkModel ForkSpec ForkTheorems.

Section ForkLost.
Variable sha : bytes -> bytes.
Variable fbits : bytes -> N.
Variable active : N.
Variable fuel : nat.
Notation rread := (rocks_read fbits fuel).

Lemma copies_before orig d l k1 k : copies fbits fuel orig d l -> in_order d -> In k1 (map fst d) -> rread orig k1 = Done ([], KDbFail) -> key_lt k k1 \/ contents l k = [].
Proof.
  intro C. induction C as [|k2 c rest G|k2 c rest f l R C IH]; intros O I F; [destruct I|right; reflexivity|].
  inversion O as [|? ? O1 FA]; subst. cbn [map fst] in I. destruct I as [E|I]; [rewrite E, F in R; discriminate R|].
  destruct (IH O1 I F) as [L|L]; [left; exact L|]. destruct (key_eqb k2 k) eqn:E.
  - left. apply key_eqb_eq in E. rewrite <- E. apply in_map_iff in I as (r & Q & J). rewrite Forall_forall in FA. specialize (FA r J). rewrite Q in FA. exact FA.
  - right. unfold contents in *. cbn [filter map fst]. rewrite E. exact L.
Qed.

(* A fork has nothing of the original from the first record on that cannot be
   read: under such a key and every later one it has what a new branch has. It is
   reported as made all the same. *)
Theorem C49_lost d t now rs yarn b' s k1 k : tipped d t -> yarn <> 0 -> uvalue (first_event active now rs yarn false) < NEVER_W ->
  b_fork sha fbits active fuel d now rs yarn = Done (b', s) ->
  In k1 (map fst d) -> rread d k1 = Done ([], KDbFail) -> k1 <> KEY_ZERO -> ~ key_lt k k1 ->
  s = ROk /\ exists b0, b_new sha fbits active fuel now rs yarn false = Done (b0, ROk) /\ cell_at (br_main b') k = cell_at (br_main b0) k.
Proof.
  intros T Y NV H I F NZ NL. destruct (C49_fork sha fbits active fuel d t now rs yarn b' s T Y NV H) as (-> & _ & _ & (b0 & l & c0 & rest & BN & ED & CP & CELL) & _).
  split; [reflexivity|]. exists b0. split; [exact BN|]. rewrite CELL. pose proof T as (O & _). rewrite ED in O, I. inversion O as [|? ? OR _]; subst.
  cbn [map fst] in I. destruct I as [I|I]; [congruence|]. destruct (copies_before _ _ _ k1 k CP OR I F) as [L|L]; [contradiction|]. rewrite L, app_nil_r. destruct (cell_at (br_main b0) k). reflexivity.
Qed.
End ForkLost.
Print Assumptions C49_lost.
