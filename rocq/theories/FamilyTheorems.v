(* C76: the stores of a replica are found again under their ids. *)
From Coq Require Import Permutation.
From Verif Require Import Prelude UuidModel UuidProofs UuidTheorems KeyModel CodecModel CodecTheorems TextModel BuilderSpec MergeModel MergeTextModel MergeKeeps
  StoreModel StoreSpec StoreProofs MetaModel ClockModel ReplicaModel ReplicaSpec ReplicaProofs RocksModel RocksSpec BranchModel BranchSpec BranchProofs
  ForkModel HostModel HostSpec HostProofs HostTheorems FamilyModel.
From Verif Require ClockTheorems.

(* An id with a name of its own: all but the name default and ids with stray bits. *)
Definition nameable (id : uuid) : Prop := uuid_wf id /\ uorigin id < 2 ^ 62 /\ id <> parse_uuid DEFAULT_NAME.
Lemma name_back id : nameable id -> family_id (family_name id) = id.
Proof.
  intros (W & L & N). unfold family_name, family_id. destruct (uuid_eqb id NIL) eqn:E; [apply uuid_eqb_eq in E; subst id; reflexivity|].
  destruct (bytes_eqb (write_uuid id) DEFAULT_NAME) eqn:D; [|exact (C01_uuid_text_roundtrip id W L)].
  apply bytes_eqb_eq in D. destruct N. rewrite <- D. symmetry. exact (C01_uuid_text_roundtrip id W L).
Qed.
Theorem C76_names a b : nameable a -> nameable b -> family_id (family_name a) = a /\ (family_name a = family_name b -> a = b) /\ (family_name a = DEFAULT_NAME -> a = NIL).
Proof.
  intros A B. split; [exact (name_back a A)|]. split.
  - intro E. rewrite <- (name_back a A), E. exact (name_back b B).
  - intro E. rewrite <- (name_back a A), E. reflexivity.
Qed.
Lemma nil_nameable : nameable NIL.
Proof. split; [split; vm_compute; reflexivity|]. split; [vm_compute; reflexivity|]. vm_compute. discriminate. Qed.
Lemma origin_of y : uorigin (branch_id y) = y mod 2 ^ 60 + 2 * 2 ^ 60.
Proof.
  unfold branch_id, uuid_time. cbn [uorigin]. change (2 ^ 60 - 1) with (N.ones 60). rewrite N.land_ones. change (N.shiftl TIME 60) with (2 * 2 ^ 60).
  rewrite N.lor_comm. rewrite <- (N.shiftl_mul_pow2 2 60). rewrite <- N.lxor_lor, <- N.add_nocarry_lxor.
  - apply N.add_comm.
  - rewrite <- N.land_ones, N.land_comm, <- N.land_assoc. replace (N.land (N.ones 60) (N.shiftl 2 60)) with 0 by reflexivity. apply N.land_0_r.
  - rewrite <- N.land_ones, N.land_comm, <- N.land_assoc. replace (N.land (N.ones 60) (N.shiftl 2 60)) with 0 by reflexivity. apply N.land_0_r.
Qed.
Lemma branch_nameable y : nameable (branch_id y).
Proof.
  assert (B : y mod 2 ^ 60 < 2 ^ 60) by (apply N.mod_lt; discriminate). pose proof (origin_of y) as O. split; [split|split].
  - vm_compute. reflexivity.
  - rewrite O. change (2 ^ 64) with 18446744073709551616. change (2 ^ 60) with 1152921504606846976 in *. lia.
  - rewrite O. change (2 ^ 62) with 4611686018427387904. change (2 ^ 60) with 1152921504606846976 in *. lia.
  - intro E. assert (K : version (branch_id y) = TIME) by apply ClockTheorems.time_version. rewrite E in K. vm_compute in K. discriminate K.
Qed.
(* Two yarns have one family only if they are the same in their 60 bits; the
   family of the metadata is that of no branch. *)
Theorem C76_yarns y z : (family_name (branch_id y) = family_name (branch_id z) <-> y mod 2 ^ 60 = z mod 2 ^ 60) /\ family_name (branch_id y) <> family_name NIL.
Proof.
  split; [split|].
  - intro E. apply (C76_names _ _ (branch_nameable y) (branch_nameable z)) in E. apply (f_equal uorigin) in E. rewrite !origin_of in E. apply N.add_cancel_r in E. exact E.
  - intro E. f_equal. assert (K : uorigin (branch_id y) = uorigin (branch_id z)) by (rewrite !origin_of, E; reflexivity). unfold branch_id, uuid_time in *. cbn [uorigin] in K. rewrite K. reflexivity.
  - intro E. apply (C76_names _ _ (branch_nameable y) nil_nameable) in E. exact (branch_nil y E).
Qed.

Lemma nodup_end (l : list uuid) x : NoDup l -> ~ In x l -> NoDup (l ++ [x]).
Proof. intros N I. apply (Permutation_NoDup (Permutation_cons_append l x)). constructor; assumption. Qed.
(* ---- the stores of a replica ---- *)
Definition settled (l : list (uuid * branch)) : Prop := NoDup (map fst l) /\ In NIL (map fst l) /\ Forall nameable (map fst l).
Section Families.
Variable sha : bytes -> bytes.
Variable fbits : bytes -> N.
Variable fuel : nat.
Notation h_step := (h_step sha fbits fuel).
Notation h_run := (h_run sha fbits fuel).

Lemma create_settled h rs y tr h' s : HostModel.h_create sha fbits fuel h rs y tr = Done (h', s) -> settled (h_stores h) -> settled (h_stores h').
Proof.
  intros H (ND & IN & NM). destruct (create_inv _ _ _ _ _ _ _ _ _ H) as [(_ & _ & _ & -> & _)|(_ & N & _ & b & d0 & _ & _ & _ & -> & _)]; [split; auto|].
  unfold settled. rewrite map_app. cbn [map fst]. split; [|split].
  - apply nodup_end; [exact ND|]. intro I. apply find_ids in I as (x & F). congruence.
  - apply in_or_app. left. exact IN.
  - apply Forall_app. split; [exact NM|]. constructor; [apply branch_nameable|constructor].
Qed.
Lemma step_settled h e h' s : h_step h e = Done (h', s) -> settled (h_stores h) -> settled (h_stores h').
Proof.
  assert (SAME : forall l l' : list (uuid * branch), map fst l' = map fst l -> settled l -> settled l') by (intros l l' E; unfold settled; rewrite E; auto).
  intros H S. destruct e as [rs y f|rs y tr|rs y x|i|rs i| | | |i k ce]; cbn [HostModel.h_step] in H.
  - destruct (receive_inv _ _ _ _ _ _ _ _ _ H) as [(_ & -> & _)|(_ & [(_ & -> & _)|[(_ & _ & -> & _)|(b & d & _ & F & _ & _ & _ & ->)]])]; try exact S. eapply SAME; [eapply ids_put; exact F|exact S].
  - eapply create_settled; eassumption.
  - destruct (fork_inv _ _ _ _ _ _ _ _ _ H) as [(_ & -> & _)|(h1 & s1 & o & _ & _ & C & _ & _ & _ & K)]; [exact S|]. pose proof (create_settled _ _ _ _ _ _ C S) as S1.
    destruct K as [(_ & -> & _)|(_ & b & b' & F & _ & _ & [-> | [-> _]])]; try exact S1. eapply SAME; [eapply ids_put; exact F|exact S1].
  - injection H as H. destruct (drop_inv _ _ _ _ H) as [(-> & _)|(_ & _ & NN & _ & _ & _ & _ & ->)]; [exact S|]. destruct S as (ND & IN & NM). unfold drop_store.
    assert (SUB : forall l : list (uuid * branch), forall u, In u (map fst (filter (fun p => negb (uuid_eqb (fst p) i)) l)) <-> In u (map fst l) /\ u <> i).
    { intros l u. rewrite !in_map_iff. split.
      - intros (p & <- & I). apply filter_In in I as [I E]. split; [eauto|]. intro Q. rewrite Q, (proj2 (uuid_eqb_eq _ _) eq_refl) in E. discriminate.
      - intros ((p & <- & I) & E). exists p. split; [reflexivity|]. apply filter_In. split; [exact I|]. rewrite (eqb_other _ _ E). reflexivity. }
    split; [|split].
    + clear IN NM SUB. induction (h_stores h) as [|p l IH]; [constructor|]. cbn [filter map] in *. inversion ND as [|a b N1 N2]; subst. destruct (uuid_eqb (fst p) i); cbn [negb map]; [exact (IH N2)|].
      constructor; [|exact (IH N2)]. intro I. apply N1. apply in_map_iff in I as (q & <- & I). apply filter_In in I as [I _]. apply in_map. exact I.
    + apply SUB. split; [exact IN|]. intro Q. apply NN. symmetry. exact Q.
    + apply Forall_forall. intros u I. apply SUB in I as [I _]. rewrite Forall_forall in NM. auto.
  - destruct (activate_inv _ _ _ _ _ H) as [(-> & _)|(m & d & f & u & _ & _ & F & _ & _ & _ & _ & _ & _ & ->)]; [exact S|]. eapply SAME; [eapply ids_put; exact F|exact S].
  - destruct (C55_open sha fbits fuel h h' s H) as [E _]. eapply SAME; eassumption.
  - destruct (close_inv _ _ _ H) as (_ & _ & _ & _ & ->). exact S.
  - injection H as <- _. exact S.
  - destruct (compact_inv _ _ _ _ _ _ _ _ H) as (_ & _ & _ & _ & [[_ ->]|(b & d & F & _ & ->)]); [exact S|]. eapply SAME; [eapply ids_put; exact F|exact S].
Qed.
Lemma run_settled es : forall h h' ss, h_run h es = Done (h', ss) -> settled (h_stores h) -> settled (h_stores h').
Proof.
  induction es as [|e es IH]; intros h h' ss H S; cbn [HostModel.h_run] in H; [injection H as <- _; exact S|].
  apply rbind_done in H as ([h1 s] & H1 & H). apply rbind_done in H as ([h2 ss2] & H2 & H). injection H as <- _. eapply IH; [exact H2|]. eapply step_settled; eassumption.
Qed.
Lemma new_settled reading h s : reading < NEVER_W -> h_new sha fbits fuel reading = Done (h, s) -> settled (h_stores h).
Proof.
  intros L H. destruct (C56_new _ _ _ _ _ _ L H) as (_ & SO & _). destruct SO as (_ & ND & IN & SH). split; [exact ND|]. split; [exact IN|].
  apply Forall_forall. intros u I. apply in_map_iff in I as (p & <- & I). rewrite Forall_forall in SH. destruct (SH p I) as (_ & [-> |(y & ->)] & _); [exact nil_nameable|exact (branch_nameable y)].
Qed.

(* ---- opening ---- *)
Lemma emplace_back db : forall seen, NoDup (map (fun p => family_id (fst p)) db) -> (forall n, In n (map fst db) -> ~ In (family_id n) seen) -> emplace_all seen db = map (fun p => (family_id (fst p), snd p)) db.
Proof.
  induction db as [|[n d] db IH]; intros seen ND OUT; [reflexivity|]. cbn [emplace_all map fst snd]. cbv zeta. cbn [map fst] in ND. inversion ND as [|a b N1 N2]; subst.
  assert (E : existsb (uuid_eqb (family_id n)) seen = false).
  { destruct (existsb (uuid_eqb (family_id n)) seen) eqn:X; [|reflexivity]. apply existsb_exists in X as (u & I & Q). apply uuid_eqb_eq in Q. subst u. destruct (OUT n (or_introl eq_refl) I). }
  rewrite E. f_equal. apply IH; [exact N2|]. intros m I [Q|Q]; [|exact (OUT m (or_intror I) Q)]. apply N1. rewrite Q. apply in_map_iff in I as (p & <- & I). apply (in_map (fun p => family_id (fst p))). exact I.
Qed.
Lemma disk_ids l : Forall nameable (map fst l) -> map (fun p => (family_id (fst p), snd p)) (on_disk l) = map (fun p => (fst p, br_main (snd p))) l.
Proof.
  induction l as [|p l IH]; intro F; [reflexivity|]. cbn [map] in F. pose proof (Forall_inv F) as A. apply Forall_inv_tail in F. unfold on_disk in *. cbn [map fst snd]. rewrite (name_back _ A), (IH F). reflexivity.
Qed.
(* After any history of a replica, however the database lists its families: no
   two have one name, and opening finds the stores with their records. *)
Theorem C76_found reading h0 s es h ss db : reading < NEVER_W -> h_new sha fbits fuel reading = Done (h0, s) -> h_run h0 es = Done (h, ss) -> Permutation (on_disk (h_stores h)) db ->
  NoDup (map fst db) /\ In DEFAULT_NAME (map fst db) /\ Permutation (opened db) (map (fun p => (fst p, br_main (snd p))) (h_stores h)).
Proof.
  intros L H0 H P. destruct (run_settled _ _ _ _ H (new_settled _ _ _ L H0)) as (ND & IN & NM). pose proof (Permutation_map fst P) as P1.
  assert (E : map (fun p => family_id (fst p)) (on_disk (h_stores h)) = map fst (h_stores h)).
  { pose proof (f_equal (map fst) (disk_ids _ NM)) as K. rewrite !map_map in K. exact K. }
  assert (NI : NoDup (map (fun p : bytes * family => family_id (fst p)) db)).
  { eapply Permutation_NoDup; [exact (Permutation_map _ P)|]. rewrite E. exact ND. }
  split; [|split].
  - rewrite <- (map_map fst family_id) in NI. exact (NoDup_map_inv _ _ NI).
  - eapply Permutation_in; [exact P1|]. unfold on_disk. rewrite map_map. cbn [fst]. apply in_map_iff in IN as (p & Q & I). apply in_map_iff. exists p. split; [rewrite Q; reflexivity|exact I].
  - unfold opened. rewrite (emplace_back db [] NI) by (intros ? ? []). rewrite <- (disk_ids _ NM). apply Permutation_map. apply Permutation_sym. exact P.
Qed.
Lemma on_disk_in l name : In name (map fst (on_disk l)) <-> exists id, In id (map fst l) /\ name = family_name id.
Proof.
  unfold on_disk. rewrite map_map. cbn [fst]. rewrite in_map_iff. split; [intros (p & <- & I); exists (fst p); split; [apply in_map; exact I|reflexivity]|].
  intros (id & I & ->). apply in_map_iff in I as (p & <- & I). eauto.
Qed.
(* RocksDB makes the family of a new branch exactly when the replica has no such
   branch, which is then found among the others. *)
Theorem C76_create reading h0 s es h ss y d : reading < NEVER_W -> h_new sha fbits fuel reading = Done (h0, s) -> h_run h0 es = Done (h, ss) ->
  match find_store (h_stores h) (branch_id y) with
  | Some _ => db_create (on_disk (h_stores h)) (family_name (branch_id y)) d = None
  | None => exists db, db_create (on_disk (h_stores h)) (family_name (branch_id y)) d = Some db /\ opened db = opened (on_disk (h_stores h)) ++ [(branch_id y, d)]
  end.
Proof.
  intros L H0 H. destruct (run_settled _ _ _ _ H (new_settled _ _ _ L H0)) as (ND & IN & NM). unfold db_create.
  destruct (find_store (h_stores h) (branch_id y)) as [b|] eqn:F.
  - assert (X : existsb (fun p => bytes_eqb (fst p) (family_name (branch_id y))) (on_disk (h_stores h)) = true); [|rewrite X; reflexivity].
    apply existsb_exists. exists (family_name (branch_id y), br_main b). split; [|apply bytes_eqb_eq; reflexivity].
    unfold on_disk. apply in_map_iff. exists (branch_id y, b). split; [reflexivity|]. apply find_in. exact F.
  - assert (X : existsb (fun p => bytes_eqb (fst p) (family_name (branch_id y))) (on_disk (h_stores h)) = false).
    { destruct (existsb _ _) eqn:X; [|reflexivity]. apply existsb_exists in X as (p & I & Q). apply bytes_eqb_eq in Q. apply (in_map fst) in I. rewrite Q in I. apply on_disk_in in I as (id & I & E).
      apply (C76_names _ _ (branch_nameable y) (proj1 (Forall_forall _ _) NM _ I)) in E. subst id. apply find_ids in I as (x & I). congruence. }
    rewrite X. eexists. split; [reflexivity|].
    assert (E : on_disk (h_stores h) ++ [(family_name (branch_id y), d)] = on_disk (h_stores h ++ [(branch_id y, mkBranch d NIL)])) by (unfold on_disk; rewrite map_app; reflexivity).
    assert (NM2 : Forall nameable (map fst (h_stores h ++ [(branch_id y, mkBranch d NIL)]))).
    { rewrite map_app. apply Forall_app. split; [exact NM|]. constructor; [apply branch_nameable|constructor]. }
    assert (ND2 : NoDup (map fst (h_stores h ++ [(branch_id y, mkBranch d NIL)]))).
    { rewrite map_app. cbn [map fst]. apply nodup_end; [exact ND|]. intro I. apply find_ids in I as (x & I). congruence. }
    assert (O : forall l, NoDup (map fst l) -> Forall nameable (map fst l) -> opened (on_disk l) = map (fun p => (fst p, br_main (snd p))) l).
    { intros l N1 N2. unfold opened. rewrite emplace_back; [apply disk_ids; exact N2| |intros ? ? []]. pose proof (f_equal (map fst) (disk_ids _ N2)) as K. rewrite !map_map in K. cbn [fst] in K. rewrite K. exact N1. }
    rewrite E, (O _ ND2 NM2), (O _ ND NM), map_app. reflexivity.
Qed.
(* Dropping the family of a store takes away this store only. *)
Theorem C76_drop reading h0 s es h ss id : reading < NEVER_W -> h_new sha fbits fuel reading = Done (h0, s) -> h_run h0 es = Done (h, ss) -> In id (map fst (h_stores h)) ->
  db_drop (on_disk (h_stores h)) (family_name id) = if uuid_eqb id NIL then None else Some (on_disk (drop_store (h_stores h) id)).
Proof.
  intros L H0 H I. destruct (run_settled _ _ _ _ H (new_settled _ _ _ L H0)) as (ND & IN & NM). rewrite Forall_forall in NM. pose proof (NM _ I) as NI. unfold db_drop.
  destruct (uuid_eqb id NIL) eqn:Z.
  { apply uuid_eqb_eq in Z. subst id. reflexivity. }
  assert (NZ : id <> NIL) by (intro Q; rewrite Q in Z; discriminate Z).
  destruct (bytes_eqb (family_name id) DEFAULT_NAME) eqn:D; [apply bytes_eqb_eq in D; apply (C76_names _ _ NI NI) in D; contradiction|]. cbv iota. apply (f_equal Some). clear D.
  unfold on_disk, drop_store. clear IN ND I. induction (h_stores h) as [|p l IH]; [reflexivity|]. cbn [map filter fst].
  assert (E : bytes_eqb (family_name (fst p)) (family_name id) = uuid_eqb (fst p) id).
  { destruct (uuid_eqb (fst p) id) eqn:Q.
    - apply uuid_eqb_eq in Q. rewrite Q. apply bytes_eqb_eq. reflexivity.
    - destruct (bytes_eqb _ _) eqn:B; [|reflexivity]. apply bytes_eqb_eq in B. apply (C76_names _ _ (NM _ (or_introl eq_refl)) NI) in B. rewrite B, (proj2 (uuid_eqb_eq _ _) eq_refl) in Q. discriminate. }
  rewrite E. rewrite (IH (fun u J => NM u (or_intror J))). destruct (uuid_eqb (fst p) id); reflexivity.
Qed.
End Families.
Print Assumptions C76_names.
Print Assumptions C76_yarns.
Print Assumptions C76_found.
Print Assumptions C76_create.
Print Assumptions C76_drop.
