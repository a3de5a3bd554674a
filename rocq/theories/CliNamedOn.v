(* C66 and C75: named and dump on a store that is said; what they do if there is
   no such store. *)
From Coq Require Import String Permutation.
From Verif Require ClockTheorems.
From Verif Require Import Prelude UuidModel UuidProofs KeyModel CodecModel CodecSpec TextTable TextModel TextSpec BuilderSpec BuilderProofs MergeModel MergeTextModel MergeKeeps
  StoreModel StoreProofs HashModel MetaModel ClockModel ReplicaModel ReplicaSpec ReplicaProofs RocksModel RocksSpec RocksProofs
  HashCases MetaCases Txt ReplicaCases BranchModel BranchSpec BranchCases ForkModel HostModel HostSpec HostProofs HostTheorems HostCases YarnCases NamesModel
  CliModel CliSpec CliNames CliProofs CliTheorems CliHistory CliListing CliCases DumpTheorems.
Open Scope string_scope.
Open Scope N_scope.
Open Scope list_scope.

Section NamedOn.
Variable sha : bytes -> bytes.
Variable fbits : bytes -> N.
Variable fuel : nat.
Variable order : list (uuid * uuid) -> list (uuid * uuid).
Hypothesis FB : 2 * N.of_nat fuel < ROOM.
Hypothesis WALK : forall l, Permutation (order l) l.
Notation cli := (cli sha fbits fuel order).

(* a word that may stand for a store: not an error, and if a name, in CamelCase *)
Definition said (fs : world) (w : bytes) (id : uuid) : Prop :=
  is_error (parse_uuid w) = false /\ means fbits fuel fs w id /\ (version (parse_uuid w) <> NAME \/ parse_uuid w = NIL \/ base64_case (uvalue (parse_uuid w)) = CAMEL).

Lemma yarn_again y : branch_id (uorigin (branch_id y)) = branch_id y.
Proof.
  clear FB WALK. unfold branch_id. rewrite ClockTheorems.time_origin. unfold uuid_time. f_equal. f_equal. change (2 ^ 60 - 1) with (N.ones 60).
  rewrite !N.land_ones, N.add_comm, N.mod_add by discriminate. apply N.mod_mod. discriminate.
Qed.
Lemma uuid_dec (a b : uuid) : {a = b} + {a <> b}.
Proof. clear FB WALK. decide equality; apply N.eq_dec. Qed.
Lemma stores_fs h id : In id (map fst (left_by h)) <-> In id (map fst (h_stores h)).
Proof. clear FB WALK. unfold left_by. rewrite map_map. cbn [fst]. reflexivity. Qed.
Lemma scan_said h w id r : opened h -> said (left_by h) w id ->
  scan_on fbits fuel h (W_on :: w :: r) = Done (id, r, if negb (uuid_eqb id NIL) && negb (has_branch h (uorigin id)) then RBadArgs else ROk).
Proof.
  clear FB WALK. intros (S & O & AC & NZ) (ER & MN & KD). unfold scan_on. change (bytes_eqb W_on W_on) with true. cbn [negb]. rewrite ER.
  assert (R : resolve fbits fuel h (parse_uuid w) CAMEL true = Done (id, ROk)).
  { unfold resolve. destruct MN as [[V|V]|l id V NN (d & ID & BN) G].
    - rewrite (proj2 (N.eqb_neq _ _) V). reflexivity.
    - rewrite V. reflexivity.
    - rewrite V. change (NAME =? NAME) with true. cbn [negb]. rewrite (eqb_other _ _ NN). destruct KD as [K|[K|K]]; [contradiction|contradiction|]. rewrite K. change (CAMEL =? CAMEL) with true. cbn [negb].
      rewrite andb_false_r. destruct (family_find _ _ _ (proj1 (proj2 S)) ID) as (m & FM & <-). rewrite FM. destruct m as [d tm]. cbn [br_main] in BN.
      change (b_names fbits fuel (mkBranch d tm)) with (b_names fbits fuel (mkBranch d NIL)). rewrite BN. cbn [rbind is_ok negb]. rewrite G. reflexivity. }
  cbv zeta. rewrite R. cbn [rbind is_ok negb]. destruct (negb (uuid_eqb id NIL) && negb (has_branch h (uorigin id))); reflexivity.
Qed.
Lemma has_yarn h y : opened h -> has_branch h y = true <-> In (branch_id y) (map fst (left_by h)).
Proof.
  clear FB WALK. intros (S & O & _). rewrite stores_fs. unfold has_branch, in_use. rewrite O. destruct (find_store (h_stores h) (branch_id y)) as [b|] eqn:F.
  - split; [|reflexivity]. intros _. apply find_in in F. apply (in_map fst) in F. exact F.
  - apply find_out in F. split; [discriminate|contradiction].
Qed.
(* the scan ends well for every store there is *)
Lemma scan_there h w id r b : opened h -> said (left_by h) w id -> find_store (h_stores h) id = Some b -> scan_on fbits fuel h (W_on :: w :: r) = Done (id, r, ROk).
Proof.
  clear FB WALK. intros OH SD F. rewrite (scan_said _ _ _ _ OH SD). destruct (uuid_eqb id NIL) eqn:NI; [reflexivity|]. cbn [negb andb].
  assert (HB : has_branch h (uorigin id) = true); [|rewrite HB; reflexivity].
  apply has_yarn; [exact OH|]. rewrite stores_fs. pose proof OH as ((_ & _ & _ & S4) & _).
  pose proof (proj1 (Forall_forall _ _) S4 _ (find_in _ _ _ F)) as (_ & [Q|(y & Q)] & _); cbn [fst] in Q; [rewrite Q in NI; discriminate NI|]. subst id.
  rewrite yarn_again. apply (in_map fst _ _ (find_in _ _ _ F)).
Qed.
Lemma scan_not_there h w id r : opened h -> said (left_by h) w id -> id <> NIL ->
  (In (branch_id (uorigin id)) (map fst (left_by h)) -> scan_on fbits fuel h (W_on :: w :: r) = Done (id, r, ROk)) /\
  (~ In (branch_id (uorigin id)) (map fst (left_by h)) -> scan_on fbits fuel h (W_on :: w :: r) = Done (id, r, RBadArgs)).
Proof.
  clear FB WALK. intros OH SD NN. rewrite (scan_said _ _ _ _ OH SD), (eqb_other _ _ NN). cbn [negb andb]. pose proof (has_yarn h (uorigin id) OH) as Q.
  destruct (has_branch h (uorigin id)); cbn [negb]; split; intro K; try reflexivity; [destruct K; apply Q; reflexivity|apply Q in K; discriminate].
Qed.

(* named of a kind, on a word: the names of that kind in the store the word stands
   for, each once. If there is no such store it crashes, unless there is no branch
   of its yarn either. *)
Theorem C66_named_on fs i p what w id : world_ok fs -> i_args i = [W_named; what; W_on; w] -> In what [W_yarns; W_objects; W_versions; W_things] -> said fs w id -> cli fs i = Done p ->
  p_families p = fs /\
  (forall d names, In (id, d) fs -> b_names fbits fuel (mkBranch d NIL) = Done (names, ROk) -> p_status p = cok /\
    exists ps, p_out p = flat_map (fun q => write_uuid (snd q) ++ [9] ++ write_uuid (fst q) ++ [10]) ps /\ NoDup (map fst ps) /\
      forall n v, In (n, v) ps <-> names_get names n = Some v /\
        (what = W_yarns -> kind (write_word (uvalue n)) CAMEL) /\ (what = W_objects -> kind (write_word (uvalue n)) SNAKE) /\ (what = W_versions -> kind (write_word (uvalue n)) CAPS)) /\
  (~ In id (map fst fs) -> id <> NIL -> p_out p = [] /\
    (In (branch_id (uorigin id)) (map fst fs) -> p_status p = CCrash) /\ (~ In (branch_id (uorigin id)) (map fst fs) -> p_status p = CFails RBadArgs)).
Proof.
  intros WO IA AR SD H. destruct (cli_cmd _ _ _ order FB _ _ _ _ _ WO IA H) as (h & h1 & OH & LF & C & PF & _).
  assert (CC : CliModel.command sha fbits fuel order h i = loud h (cmd_named fbits fuel order h [what; W_on; w])) by (unfold CliModel.command; rewrite IA; reflexivity).
  rewrite CC in C. apply loud_inv in C as [C ->]. clear CC. subst fs. split; [exact PF|].
  assert (NC : exists c, named_case what = Some c /\ (c = NUMERIC /\ what = W_things \/ c = CAMEL /\ what = W_yarns \/ c = SNAKE /\ what = W_objects \/ c = CAPS /\ what = W_versions)).
  { destruct AR as [<-|[<-|[<-|[<-|[]]]]]; eexists; (split; [vm_compute; reflexivity|]); auto 8. }
  destruct NC as (c & NC & CW). unfold cmd_named in C. rewrite NC in C. cbn [option_map] in C. split.
  - intros d names I BN. destruct (family_find _ _ _ (proj1 (proj2 (proj1 OH))) I) as ([d0 t] & F & E). cbn [br_main] in E. subst d0.
    rewrite (scan_there _ _ _ _ _ OH SD F) in C. cbn [rbind is_ok negb] in C. rewrite F in C.
    change (b_names fbits fuel (mkBranch d t)) with (b_names fbits fuel (mkBranch d NIL)) in C. rewrite BN in C. cbn [rbind is_ok negb] in C. injection C as <- <-. split; [reflexivity|].
    eexists. split; [reflexivity|]. split; [apply filter_keys, walk_keys; exact WALK|]. intros n v. rewrite filter_In, (walk_in _ WALK). cbn [fst].
    assert (EK : forall k : N, kind (write_word (uvalue n)) k <-> k = base64_case (uvalue n)).
    { intro k. pose proof (C63_written (uvalue n)) as Q. split; [intro Q2; symmetry; exact (C63_one _ _ _ Q Q2)|intros ->; exact Q]. }
    rewrite !EK. destruct CW as [(-> & ->)|[(-> & ->)|[(-> & ->)|(-> & ->)]]].
    + change (NUMERIC =? NUMERIC) with true. cbn [orb]. split; [|tauto]. intros (G & _). split; [exact G|]. (split; [|split]); intro; discriminate.
    + change (CAMEL =? NUMERIC) with false. cbn [orb]. rewrite N.eqb_eq. split; intros (G & R); (split; [exact G|]); [(split; [|split]); intro Q; try discriminate Q; exact R|apply R; reflexivity].
    + change (SNAKE =? NUMERIC) with false. cbn [orb]. rewrite N.eqb_eq. split; intros (G & R); (split; [exact G|]); [(split; [|split]); intro Q; try discriminate Q; exact R|apply R; reflexivity].
    + change (CAPS =? NUMERIC) with false. cbn [orb]. rewrite N.eqb_eq. split; intros (G & R); (split; [exact G|]); [(split; [|split]); intro Q; try discriminate Q; exact R|apply R; reflexivity].
  - intros NI NN. destruct (scan_not_there _ _ _ [] OH SD NN) as [Y N]. rewrite stores_fs in NI. apply find_out in NI.
    destruct (in_dec uuid_dec (branch_id (uorigin id)) (map fst (left_by h))) as [K|K].
    + rewrite (Y K) in C. cbn [rbind is_ok negb] in C. rewrite NI in C. injection C as <- <-. split; [reflexivity|]. split; [reflexivity|contradiction].
    + rewrite (N K) in C. cbn [rbind is_ok negb] in C. injection C as <- <-. split; [reflexivity|]. split; [contradiction|reflexivity].
Qed.
(* and so does dump *)
Theorem C75_crash fs i p w r id : world_ok fs -> i_args i = W_dump :: w :: r -> said fs w id -> ~ In id (map fst fs) -> id <> NIL -> cli fs i = Done p ->
  p_families p = fs /\ p_out p = [] /\
  (In (branch_id (uorigin id)) (map fst fs) -> p_status p = CCrash) /\ (~ In (branch_id (uorigin id)) (map fst fs) -> p_status p = CFails RBadArgs).
Proof.
  intros WO IA SD NI NN H. destruct (cli_cmd _ _ _ order FB _ _ _ _ _ WO IA H) as (h & h1 & OH & LF & C & PF & _).
  assert (CC : CliModel.command sha fbits fuel order h i = loud h (cmd_dump fbits fuel h (w :: r))) by (unfold CliModel.command; rewrite IA; reflexivity).
  rewrite CC in C. apply loud_inv in C as [C ->]. clear CC. subst fs. split; [exact PF|]. unfold cmd_dump in C.
  destruct (scan_not_there _ _ _ r OH SD NN) as [Y N]. rewrite stores_fs in NI. apply find_out in NI.
  destruct (in_dec uuid_dec (branch_id (uorigin id)) (map fst (left_by h))) as [K|K].
  - rewrite (Y K) in C. cbn [rbind is_ok negb] in C. rewrite NI in C. injection C as <- <-. split; [reflexivity|]. split; [reflexivity|contradiction].
  - rewrite (N K) in C. cbn [rbind is_ok negb] in C. injection C as <- <-. split; [reflexivity|]. split; [contradiction|reflexivity].
Qed.
End NamedOn.
Print Assumptions C66_named_on.
Print Assumptions C75_crash.

(* a name of the metadata, asked for on the metadata; an event of a yarn with a
   branch, and of one without *)
Definition on_log := Eval vm_compute in log_of w0 [line "3+A" "A" "name 5+B as Beta"; line "4+A" "B" "create"].
Example C66_on_case : ses w0 (log_l on_log) (log_w on_log) /\
  let ask s := let i := line "5+A" "A" s in (p_status (answer (log_w on_log) i), p_out (answer (log_w on_log) i)) in
  ask "named yarns on 0" = (cok, txt "5+B" ++ [9] ++ txt "Beta" ++ [10]) /\ ask "named objects on 0" = (cok, []) /\ ask "named things on Beta" = (CCrash, []) /\ ask "dump Beta" = (CCrash, []) /\
  ask "named things on 5+C" = (CFails RBadArgs, []) /\ ask "dump 5+C" = (CFails RBadArgs, []).
Proof.
  split; [|vm_compute; auto 8].
  assert (E : log_of w0 [line "3+A" "A" "name 5+B as Beta"; line "4+A" "B" "create"] = on_log) by (vm_compute; reflexivity). rewrite <- E. apply logged_ses. vm_compute. reflexivity.
Qed.
