(* C66: what the commands list and named print. *)
From Coq Require Import Permutation.
From Verif Require Import Prelude UuidModel UuidProofs KeyModel CodecModel CodecTheorems TextModel TextSpec BuilderSpec MergeModel MergeTextModel MergeKeeps StoreModel
  RocksModel ClockModel ReplicaModel ReplicaProofs BranchModel ForkModel HostModel HostSpec HostProofs HostTheorems NamesModel CliModel CliSpec UuidProofs CliNames CliProofs CliTheorems CliHistory.

(* ---- maps as lists of pairs ---- *)
Lemma get_in l n v : names_get l n = Some v -> In (n, v) l.
Proof.
  unfold names_get. intro H. destruct (find _ l) as [[a b]|] eqn:F; [|discriminate]. apply List.find_some in F as [I E]. cbn [option_map snd] in H. cbn [fst] in E. apply uuid_eqb_eq in E. congruence.
Qed.
Lemma get_none l n v : names_get l n = None -> ~ In (n, v) l.
Proof.
  unfold names_get. intros H I. destruct (find _ l) as [p|] eqn:F; [discriminate|]. pose proof (List.find_none _ _ F _ I) as K. cbn [fst] in K. rewrite (proj2 (uuid_eqb_eq _ _) eq_refl) in K. discriminate.
Qed.
Lemma filter_keys (P : uuid * uuid -> bool) l : NoDup (map fst l) -> NoDup (map fst (filter P l)).
Proof.
  induction l as [|x l IH]; intro H; [constructor|]. cbn [map] in H. inversion H as [|? ? A B]; subst. cbn [filter]. destruct (P x); [|auto]. cbn [map]. constructor; [|auto].
  intro K. apply A. apply in_map_iff in K as (y & E & K). apply filter_In in K as [K _]. rewrite <- E. apply in_map. exact K.
Qed.
Lemma entries_keys l : NoDup (map fst (entries l)).
Proof.
  induction l as [|p r IH]; [constructor|]. cbn [entries map]. constructor; [|apply filter_keys; exact IH].
  intro K. apply in_map_iff in K as (y & E & K). apply filter_In in K as [_ K]. rewrite E, (proj2 (uuid_eqb_eq _ _) eq_refl) in K. discriminate.
Qed.
Lemma entries_in l n v : In (n, v) (entries l) <-> names_get l n = Some v.
Proof.
  induction l as [|[a b] r IH]; [split; [intros []|discriminate]|]. cbn [entries]. unfold names_get. cbn [find fst]. destruct (uuid_eqb a n) eqn:E.
  - apply uuid_eqb_eq in E. subst a. cbn [option_map snd]. split.
    + intros [K|K]; [congruence|]. apply filter_In in K as [_ K]. cbn [fst] in K. rewrite (proj2 (uuid_eqb_eq _ _) eq_refl) in K. discriminate.
    + intro K. left. congruence.
  - fold (names_get r n). rewrite <- IH. split.
    + intros [K|K]; [|apply filter_In in K; tauto]. injection K as -> ->. rewrite (proj2 (uuid_eqb_eq _ _) eq_refl) in E. discriminate.
    + intro K. right. apply filter_In. split; [exact K|]. cbn [fst]. destruct (uuid_eqb n a) eqn:E2; [|reflexivity]. apply uuid_eqb_eq in E2. subst a. rewrite (proj2 (uuid_eqb_eq _ _) eq_refl) in E. discriminate.
Qed.

Section Listing.
Variable sha : bytes -> bytes.
Variable fbits : bytes -> N.
Variable fuel : nat.
Variable order : list (uuid * uuid) -> list (uuid * uuid).
Hypothesis FB : 2 * N.of_nat fuel < ROOM.
(* a walk over an unordered map meets every entry once *)
Hypothesis WALK : forall l, Permutation (order l) l.
Notation cli := (cli sha fbits fuel order).
Notation meta_names := (meta_names fbits fuel).
Notation session := (session sha fbits fuel order).

Lemma walk_in l n v : In (n, v) (order (entries l)) <-> names_get l n = Some v.
Proof. clear FB. rewrite <- entries_in. split; apply Permutation_in; [apply WALK|apply Permutation_sym, WALK]. Qed.
Lemma walk_keys l : NoDup (map fst (order (entries l))).
Proof. clear FB. eapply Permutation_NoDup; [apply Permutation_map, Permutation_sym, WALK|]. apply entries_keys. Qed.
Lemma back_in l id n : names_get (reverse_map l) id = Some n -> In (n, id) l.
Proof. clear FB WALK. intro H. apply get_in in H. unfold reverse_map in H. apply in_rev, in_map_iff in H as ([a b] & E & I). cbn [fst snd] in E. congruence. Qed.
Lemma back_none l id n : names_get (reverse_map l) id = None -> ~ In (n, id) l.
Proof. clear FB WALK. intros H I. apply (get_none _ _ n H). unfold reverse_map. apply -> in_rev. apply in_map_iff. exists (n, id). auto. Qed.
Lemma main_names h fs l : opened h -> left_by h = fs -> meta_names fs l -> exists m, find_store (h_stores h) NIL = Some m /\ b_names fbits fuel m = Done (l, ROk).
Proof.
  clear FB WALK. intros ((_ & ND & _) & _) <- (d & I & BN). destruct (family_find _ _ _ ND I) as ([d0 t] & F & E). cbn [br_main] in E. subst d0. exists (mkBranch d t). split; [exact F|exact BN].
Qed.

(* named prints every current name of the asked kind, once, and nothing else *)
Theorem C66_named fs i p what names : world_ok fs -> i_args i = W_named :: what -> cli fs i = Done p -> meta_names fs names ->
  what = [] \/ what = [W_yarns] \/ what = [W_objects] \/ what = [W_versions] \/ what = [W_things] ->
  p_status p = cok /\ p_families p = fs /\
  exists ps, p_out p = flat_map (fun q => write_uuid (snd q) ++ [9] ++ write_uuid (fst q) ++ [10]) ps /\ NoDup (map fst ps) /\
    forall n v, In (n, v) ps <-> names_get names n = Some v /\
      (what = [W_yarns] -> kind (write_word (uvalue n)) CAMEL) /\ (what = [W_objects] -> kind (write_word (uvalue n)) SNAKE) /\ (what = [W_versions] -> kind (write_word (uvalue n)) CAPS).
Proof.
  intros WO IA H MN AR. destruct (cli_cmd _ _ _ order FB _ _ _ _ _ WO IA H) as (h & h1 & OH & LF & C & PF & _).
  assert (CC : CliModel.command sha fbits fuel order h i = loud h (cmd_named fbits fuel order h what)) by (unfold CliModel.command; rewrite IA; reflexivity).
  rewrite CC in C. apply loud_inv in C as [C ->]. clear CC. destruct (main_names _ _ _ OH LF MN) as (m & F & BN). pose proof OH as (_ & _ & AC & _).
  assert (EK : forall w : N, (w = CAMEL \/ w = SNAKE \/ w = CAPS) -> forall n, kind (write_word (uvalue n)) w <-> base64_case (uvalue n) = w).
  { intros w _ n. pose proof (C63_written (uvalue n)) as Q. split; [intro Q2; exact (C63_one _ _ _ Q Q2)|intros <-; exact Q]. }
  assert (RUN : forall c, match (match what with [] => Some (NUMERIC, []) | a :: r => option_map (fun c => (c, r)) (named_case a) end) with Some (w, []) => w = c | _ => False end ->
    p_status p = cok /\ p_out p = flat_map named_line (filter (fun q => (c =? NUMERIC) || (c =? base64_case (uvalue (fst q)))) (order (entries names)))).
  { intros c G. unfold cmd_named in C. destruct (match what with [] => Some (NUMERIC, []) | a :: r => option_map (fun c => (c, r)) (named_case a) end) as [[w r]|]; [|destruct G]. destruct r; [|destruct G]. subst w.
    cbn [scan_on rbind is_ok negb] in C. rewrite AC, F, BN in C. cbn [rbind is_ok negb] in C. injection C as <- <-. auto. }
  assert (GO : exists c, (p_status p = cok /\ p_out p = flat_map named_line (filter (fun q => (c =? NUMERIC) || (c =? base64_case (uvalue (fst q)))) (order (entries names)))) /\
     (c = NUMERIC /\ (what = [] \/ what = [W_things]) \/ c = CAMEL /\ what = [W_yarns] \/ c = SNAKE /\ what = [W_objects] \/ c = CAPS /\ what = [W_versions])).
  { destruct AR as [->|[->|[->|[->| ->]]]]; [exists NUMERIC|exists CAMEL|exists SNAKE|exists CAPS|exists NUMERIC]; (split; [apply RUN; reflexivity|auto 8]). }
  destruct GO as (c & (PS & PO) & CW). split; [exact PS|]. split; [congruence|]. eexists. split; [exact PO|]. split; [apply filter_keys, walk_keys|].
  intros n v. rewrite filter_In, walk_in. cbn [fst].
  destruct CW as [(-> & Q)|[(-> & Q)|[(-> & Q)|(-> & Q)]]].
  - change (NUMERIC =? NUMERIC) with true. cbn [orb]. split; [|tauto]. intros (G & _). split; [exact G|]. destruct Q as [-> | ->]; (split; [|split]); intro; discriminate.
  - change (CAMEL =? NUMERIC) with false. cbn [orb]. rewrite N.eqb_eq, (EK CAMEL) by auto. subst what. split; intros (G & R); (split; [exact G|]).
    + split; [intros _; auto|]. split; intro; discriminate.
    + destruct R as (R & _). symmetry. apply R. reflexivity.
  - change (SNAKE =? NUMERIC) with false. cbn [orb]. rewrite N.eqb_eq, (EK SNAKE) by auto. subst what. split; intros (G & R); (split; [exact G|]).
    + split; [intro; discriminate|]. split; [intros _; auto|intro; discriminate].
    + destruct R as (_ & R & _). symmetry. apply R. reflexivity.
  - change (CAPS =? NUMERIC) with false. cbn [orb]. rewrite N.eqb_eq, (EK CAPS) by auto. subst what. split; intros (G & R); (split; [exact G|]).
    + split; [intro; discriminate|]. split; [intro; discriminate|intros _; auto].
    + destruct R as (_ & _ & R). symmetry. apply R. reflexivity.
Qed.
(* list prints a line for each store, with a name of it or 0 *)
Theorem C66_list fs i p args names : world_ok fs -> i_args i = W_list :: args -> cli fs i = Done p -> meta_names fs names ->
  args = [] \/ args = [W_branches] \/ args = [W_snapshots] \/ args = [W_stores] ->
  p_status p = cok /\ p_families p = fs /\
  exists name_of, p_out p = flat_map (fun id => write_uuid id ++ [9] ++ write_uuid (name_of id) ++ [10]) (map fst fs) /\
    forall id, names_get names (name_of id) = Some id \/ name_of id = NIL /\ forall n, names_get names n <> Some id.
Proof.
  intros WO IA H MN AR. destruct (cli_cmd _ _ _ order FB _ _ _ _ _ WO IA H) as (h & h1 & OH & LF & C & PF & _).
  assert (CC : CliModel.command sha fbits fuel order h i = loud h (cmd_list fbits fuel order h args)) by (unfold CliModel.command; rewrite IA; reflexivity).
  rewrite CC in C. apply loud_inv in C as [C ->]. clear CC. destruct (main_names _ _ _ OH LF MN) as (m & F & BN).
  assert (G : match args with [] => true | a :: _ => bytes_eqb a W_branches || bytes_eqb a W_snapshots || bytes_eqb a W_stores end = true) by (destruct AR as [->|[->|[->| ->]]]; reflexivity).
  unfold cmd_list in C. cbv zeta in C. rewrite G, F, BN in C. cbn [negb rbind is_ok] in C. injection C as <- PO. split; [reflexivity|]. split; [congruence|].
  exists (fun id => match names_get (reverse_map (order (entries names))) id with Some n => n | None => NIL end). split.
  - rewrite <- PO, <- LF, ids_left. reflexivity.
  - intro id. destruct (names_get (reverse_map (order (entries names))) id) as [n|] eqn:E.
    + left. apply walk_in, back_in. exact E.
    + right. split; [reflexivity|]. intros n K. apply walk_in in K. exact (back_none _ _ _ E K).
Qed.
(* on: the active store is that of the metadata *)
Theorem C67_on fs i p args names : world_ok fs -> i_args i = W_on :: args -> cli fs i = Done p -> meta_names fs names ->
  (exists n, p_status p = CSays n /\ (names_get names n = Some NIL \/ n = NIL /\ forall m, names_get names m <> Some NIL)) /\ p_families p = fs /\ p_out p = [].
Proof.
  intros WO IA H MN. destruct (cli_cmd _ _ _ order FB _ _ _ _ _ WO IA H) as (h & h1 & OH & LF & C & PF & _).
  assert (CC : CliModel.command sha fbits fuel order h i = quiet h (cmd_on fbits fuel order h)) by (unfold CliModel.command; rewrite IA; reflexivity).
  rewrite CC in C. apply quiet_inv in C as (C & -> & ->). clear CC. destruct (main_names _ _ _ OH LF MN) as (m & F & BN). pose proof OH as (_ & _ & AC & _).
  unfold cmd_on in C. rewrite F, BN, AC in C. cbn [rbind] in C. injection C as PS. split; [|split; [congruence|reflexivity]].
  destruct (names_get (reverse_map (order (entries names))) NIL) as [n|] eqn:E.
  - exists n. split; [congruence|]. left. apply walk_in, back_in. exact E.
  - exists NIL. split; [congruence|]. right. split; [reflexivity|]. intros n K. apply walk_in in K. exact (back_none _ _ _ E K).
Qed.

(* Put together with C65: after any number of commands, named prints exactly what
   was given and not given again. *)
Theorem C66_after reading fs0 s l fs i p : reading < NEVER_W -> init sha fbits fuel reading = Done (fs0, s) -> session fs0 l fs ->
  Forall (fun x => calm (fst x) (snd x)) l -> spaced l -> Forall no_numbers l -> (length l < fuel)%nat -> N.of_nat (length l) < 2 ^ 24 ->
  i_args i = [W_named] -> cli fs i = Done p ->
  p_status p = cok /\ exists ps, p_out p = flat_map (fun q => write_uuid (snd q) ++ [9] ++ write_uuid (fst q) ++ [10]) ps /\ NoDup (map fst ps) /\ forall n v, In (n, v) ps <-> last_given n l = Some v.
Proof.
  intros R0 IN SE CM SP NN L1 L2 IA H. destruct (C65_names sha fbits fuel order FB reading fs0 s l fs R0 IN SE CM SP NN L1 L2) as (names & MN & K).
  destruct (C64_init sha fbits fuel reading fs0 s R0 IN) as (_ & WO & _). pose proof (C64_session sha fbits fuel order FB _ _ _ SE CM WO) as WO'.
  destruct (C66_named fs i p [] names WO' IA H MN (or_introl eq_refl)) as (PS & _ & ps & PO & ND & IN2). split; [exact PS|]. exists ps. split; [exact PO|]. split; [exact ND|].
  intros n v. rewrite IN2, K. split; [tauto|]. intro G. split; [exact G|]. split; [intro; discriminate|]. split; intro; discriminate.
Qed.
(* and so do the branches that list prints *)
Theorem C66_after_list reading fs0 s l fs i p : reading < NEVER_W -> init sha fbits fuel reading = Done (fs0, s) -> session fs0 l fs ->
  Forall (fun x => calm (fst x) (snd x)) l -> spaced l -> Forall no_numbers l -> (length l < fuel)%nat -> N.of_nat (length l) < 2 ^ 24 ->
  i_args i = [W_list] -> cli fs i = Done p ->
  p_status p = cok /\ exists name_of, p_out p = flat_map (fun id => write_uuid id ++ [9] ++ write_uuid (name_of id) ++ [10]) (map fst fs) /\
    forall id, last_given (name_of id) l = Some id \/ name_of id = NIL /\ forall n, last_given n l <> Some id.
Proof.
  intros R0 IN SE CM SP NN L1 L2 IA H. destruct (C65_names sha fbits fuel order FB reading fs0 s l fs R0 IN SE CM SP NN L1 L2) as (names & MN & K).
  destruct (C64_init sha fbits fuel reading fs0 s R0 IN) as (_ & WO & _). pose proof (C64_session sha fbits fuel order FB _ _ _ SE CM WO) as WO'.
  destruct (C66_list fs i p [] names WO' IA H MN (or_introl eq_refl)) as (PS & _ & f & PO & NF). split; [exact PS|]. exists f. split; [exact PO|].
  intro id. rewrite <- K. destruct (NF id) as [Q|[Q1 Q2]]; [left; exact Q|]. right. split; [exact Q1|]. intros n. rewrite <- K. apply Q2.
Qed.
End Listing.
Print Assumptions C66_named.
Print Assumptions C66_list.
Print Assumptions C67_on.
Print Assumptions C66_after.
Print Assumptions C66_after_list.
