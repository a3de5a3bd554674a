(* Proofs about the program swarmdb: what a command does to the database. *)
From Verif Require Import Prelude UuidModel UuidProofs KeyModel CodecModel CodecTheorems TextModel TextSpec BuilderSpec MergeModel MergeTextModel MergeKeeps StoreModel StoreSpec
  StoreProofs RocksModel RocksSpec RocksProofs MetaModel ClockModel ReplicaModel ReplicaSpec ReplicaProofs BranchModel BranchSpec BranchProofs ForkModel
  HostModel HostSpec HostProofs HostTheorems NamesModel CliModel CliSpec.
From Verif Require ClockTheorems.

(* ---- the database and the stores of a replica ---- *)
Definition families (l : list (uuid * branch)) : world := map (fun p => (fst p, br_main (snd p))) l.
Lemma left_shut fs : left_by (shut fs) = fs.
Proof. unfold left_by, shut. cbn [h_stores]. rewrite map_map. cbn [fst snd br_main]. induction fs as [|[i d] fs IH]; [reflexivity|]. cbn [map fst snd]. rewrite IH. reflexivity. Qed.
Lemma ids_left h : map fst (left_by h) = map fst (h_stores h).
Proof. unfold left_by. rewrite map_map. reflexivity. Qed.
Lemma ids_shut fs : map fst (h_stores (shut fs)) = map fst fs.
Proof. unfold shut. cbn [h_stores]. rewrite map_map. reflexivity. Qed.
Lemma sound_left h fr : sound h fr -> sound (shut (left_by h)) [].
Proof.
  intros (A & B & C & D). split; [reflexivity|]. rewrite ids_shut, ids_left. split; [exact B|]. split; [exact C|].
  unfold shut. cbn [h_stores]. rewrite Forall_map. unfold left_by. rewrite Forall_map. eapply Forall_impl; [|exact D]. intros p (T1 & T2 & _ & t & T3 & T4 & T5 & T6 & _).
  split; [exact zero_tip|]. cbn [fst snd br_main br_tip h_open]. split; [exact T2|]. split; [discriminate|]. exists t. split; [exact T3|]. split; [exact T4|]. split; [exact T5|]. split; [exact T6|]. discriminate.
Qed.
Lemma families_in l id d : In (id, d) (families l) <-> exists b, In (id, b) l /\ br_main b = d.
Proof.
  unfold families. rewrite in_map_iff. split.
  - intros ([i b] & E & I). cbn [fst snd] in E. injection E as -> <-. eauto.
  - intros (b & I & <-). exists (id, b). auto.
Qed.
Lemma find_family l id b : find_store l id = Some b -> In (id, br_main b) (families l).
Proof. intro F. apply families_in. exists b. split; [apply find_in; exact F|reflexivity]. Qed.
Lemma in_find l id b : NoDup (map fst l) -> In (id, b) l -> find_store l id = Some b.
Proof.
  induction l as [|[i x] l IH]; intros ND I; [destruct I|]. cbn [map fst find_store] in *. inversion ND as [|? ? N1 N2]; subst. destruct I as [E|I].
  - injection E as -> ->. rewrite (proj2 (uuid_eqb_eq id id) eq_refl). reflexivity.
  - rewrite eqb_other; [apply IH; assumption|]. intros ->. apply N1. change id with (fst (id, b)). apply in_map. exact I.
Qed.
Lemma family_find l id d : NoDup (map fst l) -> In (id, d) (families l) -> exists b, find_store l id = Some b /\ br_main b = d.
Proof. intros ND I. apply families_in in I as (b & I & E). exists b. split; [apply in_find; assumption|exact E]. Qed.
(* one store changed *)
Lemma put_split l id b x : find_store l id = Some x -> exists l1 l2, families l = l1 ++ (id, br_main x) :: l2 /\ families (put_store l id b) = l1 ++ (id, br_main b) :: l2.
Proof.
  induction l as [|[i y] l IH]; intro F; [discriminate|]. cbn [find_store put_store families map fst snd] in *. destruct (uuid_eqb i id) eqn:E.
  - apply uuid_eqb_eq in E. subst i. injection F as ->. exists [], (families l). split; reflexivity.
  - destruct (IH F) as (l1 & l2 & E1 & E2). exists ((i, br_main y) :: l1), l2. fold (families l). rewrite E1. cbn [map fst snd]. fold (families (put_store l id b)). rewrite E2. split; reflexivity.
Qed.
Lemma drop_cons i y l id : drop_store ((i, y) :: l) id = if uuid_eqb i id then drop_store l id else (i, y) :: drop_store l id.
Proof. unfold drop_store. cbn [filter fst]. destruct (uuid_eqb i id); reflexivity. Qed.
Lemma families_cons i y l : families ((i, y) :: l) = (i, br_main y) :: families l.
Proof. reflexivity. Qed.
Lemma drop_none l id : ~ In id (map fst l) -> drop_store l id = l.
Proof.
  induction l as [|[j z] l IH]; intro N; [reflexivity|]. cbn [map fst In] in N. rewrite drop_cons, (eqb_other j id) by (intro; apply N; left; assumption). rewrite IH by tauto. reflexivity.
Qed.
Lemma drop_split l id x : NoDup (map fst l) -> find_store l id = Some x -> exists l1 l2, families l = l1 ++ (id, br_main x) :: l2 /\ families (drop_store l id) = l1 ++ l2.
Proof.
  induction l as [|[i y] l IH]; intros ND F; [discriminate|]. cbn [find_store map fst] in *. rewrite drop_cons, families_cons. inversion ND as [|? ? N1 N2]; subst. destruct (uuid_eqb i id) eqn:E.
  - apply uuid_eqb_eq in E. subst i. injection F as ->. exists [], (families l). rewrite drop_none by exact N1. split; reflexivity.
  - destruct (IH N2 F) as (l1 & l2 & E1 & E2). exists ((i, br_main y) :: l1), l2. rewrite families_cons, E1, E2. split; reflexivity.
Qed.
Lemma families_app l m : families (l ++ m) = families l ++ families m.
Proof. apply map_app. Qed.

(* ---- keys ---- *)
Lemma active_not_names : ACTIVE_KEY <> NAMES_KEY. Proof. intro E. apply key_eqb_eq in E. vm_compute in E. discriminate E. Qed.
Lemma active_not_end : ACTIVE_KEY <> KEY_END. Proof. intro E. apply key_eqb_eq in E. vm_compute in E. discriminate E. Qed.
Lemma active_not_zero : ACTIVE_KEY <> KEY_ZERO. Proof. intro E. apply key_eqb_eq in E. vm_compute in E. discriminate E. Qed.
Lemma names_no_end : NAMES_KEY <> KEY_END. Proof. intro E. apply key_eqb_eq in E. vm_compute in E. discriminate E. Qed.
Lemma names_no_zero : NAMES_KEY <> KEY_ZERO. Proof. intro E. apply key_eqb_eq in E. vm_compute in E. discriminate E. Qed.
Lemma write_but d k f d' s : in_order d -> k <> KEY_END -> b_write d k f = Done (d', s) -> same_but [k] d d' /\ s = ROk.
Proof.
  intros O NE H. unfold b_write, rocks_write in H. rewrite (key_eqb_neq _ _ NE) in H. cbn [andb] in H. injection H as <- <-. split; [|reflexivity].
  intros j NI. rewrite add_at by exact O. rewrite key_eqb_neq; [reflexivity|]. intros ->. apply NI. left. reflexivity.
Qed.
Lemma same_but_trans a b x y z : same_but a x y -> same_but b y z -> same_but (a ++ b) x z.
Proof. intros A B k N. rewrite B by (intro; apply N, in_or_app; auto). apply A. intro. apply N, in_or_app. auto. Qed.

Section Cli.
Variable sha : bytes -> bytes.
Variable fbits : bytes -> N.
Variable fuel : nat.
Variable order : list (uuid * uuid) -> list (uuid * uuid).
Notation cli := (cli sha fbits fuel order).
Notation command := (command sha fbits fuel order).
Notation means := (means fbits fuel).

(* ---- opening ---- *)
Lemma open_all_left now l l' now' s : open_all fbits fuel now l = Done (l', now', s) -> families l' = families l.
Proof.
  revert now l' now' s. induction l as [|[i x] l IH]; intros now l' now' s H; cbn [open_all] in H; [injection H as <- _ _; reflexivity|].
  apply rbind_done in H as ([[[d n1] t] s1] & BO & H). pose proof (open_main _ _ _ _ _ _ _ _ _ BO) as ->. destruct (is_ok s1); cbn [negb] in H.
  - apply rbind_done in H as ([[r' n2] s2] & OA & H). injection H as <- _ _. cbn [families map fst snd br_main]. f_equal. exact (IH _ _ _ _ OA).
  - injection H as <- _ _. cbn [families map fst snd br_main]. f_equal. rewrite map_map. reflexivity.
Qed.
Lemma open_all_low now l l' now' s : now < NEVER_W -> open_all fbits fuel now l = Done (l', now', s) -> now' < NEVER_W.
Proof.
  revert now l' now' s. induction l as [|[i x] l IH]; intros now l' now' s L H; cbn [open_all] in H; [injection H as _ <- _; exact L|].
  apply rbind_done in H as ([[[d n1] t] s1] & BO & H).
  assert (L1 : n1 < NEVER_W).
  { apply open_clock in BO as [-> | ->]; [exact L|]. destruct (clock_see now t) as [n sx] eqn:C. apply see_up in C as (_ & [K|K] & _); cbn [fst]; lia. }
  destruct (negb (is_ok s1)); [injection H as _ <- _; exact L1|]. apply rbind_done in H as ([[r' n2] s2] & OA & H). injection H as _ <- _. exact (IH _ _ _ _ L1 OA).
Qed.
Definition opened (h : host) : Prop := sound h [] /\ h_open h = true /\ h_active h = NIL /\ ~ In (branch_id 0) (map fst (h_stores h)).
Hypothesis FB : 2 * N.of_nat fuel < ROOM.
Lemma reopen_ok fs h s : world_ok fs -> h_reopen fbits fuel (shut fs) = Done (h, s) -> s = ROk /\ opened h /\ left_by h = fs.
Proof.
  intros [SH NB] H. destruct (reopen_inv _ _ _ _ _ H) as [(O & _)|(O & O1 & OA & AC)]; [discriminate|].
  assert (L : h_now h < NEVER_W) by (eapply open_all_low; [|exact OA]; reflexivity).
  destruct (step_sound sha fbits fuel FB (shut fs) [] HOpen h s SH Logic.I H L) as [S1 G]. cbn [then_fresh] in S1.
  assert (E : s = ROk) by (cbn [shut h_open] in G; inversion G; reflexivity). subst s. split; [reflexivity|].
  assert (EL : left_by h = fs) by (unfold left_by; change (families (h_stores h) = fs); rewrite (open_all_left _ _ _ _ _ OA); apply (left_shut fs)).
  split; [|exact EL]. split; [exact S1|]. split; [exact O1|]. split; [exact AC|]. rewrite <- ids_left, EL. exact NB.
Qed.

(* ---- the clock ---- *)
Lemma tick_back a now r o : r < NEVER_W -> now <= NEVER_W -> fst (clock_now a now r o) < NEVER_W -> now < NEVER_W.
Proof.
  intros A B. unfold clock_now. cbn [fst]. destruct (N.ltb_spec now r); [lia|].
  rewrite N.mod_small by (assert (NW : NEVER_W = 1134907106097364992) by reflexivity; rewrite NW in *; change two64 with 18446744073709551616; lia). lia.
Qed.
Lemma tick_read a now r o : r <= fst (clock_now a now r o) \/ NEVER_W <= r \/ NEVER_W <= now.
Proof.
  unfold clock_now. cbn [fst]. destruct (N.ltb_spec now r); [left; lia|]. destruct (N.le_gt_cases NEVER_W now); [auto|]. left.
  rewrite N.mod_small by (assert (NW : NEVER_W = 1134907106097364992) by reflexivity; rewrite NW in *; change two64 with 18446744073709551616; lia). lia.
Qed.
Lemma tick_id a now r o : uvalue (snd (clock_now a now r o)) = fst (clock_now a now r o).
Proof. reflexivity. Qed.
Lemma create_low a d now rs y d' now' s : now < NEVER_W -> early rs ->
  create_branch sha fbits family (b_jread fbits fuel) (b_jprev fbits fuel) b_batch a fuel d now rs y false = Done (d', now', s) -> now' <= NEVER_W.
Proof.
  intros L E H. unfold create_branch in H. pose proof (tick_up a now (hd 0 rs) y L (early_hd _ E)) as [_ TK]. destruct (clock_now a now (hd 0 rs) y) as [n1 ev]. cbn [fst] in TK.
  destruct (one_op ev YARN_FORM_UUID []) as [f|]; [|discriminate].
  apply rbind_done in H as (c & _ & H). apply rbind_done in H as ([[st cx] sx] & SC & H). apply rbind_done in H as ([st2 s2] & SV & H). injection H as _ <- _.
  rewrite (save_now _ _ _ _ _ SV).
  refine (save_chain_good sha fbits family _ _ fuel (fun n _ => n <= NEVER_W) _ _ _ _ _ _ _ SC); [|exact TK].
  intros u n l K. destruct (clock_see n u) as [n' s'] eqn:C. cbn [fst]. apply see_up in C as (_ & [Q|Q] & _); lia.
Qed.
Lemma create_read a d now rs y d' now' s : now < NEVER_W -> early rs ->
  create_branch sha fbits family (b_jread fbits fuel) (b_jprev fbits fuel) b_batch a fuel d now rs y false = Done (d', now', s) -> hd 0 rs <= now'.
Proof.
  intros L E H. destruct (create_up sha fbits fuel _ _ _ _ _ _ _ _ _ L E H) as (_ & _ & U). unfold first_event in U. rewrite tick_id in U.
  pose proof (early_hd _ E). destruct (tick_read a now (hd 0 rs) y) as [K|[K|K]]; lia.
Qed.

(* ---- names ---- *)
Lemma name_shape a b now rs n v b' u : b_name a b now rs n v = Done (b', u) -> in_order (br_main b) ->
  u = snd (clock_now a now (hd 0 rs) (uorigin (br_tip b))) /\ br_tip b' = br_tip b /\ same_but [NAMES_KEY] (br_main b) (br_main b') /\
  forall t, tipped (br_main b) t -> tipped (br_main b') t.
Proof.
  clear FB. intros H O. unfold b_name in H. destruct (one_op _ NIL _) as [f|]; [|discriminate]. apply rbind_done in H as ([d s] & W & H). injection H as <- <-. cbn [br_main br_tip].
  split; [reflexivity|]. split; [reflexivity|]. split; [exact (proj1 (write_but _ _ _ _ _ O names_no_end W))|]. intros t T. exact (tipped_write _ _ _ _ _ _ names_no_zero T W).
Qed.
Lemma name_inv h rs id n v h' c : h_name h rs id n v = Done (h', c) ->
  find_store (h_stores h) id = None /\ h' = h /\ c = CCrash \/
  exists b b' u, find_store (h_stores h) id = Some b /\ b_name (uorigin (h_active h)) b (h_now h) rs n v = Done (b', u) /\ c = CSays u /\
    h_stores h' = put_store (h_stores h) id b' /\ h_open h' = h_open h /\ h_active h' = h_active h /\
    h_now h' = fst (clock_now (uorigin (h_active h)) (h_now h) (hd 0 rs) (uorigin (br_tip b))).
Proof.
  clear FB. intro H. unfold h_name in H. destruct (find_store (h_stores h) id) as [b|] eqn:F; [|injection H as <- <-; auto]. right.
  apply rbind_done in H as ([b' u] & N & H). injection H as <- <-. exists b, b', u. cbn [h_stores h_open h_active h_now]. auto 8.
Qed.
Lemma sound_tipped h fr id b : sound h fr -> find_store (h_stores h) id = Some b -> exists t, tipped (br_main b) t /\ (version t = TIME \/ id = NIL /\ t = NIL).
Proof.
  clear FB. intros (_ & _ & _ & S4) F. pose proof (proj1 (Forall_forall _ _) S4 _ (find_in _ _ _ F)) as (_ & _ & _ & t & T & _ & V & _). eauto.
Qed.
Lemma sound_order h fr id b : sound h fr -> find_store (h_stores h) id = Some b -> in_order (br_main b).
Proof. clear FB. intros S F. destruct (sound_tipped _ _ _ _ S F) as (t & T & _). apply T. Qed.
Lemma name_sound h fr rs id n v h' u : sound h fr -> early rs -> h_name h rs id n v = Done (h', CSays u) -> h_now h' < NEVER_W -> sound h' fr /\ h_now h <= h_now h'.
Proof.
  clear FB. intros SH E H L. pose proof SH as (S1 & S2 & S3 & S4). destruct (name_inv _ _ _ _ _ _ _ H) as [(_ & _ & K)|(b & b' & u' & F & BN & _ & ST & O & AC & NW)]; [discriminate|].
  destruct (name_shape _ _ _ _ _ _ _ _ BN (sound_order _ _ _ _ SH F)) as (_ & BT & _ & KT).
  assert (M : h_now h <= h_now h') by (rewrite NW; pose proof (tick_up (uorigin (h_active h)) (h_now h) (hd 0 rs) (uorigin (br_tip b)) S1 (early_hd _ E)); lia).
  split; [|exact M]. split; [exact L|]. rewrite ST, (ids_put _ _ _ _ F). split; [exact S2|]. split; [exact S3|].
  apply Forall_put; [eapply Forall_impl; [|exact S4]; intro p; apply shape_on; [intros Q; rewrite O in Q; split; [exact Q|lia]|apply incl_refl]|].
  pose proof (proj1 (Forall_forall _ _) S4 _ (find_in _ _ _ F)) as (A & B & C & t & T1 & T2 & T3 & T4 & T5). cbn [fst snd] in *. unfold in_shape. cbn [fst snd]. rewrite BT.
  split; [exact A|]. split; [exact B|]. split; [intro Q; apply C; rewrite <- O; exact Q|]. exists t. split; [apply KT, T1|]. split; [exact T2|]. split; [exact T3|]. split; [exact T4|].
  intro Q. rewrite O in Q. specialize (T5 Q). lia.
Qed.

(* ---- the words of a line ---- *)
Lemma names_tip d t : b_names fbits fuel (mkBranch d t) = b_names fbits fuel (mkBranch d NIL).
Proof. reflexivity. Qed.
Lemma resolve_inv h name need w id : name = parse_uuid w -> resolve fbits fuel h name need true = Done (id, ROk) -> means (left_by h) w id.
Proof.
  clear FB. intros -> H. unfold resolve in H. destruct (version (parse_uuid w) =? NAME) eqn:V; cbn [negb] in H.
  2:{ injection H as <-. apply means_id. left. intro Q. apply N.eqb_neq in V. contradiction. }
  destruct (uuid_eqb (parse_uuid w) NIL) eqn:Z; [injection H as <-; apply means_id; right; apply uuid_eqb_eq; exact Z|].
  destruct (negb (need =? NUMERIC) && negb (base64_case (uvalue (parse_uuid w)) =? need)); [discriminate|].
  destruct (find_store (h_stores h) NIL) as [b|] eqn:F; [|discriminate]. apply rbind_done in H as ([l s] & R & H). destruct (is_ok s) eqn:E; cbn [negb] in H; [|injection H as _ ->; discriminate].
  apply is_ok_iff in E. subst s. destruct (names_get l (parse_uuid w)) as [v|] eqn:G; [|discriminate]. injection H as <-.
  apply N.eqb_eq in V. apply (means_name fbits fuel (left_by h) w l v V); [intro Q; rewrite Q in Z; discriminate| |exact G].
  exists (br_main b). split; [exact (find_family _ _ _ F)|]. destruct b as [d t]. exact R.
Qed.
Lemma scan_on_inv h args id r : scan_on fbits fuel h args = Done (id, r, ROk) ->
  args = [] /\ id = h_active h /\ r = [] \/ (args <> [] /\ id = NIL /\ r = args /\ hd [] args <> W_on) \/ exists w, args = W_on :: w :: r /\ means (left_by h) w id.
Proof.
  clear FB. intro H. unfold scan_on in H. destruct args as [|a t]; [injection H as <- <-; auto|]. right. destruct (bytes_eqb a W_on) eqn:E; cbn [negb] in H.
  2:{ injection H as <- <-. left. split; [discriminate|]. split; [reflexivity|]. split; [reflexivity|]. cbn [hd]. intros ->. vm_compute in E. discriminate E. }
  apply bytes_eqb_eq in E. subst a. right. destruct t as [|n r2]; [discriminate|]. cbv zeta in H. destruct (is_error (parse_uuid n)); [discriminate|].
  apply rbind_done in H as ([b2 s] & RS & H). destruct (is_ok s) eqn:E; cbn [negb] in H; [|injection H as _ _ ->; discriminate]. apply is_ok_iff in E. subst s.
  exists n. destruct (negb (uuid_eqb b2 NIL) && negb (has_branch h (uorigin b2))); [discriminate|]. injection H as <- <-. split; [reflexivity|]. exact (resolve_inv _ _ _ _ _ eq_refl RS).
Qed.
Lemma scan_tag_inv args tag : scan_tag args = Some tag -> args = [] /\ tag = NIL \/ exists n, args = [W_as; n] /\ tag = parse_uuid n /\ is_error tag = false /\ base64_case (uvalue tag) = CAMEL.
Proof.
  clear FB. intro H. unfold scan_tag in H. destruct args as [|a [|n [|x r]]]; try discriminate; [injection H as <-; auto|]. right.
  destruct (bytes_eqb a W_as) eqn:E; [|discriminate]. apply bytes_eqb_eq in E. subst a. exists n. split; [reflexivity|]. cbv zeta in H.
  destruct (is_error (parse_uuid n)) eqn:E1; cbn [orb] in H; [discriminate|]. destruct (base64_case (uvalue (parse_uuid n)) =? CAMEL) eqn:E2; cbn [negb] in H; [|discriminate].
  injection H as <-. apply N.eqb_eq in E2. auto.
Qed.
Lemma quiet_name i : changes i = false -> says_name i = None.
Proof.
  clear FB. unfold changes, says_name. destruct (i_args i) as [|verb args]; [reflexivity|]. cbn [existsb]. destruct (bytes_eqb verb W_create); [discriminate|]. destruct (bytes_eqb verb W_name); [rewrite !orb_true_r; discriminate|]. intros _.
  destruct args as [|x [|y [|z [|u [|v [|w r]]]]]]; reflexivity.
Qed.

(* ---- what a command comes to, in an open replica ---- *)
Inductive outcome (h : host) (i : invocation) : host -> cstatus -> Prop :=
| out_same h' s : h_stores h' = h_stores h -> (succeeds s -> changes i = false) -> outcome h i h' s
| out_create args h' m b f d : i_args i = W_create :: args -> find_store (h_stores h) NIL = Some m -> find_store (h_stores h) (branch_id (i_random i)) = None ->
    b_write (br_main m) ACTIVE_KEY f = Done (d, ROk) ->
    (says_name i = None /\ h_stores h' = put_store (h_stores h ++ [(branch_id (i_random i), b)]) NIL (mkBranch d (br_tip m)) \/
     exists tag now rs u b2, says_name i = Some (tag, branch_id (i_random i)) /\ b_name (uorigin (branch_id (i_random i))) (mkBranch d (br_tip m)) now rs tag (branch_id (i_random i)) = Done (b2, u) /\
       hd 0 (i_readings i) <= uvalue u /\ uvalue u <= h_now h' /\ h_stores h' = put_store (h_stores h ++ [(branch_id (i_random i), b)]) NIL b2) ->
    outcome h i h' (CSays (branch_id (i_random i)))
| out_drop w args id b h' : i_args i = W_drop :: w :: args -> means (left_by h) w id -> id <> NIL -> find_store (h_stores h) id = Some b -> h_stores h' = drop_store (h_stores h) id -> outcome h i h' cok
| out_hop args m f d h' : i_args i = W_hop :: args -> find_store (h_stores h) NIL = Some m -> b_write (br_main m) ACTIVE_KEY f = Done (d, ROk) ->
    h_stores h' = put_store (h_stores h) NIL (mkBranch d (br_tip m)) -> outcome h i h' cok
| out_name x n tail id b b' u h' : i_args i = W_name :: x :: W_as :: n :: tail -> (tail = [] /\ id = NIL \/ exists w, tail = [W_on; w] /\ means (left_by h) w id) ->
    version (parse_uuid x) = TIME -> find_store (h_stores h) id = Some b -> b_name 0 b (h_now h) (i_readings i) (parse_uuid n) (parse_uuid x) = Done (b', u) ->
    hd 0 (i_readings i) <= uvalue u -> uvalue u <= h_now h' -> h_stores h' = put_store (h_stores h) id b' -> outcome h i h' (CSays u).
Definition arrives (h : host) (i : invocation) (h' : host) (s : cstatus) : Prop := outcome h i h' s /\ (exists fr, sound h' fr) /\ h_now h <= h_now h'.
Lemma same_sound h fr h' : sound h fr -> h_stores h' = h_stores h -> h_open h' = h_open h -> h_now h <= h_now h' -> h_now h' < NEVER_W -> sound h' fr.
Proof.
  clear FB. intros (S1 & S2 & S3 & S4) ST O M L. split; [exact L|]. rewrite ST. split; [exact S2|]. split; [exact S3|]. eapply Forall_impl; [|exact S4]. intro p.
  apply shape_on; [intros Q; rewrite O in Q; auto|apply incl_refl].
Qed.
Lemma stays h fr i s : sound h fr -> (succeeds s -> changes i = false) -> arrives h i h s.
Proof. clear FB. intros S N. split; [apply out_same; [reflexivity|exact N]|]. split; [eauto|lia]. Qed.
Lemma tick_on a now r o : r < NEVER_W -> now <= NEVER_W -> fst (clock_now a now r o) <= NEVER_W + 1.
Proof.
  clear FB. intros A B. unfold clock_now. cbn [fst]. destruct (N.ltb_spec now r); [lia|].
  rewrite N.mod_small by (assert (NW : NEVER_W = 1134907106097364992) by reflexivity; rewrite NW in *; change two64 with 18446744073709551616; lia). lia.
Qed.
Lemma tick_back2 a now r o : r < NEVER_W -> now <= NEVER_W + 1 -> fst (clock_now a now r o) < NEVER_W -> now < NEVER_W.
Proof.
  clear FB. intros A B. unfold clock_now. cbn [fst]. destruct (N.ltb_spec now r); [lia|].
  rewrite N.mod_small by (assert (NW : NEVER_W = 1134907106097364992) by reflexivity; rewrite NW in *; change two64 with 18446744073709551616; lia). lia.
Qed.
Lemma active_sound h fr rs id h' s : sound h fr -> early rs -> h_activate h rs id = Done (h', s) -> h_now h' < NEVER_W -> sound h' fr /\ h_now h <= h_now h'.
Proof.
  intros S E H L. destruct (step_sound sha fbits fuel FB h fr (HActivate rs id) h' s S E H L) as [K _]. cbn [then_fresh] in K. split; [exact K|].
  destruct (activate_inv _ _ _ _ _ H) as [(-> & _)|(m & d & f & u & _ & _ & _ & _ & C & _)]; [lia|]. apply (f_equal fst) in C. cbn [fst] in C. rewrite C.
  pose proof (tick_up (uorigin (h_active h)) (h_now h) (hd 0 rs) 0 (proj1 S) (early_hd _ E)). lia.
Qed.
Lemma camel_not_nil t : base64_case (uvalue t) = CAMEL -> uuid_eqb t NIL = false.
Proof. clear FB. intro C. destruct (uuid_eqb t NIL) eqn:E; [|reflexivity]. apply uuid_eqb_eq in E. subst t. vm_compute in C. discriminate C. Qed.

Lemma create_out h i args h' s : opened h -> early (i_readings i) -> 0 < i_random i -> i_args i = W_create :: args ->
  cmd_create sha fbits fuel h (i_readings i) (i_random i) args = Done (h', s) -> h_now h' < NEVER_W -> arrives h i h' s.
Proof.
  intros (S & O & AC & NZ) E Y IA H L. unfold cmd_create in H. destruct (scan_tag args) as [tag|] eqn:T; [|injection H as <- <-; apply (stays _ [] _ _ S); intros []].
  apply rbind_done in H as ([h1 s1] & C & H). assert (L1 : h_now h1 <= NEVER_W).
  { destruct (create_inv _ _ _ _ _ _ _ _ _ C) as [(_ & _ & _ & _ & _ & _ & ->)|(_ & _ & _ & b & d0 & _ & _ & CB & _)].
    - apply tick_up; [apply S|apply early_hd; exact E].
    - exact (create_low _ _ _ _ _ _ _ _ (proj1 S) E CB). }
  destruct (is_ok s1) eqn:OK; cbn [negb] in H.
  2:{ injection H as <- <-. destruct (create_shape sha fbits fuel FB h [] _ _ _ _ _ S E (or_intror (not_eq_sym (N.lt_neq _ _ Y))) C L) as [S1 _].
    destruct (create_inv _ _ _ _ _ _ _ _ _ C) as [(_ & _ & Q & ST & _ & O1 & NW)|(_ & F & (m & FM) & b & d0 & _ & BN & CB & ST & _)].
    - split; [apply out_same; [exact ST|intros []]|]. split; [eauto|]. rewrite NW. pose proof (tick_up (uorigin (h_active h)) (h_now h) (hd 0 (i_readings i)) (i_random i) (proj1 S) (early_hd _ E)). lia.
    - exfalso. destruct (create_up sha fbits fuel _ _ _ _ _ _ _ _ _ (proj1 S) E CB) as (_ & _ & U).
      destruct (new_tip sha fbits (uorigin (h_active h)) fuel _ _ _ _ _ _ (N.le_lt_trans _ _ _ U L) BN) as (-> & _). discriminate OK. }
  apply is_ok_iff in OK. subst s1. unfold settle_branch in H. apply rbind_done in H as ([h2 s2] & A & H).
  destruct (create_inv _ _ _ _ _ _ _ _ _ C) as [(_ & _ & Q & _)|(_ & F & (m & FM) & b & d0 & _ & BN & CB & ST & AC1 & O1)]; [discriminate|].
  assert (FB1 : find_store (h_stores h1) (branch_id (i_random i)) = Some b).
  { rewrite ST, (find_app _ _ _ _ F), (proj2 (uuid_eqb_eq _ _) eq_refl). reflexivity. }
  assert (FN1 : find_store (h_stores h1) NIL = Some m) by (rewrite ST, (find_app _ _ _ _ F), (eqb_other _ _ (branch_nil _)); exact FM).
  destruct (activate_inv _ _ _ _ _ A) as [(_ & _ & [K|K])|(m2 & d & f & u & _ & _ & FM2 & -> & CK & OP & W & AC2 & O2 & ST2)]; [congruence|congruence|].
  rewrite FN1 in FM2. injection FM2 as <-. cbn [is_ok negb] in H. apply (f_equal fst) in CK. cbn [fst] in CK.
  assert (R0 := early_hd _ (early_tl _ E)). assert (L2 : h_now h2 <= NEVER_W + 1) by (rewrite CK; apply tick_on; assumption).
  assert (EX : h_now h2 < NEVER_W -> h_now h1 < NEVER_W) by (rewrite CK; apply tick_back; assumption).
  assert (SH : h_now h2 < NEVER_W -> sound h2 [branch_id (i_random i)] /\ h_now h <= h_now h2 /\ hd 0 (i_readings i) <= h_now h2).
  { intro K. destruct (create_shape sha fbits fuel FB h [] _ _ _ _ _ S E (or_intror (not_eq_sym (N.lt_neq _ _ Y))) C (EX K)) as [S1 _]. cbn in S1.
    destruct (active_sound _ _ _ _ _ _ S1 (early_tl _ E) A K) as [S2 M2]. split; [exact S2|].
    destruct (create_up sha fbits fuel _ _ _ _ _ _ _ _ _ (proj1 S) E CB) as (M1 & _). pose proof (create_read _ _ _ _ _ _ _ _ (proj1 S) E CB). split; lia. }
  destruct (scan_tag_inv _ _ T) as [[-> ->]|(n & -> & -> & NE & CM)].
  - change (uuid_eqb NIL NIL) with true in H. cbn iota in H. injection H as <- <-. destruct (SH L) as (S2 & M2 & _). split; [|split; [eauto|exact M2]].
    apply (out_create h i [] h2 m b f d IA FM F W). left. split; [unfold says_name; rewrite IA; reflexivity|]. rewrite ST2, ST. reflexivity.
  - rewrite (camel_not_nil _ CM) in H. apply rbind_done in H as ([h3 s3] & N & H). injection H as <- <-.
    assert (FN2 : find_store (h_stores h2) NIL = Some (mkBranch d (br_tip m))) by (rewrite ST2, find_put; reflexivity).
    destruct (name_inv _ _ _ _ _ _ _ N) as [(K & _)|(b2 & b3 & u3 & F2 & BN2 & -> & ST3 & O3 & AC3 & NW)]; [congruence|]. rewrite FN2 in F2. injection F2 as <-.
    assert (K2 : h_now h2 < NEVER_W) by (assert (K := L); rewrite NW in K; exact (tick_back2 _ _ _ _ (early_hd _ (early_tl _ (early_tl _ E))) L2 K)).
    destruct (SH K2) as (S2 & M2 & R2). destruct (name_sound _ _ _ _ _ _ _ _ S2 (early_tl _ (early_tl _ E)) N L) as [S3 M3]. split; [|split; [eauto|lia]].
    apply (out_create h i [W_as; n] h3 m b f d IA FM F W). right. exists (parse_uuid n), (h_now h2), (tl (tl (i_readings i))), u3, b3.
    split; [unfold says_name; rewrite IA; reflexivity|]. rewrite AC2 in BN2. split; [exact BN2|].
    assert (U : uvalue u3 = h_now h3) by (destruct (name_shape _ _ _ _ _ _ _ _ BN2 (sound_order _ _ _ _ S2 FN2)) as (-> & _); rewrite NW, AC2; reflexivity).
    split; [lia|]. split; [lia|]. rewrite ST3, ST2, ST. clear. generalize (h_stores h ++ [(branch_id (i_random i), b)]). intro l. induction l as [|[j x] l IH]; [reflexivity|].
    cbn [put_store]. destruct (uuid_eqb j NIL) eqn:Q; cbn [put_store]; rewrite Q; [reflexivity|]. rewrite IH. reflexivity.
Qed.
Lemma name_out h i args h' s : opened h -> early (i_readings i) -> i_args i = W_name :: args -> cmd_name fbits fuel h (i_readings i) args = Done (h', s) -> h_now h' < NEVER_W -> arrives h i h' s.
Proof.
  intros (S & O & AC & NZ) E IA H L. assert (ST := stays h [] i). unfold cmd_name in H. destruct args as [|x r]; [injection H as <- <-; apply ST; [exact S|intros []]|]. cbv zeta in H.
  destruct (is_error (parse_uuid x)) eqn:E1; cbn [orb] in H; [injection H as <- <-; apply ST; [exact S|intros []]|].
  destruct (version (parse_uuid x) =? TIME) eqn:V; cbn [negb] in H; [|injection H as <- <-; apply ST; [exact S|intros []]].
  destruct (scan_as NUMERIC r) as [[name r2]|] eqn:SA; [|injection H as <- <-; apply ST; [exact S|intros []]].
  destruct (uuid_zero name) eqn:Z; [injection H as <- <-; apply ST; [exact S|intros []]|].
  apply rbind_done in H as ([[br r3] s2] & SO & H). destruct (is_ok s2) eqn:OK; cbn [negb] in H; [|injection H as <- <-; apply ST; [exact S|intros []]]. apply is_ok_iff in OK. subst s2.
  destruct r3 as [|y r3]; [|injection H as <- <-; apply ST; [exact S|intros []]].
  destruct (name_inv _ _ _ _ _ _ _ H) as [(_ & -> & ->)|(b & b' & u & F & BN & -> & ST1 & O1 & AC1 & NW)]; [apply ST; [exact S|intros []]|].
  destruct (name_sound _ _ _ _ _ _ _ _ S E H L) as [S1 M1]. split; [|split; [eauto|exact M1]].
  assert (A : exists n, r = W_as :: n :: r2 /\ name = parse_uuid n).
  { unfold scan_as in SA. destruct r as [|a r]; [injection SA as <- <-; discriminate Z|]. destruct (bytes_eqb a W_as) eqn:EA; cbn [negb] in SA; [|injection SA as <- <-; discriminate Z].
    apply bytes_eqb_eq in EA. subst a. destruct r as [|n r4]; [discriminate|]. cbv zeta in SA. destruct (is_error (parse_uuid n) || _ || _); [discriminate|]. injection SA as <- <-. eauto. }
  destruct A as (n & -> & ->). rewrite AC in BN. destruct (name_shape _ _ _ _ _ _ _ _ BN (sound_order _ _ _ _ S F)) as (U & _).
  assert (UV : uvalue u = h_now h') by (rewrite U, NW, AC; reflexivity). apply N.eqb_eq in V.
  apply (out_name h i x n r2 br b b' u h' IA); [|exact V|exact F|exact BN| |lia|exact ST1].
  - destruct (scan_on_inv _ _ _ _ SO) as [(-> & -> & _)|[(K1 & _ & K2 & _)|(w & -> & K)]]; [left; auto|congruence|right; eauto].
  - rewrite UV, NW. destruct (tick_read (uorigin (h_active h)) (h_now h) (hd 0 (i_readings i)) (uorigin (br_tip b))) as [K|[K|K]]; [exact K| |]; pose proof (early_hd _ E); pose proof (proj1 S); lia.
Qed.
Lemma hop_out h i args h' s : opened h -> early (i_readings i) -> i_args i = W_hop :: args -> cmd_hop fbits fuel h (i_readings i) args = Done (h', s) -> h_now h' < NEVER_W -> arrives h i h' s.
Proof.
  intros (S & O & AC & NZ) E IA H L. assert (ST := stays h [] i). unfold cmd_hop in H. apply rbind_done in H as ([[id r] s1] & SO & H).
  destruct (is_ok s1) eqn:OK; cbn [negb] in H; [|injection H as <- <-; apply ST; [exact S|intros []]]. apply rbind_done in H as ([h1 s2] & A & H). injection H as <- <-.
  destruct (active_sound _ _ _ _ _ _ S E A L) as [S1 M1].
  destruct (activate_inv _ _ _ _ _ A) as [(-> & -> & _)|(m & d & f & u & _ & _ & FM & -> & CK & OP & W & AC2 & O2 & ST2)]; [apply ST; [exact S|intros []]|]. cbn [is_ok].
  split; [|split; [eauto|exact M1]]. exact (out_hop h i args m f d h1 IA FM W ST2).
Qed.
Lemma drop_out h i args h' s : opened h -> i_args i = W_drop :: args -> cmd_drop fbits fuel h args = Done (h', s) -> h_now h' < NEVER_W -> arrives h i h' s.
Proof.
  intros (S & O & AC & NZ) IA H L. assert (ST := stays h [] i). unfold cmd_drop in H. destruct args as [|w args]; [injection H as <- <-; apply ST; [exact S|intros []]|].
  apply rbind_done in H as ([[id r] s1] & SO & H). destruct (is_ok s1) eqn:OK; cbn [negb] in H; [|injection H as <- <-; apply ST; [exact S|intros []]]. apply is_ok_iff in OK. subst s1.
  destruct (uuid_eqb id NIL) eqn:Z; [injection H as <- <-; apply ST; [exact S|intros []]|]. destruct (h_drop h id) as [h1 s1] eqn:D. injection H as <- <-.
  destruct (drop_inv _ _ _ _ D) as [(-> & K & _)|(-> & _ & NI & (b & F) & NW & _ & _ & ST1)]; [destruct s1; try (apply ST; [exact S|intros []]); congruence|]. cbn [is_ok].
  destruct (scan_on_inv _ _ _ _ SO) as [(K & _)|[(_ & _ & _ & K)|(w2 & K & M)]]; [discriminate|contradiction K; reflexivity|]. injection K as <- <-.
  assert (SD : h_step sha fbits fuel h (HDrop id) = Done (h1, ROk)) by (cbn [h_step]; rewrite D; reflexivity).
  destruct (step_sound sha fbits fuel FB h [] (HDrop id) h1 ROk S Logic.I SD L) as [S1 _]. split; [|split; [eauto|lia]]. exact (out_drop h i w args id b h1 IA M NI F ST1).
Qed.
Lemma write_out h i args h' s : opened h -> early (i_readings i) -> i_args i = W_write :: args -> cmd_write sha fbits fuel h (i_readings i) (i_file i) args = Done (h', s) -> h_now h' < NEVER_W -> arrives h i h' s.
Proof.
  intros (S & O & AC & NZ) E IA H L. unfold cmd_write in H. cbv zeta in H.
  pose proof (tick_up (uorigin (h_active h)) (h_now h) (hd 0 (i_readings i)) 0 (proj1 S) (early_hd _ E)) as [T1 T2].
  remember (mkHost (fst (clock_now (uorigin (h_active h)) (h_now h) (hd 0 (i_readings i)) 0)) (h_active h) (h_open h) (h_stores h)) as h0 eqn:E0 in H.
  assert (SAME : h' = h0).
  { destruct (i_file i match args with [] => [45] | a :: _ => a end) as [f|]; [|injection H as <- _; reflexivity]. apply rbind_done in H as ([h1 s1] & R & H). injection H as <- _.
    destruct (receive_inv _ _ _ _ _ _ _ _ _ R) as [(_ & -> & _)|(_ & [(_ & -> & _)|[(_ & _ & -> & _)|(b & d & _ & F & _)]])]; try reflexivity.
    exfalso. apply NZ. apply find_ids. subst h0. cbn [h_stores] in F. eauto. }
  clear H. subst h' h0. cbn [h_now] in L. split; [|split].
  - apply out_same; [reflexivity|]. intros _. unfold changes. rewrite IA. reflexivity.
  - exists []. apply (same_sound h); [exact S|reflexivity|reflexivity| |exact L]. cbn [h_now]. lia.
  - cbn [h_now]. lia.
Qed.
Lemma command_out h i h' s out : opened h -> early (i_readings i) -> 0 < i_random i -> CliModel.command sha fbits fuel order h i = Done (h', s, out) -> h_now h' < NEVER_W -> arrives h i h' s.
Proof.
  intros OH E Y H L. pose proof OH as (S & O & AC & NZ). unfold CliModel.command in H. destruct (i_args i) as [|verb args] eqn:IA.
  { injection H as <- <- _. apply (stays _ [] _ _ S). intros _. unfold changes. rewrite IA. reflexivity. }
  cbv zeta in H.
  assert (QT : forall r, quiet h r = Done (h', s, out) -> h' = h) by (intros r Q; unfold quiet in Q; apply rbind_done in Q as (x & _ & Q); injection Q as <- _ _; reflexivity).
  assert (LD : forall r, loud h r = Done (h', s, out) -> h' = h) by (intros r Q; unfold loud in Q; apply rbind_done in Q as ([x y] & _ & Q); injection Q as <- _ _; reflexivity).
  assert (AT : forall r, acting r = Done (h', s, out) -> r = Done (h', s)) by (intros r Q; unfold acting in Q; apply rbind_done in Q as ([x y] & Q1 & Q); injection Q as -> -> _; exact Q1).
  assert (SO : changes i = existsb (bytes_eqb verb) [W_create; W_drop; W_hop; W_name]) by (unfold changes; rewrite IA; reflexivity).
  assert (SAME : existsb (bytes_eqb verb) [W_create; W_drop; W_hop; W_name] = false -> h' = h -> arrives h i h' s) by (intros A ->; apply (stays _ [] _ _ S); intros _; congruence).
  assert (VN : forall w, bytes_eqb verb w = true -> verb = w) by (intros w Q; apply bytes_eqb_eq; exact Q).
  destruct (bytes_eqb verb W_create) eqn:V0; [apply VN in V0; subst verb; apply AT in H; exact (create_out _ _ _ _ _ OH E Y IA H L)|].
  destruct (bytes_eqb verb W_fork) eqn:V1.
  { apply VN in V1. subst verb. apply AT in H. unfold cmd_fork in H. rewrite AC in H. change (uuid_eqb NIL NIL) with true in H. cbn iota in H. injection H as <- <-. apply SAME; reflexivity. }
  destruct (bytes_eqb verb W_now) eqn:V2.
  { apply VN in V2. subst verb. pose proof (tick_up (uorigin (h_active h)) (h_now h) (hd 0 (i_readings i)) 0 (proj1 S) (early_hd _ E)) as [T1 T2].
    destruct (clock_now (uorigin (h_active h)) (h_now h) (hd 0 (i_readings i)) 0) as [now u]. cbn [fst] in *. injection H as <- <- _. cbn [h_now] in L. split; [apply out_same; [reflexivity|intros _; rewrite SO; reflexivity]|].
    cbn [h_now]. split; [|lia]. exists []. apply (same_sound h); [exact S|reflexivity|reflexivity| |exact L]. cbn [h_now]. lia. }
  destruct (bytes_eqb verb W_dump) eqn:V3; [apply VN in V3; subst verb; apply LD in H; apply SAME; auto|].
  destruct (bytes_eqb verb W_get) eqn:V4; [apply VN in V4; subst verb; apply LD in H; apply SAME; auto|].
  destruct (bytes_eqb verb W_new) eqn:V5; [apply VN in V5; subst verb; apply QT in H; apply SAME; auto|].
  destruct (bytes_eqb verb W_list) eqn:V6; [apply VN in V6; subst verb; apply LD in H; apply SAME; auto|].
  destruct (bytes_eqb verb W_named) eqn:V7; [apply VN in V7; subst verb; apply LD in H; apply SAME; auto|].
  destruct (bytes_eqb verb W_name) eqn:V8; [apply VN in V8; subst verb; apply AT in H; exact (name_out _ _ _ _ _ OH E IA H L)|].
  destruct (bytes_eqb verb W_write) eqn:V9; [apply VN in V9; subst verb; apply AT in H; exact (write_out _ _ _ _ _ OH E IA H L)|].
  destruct (bytes_eqb verb W_recall) eqn:V10; [apply VN in V10; subst verb; apply LD in H; apply SAME; auto|].
  destruct (bytes_eqb verb W_hop) eqn:V11; [apply VN in V11; subst verb; apply AT in H; exact (hop_out _ _ _ _ _ OH E IA H L)|].
  destruct (bytes_eqb verb W_drop) eqn:V12; [apply VN in V12; subst verb; apply AT in H; exact (drop_out _ _ _ _ _ OH IA H L)|].
  destruct (bytes_eqb verb W_on) eqn:V13; [apply VN in V13; subst verb; apply QT in H; apply SAME; auto|].
  injection H as <- <- _. apply SAME; [cbn [existsb]; rewrite V0, V8, V11, V12|]; reflexivity.
Qed.

(* ---- a whole process ---- *)
(* what it comes to: an open replica over the database as it is, and an outcome *)
Lemma cli_out fs i p : world_ok fs -> calm i p -> CliModel.cli sha fbits fuel order fs i = Done p ->
  exists h h', opened h /\ left_by h = fs /\ p_families p = left_by h' /\ p_clock p = h_now h' /\ arrives h i h' (p_status p) \/ i_args i = [] /\ p_families p = fs /\ p_status p = cok /\ h = h'.
Proof.
  intros WO (E & Y & L) H. unfold CliModel.cli in H. destruct (i_args i) as [|verb args] eqn:IA.
  { injection H as <-. exists (shut fs), (shut fs). right. auto. }
  apply rbind_done in H as ([h s] & R & H). destruct (reopen_ok _ _ _ WO R) as (-> & OH & LF). cbn [is_ok negb] in H. apply rbind_done in H as ([[h1 c] out] & C & H). injection H as <-. cbn [p_families p_status p_clock] in *.
  exists h, h1. left. split; [exact OH|]. split; [exact LF|]. split; [reflexivity|]. split; [reflexivity|]. exact (command_out _ _ _ _ _ OH E (proj1 Y) C L).
Qed.
End Cli.
