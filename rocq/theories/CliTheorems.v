(* C64 and C67: what the commands of swarmdb do to the database. *)
From Coq Require Import Permutation.
From Verif Require Import Prelude UuidModel UuidProofs KeyModel CodecModel CodecTheorems TextModel TextSpec BuilderSpec MergeModel MergeTextModel MergeKeeps StoreModel StoreSpec
  StoreProofs RocksModel RocksSpec RocksProofs MetaModel ClockModel ReplicaModel ReplicaSpec ReplicaProofs BranchModel BranchSpec BranchProofs ForkModel
  HostModel HostSpec HostProofs HostTheorems NamesModel CliModel CliSpec CliProofs.
From Verif Require ClockTheorems.

Section Cli.
Variable sha : bytes -> bytes.
Variable fbits : bytes -> N.
Variable fuel : nat.
Variable order : list (uuid * uuid) -> list (uuid * uuid).
Hypothesis FB : 2 * N.of_nat fuel < ROOM.
Notation cli := (cli sha fbits fuel order).
Notation means := (means fbits fuel).
Notation effect := (effect fbits fuel).
Notation session := (session sha fbits fuel order).
Notation runs := (runs sha fbits fuel order).

Lemma branch_inj y z : y < 2 ^ 60 -> z < 2 ^ 60 -> branch_id y = branch_id z -> y = z.
Proof. clear FB. intros A B E. unfold branch_id in E. apply (f_equal uorigin) in E. rewrite !ClockTheorems.time_origin, !N.mod_small in E by assumption. lia. Qed.

Lemma out_effect h i h' s : sound h [] -> 0 < i_random i < 2 ^ 60 -> ~ In (branch_id 0) (map fst (h_stores h)) -> outcome fbits fuel h i h' s ->
  effect (left_by h) i s (left_by h') /\ ~ In (branch_id 0) (map fst (left_by h')).
Proof.
  clear FB. intros S Y NZ O. rewrite ids_left. destruct O as [h' s ST Q|args h' m b f d IA FM F W C|w args id b h' IA M NI F ST|args m f d h' IA FM W ST|x n tail id b b' u h' IA TL VX F BN R1 R2 ST].
  - rewrite ST. split; [|exact NZ]. assert (E : left_by h' = left_by h) by (unfold left_by; rewrite ST; reflexivity). rewrite E. apply ef_none. exact Q.
  - destruct (write_but _ _ _ _ _ (sound_order _ _ _ _ S FM) active_not_end W) as [SB _].
    assert (X : exists b2, h_stores h' = put_store (h_stores h ++ [(branch_id (i_random i), b)]) NIL b2 /\ same_but [ACTIVE_KEY; NAMES_KEY] (br_main m) (br_main b2)).
    { destruct C as [(_ & ST)|(tag & now & rs & u & b2 & _ & BN & _ & _ & ST)].
      - exists (mkBranch d (br_tip m)). split; [exact ST|]. intros k NK. apply SB. intros [<-|[]]. apply NK. left. reflexivity.
      - exists b2. split; [exact ST|]. destruct (name_shape _ _ _ _ _ _ _ _ BN) as (_ & _ & SB2 & _).
        { cbn [br_main]. destruct (sound_tipped _ _ _ _ S FM) as (t & T & _). eapply (tipped_write _ _ _ _ _ _ active_not_zero T W). }
        cbn [br_main] in SB2. intros k NK. rewrite SB2 by (intros [<-|[]]; apply NK; right; left; reflexivity). apply SB. intros [<-|[]]. apply NK. left. reflexivity. }
    destruct X as (b2 & ST & SB2). assert (FN : find_store (h_stores h ++ [(branch_id (i_random i), b)]) NIL = Some m) by (rewrite (find_app _ _ _ _ F), (eqb_other _ _ (branch_nil _)); exact FM).
    assert (IDS : map fst (h_stores h') = map fst (h_stores h) ++ [branch_id (i_random i)]) by (rewrite ST, (ids_put _ _ _ _ FN), map_app; reflexivity).
    destruct (put_split _ _ b2 _ FN) as (l1 & l2 & E1 & E2). rewrite families_app in E1.
    assert (L : left_by h' = l1 ++ (NIL, br_main b2) :: l2) by (rewrite <- E2; unfold left_by; rewrite ST; reflexivity).
    split.
    + apply (ef_create fbits fuel (left_by h) i args (left_by h') IA).
      * rewrite ids_left. apply find_out. exact F.
      * rewrite !ids_left. exact IDS.
      * intros id d0 NI I. rewrite L. assert (J : In (id, d0) (l1 ++ (NIL, br_main m) :: l2)) by (rewrite <- E1; apply in_or_app; left; exact I).
        apply in_app_iff in J as [J|[J|J]]; [apply in_or_app; auto|injection J as J _; congruence|apply in_or_app; right; right; exact J].
      * intros d0 I. exists (br_main b2). split; [rewrite L; apply in_or_app; right; left; reflexivity|].
        destruct (family_find _ _ _ (proj1 (proj2 S)) I) as (m2 & F2 & <-). rewrite FM in F2. injection F2 as <-. exact SB2.
    + rewrite IDS. intro J. apply in_app_iff in J as [J|[J|[]]]; [exact (NZ J)|]. apply branch_inj in J; [lia|apply Y|reflexivity].
  - destruct (drop_split _ _ _ (proj1 (proj2 S)) F) as (l1 & l2 & E1 & E2). assert (L : left_by h' = l1 ++ l2) by (rewrite <- E2; unfold left_by; rewrite ST; reflexivity). split.
    + rewrite L. exact (ef_drop fbits fuel (left_by h) i w args l1 id (br_main b) l2 IA M NI E1).
    + rewrite <- ids_left, L. intro J. apply NZ. rewrite <- ids_left. unfold left_by. fold (families (h_stores h)). rewrite E1. rewrite map_app in *. cbn [map fst]. apply in_app_iff in J as [J|J]; apply in_or_app; [left|right; right]; exact J.
  - destruct (write_but _ _ _ _ _ (sound_order _ _ _ _ S FM) active_not_end W) as [SB _]. destruct (put_split _ _ (mkBranch d (br_tip m)) _ FM) as (l1 & l2 & E1 & E2). cbn [br_main] in E2.
    assert (L : left_by h' = l1 ++ (NIL, d) :: l2) by (rewrite <- E2; unfold left_by; rewrite ST; reflexivity). split; [rewrite L; exact (ef_hop fbits fuel (left_by h) i args l1 (br_main m) d l2 IA E1 SB)|].
    rewrite ST, (ids_put _ _ _ _ FM). exact NZ.
  - destruct (name_shape _ _ _ _ _ _ _ _ BN (sound_order _ _ _ _ S F)) as (_ & _ & SB & _). destruct (put_split _ _ b' _ F) as (l1 & l2 & E1 & E2).
    assert (L : left_by h' = l1 ++ (id, br_main b') :: l2) by (rewrite <- E2; unfold left_by; rewrite ST; reflexivity). split; [rewrite L; exact (ef_name fbits fuel (left_by h) i x n tail l1 id (br_main b) (br_main b') l2 u IA TL E1 SB)|].
    rewrite ST, (ids_put _ _ _ _ F). exact NZ.
Qed.

(* C64: a command does to the database what its effect allows, and the database
   stays in order *)
Theorem C64_effect fs i p : world_ok fs -> calm i p -> cli fs i = Done p -> effect fs i (p_status p) (p_families p) /\ world_ok (p_families p).
Proof.
  intros WO CM H. destruct (cli_out _ _ _ order FB _ _ _ WO CM H) as (h & h' & [((S & O & AC & NZ) & <- & PF & PC & A & (fr & S1) & M)|(IA & -> & -> & _)]).
  - rewrite PF. destruct (out_effect _ _ _ _ S (proj1 (proj2 CM)) NZ A) as [E N]. split; [exact E|]. split; [apply (sound_left _ _ S1)|exact N].
  - split; [|exact WO]. apply ef_none. intros _. unfold changes. rewrite IA. reflexivity.
Qed.
(* a command that fails, or is not one of those that write, leaves no trace *)
Theorem C64_fails fs i p : world_ok fs -> calm i p -> cli fs i = Done p -> ~ succeeds (p_status p) -> p_families p = fs.
Proof.
  intros WO CM H NS. destruct (C64_effect _ _ _ WO CM H) as [E _]. inversion E; subst; try reflexivity; exfalso; apply NS;
    match goal with Q : _ = p_status p |- _ => rewrite <- Q end; exact Logic.I.
Qed.
Theorem C64_reads fs i p : world_ok fs -> calm i p -> cli fs i = Done p -> changes i = false -> p_families p = fs.
Proof.
  intros WO CM H CH. destruct (C64_effect _ _ _ WO CM H) as [E _]. unfold changes in CH.
  inversion E; subst; try reflexivity; match goal with IA : i_args i = _ |- _ => rewrite IA in CH end; discriminate CH.
Qed.
(* over any session, compactions included *)
Theorem C64_session fs l fs' : session fs l fs' -> Forall (fun x => calm (fst x) (snd x)) l -> world_ok fs -> world_ok fs'.
Proof.
  induction 1 as [fs|fs i p r fs' C S IH|fs id k e h s r fs' C S IH]; intros F W; [exact W| |].
  - inversion F as [|? ? F1 F2]; subst. apply IH; [exact F2|]. exact (proj2 (C64_effect _ _ _ W F1 C)).
  - apply IH; [exact F|]. destruct W as [S0 N0]. assert (L : h_now h < NEVER_W).
    { destruct (compact_inv _ _ _ _ _ _ _ _ C) as (_ & -> & _). exact (proj1 S0). }
    destruct (step_sound sha fbits fuel FB (shut fs) [] (HCompact id k e) h s S0 Logic.I C L) as [S1 G]. split; [exact (sound_left _ _ S1)|].
    rewrite ids_left. destruct (compact_inv _ _ _ _ _ _ _ _ C) as (_ & _ & _ & _ & [(_ & ->)|(b & d & F0 & _ & ->)]); [rewrite ids_shut; exact N0|]. rewrite (ids_put _ _ _ _ F0), ids_shut. exact N0.
Qed.

Lemma left_inv (r : res (host * rstatus)) fs s : rbind r (fun '(h, s) => Done (left_by h, s)) = Done (fs, s) -> exists h, r = Done (h, s) /\ fs = left_by h.
Proof. clear FB. intro H. apply rbind_done in H as ([h s0] & N & H). injection H as <- <-. eauto. Qed.
Lemma init_inv reading fs s : init sha fbits fuel reading = Done (fs, s) -> exists h, h_new sha fbits fuel reading = Done (h, s) /\ fs = left_by h.
Proof. clear FB. exact (left_inv (h_new sha fbits fuel reading) fs s). Qed.
(* from the creation of the replica on *)
Theorem C64_init reading fs s : reading < NEVER_W -> init sha fbits fuel reading = Done (fs, s) -> s = ROk /\ world_ok fs /\ map fst fs = [NIL].
Proof.
  clear FB. intros L H. apply init_inv in H as (h & N & ->). destruct (C56_new _ _ _ _ _ _ L N) as (-> & S & _ & ID & _).
  split; [reflexivity|]. rewrite ids_left. split; [|exact ID]. split; [exact (sound_left _ _ S)|]. rewrite ids_left, ID. intros [K|[]]. exact (branch_nil 0 (eq_sym K)).
Qed.

(* ---- commands that cannot fail ---- *)
Lemma cli_cmd fs i p verb args : world_ok fs -> i_args i = verb :: args -> cli fs i = Done p ->
  exists h h1, opened h /\ left_by h = fs /\ CliModel.command sha fbits fuel order h i = Done (h1, p_status p, p_out p) /\ p_families p = left_by h1 /\ p_clock p = h_now h1.
Proof.
  intros WO IA H. unfold CliModel.cli in H. rewrite IA in H. apply rbind_done in H as ([h s] & R & H). destruct (reopen_ok sha _ _ FB _ _ _ WO R) as (-> & OH & LF). cbn [is_ok negb] in H.
  apply rbind_done in H as ([[h1 c] out] & C & H). injection H as <-. exists h, h1. auto 8.
Qed.
Lemma acting_inv r h s o : acting r = Done (h, s, o) -> r = Done (h, s) /\ o = [].
Proof. clear FB. unfold acting. intro H. apply rbind_done in H as ([x y] & E & H). injection H as -> -> <-. auto. Qed.
Lemma loud_inv h r h1 s o : loud h r = Done (h1, s, o) -> r = Done (s, o) /\ h1 = h.
Proof. clear FB. unfold loud. intro H. apply rbind_done in H as ([x y] & E & H). injection H as -> -> <-. auto. Qed.
Lemma quiet_inv h r h1 s o : quiet h r = Done (h1, s, o) -> r = Done s /\ h1 = h /\ o = [].
Proof. clear FB. unfold quiet. intro H. apply rbind_done in H as (x & E & H). injection H as -> -> <-. auto. Qed.
(* create: a yarn without a branch, and no tag or one in CamelCase *)
Theorem C64_create fs i p args : world_ok fs -> calm i p -> cli fs i = Done p -> i_args i = W_create :: args ->
  args = [] \/ (exists n, args = [W_as; n] /\ is_error (parse_uuid n) = false /\ base64_case (uvalue (parse_uuid n)) = CAMEL) -> ~ In (branch_id (i_random i)) (map fst fs) ->
  p_status p = CSays (branch_id (i_random i)) /\ In (branch_id (i_random i)) (map fst (p_families p)).
Proof.
  intros WO CM H IA AR NI. assert (ST : p_status p = CSays (branch_id (i_random i))).
  { destruct (cli_cmd _ _ _ _ _ WO IA H) as (h & h1 & OH & LF & C & PF & PC). destruct CM as (E & Y & L).
    assert (CC : CliModel.command sha fbits fuel order h i = acting (cmd_create sha fbits fuel h (i_readings i) (i_random i) args)) by (unfold CliModel.command; rewrite IA; reflexivity).
    rewrite CC in C. apply acting_inv in C as [C _]. clear CC. unfold cmd_create in C.
    assert (T : exists tag, scan_tag args = Some tag).
    { destruct AR as [->|(n & -> & Q1 & Q2)]; [eexists; reflexivity|]. cbn [scan_tag]. change (bytes_eqb W_as W_as) with true. cbn iota. cbv zeta. rewrite Q1, Q2. eexists. reflexivity. }
    destruct T as (tag & T). rewrite T in C. apply rbind_done in C as ([h2 s2] & HC & C). pose proof OH as (S & O & AC & NZ).
    destruct (create_inv _ _ _ _ _ _ _ _ _ HC) as [(_ & (b & F) & _)|(_ & F & (m & FM) & b & d0 & _ & BN & CB & ST & AC1 & O1)].
    { exfalso. apply NI. rewrite <- LF, ids_left. apply find_ids. eauto. }
    assert (FN : find_store (h_stores h2) NIL = Some m) by (rewrite ST, (find_app _ _ _ _ F), (eqb_other _ _ (branch_nil _)); exact FM).
    assert (FY : find_store (h_stores h2) (branch_id (i_random i)) = Some b) by (rewrite ST, (find_app _ _ _ _ F), (proj2 (uuid_eqb_eq _ _) eq_refl); reflexivity).
    destruct (is_ok s2) eqn:OK; cbn [negb] in C.
    - unfold settle_branch in C. apply rbind_done in C as ([h3 s3] & HA & C). destruct (activate_inv _ _ _ _ _ HA) as [(_ & _ & [K|K])|(m2 & d & f & u & _ & _ & FM2 & -> & CK & OP & W & AC2 & O2 & ST2)]; [congruence|congruence|].
      cbn [is_ok negb] in C. destruct (uuid_eqb tag NIL); [injection C as _ <-; reflexivity|]. apply rbind_done in C as ([h4 s4] & HN & C). injection C as _ <-.
      destruct (name_inv _ _ _ _ _ _ _ HN) as [(K & _)|(b2 & b3 & u3 & _ & _ & -> & _)]; [|reflexivity]. rewrite ST2, find_put in K. discriminate K.
    - exfalso. injection C as <- _. rewrite PC in L. destruct (create_up sha fbits fuel _ _ _ _ _ _ _ _ _ (proj1 S) E CB) as (_ & _ & U).
      destruct (new_tip sha fbits (uorigin (h_active h)) fuel _ _ _ _ _ _ (N.le_lt_trans _ _ _ U L) BN) as (-> & _). discriminate OK. }
  split; [exact ST|]. destruct (C64_effect _ _ _ WO CM H) as [EF _]. rewrite ST in EF.
  inversion EF as [s Q Q1 Q2|args' fs' IA2 NI2 IDS K1 K2 Q1 Q2|w r l1 id d l2 IA2 M NN FS Q1 Q2|r l1 d d' l2 IA2 FS SB Q1 Q2|x n tail l1 id d d' l2 u IA2 TL FS SB Q1 Q2].
  { specialize (Q Logic.I). unfold changes in Q. rewrite IA in Q. discriminate Q. }
  { rewrite IDS. apply in_or_app. right. left. reflexivity. }
  all: rewrite IA in IA2; discriminate IA2.
Qed.
(* name: a timestamp, and a name that is not 0 *)
Theorem C64_name fs i p x n : world_ok fs -> calm i p -> cli fs i = Done p -> i_args i = [W_name; x; W_as; n] ->
  version (parse_uuid x) = TIME -> version (parse_uuid n) = NAME -> is_error (parse_uuid n) = false -> uuid_zero (parse_uuid n) = false ->
  exists u, p_status p = CSays u /\ version u = TIME /\ hd 0 (i_readings i) <= uvalue u.
Proof.
  intros WO CM H IA V1 V2 E2 Z. destruct (cli_cmd _ _ _ _ _ WO IA H) as (h & h1 & OH & LF & C & PF & PC). pose proof CM as (E & Y & L).
  assert (CC : CliModel.command sha fbits fuel order h i = acting (cmd_name fbits fuel h (i_readings i) [x; W_as; n])) by (unfold CliModel.command; rewrite IA; reflexivity).
  rewrite CC in C. apply acting_inv in C as [C _]. clear CC. pose proof OH as (S & O & AC & NZ). cbn [cmd_name] in C. cbv zeta in C.
  assert (E1 : is_error (parse_uuid x) = false).
  { unfold is_error. apply N.eqb_neq. intro K. unfold version, word_flags in V1. rewrite K in V1. vm_compute in V1. discriminate V1. }
  rewrite E1, V1 in C. change (TIME =? TIME) with true in C. cbn [orb negb scan_as] in C. change (bytes_eqb W_as W_as) with true in C. cbn [negb] in C. cbv zeta in C. rewrite E2, V2 in C.
  change (NAME =? NAME) with true in C. change (NUMERIC =? NUMERIC) with true in C. cbn [orb negb andb] in C. rewrite Z in C. cbn [scan_on rbind is_ok negb] in C.
  destruct (name_inv _ _ _ _ _ _ _ C) as [(K & _)|(b & b' & u & F & BN & -> & _ & _ & _ & NW)].
  { exfalso. rewrite AC in K. apply find_out in K. apply K. apply S. }
  exists u. split; [reflexivity|]. destruct (name_shape _ _ _ _ _ _ _ _ BN (sound_order _ _ _ _ S F)) as (-> & _). split; [apply ClockTheorems.time_version|].
  rewrite tick_id. destruct (tick_read fuel FB (uorigin (h_active h)) (h_now h) (hd 0 (i_readings i)) (uorigin (br_tip b))) as [K|[K|K]]; [exact K| |]; pose proof (early_hd _ E); pose proof (proj1 S); lia.
Qed.
(* drop: a branch, by its id or by a name in CamelCase *)
Theorem C64_drop fs i p w args y : world_ok fs -> calm i p -> cli fs i = Done p -> i_args i = W_drop :: w :: args -> is_error (parse_uuid w) = false ->
  means fs w (branch_id y) -> version (parse_uuid w) = TIME \/ base64_case (uvalue (parse_uuid w)) = CAMEL -> In (branch_id y) (map fst fs) ->
  p_status p = cok /\ p_families p = filter (fun q => negb (uuid_eqb (fst q) (branch_id y))) fs.
Proof.
  intros WO CM H IA NE M KD IY. destruct (cli_cmd _ _ _ _ _ WO IA H) as (h & h1 & OH & LF & C & PF & PC). pose proof CM as (E & Y & L).
  assert (CC : CliModel.command sha fbits fuel order h i = acting (cmd_drop fbits fuel h (w :: args))) by (unfold CliModel.command; rewrite IA; reflexivity).
  rewrite CC in C. apply acting_inv in C as [C _]. clear CC. pose proof OH as (S & O & AC & NZ). cbn [cmd_drop scan_on] in C. change (bytes_eqb W_on W_on) with true in C. cbn [negb] in C. cbv zeta in C. rewrite NE in C.
  assert (R : resolve fbits fuel h (parse_uuid w) CAMEL true = Done (branch_id y, ROk)).
  { unfold resolve. remember (branch_id y) as by0 eqn:EB in M |- *. destruct M as [V|l id V NN MN G].
    - assert (VT : version (parse_uuid w) = TIME) by (rewrite EB; apply ClockTheorems.time_version). rewrite VT. reflexivity.
    - rewrite V. change (NAME =? NAME) with true. cbn [negb]. rewrite (eqb_other _ _ NN). destruct KD as [K|K]; [rewrite V in K; discriminate K|]. rewrite K. change (CAMEL =? CAMEL) with true. cbn [negb].
      rewrite andb_false_r. destruct MN as (d & I & BN). rewrite <- LF in I. destruct (family_find _ _ _ (proj1 (proj2 S)) I) as (m & F & <-). rewrite F. destruct m as [d t]. cbn [br_main] in BN.
      change (b_names fbits fuel (mkBranch d t)) with (b_names fbits fuel (mkBranch d NIL)). rewrite BN. cbn [rbind is_ok negb]. rewrite G. reflexivity. }
  rewrite R in C. cbn [rbind is_ok negb] in C. assert (NN : uuid_eqb (branch_id y) NIL = false) by (apply eqb_other, branch_nil). rewrite NN in C. cbn [negb andb] in C.
  rewrite <- LF, ids_left in IY. apply find_ids in IY as (b & F).
  assert (HB : has_branch h (uorigin (branch_id y)) = true).
  { unfold has_branch. assert (EB : branch_id (uorigin (branch_id y)) = branch_id y).
    { unfold branch_id. rewrite ClockTheorems.time_origin. unfold uuid_time. f_equal. f_equal. change (2 ^ 60 - 1) with (N.ones 60). rewrite !N.land_ones, N.add_comm, N.mod_add by discriminate. apply N.mod_mod. discriminate. }
    rewrite EB. unfold in_use. rewrite O, F. reflexivity. }
  rewrite HB in C. cbn [negb rbind is_ok] in C. rewrite NN in C. destruct (h_drop h (branch_id y)) as [h2 s2] eqn:D. injection C as <- <-.
  unfold h_drop, in_use in D. rewrite O, F, NN in D. injection D as <- <-. split; [reflexivity|]. rewrite PF, <- LF. clear. unfold left_by. cbn [h_stores]. unfold drop_store. induction (h_stores h) as [|[j x] l IH]; [reflexivity|].
  cbn [filter map fst snd]. destruct (uuid_eqb j (branch_id y)); cbn [negb map fst snd]; rewrite IH; reflexivity.
Qed.

(* ---- C67: every command starts on the store of the metadata ---- *)
Theorem C67_fork fs i p args : world_ok fs -> i_args i = W_fork :: args -> cli fs i = Done p -> p_status p = CFails RBadArgs /\ p_families p = fs.
Proof.
  intros WO IA H. destruct (cli_cmd _ _ _ _ _ WO IA H) as (h & h1 & (S & O & AC & NZ) & LF & C & PF & _).
  assert (CC : CliModel.command sha fbits fuel order h i = acting (cmd_fork sha fbits fuel h (i_readings i) (i_random i) args)) by (unfold CliModel.command; rewrite IA; reflexivity).
  rewrite CC in C. apply acting_inv in C as [C _]. unfold cmd_fork in C. rewrite AC in C. change (uuid_eqb NIL NIL) with true in C. cbn iota in C. injection C as <- <-. split; [reflexivity|congruence].
Qed.
Theorem C67_get fs i p args : world_ok fs -> i_args i = W_get :: args -> cli fs i = Done p -> ~ succeeds (p_status p) /\ p_out p = [].
Proof.
  intros WO IA H. destruct (cli_cmd _ _ _ _ _ WO IA H) as (h & h1 & (S & O & AC & NZ) & LF & C & PF & _).
  assert (CC : CliModel.command sha fbits fuel order h i = loud h (cmd_get sha fbits fuel h (i_readings i) args)) by (unfold CliModel.command; rewrite IA; reflexivity).
  rewrite CC in C. apply loud_inv in C as [C _]. clear CC. unfold cmd_get in C. destruct args as [|a r]; [injection C as <- <-; auto|]. cbv zeta in C.
  destruct (uuid_eqb (parse_uuid a) FATAL || negb (version (parse_uuid a) =? NAME)); [injection C as <- <-; auto|]. apply rbind_done in C as ([[id r2] s] & _ & C).
  destruct (negb (is_ok s)); [injection C as <- <-; auto|]. destruct (version id =? NAME); [injection C as <- <-; auto|]. destruct (negb (version id =? TIME)); [injection C as <- <-; destruct r2; auto|].
  destruct (find_store (h_stores h) (branch_id 0)) as [b|] eqn:F; [exfalso; apply NZ, find_ids; eauto|]. injection C as <- <-. auto.
Qed.
Theorem C67_new fs i p args : world_ok fs -> i_args i = W_new :: args -> cli fs i = Done p -> ~ succeeds (p_status p).
Proof.
  intros WO IA H. destruct (cli_cmd _ _ _ _ _ WO IA H) as (h & h1 & (S & O & AC & NZ) & LF & C & PF & _).
  assert (CC : CliModel.command sha fbits fuel order h i = quiet h (cmd_new fbits fuel h args)) by (unfold CliModel.command; rewrite IA; reflexivity).
  rewrite CC in C. apply quiet_inv in C as (C & _). clear CC. unfold cmd_new in C. destruct args as [|a r]; [injection C as <-; auto|]. cbv zeta in C.
  destruct (is_error (parse_uuid a) || _); [injection C as <-; auto|]. destruct (scan_as SNAKE r) as [[x r2]|]; [|injection C as <-; auto]. apply rbind_done in C as ([[id r3] s] & _ & C).
  destruct (negb (is_ok s)); [injection C as <-; auto|]. destruct r3; injection C as <-; auto.
Qed.
Theorem C67_write fs i p args : world_ok fs -> i_args i = W_write :: args -> cli fs i = Done p -> p_families p = fs /\
  match i_file i (hd [45] args) with
  | None => p_status p = CNoFile
  | Some f => no_op f /\ p_status p = cok \/ ~ no_op f /\ p_status p = CFails RNotFound
  end.
Proof.
  intros WO IA H. destruct (cli_cmd _ _ _ _ _ WO IA H) as (h & h1 & (S & O & AC & NZ) & LF & C & PF & _).
  assert (CC : CliModel.command sha fbits fuel order h i = acting (cmd_write sha fbits fuel h (i_readings i) (i_file i) args)) by (unfold CliModel.command; rewrite IA; reflexivity).
  rewrite CC in C. apply acting_inv in C as [C _]. clear CC. unfold cmd_write in C. cbv zeta in C. assert (HD : match args with [] => [45] | a :: _ => a end = hd [45] args) by (destruct args; reflexivity). rewrite HD in C.
  remember (mkHost (fst (clock_now (uorigin (h_active h)) (h_now h) (hd 0 (i_readings i)) 0)) (h_active h) (h_open h) (h_stores h)) as h0 eqn:E0 in C.
  assert (LF0 : left_by h0 = fs) by (rewrite <- LF, E0; reflexivity). assert (O0 : h_open h0 = true) by (rewrite E0; exact O). assert (F0 : h_stores h0 = h_stores h) by (rewrite E0; reflexivity). clear E0.
  destruct (i_file i (hd [45] args)) as [f|]; [|injection C as <- <-; split; [congruence|reflexivity]]. apply rbind_done in C as ([h2 s2] & R & C). injection C as <- <-.
  destruct (receive_inv _ _ _ _ _ _ _ _ _ R) as [(NO & -> & ->)|(NO & [(K & _)|[(_ & _ & -> & ->)|(b & d & _ & F & _)]])].
  - split; [congruence|]. left. auto.
  - congruence.
  - split; [congruence|]. right. auto.
  - exfalso. apply NZ, find_ids. rewrite F0 in F. eauto.
Qed.
(* so the records of a branch stay as they are, but for its names *)
Lemma effect_back fs i s fs' id d' : effect fs i s fs' -> NoDup (map fst fs') -> id <> NIL -> id <> branch_id (i_random i) -> In (id, d') fs' -> exists d, In (id, d) fs /\ same_but [NAMES_KEY] d d'.
Proof.
  clear FB. intros E ND N1 N2 I. destruct E as [s Q|args fs' IA NI IDS K1 K2|w args l1 j d l2 IA M NN FS|args l1 d d2 l2 IA FS SB|x n tail l1 j d d2 l2 u IA TL FS SB].
  - exists d'. split; [exact I|]. intros k _. reflexivity.
  - assert (J : In id (map fst fs')) by (change id with (fst (id, d')); apply in_map; exact I). rewrite IDS in J. apply in_app_iff in J as [J|[J|[]]]; [|congruence].
    apply in_map_iff in J as ([j d] & E & J). cbn [fst] in E. subst j. exists d. split; [exact J|]. specialize (K1 id d N1 J).
    assert (d' = d) as ->; [|intros k _; reflexivity]. clear - ND I K1. induction fs' as [|[j x] l IH]; [destruct I|]. cbn [map fst] in ND. inversion ND as [|? ? A B]; subst.
    assert (X : forall z, In (id, z) l -> In id (map fst l)) by (intros z Z; change id with (fst (id, z)); apply in_map; exact Z).
    destruct I as [I|I], K1 as [K|K]; [congruence|injection I as -> ->; destruct (A (X _ K))|injection K as -> ->; destruct (A (X _ I))|auto].
  - subst fs. exists d'. split; [|intros k _; reflexivity]. apply in_app_iff in I as [I|I]; apply in_or_app; [left|right; right]; exact I.
  - subst fs. exists d'. split; [|intros k _; reflexivity]. apply in_app_iff in I as [I|[I|I]]; apply in_or_app; [left; exact I|injection I as K _; congruence|right; right; exact I].
  - subst fs. apply in_app_iff in I as [I|[I|I]]; [| |]; cycle 1.
    + injection I as -> ->. exists d. split; [apply in_or_app; right; left; reflexivity|exact SB].
    + exists d'. split; [apply in_or_app; right; right; exact I|intros k _; reflexivity].
    + exists d'. split; [apply in_or_app; left; exact I|intros k _; reflexivity].
Qed.
Lemma world_nodup fs : world_ok fs -> NoDup (map fst fs).
Proof. clear FB. intros ((_ & ND & _) & _). rewrite ids_shut in ND. exact ND. Qed.
Theorem C67_records fs l fs' id d d' : runs fs l fs' -> Forall (fun x => calm (fst x) (snd x)) l -> world_ok fs -> id <> NIL -> Forall (fun x => id <> branch_id (i_random (fst x))) l ->
  In (id, d) fs -> In (id, d') fs' -> same_but [NAMES_KEY] d d'.
Proof.
  intros R F W NN NB I I'. assert (B : exists d0, In (id, d0) fs /\ same_but [NAMES_KEY] d0 d').
  { clear I. revert F W NB. induction R as [fs|fs i p r fs' C R IH]; intros F W NB; [exists d'; split; [exact I'|intros k _; reflexivity]|].
    inversion F as [|? ? F1 F2]; subst. inversion NB as [|? ? B1 B2]; subst. cbn [fst snd] in *. destruct (C64_effect _ _ _ W F1 C) as [E W2]. destruct (IH I' F2 W2 B2) as (d1 & J & SB).
    destruct (effect_back _ _ _ _ _ _ E (world_nodup _ W2) NN B1 J) as (d0 & J0 & SB0). exists d0. split; [exact J0|]. intros k NK; rewrite SB by exact NK; apply SB0; exact NK. }
  destruct B as (d0 & J & SB). assert (d0 = d) as <-; [|exact SB]. apply world_nodup in W. clear - W I J. induction fs as [|[j x] l IH]; [destruct I|]. cbn [map fst] in W. inversion W as [|? ? A B]; subst.
  assert (X : forall z, In (id, z) l -> In id (map fst l)) by (intros z Z; change id with (fst (id, z)); apply in_map; exact Z).
  destruct I as [I|I], J as [K|K]; [congruence|injection I as -> ->; destruct (A (X _ K))|injection K as -> ->; destruct (A (X _ I))|auto].
Qed.
End Cli.
Print Assumptions C64_effect.
Print Assumptions C64_fails.
Print Assumptions C64_reads.
Print Assumptions C64_session.
Print Assumptions C64_init.
Print Assumptions C64_create.
Print Assumptions C64_name.
Print Assumptions C64_drop.
Print Assumptions C67_fork.
Print Assumptions C67_get.
Print Assumptions C67_new.
Print Assumptions C67_write.
Print Assumptions C67_records.
