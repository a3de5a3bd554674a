(* C75: what the command dump prints. *)
From Coq Require Import Sorted.
From Verif Require ClockTheorems.
From Verif Require Import Prelude UuidModel UuidProofs KeyModel KeyProofs CodecModel CodecTheorems TextModel TextSpec MergeModel MergeTextModel MergeKeeps StoreModel StoreSpec
  StoreProofs RocksModel RocksSpec RocksProofs RocksTheorems MetaModel ClockModel ReplicaModel ReplicaSpec ReplicaProofs BranchModel BranchSpec BranchProofs DurableProofs ForkModel
  HostModel HostSpec HostProofs HostTheorems NamesModel CliModel CliSpec CliProofs CliTheorems InitModel InitTheorems InitHistory DumpSpec.

Lemma key_of_64 id form : form < 256 -> key64 (key_of id form).
Proof.
  intro L. rewrite key_of_eq by exact L. assert (O : uorigin id mod 2 ^ 60 < 2 ^ 60) by (apply N.mod_lt; discriminate). assert (V : uvalue id mod 2 ^ 60 < 2 ^ 60) by (apply N.mod_lt; discriminate).
  assert (D : uorigin id mod 2 ^ 60 / 16 < 2 ^ 56) by (apply N.div_lt_upper_bound; [discriminate|exact O]). assert (M : (uorigin id mod 2 ^ 60) mod 16 < 16) by (apply N.mod_lt; discriminate).
  split; cbn [kfirst ksecond]; [change (2 ^ 64) with (256 * 2 ^ 56)|change (2 ^ 64) with (16 * 2 ^ 60)]; nia.
Qed.
(* every key is of some form and id *)
Lemma key_split k : key64 k -> exists u form, key_id_ok u /\ form < 256 /\ k = key_of u form.
Proof.
  intros [A B]. destruct k as [a b]. cbn [kfirst ksecond] in *.
  exists (mkUuid (b mod 2 ^ 60) (TIME * 2 ^ 60 + (a mod 2 ^ 56 * 16 + b / 2 ^ 60))), (a / 2 ^ 56).
  change (2 ^ 64) with (16 * 2 ^ 60) in B. assert (Q : b / 2 ^ 60 < 16) by (apply N.div_lt_upper_bound; [discriminate|rewrite N.mul_comm; exact B]).
  assert (M : a mod 2 ^ 56 < 2 ^ 56) by (apply N.mod_lt; discriminate).
  assert (O : a mod 2 ^ 56 * 16 + b / 2 ^ 60 < 2 ^ 60) by (change (2 ^ 60) with (2 ^ 56 * 16) at 2; lia).
  change (2 ^ 64) with (256 * 2 ^ 56) in A. assert (FM : a / 2 ^ 56 < 256) by (apply N.div_lt_upper_bound; [discriminate|rewrite N.mul_comm; exact A]).
  split; [split; [apply N.mod_lt; discriminate|eexists; split; [exact O|reflexivity]]|]. split; [exact FM|].
  rewrite key_of_eq by exact FM. cbn [uorigin uvalue]. rewrite (mod_mul_add TIME _ 60) by exact O. rewrite N.mod_mod by discriminate.
  assert (E1 : (a mod 2 ^ 56 * 16 + b / 2 ^ 60) / 16 = a mod 2 ^ 56) by (change 16 with (2 ^ 4); apply div_mul_add; exact Q).
  assert (E2 : (a mod 2 ^ 56 * 16 + b / 2 ^ 60) mod 16 = b / 2 ^ 60) by (change 16 with (2 ^ 4); apply mod_mul_add; exact Q).
  rewrite E1, E2. rewrite (N.mul_comm (a / 2 ^ 56)), (N.mul_comm (b / 2 ^ 60)), <- !N.div_mod by discriminate. reflexivity.
Qed.
Lemma form_named f u : f < 256 -> form2uuid f = Some u -> form_name f u.
Proof.
  intros L H. unfold form2uuid in H. change (8 * N.of_nat (length FORMS)) with 160 in H. destruct (f <? 160) eqn:E.
  - destruct (nth_error FORMS (N.to_nat f)) as [w|] eqn:Q; [|discriminate]. injection H as <-. assert (LT : (N.to_nat f < 20)%nat) by (change 20%nat with (length FORMS); apply nth_error_Some; congruence).
    apply (nth_error_nth _ _ 0) in Q. rewrite <- Q. apply name_known. lia.
  - injection H as <-. apply name_error. apply N.ltb_ge in E. lia.
Qed.
Lemma key_named k kt f : key64 k -> key_text k = Done kt -> shown_as (k, f) (kt ++ [9] ++ f).
Proof.
  intros K H. destruct (key_split k K) as (u & form & U & L & E). unfold key_text in H. destruct (key_roundtrip u form U L) as [R1 R2]. rewrite E, R1, R2 in H.
  destruct (form2uuid form) as [name|] eqn:Q; [|discriminate]. remember (write_uuid name) as w1 eqn:E1 in H. remember (write_uuid u) as w2 eqn:E2 in H. injection H as <-. rewrite E1, E2. clear w1 w2 E1 E2. exists u, form, name. split; [exact U|]. split; [exact E|]. split; [apply form_named; assumption|].
  cbn [app snd]. rewrite <- app_assoc. reflexivity.
Qed.

Section Dump.
Variable sha : bytes -> bytes.
Variable fbits : bytes -> N.
Variable fuel : nat.
Variable order : list (uuid * uuid) -> list (uuid * uuid).
Notation cli := (cli sha fbits fuel order).
Notation means := (means fbits fuel).
Notation rread := (rocks_read fbits fuel).
Notation dump_loop := (dump_loop fbits fuel).

Definition as_read (g : got) : bytes * kstatus := match g with GNotFound => ([], KOk) | GValue f => (f, KOk) | GFail => ([], KDbFail) end.
Lemma read_cell d lo k c hi g : in_order d -> d = lo ++ (k, c) :: hi -> k <> KEY_END -> cell_get fbits fuel k c = Done g -> rread d k = Done (as_read g).
Proof. intros O E NE G. unfold rocks_read. rewrite key_eqb_neq by exact NE. rewrite (cell_of d k c lo hi O E), G. reflexivity. Qed.
Lemma at_key d lo k c hi : d = lo ++ (k, c) :: hi -> ri_key (mkRiter d (Some (length lo))) = k.
Proof. intros ->. unfold ri_key. cbn [ri_at ri_snap]. rewrite nth_error_app2 by lia. rewrite Nat.sub_diag. reflexivity. Qed.
Lemma at_value d lo k c hi : d = lo ++ (k, c) :: hi -> ri_value fbits fuel (mkRiter d (Some (length lo))) = cell_get fbits fuel k c.
Proof. intros ->. unfold ri_value. cbn [ri_at ri_snap]. rewrite nth_error_app2 by lia. rewrite Nat.sub_diag. reflexivity. Qed.

Lemma dump_from d : in_order d -> Forall key64 (map fst d) -> ~ In KEY_END (map fst d) ->
  forall hi lo n k c g t, d = lo ++ (k, c) :: hi -> cell_get fbits fuel k c = Done g -> g <> GFail -> dump_loop n (mkRiter d (Some (length lo))) = Done t ->
  exists l rest, k :: map fst hi = map fst l ++ rest /\ l <> [] /\ Forall (fun r => rread d (fst r) = Done (snd r, KOk)) l /\ prints l t /\
    (rest = [] \/ exists k r, rest = k :: r /\ rread d k = Done ([], KDbFail)).
Proof.
  intros O K64 NE. induction hi as [|[k1 c1] hi IH]; intros lo n k c g t E G NF H; (destruct n as [|n]; [discriminate H|]); cbn [CliModel.dump_loop] in H;
    rewrite (at_key _ _ _ _ _ E), (at_value _ _ _ _ _ E), G in H; apply rbind_done in H as (kt & KT & H); cbn [rbind] in H; apply rbind_done in H as ([it s] & NX & H).
  all: assert (IK : In k (map fst d)) by (rewrite E, map_app; apply in_or_app; right; left; reflexivity); assert (K : key64 k) by (rewrite Forall_forall in K64; exact (K64 _ IK)).
  all: assert (NK : k <> KEY_END) by (intros ->; exact (NE IK)); pose proof (read_cell _ _ _ _ _ _ O E NK G) as RD.
  all: assert (LINE : exists f, rread d k = Done (f, KOk) /\ kt ++ [9] ++ (match g with GValue f0 => f0 | _ => [] end) = kt ++ [9] ++ f) by (destruct g; [exists []|exists f|contradiction]; auto).
  all: destruct LINE as (f & RK & EL); rewrite EL in H; pose proof (key_named k kt f K KT) as SA; clear EL RD.
  - unfold ri_next in NX. cbn [ri_at ri_snap] in NX. rewrite (proj2 (Nat.ltb_ge _ _)) in NX by (rewrite E, app_length; cbn [length]; lia). injection NX as <- <-. injection H as <-.
    exists [(k, f)], []. split; [reflexivity|]. split; [discriminate|]. split; [constructor; [exact RK|constructor]|]. split; [|left; reflexivity].
    pose proof (prints_more (k, f) [] _ [] SA prints_none) as P. rewrite app_nil_r in P. exact P.
  - assert (E1 : d = (lo ++ [(k, c)]) ++ (k1, c1) :: hi) by (rewrite <- app_assoc; exact E). assert (L1 : S (length lo) = length (lo ++ [(k, c)])) by (rewrite app_length; cbn [length]; lia).
    unfold ri_next in NX. cbn [ri_at ri_snap] in NX. rewrite (proj2 (Nat.ltb_lt _ _)) in NX by (rewrite E, app_length; cbn [length]; lia). unfold settle in NX. rewrite L1 in NX. rewrite (at_value _ _ _ _ _ E1) in NX.
    apply rbind_done in NX as (g1 & G1 & NX). assert (I1 : In k1 (map fst d)) by (rewrite E1, map_app; apply in_or_app; right; left; reflexivity).
    assert (Q : g1 = GFail \/ g1 <> GFail) by (destruct g1; [right|right|left]; congruence). destruct Q as [-> | Q].
    + injection NX as <- <-. injection H as <-. exists [(k, f)], (k1 :: map fst hi). split; [reflexivity|]. split; [discriminate|]. split; [constructor; [exact RK|constructor]|]. split.
      * pose proof (prints_more (k, f) [] _ [] SA prints_none) as P. rewrite app_nil_r in P. exact P.
      * right. exists k1, (map fst hi). split; [reflexivity|]. apply (read_cell _ _ _ _ _ GFail O E1); [intros ->; exact (NE I1)|exact G1].
    + assert (X : it = mkRiter d (Some (length (lo ++ [(k, c)]))) /\ s = KOk) by (destruct g1; [| |contradiction]; injection NX as <- <-; auto). destruct X as [-> ->].
      apply rbind_done in H as (r & DL & H). injection H as <-. destruct (IH _ _ _ _ _ _ E1 G1 Q DL) as (l & rest & KS & NN & FR & PR & RS).
      exists ((k, f) :: l), rest. split; [cbn [map fst]; rewrite KS; reflexivity|]. split; [discriminate|]. split; [constructor; [exact RK|exact FR]|]. split; [constructor; assumption|exact RS].
Qed.

(* of a store *)
Lemma first_zero d : first_from d KEY_ZERO 0 = match d with [] => None | _ => Some 0%nat end.
Proof. destruct d as [|[k c] d]; [reflexivity|]. cbn [first_from]. assert (Z : key_ltb k KEY_ZERO = false); [|rewrite Z; reflexivity]. unfold key_ltb. change (kfirst KEY_ZERO) with 0. change (ksecond KEY_ZERO) with 0. rewrite !(proj2 (N.ltb_ge _ 0)) by lia. rewrite andb_false_r. reflexivity. Qed.
Lemma dump_store h id b args s t : in_order (br_main b) -> br_main b <> [] -> Forall key64 (map fst (br_main b)) -> ~ In KEY_END (map fst (br_main b)) ->
  find_store (h_stores h) id = Some b -> (args = [] /\ id = h_active h \/ exists r, scan_on fbits fuel h (W_on :: args) = Done (id, r, ROk) /\ args <> []) ->
  cmd_dump fbits fuel h args = Done (s, t) ->
  exists l rest, shows fbits fuel (br_main b) l rest /\ prints l t /\ s = match l with [] => CFails RDbFail | _ => cok end.
Proof.
  intros O NN K64 NE F AR H. unfold cmd_dump in H.
  assert (X : match args with [] => Done (h_active h, ROk) | _ => rbind (scan_on fbits fuel h (W_on :: args)) (fun '(id, _, s) => Done (id, s)) end = Done (id, ROk)).
  { destruct AR as [[-> ->]|(r & -> & N)]; [reflexivity|]. destruct args; [contradiction|reflexivity]. }
  rewrite X in H. cbn [rbind is_ok negb] in H. rewrite F in H. unfold ri_seek, ri_new in H. cbn [ri_snap] in H. rewrite first_zero in H.
  destruct (br_main b) as [|[k c] d] eqn:ED; [contradiction|]. rewrite <- ED in *.
  assert (E0 : br_main b = [] ++ (k, c) :: d) by exact ED. unfold settle in H. pose proof (at_value _ _ _ _ _ E0) as AV. cbn [length] in AV. rewrite AV in H. clear AV.
  assert (I : In k (map fst (br_main b))) by (rewrite ED; left; reflexivity). assert (NK : k <> KEY_END) by (intros ->; exact (NE I)).
  destruct (cell_get fbits fuel k c) as [g| |] eqn:G; cbn [rbind] in H; [|discriminate|discriminate]. assert (Q : g = GFail \/ g <> GFail) by (destruct g; [right|right|left]; congruence).
  destruct Q as [-> | Q].
  - injection H as <- <-. exists [], (k :: map fst d). split; [|split; [constructor|reflexivity]]. split; [rewrite ED; reflexivity|]. split; [constructor|]. right. exists k, (map fst d). split; [reflexivity|].
    exact (read_cell _ _ _ _ _ _ O E0 NK G).
  - assert (H1 : rbind (dump_loop (S (length (br_main b))) (mkRiter (br_main b) (Some 0%nat))) (fun t => Done (cok, t)) = Done (s, t)) by (destruct g; [exact H|exact H|contradiction]). clear H.
    apply rbind_done in H1 as (t1 & DL & H1). injection H1 as <- <-. destruct (dump_from _ O K64 NE d [] _ k c g t1 E0 G Q DL) as (l & rest & KS & N1 & FR & PR & RS).
    exists l, rest. split; [|split; [exact PR|destruct l; [contradiction|reflexivity]]]. split; [rewrite ED; exact KS|]. split; assumption.
Qed.

Hypothesis FB : 2 * N.of_nat fuel < ROOM.
(* the store that is dumped: that of the metadata, or the one said *)
Definition asks (fs : world) (i : invocation) (id : uuid) : Prop :=
  i_args i = [W_dump] /\ id = NIL \/
  exists w r, i_args i = W_dump :: w :: r /\ is_error (parse_uuid w) = false /\ means fs w id /\ (version (parse_uuid w) <> NAME \/ parse_uuid w = NIL \/ base64_case (uvalue (parse_uuid w)) = CAMEL).
(* dump prints the records of a store in the order of the keys, each as what a
   read returns; it changes nothing. It stops at the first record that cannot be
   read, and fails if that is the first of all. *)
Theorem C75_dump fs i p id d : world_ok fs -> asks fs i id -> In (id, d) fs -> Forall key64 (map fst d) -> ~ In KEY_END (map fst d) -> cli fs i = Done p ->
  p_families p = fs /\ StronglySorted key_lt (map fst d) /\
  exists l rest, shows fbits fuel d l rest /\ prints l (p_out p) /\ p_status p = match l with [] => CFails RDbFail | _ => cok end.
Proof.
  intros WO AS I K64 NE H. assert (V : exists args, i_args i = W_dump :: args) by (destruct AS as [[-> _]|(w & r & -> & _)]; eauto). destruct V as (args & IA).
  destruct (cli_cmd _ _ _ order FB _ _ _ _ _ WO IA H) as (h & h1 & OH & LF & C & PF & PC). pose proof OH as (S & O & AC & NZ).
  assert (CC : CliModel.command sha fbits fuel order h i = loud h (cmd_dump fbits fuel h args)) by (unfold CliModel.command; rewrite IA; reflexivity).
  rewrite CC in C. clear CC. unfold loud in C. apply rbind_done in C as ([s t] & C & Q). injection Q as <- <- <-.
  rewrite <- LF in I. destruct (family_find _ _ _ (proj1 (proj2 S)) I) as (b & F & <-).
  destruct (sound_tipped _ _ _ _ S F) as (tp & T & _). pose proof (sound_order _ _ _ _ S F) as IO.
  split; [congruence|]. split; [clear -IO; induction IO as [|x l IO IH FA]; cbn [map]; constructor; [exact IH|apply Forall_map; exact FA]|].
  apply (dump_store h id b args); try assumption.
  - intro Q. rewrite Q in T. destruct T as (_ & _ & f & pre & _ & T). cbn in T. destruct pre; discriminate T.
  - destruct AS as [[Q ->]|(w & r & Q & ER & MN & KD)]; rewrite IA in Q; injection Q as ->; [left; auto|]. right. exists r. split; [|discriminate].
    unfold scan_on. change (bytes_eqb W_on W_on) with true. cbn [negb]. rewrite ER.
    assert (R : resolve fbits fuel h (parse_uuid w) CAMEL true = Done (id, ROk)).
    { unfold resolve. destruct MN as [[V|V]|l id V NN (d & ID & BN) G].
      - rewrite (proj2 (N.eqb_neq _ _) V). reflexivity.
      - rewrite V. reflexivity.
      - rewrite V. change (NAME =? NAME) with true. cbn [negb]. rewrite (eqb_other _ _ NN). destruct KD as [K|[K|K]]; [contradiction|contradiction|]. rewrite K. change (CAMEL =? CAMEL) with true. cbn [negb].
        rewrite andb_false_r. rewrite <- LF in ID. destruct (family_find _ _ _ (proj1 (proj2 S)) ID) as (m & FM & <-). rewrite FM. destruct m as [d tm]. cbn [br_main] in BN.
        change (b_names fbits fuel (mkBranch d tm)) with (b_names fbits fuel (mkBranch d NIL)). rewrite BN. cbn [rbind is_ok negb]. rewrite G. reflexivity. }
    rewrite R. cbn [rbind is_ok negb]. destruct (uuid_eqb id NIL) eqn:NI; [reflexivity|]. cbn [negb andb].
    assert (HB : has_branch h (uorigin id) = true).
    { destruct S as (_ & _ & _ & S4). pose proof (proj1 (Forall_forall _ _) S4 _ (find_in _ _ _ F)) as (_ & [Q|(y & Q)] & _); cbn [fst] in Q; [rewrite Q in NI; discriminate NI|]. subst id.
      unfold has_branch. assert (EB : branch_id (uorigin (branch_id y)) = branch_id y).
      { unfold branch_id. rewrite ClockTheorems.time_origin. unfold uuid_time. f_equal. f_equal. change (2 ^ 60 - 1) with (N.ones 60). rewrite !N.land_ones, N.add_comm, N.mod_add by discriminate. apply N.mod_mod. discriminate. }
      rewrite EB. unfold in_use. rewrite O, F. reflexivity. }
    rewrite HB. reflexivity.
Qed.

(* ---- records that can always be read ---- *)
Lemma log_fine cs : forall calls st, log_merge cursor valid text_next c_term fuel cs = Done (calls, st) -> st = StOK.
Proof.
  clear FB. induction cs as [|c r IH]; intros calls st H; cbn [log_merge] in H; [injection H as _ <-; reflexivity|].
  apply rbind_done in H as (x & _ & H). apply rbind_done in H as ([y s] & L & H). injection H as _ <-. exact (IH _ _ L).
Qed.
Lemma last_fine cs calls st : last_merge cursor valid text_next c_term fuel cs = Done (calls, st) -> st = StOK.
Proof. clear FB. unfold last_merge. destruct (rev cs); intro H; [injection H as _ <-; reflexivity|]. apply rbind_done in H as (x & _ & H). injection H as _ <-. reflexivity. Qed.
Lemma max_fine cs calls st : max_merge cursor valid text_next text_id text_ref (text_val fbits) fuel cs = Done (calls, st) -> st = StOK.
Proof.
  clear FB. unfold max_merge. destruct cs as [|c r]; intro H; [injection H as _ <-; reflexivity|]. cbv zeta in H. apply rbind_done in H as (c1 & _ & H). destruct (rev (c1 :: r)) as [|m b]; [discriminate|].
  destruct (text_next m) as [[z m']|]; [|discriminate]. apply rbind_done in H as (x & _ & H). injection H as _ <-. reflexivity.
Qed.
Lemma merge_fine form cs calls st : never_fails form -> master_merge cursor valid text_next text_id text_ref (text_val fbits) c_term fuel form cs = Done (calls, st) -> st = StOK.
Proof.
  clear FB. intros [<-|[<-|[<-|[<-|[<-|[<-|[<-|[<-|[]]]]]]]]] H;
    [change (last_merge cursor valid text_next c_term fuel cs = Done (calls, st)) in H; exact (last_fine _ _ _ H)
    |change (lww_merge cursor valid text_next text_id fuel cs = Done (calls, st)) in H
    |change (log_merge cursor valid text_next c_term fuel cs = Done (calls, st)) in H; exact (log_fine _ _ _ H)
    |change (meta_merge cursor valid text_next text_id text_ref fuel cs = Done (calls, st)) in H
    |change (lww_merge cursor valid text_next text_id fuel cs = Done (calls, st)) in H
    |change (lww_merge cursor valid text_next text_id fuel cs = Done (calls, st)) in H
    |change (max_merge cursor valid text_next text_id text_ref (text_val fbits) fuel cs = Done (calls, st)) in H; exact (max_fine _ _ _ H)
    |change (last_merge cursor valid text_next c_term fuel cs = Done (calls, st)) in H; exact (last_fine _ _ _ H)];
    apply rbind_done in H as (x & _ & H); injection H as _ <-; reflexivity.
Qed.
Lemma read_fine d k f : never_fails (key_form k) -> rread d k = Done (f, KDbFail) -> False.
Proof.
  clear FB. intros NF H. unfold rocks_read in H. destruct (key_eqb k KEY_END); [discriminate|]. apply rbind_done in H as (g & G & H). assert (E : g = GFail) by (destruct g; congruence). subst g. clear H.
  unfold cell_get in G. destruct (cell_at d k) as [v ops]. cbn [ce_operands ce_value] in G. destruct ops as [|o ops]; [destruct v; discriminate|].
  apply rbind_done in G as (r & FM & G). destruct r as [r|]; [discriminate|]. unfold full_merge, operator_merge in FM. apply rbind_done in FM as ([r s] & M & FM).
  unfold merge_as in M. destruct (open_cursors _) as [cs|]; [|discriminate]. unfold merge_opened in M. apply rbind_done in M as ([calls st] & MM & M). pose proof (merge_fine _ _ _ _ NF MM) as ->.
  destruct (build (bcalls calls)) as [t|]; [|discriminate]. injection M as <- <-. discriminate FM.
Qed.
(* a store is shown to the end if and only if every record can be read *)
Theorem C75_all fs i p id d : world_ok fs -> asks fs i id -> In (id, d) fs -> Forall key64 (map fst d) -> ~ In KEY_END (map fst d) -> cli fs i = Done p ->
  (exists l, shows fbits fuel d l [] /\ prints l (p_out p) /\ p_status p = cok) <-> (forall k, In k (map fst d) -> rocks_read fbits fuel d k <> Done ([], KDbFail)).
Proof.
  intros WO AS I K64 NE H. split.
  - intros (l & (KS & FR & _) & _ & _) k IK RD. rewrite app_nil_r in KS. rewrite KS in IK. apply in_map_iff in IK as (r & E & J). rewrite Forall_forall in FR. specialize (FR r J). rewrite E, RD in FR. discriminate FR.
  - intro ALL. destruct (C75_dump fs i p id d WO AS I K64 NE H) as (PF & SS & l & rest & SH & PR & ST).
    assert (E : rest = []).
    { destruct SH as (KS & _ & [R|(k & r & -> & RD)]); [exact R|]. exfalso. apply (ALL k); [|exact RD]. rewrite KS. apply in_or_app. right. left. reflexivity. }
    subst rest. assert (NL : l <> []).
    { intros ->. destruct SH as (KS & _). cbn [map app] in KS. destruct WO as [S _]. rewrite <- (left_shut fs) in I. destruct (family_find _ _ _ (proj1 (proj2 S)) I) as (b & F & <-).
      destruct (sound_tipped _ _ _ _ S F) as (tp & (_ & _ & f & pre & _ & T) & _). destruct (br_main b); [cbn in T; destruct pre; discriminate T|discriminate KS]. }
    exists l. split; [exact SH|]. split; [exact PR|]. destruct l; [contradiction|exact ST].
Qed.
(* a store without records of other forms is shown to the end *)
Theorem C75_whole fs i p id d : world_ok fs -> asks fs i id -> In (id, d) fs -> Forall key64 (map fst d) -> ~ In KEY_END (map fst d) -> Forall (fun k => never_fails (key_form k)) (map fst d) -> cli fs i = Done p ->
  p_status p = cok /\ exists l, shows fbits fuel d l [] /\ prints l (p_out p).
Proof.
  intros WO AS I K64 NE NF H. destruct (proj2 (C75_all fs i p id d WO AS I K64 NE H)) as (l & SH & PR & ST).
  - intros k IK RD. apply (read_fine d k []); [|exact RD]. rewrite Forall_forall in NF. apply NF. exact IK.
  - eauto.
Qed.
(* so is the metadata of a replica made and used by commands, whatever they were
   and whenever RocksDB compacted it *)
Theorem C75_metadata r0 fs i p : r0 < NEVER_W -> ~ float_like (write_uuid (uuid_time r0 0)) -> (2 <= fuel)%nat -> life sha fbits fuel order r0 fs -> i_args i = [W_dump] -> cli fs i = Done p ->
  p_status p = cok /\ exists d l, In (NIL, d) fs /\ shows fbits fuel d l [] /\ prints l (p_out p).
Proof.
  intros L0 NF F2 LF IA H. pose proof (C74_life _ _ _ _ FB _ _ L0 LF) as WO. destruct (life_shape _ _ _ _ FB _ _ L0 NF F2 LF) as (d & I & (_ & KS & _)).
  assert (FK : forall k, In k (map fst d) -> key64 k /\ k <> KEY_END /\ never_fails (key_form k)).
  { assert (A : forall f, In f [META_FORM_UUID; LOG_FORM_UUID; YARN_FORM_UUID] -> key64 (key_as (uuid_time r0 0) f) /\ key_as (uuid_time r0 0) f <> KEY_END /\ never_fails (key_form (key_as (uuid_time r0 0) f))).
    { intros f J. assert (FM : uuid2form f < 256 /\ never_fails (uuid2form f) /\ uuid2form f < 255).
      { destruct J as [<-|[<-|[<-|[]]]]; vm_compute; intuition congruence. }
      destruct FM as (F1 & NV & F3). unfold key_as. rewrite key_form_of by exact F1. split; [|split; [|exact NV]].
      - exact (key_of_64 _ _ F1).
      - intro Q. apply (f_equal key_form) in Q. rewrite key_form_of in Q by exact F1. change (key_form KEY_END) with 255 in Q. lia. }
    intros k IK. apply KS in IK. destruct IK as [<-|[<-|[<-|[<-|[<-|[<-|[]]]]]]]; try (apply A; cbn [In]; auto); (split; [split; vm_compute; reflexivity|split; [intro Q; vm_compute in Q; discriminate Q|vm_compute; auto 20]]). }
  destruct (C75_whole fs i p NIL d WO) as (ST & l & SH & PR); try assumption.
  - left. auto.
  - apply Forall_forall. intros k IK. apply FK. exact IK.
  - intro IK. apply FK in IK as (_ & Q & _). contradiction.
  - apply Forall_forall. intros k IK. apply FK. exact IK.
  - split; [exact ST|]. exists d, l. auto.
Qed.
End Dump.
Print Assumptions C75_dump.
Print Assumptions C75_all.
Print Assumptions C75_whole.
Print Assumptions C75_metadata.
