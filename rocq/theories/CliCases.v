(* swarmdb: concrete cases and counterexamples for C64-C67. *)
From Coq Require Import String Permutation.
From Verif Require Import Prelude UuidModel UuidProofs KeyModel CodecModel CodecSpec TextTable TextModel TextSpec BuilderSpec BuilderProofs MergeModel MergeTextModel
  StoreModel StoreProofs HashModel MetaModel ClockModel ReplicaModel ReplicaSpec RocksModel RocksSpec RocksProofs
  HashCases MetaCases Txt ReplicaCases BranchModel BranchSpec BranchCases ForkModel HostModel HostSpec HostProofs HostTheorems HostCases YarnCases NamesModel
  CliModel CliSpec CliNames CliProofs CliTheorems CliHistory CliListing.
Open Scope string_scope.
Open Scope N_scope.
Open Scope list_scope.

Fixpoint split_words (s : bytes) (acc : bytes) : list bytes :=
  match s with [] => [rev acc] | c :: r => if c =? 32 then rev acc :: split_words r [] else split_words r (c :: acc) end.
(* the command s at the time t; rnd is the random yarn; there is one file, f *)
Definition line (t rnd s : string) : invocation :=
  mkInv (split_words (txt s) []) [at_time t; at_time t; at_time t] (at_time rnd) (fun n => if bytes_eqb n (txt "f") then Some (txt "@1+A :lww; ") else None).
Notation ident := (fun l : list (uuid * uuid) => l).
Notation cl := (cli toy_sha one_float 100 ident).
Notation ses := (session toy_sha one_float 100 ident).
Lemma forallb_Forall {T} (f : T -> bool) l : forallb f l = true -> Forall (fun x => f x = true) l.
Proof. intro H. apply Forall_forall. apply forallb_forall. exact H. Qed.
Fixpoint log_of (fs : world) (is : list invocation) : option (list (invocation * proc) * world) :=
  match is with
  | [] => Some ([], fs)
  | i :: r =>
      match cl fs i with
      | Done p => option_map (fun x => ((i, p) :: fst x, snd x)) (log_of (p_families p) r)
      | _ => None
      end
  end.
Definition log_l (r : option (list (invocation * proc) * world)) := match r with Some (l, _) => l | None => [] end.
Definition log_w (r : option (list (invocation * proc) * world)) := match r with Some (_, w) => w | None => [] end.
Lemma log_runs is : forall fs r, log_of fs is = Some r -> runs toy_sha one_float 100 ident fs (fst r) (snd r).
Proof.
  induction is as [|i is IH]; intros fs r H; cbn [log_of] in H; [injection H as <-; constructor|]. destruct (cl fs i) as [p| |] eqn:C; try discriminate.
  destruct (log_of (p_families p) is) as [x|] eqn:L; [|discriminate]. injection H as <-. cbn [fst snd]. eapply runs_more; [exact C|]. exact (IH _ _ L).
Qed.
Lemma runs_ses fs l fs' : runs toy_sha one_float 100 ident fs l fs' -> ses fs l fs'.
Proof. induction 1; [constructor|eapply ses_run; eauto]. Qed.
Lemma ses_app fs l fs1 : ses fs l fs1 -> forall l2 fs2, ses fs1 l2 fs2 -> ses fs (l ++ l2) fs2.
Proof. induction 1; intros l2 fs2 K; cbn [app]; [exact K|eapply ses_run; eauto|eapply ses_compact; eauto]. Qed.
Definition done {X} (r : res X) : bool := match r with Done _ => true | _ => false end.
Definition logged (r : option (list (invocation * proc) * world)) : bool := match r with Some _ => true | None => false end.
Lemma logged_ses is fs : logged (log_of fs is) = true -> ses fs (log_l (log_of fs is)) (log_w (log_of fs is)).
Proof. destruct (log_of fs is) as [[l w]|] eqn:E; [|discriminate]. intros _. cbn [log_l log_w]. apply runs_ses. exact (log_runs _ _ _ E). Qed.
Lemma logged_runs is fs : logged (log_of fs is) = true -> runs toy_sha one_float 100 ident fs (log_l (log_of fs is)) (log_w (log_of fs is)).
Proof. destruct (log_of fs is) as [[l w]|] eqn:E; [|discriminate]. intros _. exact (log_runs _ _ _ E). Qed.
Definition calmb (x : invocation * proc) : bool := earlyb (i_readings (fst x)) && (0 <? i_random (fst x)) && (i_random (fst x) <? 2 ^ 60) && (p_clock (snd x) <? NEVER_W).
Lemma calmb_all l : forallb calmb l = true -> Forall (fun x => calm (fst x) (snd x)) l.
Proof.
  intro H. apply forallb_Forall in H. eapply Forall_impl; [|exact H]. intros x K. cbn beta in K. unfold calmb in K. rewrite !andb_true_iff, !N.ltb_lt in K. destruct K as (((K1 & K2) & K3) & K4).
  split; [apply earlyb_ok; exact K1|]. auto.
Qed.
Lemma calmb_one i p : calmb (i, p) = true -> calm i p.
Proof. intro H. assert (F : forallb calmb [(i, p)] = true) by (cbn [forallb]; rewrite H; reflexivity). apply calmb_all in F. inversion F; assumption. Qed.
Fixpoint spacedb (l : list (invocation * proc)) : bool :=
  match l with [] => true | a :: r => forallb (fun b => p_clock (snd a) + 1 <? hd 0 (i_readings (fst b))) r && spacedb r end.
Lemma spacedb_ok l : spacedb l = true -> spaced l.
Proof.
  induction l as [|a r IH]; cbn [spacedb]; intro H; [constructor|]. apply andb_prop in H as [H1 H2]. constructor; [|exact (IH H2)]. apply forallb_Forall in H1. eapply Forall_impl; [|exact H1]. intros b K. apply N.ltb_lt. exact K.
Qed.
(* a text that has no letter e, or that begins with no digit *)
Definition no_float (s : bytes) : bool := no_exp s || negb ((48 <=? hd 0 s) && (hd 0 s <=? 57)).
Lemma no_float_ok s : no_float s = true -> ~ float_like s.
Proof.
  intro H. apply orb_prop in H as [H|H]; [apply no_exp_ok; exact H|]. intros (a & e & b & -> & NA & D & _). destruct a as [|c a]; [contradiction NA; reflexivity|].
  inversion D as [|? ? D1 D2]; subst. unfold is_dec in D1. cbn [app hd] in H. apply negb_true_iff, andb_false_iff in H. rewrite !N.leb_gt in H. lia.
Qed.
Definition no_numbersb (x : invocation * proc) : bool := match given x with Some (n, v) => no_float (write_uuid n) && no_float (write_uuid v) | None => true end.
Lemma no_numbersb_all l : forallb no_numbersb l = true -> Forall no_numbers l.
Proof.
  intro H. apply forallb_Forall in H. eapply Forall_impl; [|exact H]. intros x K. unfold no_numbersb in K. unfold no_numbers. destruct (given x) as [[n v]|]; [|exact I]. apply andb_prop in K as [A B]. split; apply no_float_ok; assumption.
Qed.
Lemma small : 2 * N.of_nat 100 < ROOM. Proof. vm_compute. reflexivity. Qed.
Lemma same_walk (l : list (uuid * uuid)) : Permutation l l. Proof. apply Permutation_refl. Qed.

(* a new replica *)
Definition w0 : world := Eval vm_compute in match init toy_sha one_float 100 (at_time "1+A") with Done (w, _) => w | _ => [] end.
Lemma init0 : init toy_sha one_float 100 (at_time "1+A") = Done (w0, ROk). Proof. vm_compute. reflexivity. Qed.
Lemma at1 : at_time "1+A" < NEVER_W. Proof. vm_compute. reflexivity. Qed.
Lemma ok0 : world_ok w0. Proof. exact (proj1 (proj2 (C64_init _ _ _ _ _ _ at1 init0))). Qed.

(* ---- a day of work; RocksDB merges the names at noon ---- *)
Definition morning : list invocation :=
  [ line "2+A" "B" "create as Abc"; line "3+A" "C" "create as Def"; line "4+A" "A" "name 5+B as notes"; line "5+A" "A" "hop on Def"; line "6+A" "A" "name 8+B as Abc on Def";
    line "7+A" "A" "name 9+B as todo on 0"; line "8+A" "A" "list"; line "9+A" "B" "create as Ghi" ].
Definition log1 := Eval vm_compute in log_of w0 morning.
Definition noon : world := Eval vm_compute in match h_compact one_float 100 (shut (log_w log1)) NIL NAMES_KEY (CFull 2) with Done (h, _) => left_by h | _ => [] end.
Definition evening : list invocation :=
  [ line "A+A" "D" "create as Abc"; line "B+A" "A" "name 6+B as notes"; line "C+A" "A" "drop ~+B"; line "D+A" "A" "write f"; line "E+A" "A" "named yarns" ].
Definition log2 := Eval vm_compute in log_of noon evening.
Definition day : list (invocation * proc) := log_l log1 ++ log_l log2.
Definition night : world := log_w log2.
Lemma log1_is : log_of w0 morning = log1. Proof. vm_compute. reflexivity. Qed.
Lemma log2_is : log_of noon evening = log2. Proof. vm_compute. reflexivity. Qed.
Lemma day_ses : ses w0 day night.
Proof.
  unfold day, night. eapply ses_app; [rewrite <- log1_is; apply logged_ses; vm_compute; reflexivity|]. rewrite log1_is.
  assert (H : exists h, h_compact one_float 100 (shut (log_w log1)) NIL NAMES_KEY (CFull 2) = Done (h, ROk) /\ left_by h = noon) by (eexists; split; vm_compute; reflexivity).
  destruct H as (h & H1 & H2). eapply ses_compact; [exact H1|]. rewrite H2, <- log2_is. apply logged_ses. vm_compute. reflexivity.
Qed.
Lemma day_calm : Forall (fun x => calm (fst x) (snd x)) day. Proof. apply calmb_all. vm_compute. reflexivity. Qed.
Lemma day_spaced : spaced day. Proof. apply spacedb_ok. vm_compute. reflexivity. Qed.
Lemma day_numbers : Forall no_numbers day. Proof. apply no_numbersb_all. vm_compute. reflexivity. Qed.
Lemma night_ok : world_ok night. Proof. exact (C64_session _ _ _ _ small _ _ _ day_ses day_calm ok0). Qed.
Definition word (s : string) : uuid := parse_uuid (txt s).
Definition lines (l : list string) : bytes := flat_map (fun s => txt s ++ [10]) l.

Example C65_case :
  at_time "1+A" < NEVER_W /\ init toy_sha one_float 100 (at_time "1+A") = Done (w0, ROk) /\ ses w0 day night /\ Forall (fun x => calm (fst x) (snd x)) day /\ spaced day /\
  Forall no_numbers day /\ (List.length day < 100)%nat /\ N.of_nat (List.length day) < 2 ^ 24 /\
  last_given (word "Abc") day = Some (word "~+D") /\ last_given (word "Def") day = Some (word "~+C") /\ last_given (word "Ghi") day = None /\
  last_given (word "notes") day = Some (word "6+B") /\ last_given (word "todo") day = Some (word "9+B") /\
  version (parse_uuid (txt "Abc")) = NAME /\ parse_uuid (txt "Abc") <> NIL.
Proof.
  split; [exact at1|]. split; [exact init0|]. split; [exact day_ses|]. split; [exact day_calm|]. split; [exact day_spaced|]. split; [exact day_numbers|].
  split; [apply Nat.ltb_lt; vm_compute; reflexivity|]. do 7 (split; [vm_compute; reflexivity|]). discriminate.
Qed.
(* so Abc stands for the branch ~+D of the evening *)
Example C65_abc : means one_float 100 night (txt "Abc") (word "~+D").
Proof.
  apply (C65_means toy_sha one_float 100 ident small _ _ _ _ _ _ _ at1 init0 day_ses day_calm day_spaced day_numbers); [apply Nat.ltb_lt| | |discriminate|]; vm_compute; reflexivity.
Qed.

(* what the processes of the day said *)
Definition said_by (l : list (invocation * proc)) : list cstatus := map (fun x => p_status (snd x)) l.
Example C64_case :
  world_ok w0 /\ world_ok night /\
  said_by day = [CSays (word "~+B"); CSays (word "~+C"); CSays (word "4+0"); cok; CSays (word "6+C"); CSays (word "7+0"); cok; CFails RBadArgs; CSays (word "~+D"); CSays (word "B+0"); cok; CFails RNotFound; cok] /\
  map fst night = [NIL; word "~+C"; word "~+D"] /\ map (fun x => changes (fst x)) day = [true; true; true; true; true; true; false; true; true; true; true; false; false].
Proof. split; [exact ok0|]. split; [exact night_ok|]. split; [vm_compute; reflexivity|]. split; vm_compute; reflexivity. Qed.
(* create, name and drop in the new replica *)
Definition answer (fs : world) (i : invocation) : proc := match cl fs i with Done p => p | _ => mkProc [] CCrash [] 0 end.
Example C64_create_case : let i := line "2+A" "B" "create as Abc" in
  world_ok w0 /\ calm i (answer w0 i) /\ cl w0 i = Done (answer w0 i) /\ i_args i = W_create :: [W_as; txt "Abc"] /\ is_error (parse_uuid (txt "Abc")) = false /\
  base64_case (uvalue (parse_uuid (txt "Abc"))) = CAMEL /\ ~ In (branch_id (i_random i)) (map fst w0).
Proof.
  cbv zeta. split; [exact ok0|]. split; [apply calmb_one; vm_compute; reflexivity|]. do 4 (split; [vm_compute; reflexivity|]). intro H. vm_compute in H. destruct H as [H|[]]. discriminate H.
Qed.
Example C64_name_case : let i := line "2+A" "B" "name 5+B as notes" in
  calm i (answer w0 i) /\ cl w0 i = Done (answer w0 i) /\ i_args i = [W_name; txt "5+B"; W_as; txt "notes"] /\ version (parse_uuid (txt "5+B")) = TIME /\
  version (parse_uuid (txt "notes")) = NAME /\ is_error (parse_uuid (txt "notes")) = false /\ uuid_zero (parse_uuid (txt "notes")) = false.
Proof. cbv zeta. split; [apply calmb_one; vm_compute; reflexivity|]. do 5 (split; [vm_compute; reflexivity|]). vm_compute. reflexivity. Qed.
Example C64_drop_case : let i := line "F+A" "B" "drop Abc" in
  calm i (answer night i) /\ cl night i = Done (answer night i) /\ i_args i = [W_drop; txt "Abc"] /\ is_error (parse_uuid (txt "Abc")) = false /\
  branch_id (at_time "D") = word "~+D" /\ means one_float 100 night (txt "Abc") (word "~+D") /\ base64_case (uvalue (parse_uuid (txt "Abc"))) = CAMEL /\ In (word "~+D") (map fst night) /\
  map fst (p_families (answer night i)) = [NIL; word "~+C"].
Proof.
  cbv zeta. split; [apply calmb_one; vm_compute; reflexivity|]. do 4 (split; [vm_compute; reflexivity|]). split; [exact C65_abc|]. split; [vm_compute; reflexivity|]. split; [vm_compute; auto|]. vm_compute. reflexivity.
Qed.
(* list and named in the evening *)
Definition night_names : list (uuid * uuid) := Eval vm_compute in match night with (_, d) :: _ => match b_names one_float 100 (mkBranch d NIL) with Done (l, _) => l | _ => [] end | _ => [] end.
Lemma night_meta : meta_names one_float 100 night night_names.
Proof. exists (match night with (_, d) :: _ => d | _ => [] end). split; [left; vm_compute; reflexivity|]. vm_compute. reflexivity. Qed.
Example C66_case :
  world_ok night /\ (forall l : list (uuid * uuid), Permutation (ident l) l) /\ meta_names one_float 100 night night_names /\
  cl night (line "F+A" "A" "list") = Done (answer night (line "F+A" "A" "list")) /\
  p_out (answer night (line "F+A" "A" "list")) = txt "0" ++ [9] ++ txt "0" ++ [10] ++ txt "~+C" ++ [9] ++ txt "Def" ++ [10] ++ txt "~+D" ++ [9] ++ txt "Abc" ++ [10] /\
  cl night (line "F+A" "A" "named objects") = Done (answer night (line "F+A" "A" "named objects")) /\
  p_out (answer night (line "F+A" "A" "named objects")) = txt "6+B" ++ [9] ++ txt "notes" ++ [10] ++ txt "9+B" ++ [9] ++ txt "todo" ++ [10] /\
  i_args (line "F+A" "A" "named objects") = [W_named; W_objects].
Proof. split; [exact night_ok|]. split; [exact same_walk|]. split; [exact night_meta|]. do 4 (split; [vm_compute; reflexivity|]). vm_compute. reflexivity. Qed.
Example C67_case :
  world_ok night /\ i_args (line "F+A" "A" "fork as Jkl") = W_fork :: [W_as; txt "Jkl"] /\ p_status (answer night (line "F+A" "A" "fork as Jkl")) = CFails RBadArgs /\
  p_status (answer night (line "F+A" "A" "get lww of 5+B")) = CFails RNotFound /\ p_status (answer night (line "F+A" "A" "new lww as pad")) = CCrash /\
  p_status (answer night (line "F+A" "A" "write f on Abc")) = CFails RNotFound /\ p_status (answer night (line "F+A" "A" "write")) = CNoFile /\
  p_status (answer night (line "F+A" "A" "on")) = cok /\ runs toy_sha one_float 100 ident w0 (log_l log1) (log_w log1).
Proof. split; [exact night_ok|]. do 7 (split; [vm_compute; reflexivity|]). rewrite <- log1_is. apply logged_runs. vm_compute. reflexivity. Qed.

(* ---- where it ends ---- *)
(* Two names given within one tick of the clock: the first is lost, for good. *)
Definition hasty2 : list invocation := [line "2+A" "A" "name 5+B as notes"; line "2+A" "A" "name 6+B as todo"].
Definition hasty_log := Eval vm_compute in log_of w0 hasty2.
Theorem C65_hasty_refuted : exists l fs names n, ses w0 l fs /\ Forall (fun x => calm (fst x) (snd x)) l /\ Forall no_numbers l /\
  Forall (fun x => succeeds (p_status (snd x))) l /\ meta_names one_float 100 fs names /\ last_given n l = Some (word "5+B") /\ names_get names n = None.
Proof.
  exists (log_l hasty_log), (log_w hasty_log), [(word "todo", word "6+B")], (word "notes").
  assert (E : log_of w0 hasty2 = hasty_log) by (vm_compute; reflexivity). split; [rewrite <- E; apply logged_ses; vm_compute; reflexivity|].
  split; [apply calmb_all; vm_compute; reflexivity|]. split; [apply no_numbersb_all; vm_compute; reflexivity|]. split; [apply Forall_cons; [exact I|]; apply Forall_cons; [exact I|]; constructor|].
  split; [exists (match log_w hasty_log with (_, d) :: _ => d | _ => [] end); split; [left; vm_compute; reflexivity|vm_compute; reflexivity]|]. split; vm_compute; reflexivity.
Qed.
(* The clock of the computer set back: the name goes on to mean what it meant. *)
Definition back2 : list invocation := [line "3+A" "A" "name 5+B as notes"; line "2+A" "A" "name 6+B as notes"].
Definition back_log := Eval vm_compute in log_of w0 back2.
Theorem C65_back_refuted : exists l fs names n, ses w0 l fs /\ Forall (fun x => calm (fst x) (snd x)) l /\ Forall no_numbers l /\
  Forall (fun x => succeeds (p_status (snd x))) l /\ meta_names one_float 100 fs names /\ last_given n l = Some (word "6+B") /\ names_get names n = Some (word "5+B").
Proof.
  exists (log_l back_log), (log_w back_log), [(word "notes", word "5+B"); (word "notes", word "6+B")], (word "notes").
  assert (E : log_of w0 back2 = back_log) by (vm_compute; reflexivity). split; [rewrite <- E; apply logged_ses; vm_compute; reflexivity|].
  split; [apply calmb_all; vm_compute; reflexivity|]. split; [apply no_numbersb_all; vm_compute; reflexivity|]. split; [apply Forall_cons; [exact I|]; apply Forall_cons; [exact I|]; constructor|].
  split; [exists (match log_w back_log with (_, d) :: _ => d | _ => [] end); split; [left; vm_compute; reflexivity|vm_compute; reflexivity]|]. split; vm_compute; reflexivity.
Qed.
(* A name that reads as a number is accepted and not kept. *)
Definition number1 : list invocation := [line "3+A" "A" "name 5+B as 1e5"].
Definition number_log := Eval vm_compute in log_of w0 number1.
Theorem C65_number_refuted : exists l fs names n, ses w0 l fs /\ Forall (fun x => calm (fst x) (snd x)) l /\ spaced l /\
  Forall (fun x => succeeds (p_status (snd x))) l /\ meta_names one_float 100 fs names /\ last_given n l = Some (word "5+B") /\ names_get names n = None.
Proof.
  exists (log_l number_log), (log_w number_log), [], (word "1e5").
  assert (E : log_of w0 number1 = number_log) by (vm_compute; reflexivity). split; [rewrite <- E; apply logged_ses; vm_compute; reflexivity|].
  split; [apply calmb_all; vm_compute; reflexivity|]. split; [apply spacedb_ok; vm_compute; reflexivity|]. split; [apply Forall_cons; [exact I|]; constructor|].
  split; [exists (match log_w number_log with (_, d) :: _ => d | _ => [] end); split; [left; vm_compute; reflexivity|vm_compute; reflexivity]|]. split; vm_compute; reflexivity.
Qed.
(* A tag with an origin is accepted by create, and then no command takes it. *)
Definition tagged : list invocation := [line "3+A" "B" "create as Abc+Def"; line "4+A" "A" "drop Abc+Def"].
Definition tag_log := Eval vm_compute in log_of w0 tagged.
Theorem C64_tag_refuted : exists l fs, ses w0 l fs /\ Forall (fun x => calm (fst x) (snd x)) l /\ spaced l /\
  map given l = [Some (word "Abc+Def", word "~+B"); None] /\ said_by l = [CSays (word "~+B"); CFails RBadArgs].
Proof.
  exists (log_l tag_log), (log_w tag_log). assert (E : log_of w0 tagged = tag_log) by (vm_compute; reflexivity). split; [rewrite <- E; apply logged_ses; vm_compute; reflexivity|].
  split; [apply calmb_all; vm_compute; reflexivity|]. split; [apply spacedb_ok; vm_compute; reflexivity|]. split; vm_compute; reflexivity.
Qed.
(* A name in CamelCase of an event, not of a branch: named and dump on it crash. *)
Definition crash3 : list invocation := [line "3+A" "A" "name 5+B as Beta"; line "4+A" "B" "create"; line "5+A" "A" "named things on Beta"; line "6+A" "A" "dump Beta"].
Definition crash_log := Eval vm_compute in log_of w0 crash3.
Theorem C66_crash_refuted : exists l fs, ses w0 l fs /\ Forall (fun x => calm (fst x) (snd x)) l /\ spaced l /\ said_by l = [CSays (word "3+0"); CSays (word "~+B"); CCrash; CCrash].
Proof.
  exists (log_l crash_log), (log_w crash_log). assert (E : log_of w0 crash3 = crash_log) by (vm_compute; reflexivity). split; [rewrite <- E; apply logged_ses; vm_compute; reflexivity|].
  split; [apply calmb_all; vm_compute; reflexivity|]. split; [apply spacedb_ok; vm_compute; reflexivity|]. vm_compute; reflexivity.
Qed.
(* hop on Abc says it is done, and the next process is on the metadata; hop Abc
   does what hop on 0 does. *)
Definition hops : list invocation := [line "3+A" "B" "create as Abc"; line "4+A" "A" "hop on Abc"; line "5+A" "A" "on"].
Definition hop_log := Eval vm_compute in log_of w0 hops.
Theorem C67_hop_refuted : exists l fs, ses w0 l fs /\ Forall (fun x => calm (fst x) (snd x)) l /\ spaced l /\ said_by l = [CSays (word "~+B"); cok; CSays NIL] /\
  (let i := line "6+A" "A" "hop Abc" in let j := line "6+A" "A" "hop on 0" in cl fs i = Done (answer fs i) /\ p_status (answer fs i) = cok /\ cl fs i = cl fs j).
Proof.
  exists (log_l hop_log), (log_w hop_log). assert (E : log_of w0 hops = hop_log) by (vm_compute; reflexivity). split; [rewrite <- E; apply logged_ses; vm_compute; reflexivity|].
  split; [apply calmb_all; vm_compute; reflexivity|]. split; [apply spacedb_ok; vm_compute; reflexivity|]. split; [vm_compute; reflexivity|]. cbv zeta. split; [vm_compute; reflexivity|]. split; vm_compute; reflexivity.
Qed.
Print Assumptions C65_hasty_refuted.
Print Assumptions C65_back_refuted.
Print Assumptions C65_number_refuted.
Print Assumptions C64_tag_refuted.
Print Assumptions C66_crash_refuted.
Print Assumptions C67_hop_refuted.
