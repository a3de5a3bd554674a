(* Replicas with several branches: concrete cases and counterexamples for C55-C58. *)
From Coq Require Import String.
From Verif Require Import Prelude UuidModel UuidProofs KeyModel CodecModel TextTable TextModel TextSpec BuilderSpec BuilderProofs MergeModel MergeTextModel TextMergeSpec TextMerge TextMergeTheorems
  StoreModel StoreProofs HashModel MetaModel ClockModel ReplicaModel ReplicaSpec ReplicaProofs ReplicaTheorems StoreSpec StoreTheorems RocksModel RocksSpec RocksProofs
  HashCases MetaCases Txt MergeCases TextMergeCases StoreCases JoinCases ReplicaCases BranchModel BranchSpec BranchProofs BranchTheorems BranchCases
  DurableSpec DurableProofs DurableTheorems DurableCases ForkModel ForkSpec ForkTheorems ForkCases HostModel HostSpec HostProofs HostTheorems.
Open Scope string_scope.
Open Scope N_scope.
Open Scope list_scope.

(* the constant of db/replica.cc:10 *)
Example active_uuid : parse_uuid (txt "0000active+0") = ACTIVE_STORE_UUID.
Proof. vm_compute. reflexivity. Qed.

(* deciders *)
Section Decide.
Variable sha : bytes -> bytes.
Variable fbits : bytes -> N.
Variable fuel : nat.
Definition earlyb (rs : list N) : bool := forallb (fun r => r <? NEVER_W) rs.
Definition saneb (fresh : list uuid) (e : hevent) : bool :=
  match e with
  | HReceive rs y _ => earlyb rs && negb (existsb (uuid_eqb (branch_id y)) fresh)
  | HCreate rs y t => earlyb rs && (t || negb (y =? 0))
  | HFork rs y _ => earlyb rs && negb (y =? 0)
  | HActivate rs _ => earlyb rs
  | _ => true
  end.
Fixpoint carefulb (fresh : list uuid) (h : host) (es : list hevent) : bool :=
  match es with
  | [] => true
  | e :: r => saneb fresh e && match h_step sha fbits fuel h e with
                               | Done (h1, s) => (h_now h1 <? NEVER_W) && carefulb (then_fresh fresh e s) h1 r
                               | _ => true
                               end
  end.
Lemma earlyb_ok rs : earlyb rs = true -> early rs.
Proof. intro H. unfold earlyb in H. rewrite forallb_forall in H. apply Forall_forall. intros r I. apply N.ltb_lt, H, I. Qed.
Lemma saneb_ok fr e : saneb fr e = true -> sane fr e.
Proof.
  intro H. destruct e; cbn [saneb sane] in *; auto using earlyb_ok; apply andb_true_iff in H as [H1 H2]; (split; [apply earlyb_ok; exact H1|]).
  - intro I. apply negb_true_iff in H2. assert (existsb (uuid_eqb (branch_id yarn)) fr = true); [|congruence]. apply existsb_exists. exists (branch_id yarn). split; [exact I|apply uuid_eqb_eq; reflexivity].
  - apply orb_true_iff in H2 as [H2|H2]; [left; exact H2|right]. apply negb_true_iff, N.eqb_neq in H2. exact H2.
  - apply negb_true_iff, N.eqb_neq in H2. exact H2.
Qed.
Lemma carefulb_ok es : forall fr h, carefulb fr h es = true -> careful sha fbits fuel fr h es.
Proof.
  induction es as [|e es IH]; intros fr h H; cbn [carefulb careful] in *; [exact Logic.I|]. apply andb_true_iff in H as [H1 H2]. split; [apply saneb_ok; exact H1|].
  intros h1 s E. rewrite E in H2. apply andb_true_iff in H2 as [H2 H3]. split; [apply N.ltb_lt; exact H2|apply IH; exact H3].
Qed.
Definition wordsb (e : hevent) : bool :=
  match e with
  | HReceive rs _ _ | HCreate rs _ _ | HFork rs _ _ | HActivate rs _ => forallb (fun r => r <? 2 ^ 64) rs
  | _ => true
  end.
Lemma wordsb_ok es : forallb wordsb es = true -> Forall words es.
Proof.
  intro H. rewrite forallb_forall in H. apply Forall_forall. intros e I. specialize (H e I). destruct e; cbn [wordsb words] in *; auto;
    rewrite forallb_forall in H; apply Forall_forall; intros r J; apply N.ltb_lt, H, J.
Qed.
End Decide.

Notation hrun := (h_run toy_sha one_float 100).
Notation hnew := (h_new toy_sha one_float 100 (at_time "1+A")).
Definition host_of {X} (r : res (host * X)) : host := match r with Done (h, _) => h | _ => mkHost 0 NIL false [] end.
Definition told {X} (r : res (host * X)) : option X := match r with Done (_, s) => Some s | _ => None end.
Definition h0 : host := host_of hnew.
Definition idB : uuid := branch_id yarnB.
Definition got (y : N) (s : string) : hevent := HReceive [] y (txt s).
(* a branch made and opened *)
Definition madeA : list hevent := [HOpen; HCreate [at_time "2+A"] yarnA false; HClose; HOpen].
Definition tips (h : host) : list uuid := map (fun p => br_tip (snd p)) (h_stores h).
Definition FB : 2 * N.of_nat 100 < ROOM := eq_refl.

(* C56_start, for the cases *)
Lemma start sha fbits fuel reading h0 s es h' ss o l : 2 * N.of_nat fuel < ROOM -> reading < NEVER_W -> h_new sha fbits fuel reading = Done (h0, s) ->
  careful sha fbits fuel [] h0 es -> h_run sha fbits fuel h0 es = Done (h', ss) -> h_open h' = o -> map fst (h_stores h') = l -> sound h0 [] /\ goes_on false [NIL] es ss o l.
Proof.
  intros B L N C R <- <-. split; [exact (proj1 (proj2 (C56_new _ _ _ _ _ _ L N)))|exact (proj2 (C56_start _ _ _ B _ _ _ _ _ _ L N C R))].
Qed.

(* ---- C56 ---- *)
(* events, compactions, a fork, restarts, drops, and calls that are refused *)
Definition lifeH : list hevent :=
  madeA ++ [ got yarnA "@3+A :lww; @4+A :3+A 'key' 1;"; HCompact idA KEY_ZERO (CFull 1); HCreate [at_time "1+A"] yarnA false;
             HFork [at_time "1+A"] yarnB yarnA; HActivate [0] idA; HRestart; got yarnA "@5+A :4+A 'x' 1;"; HOpen;
             got yarnB "@A+B :4+A 'y' 2;"; got 7 "@A+B :4+A 'y' 2;"; HDrop idB; HDrop idB; HDrop NIL; HClose; HOpen; HOpen ].
Definition said_H : list rstatus :=
  [ROk; ROk; ROk; ROk] ++ [ROk; ROk; RBadArgs; ROk; ROk; ROk; RNotOpen; ROk; ROk; RNotFound; ROk; RNotFound; RDbFail; ROk; ROk; RBadState].
Definition endH : host := host_of (hrun h0 lifeH).
Example C56_case :
  at_time "1+A" < NEVER_W /\ hnew = Done (h0, ROk) /\ careful toy_sha one_float 100 [] h0 lifeH /\ hrun h0 lifeH = Done (endH, said_H) /\
  h_open endH = true /\ map fst (h_stores endH) = [NIL; idA] /\ tips endH = [ev "1+0"; ev "4+A"] /\
  sound h0 [] /\ goes_on false [NIL] lifeH said_H true [NIL; idA].
Proof.
  assert (L : at_time "1+A" < NEVER_W) by (vm_compute; reflexivity). assert (N : hnew = Done (h0, ROk)) by (vm_compute; reflexivity).
  assert (C : careful toy_sha one_float 100 [] h0 lifeH) by (apply carefulb_ok; vm_compute; reflexivity).
  assert (R : hrun h0 lifeH = Done (endH, said_H)) by (vm_compute; reflexivity).
  assert (O : h_open endH = true) by (vm_compute; reflexivity). assert (I : map fst (h_stores endH) = [NIL; idA]) by (vm_compute; reflexivity).
  split; [exact L|]. split; [exact N|]. split; [exact C|]. split; [exact R|]. split; [exact O|]. split; [exact I|]. split; [vm_compute; reflexivity|].
  exact (start toy_sha one_float 100 (at_time "1+A") h0 ROk lifeH endH said_H true [NIL; idA] FB L N C R O I).
Qed.
(* an event one tick before NEVER is received; the branch made next, with success,
   starts at NEVER, and the replica does not open any more *)
Definition last_tick : list hevent := madeA ++ [got yarnA "@z~~~~~~~~~+A :2+A;"; HCreate [at_time "3+A"] yarnB false; HClose; HOpen].
Theorem C56_never_refuted : exists h h1, hnew = Done (h, ROk) /\
  hrun h last_tick = Done (h1, [ROk; ROk; ROk; ROk; ROk; ROk; ROk; RBadFrame]) /\ uvalue (ev "z~~~~~~~~~+A") + 1 = NEVER_W /\
  carefulb toy_sha one_float 100 [] h (firstn 5 last_tick) = true.
Proof. exists h0, (host_of (hrun h0 last_tick)). do 3 (split; [vm_compute; reflexivity|]). vm_compute. reflexivity. Qed.
(* a branch for yarn 0 while another one is active: the first event is of the
   active yarn *)
Definition zero_yarn : list hevent := madeA ++ [HActivate [0] idA; HCreate [at_time "3+A"] 0 false; HClose; HOpen].
Definition zero_branch : branch := match find_store (h_stores (host_of (hrun h0 zero_yarn))) (branch_id 0) with Some b => b | None => mkBranch [] NIL end.
Theorem C56_zero_refuted : exists h h1, hnew = Done (h, ROk) /\
  hrun h zero_yarn = Done (h1, [ROk; ROk; ROk; ROk; ROk; ROk; ROk; RBadFrame]) /\
  h_now h1 < NEVER_W /\ records h1 (branch_id 0) (ev "3+A").
Proof.
  exists h0, (host_of (hrun h0 zero_yarn)). do 3 (split; [vm_compute; reflexivity|]).
  exists zero_branch. split; [apply find_in; vm_compute; reflexivity|].
  split; [apply in_orderb_ok; vm_compute; reflexivity|]. split; [split; [exact (proj1 (uop_okb_ok (mkUop (ev "3+A") (ev "3+A") []) eq_refl))|vm_compute; discriminate]|].
  exists (txt "@3+A :zero;
"), [txt "@0 :zero;
"]. split; vm_compute; reflexivity.
Qed.
(* a frame for a branch made since the opening: it takes a chain of any yarn *)
Definition too_soon : list hevent := [HOpen; HCreate [at_time "2+A"] yarnA false; got yarnA "@3+B :yarn;"; HClose; HOpen].
Theorem C56_fresh_refuted : exists h h1, hnew = Done (h, ROk) /\ hrun h too_soon = Done (h1, [ROk; ROk; ROk; ROk; RBadFrame]) /\ h_now h1 < NEVER_W.
Proof. exists h0, (host_of (hrun h0 too_soon)). do 2 (split; [vm_compute; reflexivity|]). vm_compute. reflexivity. Qed.

(* ---- C55 ---- *)
Definition openH : host := host_of (hrun h0 madeA).
Definition aliveA : branch := match find_store (h_stores openH) idA with Some b => b | None => mkBranch [] NIL end.
Definition laterH : list hevent := skipn 4 lifeH.
Lemma both_ok (P Q : hevent -> rstatus -> Prop) l m : Forall2 P l m -> (forall x y, P x y -> Q x y) -> Forall2 Q l m.
Proof. intros F K. induction F; constructor; auto. Qed.
Definition sparesb (id : uuid) (e : hevent) (s : rstatus) : bool :=
  match e with HDrop i => negb (uuid_eqb i id) | HOpen => match s with ROk | RBadState => true | _ => false end | _ => true end.
Fixpoint all_spare (id : uuid) (es : list hevent) (ss : list rstatus) : bool :=
  match es, ss with
  | [], [] => true
  | e :: es', s :: ss' => sparesb id e s && all_spare id es' ss'
  | _, _ => false
  end.
Lemma all_spare_ok id es : forall ss, all_spare id es ss = true -> Forall2 (spares id) es ss.
Proof.
  induction es as [|e es IH]; intros [|s ss] H; try discriminate; constructor; cbn [all_spare] in H; apply andb_true_iff in H as [H1 H2]; [|apply IH; exact H2].
  destruct e; cbn [sparesb spares] in *; auto.
  - apply negb_true_iff in H1. intros ->. rewrite (proj2 (uuid_eqb_eq _ _) eq_refl) in H1. discriminate.
  - destruct s; try discriminate; auto.
Qed.
(* branch A in that run, with a fork being made of it and dropped again: it goes
   through what concerns it as if it were alone *)
Definition aloneA : list bevent :=
  [ rec "2+A" "@3+A :lww; @4+A :3+A 'key' 1;"; BCompact KEY_ZERO (CFull 1); BOpen 0; BOpen 0 ].
Example C55_case :
  version idA = TIME /\ h_now openH < 2 ^ 64 /\ Forall words laterH /\ hrun openH laterH = Done (endH, skipn 4 said_H) /\
  Forall2 (spares idA) laterH (skipn 4 said_H) /\ find_store (h_stores openH) idA = Some aliveA /\ healthy idA aliveA (ev "2+A") /\
  exists b, find_store (h_stores endH) idA = Some b /\ runA aliveA aloneA = Done (b, [ROk; ROk; ROk; ROk]).
Proof.
  split; [vm_compute; reflexivity|]. split; [vm_compute; reflexivity|]. split; [apply wordsb_ok; vm_compute; reflexivity|]. split; [vm_compute; reflexivity|].
  split; [apply all_spare_ok; vm_compute; reflexivity|]. split; [vm_compute; reflexivity|]. split.
  { apply (new_open toy_sha one_float 0 100 0 [at_time "2+A"] yarnA false (branch_of (b_new toy_sha one_float 0 100 0 [at_time "2+A"] yarnA false)) ROk 0 aliveA ROk (ev "2+A") idA).
    - discriminate.
    - vm_compute. reflexivity.
    - vm_compute. reflexivity.
    - reflexivity.
    - vm_compute. reflexivity.
    - vm_compute. reflexivity. }
  exists (branch_of (runA aliveA aloneA)). split; vm_compute; reflexivity.
Qed.
(* the fork there is that of C49 *)
Example C55_fork_case : exists h1 b, hrun openH (firstn 4 laterH) = Done (h1, firstn 4 (skipn 4 said_H)) /\ find_store (h_stores h1) idB = Some b /\
  exists h2 o, hrun openH (firstn 3 laterH) = Done (h2, firstn 3 (skipn 4 said_H)) /\ find_store (h_stores h2) idB = None /\ find_store (h_stores h2) idA = Some o /\
  b_fork toy_sha one_float 0 100 (br_main o) (h_now h2) [at_time "1+A"] yarnB = Done (b, ROk).
Proof.
  exists (host_of (hrun openH (firstn 4 laterH))), (match find_store (h_stores (host_of (hrun openH (firstn 4 laterH)))) idB with Some b => b | None => mkBranch [] NIL end).
  split; [vm_compute; reflexivity|]. split; [vm_compute; reflexivity|].
  exists (host_of (hrun openH (firstn 3 laterH))), (match find_store (h_stores (host_of (hrun openH (firstn 3 laterH)))) idA with Some b => b | None => mkBranch [] NIL end).
  do 3 (split; [vm_compute; reflexivity|]). vm_compute. reflexivity.
Qed.

(* ---- C57 ---- *)
(* the system clock is behind after a restart *)
Definition upto : list hevent := madeA ++ [got yarnA "@3+A :lww; @4+A :3+A 'key' 1;"; HRestart; HOpen].
Example C57_case : exists h1 h2,
  sound h0 [] /\ careful toy_sha one_float 100 [] h0 (upto ++ [HCreate [at_time "1+B"] yarnB false]) /\
  hrun h0 upto = Done (h1, [ROk; ROk; ROk; ROk; ROk; ROk; ROk]) /\ hrun h1 [HCreate [at_time "1+B"] yarnB false] = Done (h2, [ROk]) /\
  tips h1 = [ev "1+0"; ev "4+A"] /\ h_now h2 = uvalue (ev "4+A") + 1.
Proof.
  exists (host_of (hrun h0 upto)), (host_of (hrun (host_of (hrun h0 upto)) [HCreate [at_time "1+B"] yarnB false])).
  split; [apply C56_case|]. split; [apply carefulb_ok; vm_compute; reflexivity|]. do 3 (split; [vm_compute; reflexivity|]). vm_compute. reflexivity.
Qed.
(* what a dropped branch has seen is forgotten with the process: the branch made
   anew gives out ids of its yarn again, from an earlier time *)
Definition anew : list hevent := [HOpen; HCreate [at_time "5+A"] yarnA false; HClose; HOpen; HDrop idA; HRestart; HOpen; HCreate [at_time "2+A"] yarnA false; HClose; HOpen].
Theorem C57_dropped_refuted : exists h h1 h2, hnew = Done (h, ROk) /\
  hrun h (firstn 4 anew) = Done (h1, [ROk; ROk; ROk; ROk]) /\ tips h1 = [ev "1+0"; ev "5+A"] /\
  hrun h1 (skipn 4 anew) = Done (h2, [ROk; ROk; ROk; ROk; ROk; ROk]) /\ tips h2 = [ev "1+0"; ev "2+A"].
Proof.
  exists h0, (host_of (hrun h0 (firstn 4 anew))), (host_of (hrun h0 anew)). do 4 (split; [vm_compute; reflexivity|]). vm_compute. reflexivity.
Qed.

(* ---- C58 ---- *)
Definition chosen : list hevent := madeA ++ [HActivate [0] idA; HClose; HOpen].
Example C58_case : hrun h0 chosen = Done (host_of (hrun h0 chosen), [ROk; ROk; ROk; ROk; ROk; ROk; ROk]) /\
  h_active (host_of (hrun h0 chosen)) = idA /\ last_active NIL chosen [ROk; ROk; ROk; ROk; ROk; ROk; ROk] = idA.
Proof. split; [vm_compute; reflexivity|]. split; vm_compute; reflexivity. Qed.
(* the choice is on record and the branch is there, yet the next process has the
   store of the metadata for its active one *)
Theorem C58_restored_refuted : exists h1 h2 meta f,
  hrun h0 chosen = Done (h1, [ROk; ROk; ROk; ROk; ROk; ROk; ROk]) /\ h_active h1 = idA /\
  hrun h1 [HRestart; HOpen] = Done (h2, [ROk; ROk]) /\ find_store (h_stores h2) NIL = Some meta /\
  b_read one_float 100 (br_main meta) ACTIVE_KEY = Done (br_main meta, f, ROk) /\ (exists c, next (cursor_of f) = NOk c /\ text_ref c = idA) /\
  in_use h2 idA <> None /\ h_active h2 = NIL.
Proof.
  exists (host_of (hrun h0 chosen)), (host_of (hrun (host_of (hrun h0 chosen)) [HRestart; HOpen])).
  exists (match find_store (h_stores (host_of (hrun (host_of (hrun h0 chosen)) [HRestart; HOpen]))) NIL with Some b => b | None => mkBranch [] NIL end).
  exists (txt "@2000000001+0 :~+A;
").
  do 5 (split; [vm_compute; reflexivity|]). split; [exists (at_op 1 "@2000000001+0 :~+A;
"); split; vm_compute; reflexivity|]. split; [vm_compute; discriminate|]. vm_compute. reflexivity.
Qed.
(* dropped, it stays the active one *)
Example C58_dropped_case : told (hrun h0 (chosen ++ [HDrop idA])) = Some [ROk; ROk; ROk; ROk; ROk; ROk; ROk; ROk] /\
  h_active (host_of (hrun h0 (chosen ++ [HDrop idA]))) = idA /\ in_use (host_of (hrun h0 (chosen ++ [HDrop idA]))) idA = None.
Proof. split; [vm_compute; reflexivity|]. split; vm_compute; reflexivity. Qed.
Print Assumptions C56_case.
Print Assumptions C56_never_refuted.
Print Assumptions C56_zero_refuted.
Print Assumptions C56_fresh_refuted.
Print Assumptions C55_case.
Print Assumptions C57_case.
Print Assumptions C57_dropped_refuted.
Print Assumptions C58_restored_refuted.
