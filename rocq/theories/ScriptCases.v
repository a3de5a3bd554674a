(* Test scripts: concrete cases and counterexamples for C68 and C69. *)
From Coq Require Import String.
From Verif Require Import Prelude UuidModel UuidSpec UuidProofs KeyModel CodecModel TextTable TextModel TextSpec BuilderSpec BuilderProofs MergeModel MergeSpec MergeTextModel
  TextMergeSpec TextCursors TextMerge StoreModel RocksModel ClockModel ReplicaModel BranchModel DurableSpec AnswerModel AnswerSpec AnswerTheorems ForkModel HostModel CompareModel
  CompareSpec SizeProofs ScriptModel ScriptSpec ScriptProofs ScriptTheorems RocksSpec ReplicaSpec BranchSpec ScriptStates HashCases MetaCases CompareCases Txt TextMergeCases ReplicaCases BranchCases DurableCases ForkCases HostCases.
Open Scope string_scope.
Open Scope N_scope.
Open Scope list_scope.

(* test/rdt/lww.ron *)
Definition lww_ron : string :=
"@~ 'create an lww object'!
@1hLHRG+test :lww,
    'type' 'ticket',
    'date' '19 Jan 2019',
    'organisation' 'The State Museum of Oriental Art',
    'price' 30000;

@~ 'update the object' !
@1hLHXS+test :1hLHRG0004+test
    'enter' '18:18:14',
    'exit'  '20:45:25';

@~ 'request the state' !
@1hLHRG+test :lww ?

@~ 'is it all merged' ?
@1hLHRG+test :lww,
    'type' 'ticket',
    'date' '19 Jan 2019',
    'organisation' 'The State Museum of Oriental Art',
    'price' 30000,
@1hLHXS+test
    'enter' '18:18:14',
    'exit'  '20:45:25';
".
(* test/rdt/rga.ron *)
Definition rga_ron : string := "@~ 'create an array' !
@1hTDE6+test :rga ; 1; 2; 5;

@~ 'patch an array' !
@1hTDEk+test :1hTDE60002+test 3; 4;

@~ 'query the state' !
@1hTDE6+test :rga ?

@~ 'was it merged' ?
@1hTDE6+test :rga, 
    1, 2, 
@1hTDEk+test 
    3, 4,
@1hTDE60003+test :1hTDE60002+test
    5;

@~ 'remove the 3' !
@1hTDEz+test :1hTDEk+test rm;

@~ 'query the state' !
@1hTDE6+test :rga ?

@~ 'merged again' ?
@1hTDE6+test :rga, 
    1, 2, 
@1hTDEk+test 
    3,
@1hTDEz+test
    rm,
@1hTDEk0001+test :1hTDEk+test
    4,
@1hTDE60003+test :1hTDE60002+test
    5;
".
Definition tested (s : string) : res tstatus := test toy_sha one_float 200 (at_time "1h") [at_time "1h1"] [at_time "1h2"] [] (txt s).
Definition cut (s : string) : res (list string) := match split_tests 200 (txt s) with Done l => Done (map untxt l) | Aborted => Aborted | Fuel => Fuel end.

(* the ops of lww.ron, and its parts *)
Definition lww_ops : list rop := Eval vm_compute in fst (scan 200 (cursor_of (txt lww_ron))).
Definition headerb (o : rop) : bool := uuid_eqb (r_id o) COMMENT && existsb (N.eqb (r_term o)) [HEADER; QUERY].
Fixpoint partsb (l : list rop) : list (rop * list rop) :=
  match l with
  | [] => []
  | o :: r => match partsb r with
              | (h, t) :: ps => if headerb h then (o, []) :: (h, t) :: ps else (o, h :: t) :: ps
              | [] => [(o, [])]
              end
  end.
Definition lww_first : rop * list rop := Eval vm_compute in hd (mkRop NIL NIL [] 0, []) (partsb lww_ops).
Definition lww_rest : list (rop * list rop) := Eval vm_compute in tl (partsb lww_ops).
Lemma headerb_ok o : headerb o = true <-> header o.
Proof.
  unfold headerb, header. rewrite andb_true_iff, uuid_eqb_eq, existsb_exists. split; intros [A B]; (split; [exact A|]).
  - destruct B as (x & I & E). apply N.eqb_eq in E. subst. exact I.
  - exists (r_term o). split; [exact B|apply N.eqb_refl].
Qed.
Definition partedb (ps : list (rop * list rop)) : bool := forallb (fun p => forallb (fun o => negb (headerb o)) (snd p)) ps && forallb (fun p => headerb (fst p)) (tl ps).
Lemma partedb_ok ps : partedb ps = true -> parted (ops_in ps) ps.
Proof.
  unfold partedb. intro H. apply andb_true_iff in H as [A B]. split; [reflexivity|]. rewrite forallb_forall in A, B. split; apply Forall_forall.
  - intros p I. apply Forall_forall. intros o J. specialize (A p I). rewrite forallb_forall in A. specialize (A o J). intro H. apply headerb_ok in H. rewrite H in A. discriminate.
  - intros p I. apply headerb_ok. exact (B p I).
Qed.
Lemma not_before l : forallb (fun o => negb (uuid_eqb (inc (r_id o)) COMMENT)) l = true -> Forall (fun o => inc (r_id o) <> COMMENT) l.
Proof.
  intro H. apply Forall_forall. intros o I E. rewrite forallb_forall in H. specialize (H o I). apply uuid_eqb_eq in E. rewrite E in H. discriminate.
Qed.
(* the same script as the builder writes it *)
Definition lww_script : bytes := Eval vm_compute in match build_calls (replay lww_ops) with Some t => t | None => [] end.
Lemma lww_says : frame_says lww_script (ops_in (lww_first :: lww_rest)).
Proof.
  assert (E : ops_in (lww_first :: lww_rest) = denote (replay lww_ops)) by (vm_compute; reflexivity). rewrite E. apply calls_say; vm_compute; reflexivity.
Qed.

(* the hypotheses of C68_split hold of lww.ron; what it is cut into *)
Example C68_case :
  frame_says lww_script (ops_in (lww_first :: lww_rest)) /\ ops_in (lww_first :: lww_rest) = lww_ops /\ parted (ops_in (lww_first :: lww_rest)) (lww_first :: lww_rest) /\
  r_id (fst lww_first) = COMMENT /\ r_term (fst lww_first) <> REDUCED /\
  good_calls origin_op false false (replay (ops_in (lww_first :: lww_rest))) /\ Forall (fun o => inc (r_id o) <> COMMENT) (ops_in (lww_first :: lww_rest)) /\
  (List.length (ops_in (lww_first :: lww_rest)) < 200)%nat /\ N.of_nat (room (map bare (ops_in (lww_first :: lww_rest)))) < 2 ^ 32 /\
  split_tests 200 lww_script = split_tests 200 (txt lww_ron).
Proof.
  split; [exact lww_says|]. split; [vm_compute; reflexivity|]. split; [apply partedb_ok; vm_compute; reflexivity|]. split; [reflexivity|]. split; [discriminate|].
  split; [apply plain_calls; vm_compute; reflexivity|]. split; [apply not_before; vm_compute; reflexivity|]. split; [apply Nat.ltb_lt; vm_compute; reflexivity|].
  split; vm_compute; reflexivity.
Qed.
(* the other test of the repository *)
Example C68_rga_case : cut rga_ron = Done ["@~ 'create an array'!
@1hTDE6+test :rga;
 1;
 2;
 5;
"; "@~ 'patch an array'!
@1hTDEk+test :1hTDE60002+test 3;
 4;
"; "@~ 'query the state'!
@1hTDE6+test :rga?
"; "@~ 'was it merged'?
@1hTDE6+test :rga,
 1,
 2,
@1hTDEk+test 3,
 4,
@1hTDE60003+test :1hTDE60002+test 5;
"; "@~ 'remove the 3'!
@1hTDEz+test :1hTDEk+test rm;
"; "@~ 'query the state'!
@1hTDE6+test :rga?
"; "@~ 'merged again'?
@1hTDE6+test :rga,
 1,
 2,
@1hTDEk+test 3,
@1hTDEz+test rm,
@1hTDEk0001+test :1hTDEk+test 4,
@1hTDE60003+test :1hTDE60002+test 5;
"].
Proof. vm_compute. reflexivity. Qed.

(* a run that can be computed, for ops without floats *)
Definition value_dec (x y : value) : {x = y} + {x <> y}.
Proof. decide equality; try (decide equality; apply N.eq_dec); try apply Z.eq_dec; repeat first [apply N.eq_dec | apply list_eq_dec | decide equality]. Defined.
Definition no_float_op (o : rop) : bool := forallb (fun v => match v with VFloat _ => false | _ => true end) (r_vals o).
Definition same_opb (x y : rop) : bool := uuid_eqb (r_id x) (r_id y) && uuid_eqb (r_ref x) (r_ref y) && if list_eq_dec value_dec (r_vals x) (r_vals y) then true else false.
Lemma same_opb_ok fb x y : no_float_op x = true -> no_float_op y = true -> same_opb x y = true <-> same_op fb x y.
Proof.
  intros NX NY. unfold same_opb, same_op. rewrite !andb_true_iff, !uuid_eqb_eq. assert (K : (if list_eq_dec value_dec (r_vals x) (r_vals y) then true else false) = true <-> Forall2 (same_value fb) (r_vals x) (r_vals y)).
  { unfold no_float_op in NX, NY. destruct (list_eq_dec value_dec (r_vals x) (r_vals y)) as [E|E].
    - rewrite <- E. split; [intros _|reflexivity]. induction (r_vals x) as [|v l IH]; [constructor|]. cbn [forallb] in NX. apply andb_true_iff in NX as [N1 N2].
      constructor; [destruct v; try discriminate; reflexivity|]. clear -N2. induction l as [|v l IH]; [constructor|]. cbn [forallb] in N2. apply andb_true_iff in N2 as [N1 N2]. constructor; [destruct v; try discriminate; reflexivity|auto].
    - split; [discriminate|]. intro F. exfalso. apply E. clear E. revert NX NY. induction F as [|v w l m S F IH]; intros NX NY; [reflexivity|]. cbn [forallb] in NX, NY.
      apply andb_true_iff in NX as [X1 X2]. apply andb_true_iff in NY as [Y1 Y2]. f_equal; [destruct v, w; try discriminate; exact S|apply IH; assumption]. }
  rewrite K. tauto.
Qed.
Fixpoint all2 {A B} (f : A -> B -> bool) (l : list A) (m : list B) : bool :=
  match l, m with [], [] => true | x :: l, y :: m => f x y && all2 f l m | _, _ => false end.
Lemma all2_ok {A B} (f : A -> B -> bool) (R : A -> B -> Prop) l : forall m, (forall x y, In x l -> In y m -> f x y = true <-> R x y) -> all2 f l m = true <-> Forall2 R l m.
Proof.
  induction l as [|x l IH]; intros [|y m] H; cbn [all2].
  - split; [constructor|reflexivity].
  - split; [discriminate|intro F; inversion F].
  - split; [discriminate|intro F; inversion F].
  - rewrite andb_true_iff, (IH m) by (intros a b I J; apply H; right; assumption). rewrite (H x y) by (left; reflexivity). split; [intros [A1 A2]; constructor; assumption|intro F; inversion F; auto].
Qed.
Lemma all2_none {A B} (f : A -> B -> bool) (R : A -> B -> Prop) l m : (forall x y, R x y -> f x y = true) -> Forall2 R l m -> all2 f l m = true.
Proof. intros H F. induction F as [|x y l m E F IH]; [reflexivity|]. cbn [all2]. rewrite (H _ _ E), IH. reflexivity. Qed.
Definition askedb (re asked : list rop) : bool := match re with [] => false | _ => all2 same_opb (content re) (content asked) end.
Lemma askedb_ok fb re asked : forallb no_float_op re = true -> forallb no_float_op asked = true -> askedb re asked = true <-> as_asked fb re asked.
Proof.
  intros N1 N2. rewrite forallb_forall in N1, N2. unfold askedb, as_asked.
  assert (K : all2 same_opb (content re) (content asked) = true <-> Forall2 (same_op fb) (content re) (content asked)).
  { apply all2_ok. intros x y I J. apply filter_In in I, J. apply same_opb_ok; [apply N1, I|apply N2, J]. }
  rewrite <- K. destruct re as [|o re]; [split; [discriminate|intros [X _]; contradiction]|]. split; [intro H; split; [discriminate|exact H]|tauto].
Qed.
Definition readableb (l : list rop) : bool := forallb (fun o => forallb (fun v =>
    match v with
    | VStr None => false
    | VStr (Some l) => forallb (fun cp => cp <? 2 ^ 21) l
    | VFloat s => one_float s <? 2 ^ 64
    | _ => true
    end) (r_vals o)) l.
Notation ask_h := (h_ask toy_sha one_float 200).
Fixpoint playsb (h : host) (rs : list (list N)) (a : list bcmd) (parts : list (bytes * list rop)) : option bool :=
  match parts with
  | [] => Some true
  | (f, o :: t) :: r =>
      if existsb (N.eqb (r_term o)) [HEADER; RAW] then
        match ask_h h (hd [] rs) TEST_YARN f with
        | Done (h', s, a') =>
            match build (a ++ a') with
            | None => None
            | Some _ => if is_ok s then playsb h' (tl rs) (a ++ a') r else Some false
            end
        | _ => None
        end
      else if r_term o =? QUERY then
        match build a with
        | None => None
        | Some re =>
            match scan 200 (cursor_of re) with
            | (lr, SEnd) => if readableb lr && forallb no_float_op lr && forallb no_float_op (o :: t) && (Nat.ltb (List.length lr) 200)
                            then if askedb lr (o :: t) then playsb h rs [] r else Some false
                            else None
            | _ => None
            end
        end
      else None
  | _ => None
  end.
Lemma playsb_ok parts : forall h rs a v, playsb h rs a parts = Some v -> plays toy_sha one_float 200 h rs a parts v.
Proof.
  induction parts as [|[f [|o t]] r IH]; intros h rs a v H; cbn [playsb] in H; [injection H as <-; constructor|discriminate|].
  destruct (existsb (N.eqb (r_term o)) [HEADER; RAW]) eqn:E1.
  - assert (W : ends_with (o :: t) [HEADER; RAW]) by (apply existsb_exists in E1 as (x & I & E); apply N.eqb_eq in E; cbn [ends_with]; rewrite E; exact I).
    destruct (ask_h h (hd [] rs) TEST_YARN f) as [[[h' s] a']| |] eqn:EA; [|discriminate H..].
    destruct (build (a ++ a')) as [re|] eqn:B; [|discriminate]. destruct (is_ok s) eqn:EO.
    + assert (s = ROk) by (destruct s; try discriminate; reflexivity). subst s. eapply plays_write; [exact W|exact EA|exact B|apply IH; exact H].
    + injection H as <-. eapply plays_refused; [exact W|exact EA| |exact B]. intro X. subst s. discriminate.
  - destruct (r_term o =? QUERY) eqn:E2; [|discriminate]. apply N.eqb_eq in E2. assert (W : ends_with (o :: t) [QUERY]) by (cbn [ends_with]; left; symmetry; exact E2).
    destruct (build a) as [re|] eqn:B; [|discriminate]. destruct (scan 200 (cursor_of re)) as [lr [ | | | ]] eqn:SC; try discriminate.
    assert (RA : reads_as re lr false) by (exists 200%nat; exact SC).
    destruct (readableb lr && forallb no_float_op lr && forallb no_float_op (o :: t) && Nat.ltb (List.length lr) 200) eqn:C; [|discriminate].
    apply andb_true_iff in C as [C C4]. apply andb_true_iff in C as [C C3]. apply andb_true_iff in C as [C1 C2].
    apply readable_opsb in C1. apply Nat.ltb_lt in C4. pose proof (askedb_ok one_float _ _ C2 C3) as AK. destruct (askedb lr (o :: t)) eqn:EK.
    + eapply plays_same; [exact W|exact B|exact RA|exact C1|exact C4|apply AK; reflexivity|apply IH; exact H].
    + injection H as <-. eapply plays_differs; [exact W|exact B|exact RA|exact C1|exact C4|]. intro X. apply AK in X. discriminate.
Qed.

(* the replica the script is run on *)
Definition made_h : host := Eval vm_compute in
  match h_new toy_sha one_float 200 (at_time "1h") with
  | Done (h, _) => match h_reopen one_float 200 (h_restart h) with Done (h1, _) => h1 | _ => h end
  | _ => mkHost 0 NIL false []
  end.
Definition after_create : host := Eval vm_compute in match h_create toy_sha one_float 200 made_h [at_time "1h1"] TEST_YARN true with Done (h, _) => h | _ => made_h end.
Definition test_h : host := Eval vm_compute in match h_activate after_create [at_time "1h2"] (branch_id TEST_YARN) with Done (h, _) => h | _ => made_h end.
Definition parts_of (script : bytes) : list (bytes * list rop) :=
  match split_tests 200 script with Done fs => map (fun f => (f, fst (scan 200 (cursor_of f)))) fs | _ => [] end.
Definition lww_parts : list (bytes * list rop) := Eval vm_compute in parts_of lww_script.

(* the hypotheses of C69_script hold of lww.ron, which passes *)
Example C69_case :
  frame_says lww_script (ops_in (lww_first :: lww_rest)) /\ parted (ops_in (lww_first :: lww_rest)) (lww_first :: lww_rest) /\
  h_create toy_sha one_float 200 made_h [at_time "1h1"] TEST_YARN true = Done (after_create, ROk) /\
  h_activate after_create [at_time "1h2"] (branch_id TEST_YARN) = Done (test_h, ROk) /\
  split_tests 200 lww_script = Done (map fst lww_parts) /\ combine (map fst lww_parts) (map snd lww_parts) = lww_parts /\
  plays toy_sha one_float 200 test_h [] [] lww_parts true /\
  tested lww_ron = Done TOk /\ tested rga_ron = Done TOk.
Proof.
  split; [exact lww_says|]. split; [apply partedb_ok; vm_compute; reflexivity|]. do 4 (split; [vm_compute; reflexivity|]).
  split; [apply playsb_ok; vm_compute; reflexivity|]. split; vm_compute; reflexivity.
Qed.

(* another price is expected, or the same fields in another order: the script
   fails; so it does if the events are refused *)
Definition wrong_price : string := "@~ 'create' ! @1hLHRG+test :lww, 'price' 30000; @~ 'ask' ! @1hLHRG+test :lww ? @~ 'see' ? @1hLHRG+test :lww, 'price' 30001;".
Definition wrong_order : string := "@~ 'create' ! @1hLHRG+test :lww, 'a' 1, 'b' 2; @~ 'ask' ! @1hLHRG+test :lww ? @~ 'see' ? @1hLHRG+test :lww, @1hLHRG0002+test :1hLHRG0001+test 'b' 2, @1hLHRG0001+test :1hLHRG+test 'a' 1;".
Definition backwards : string := "@~ 'create' ! @1hLHRG+test :lww, 'a' 1; @~ 'again' ! @1hLHRG+test :lww, 'a' 2;".
Example C69_fails_case :
  plays toy_sha one_float 200 test_h [] [] (parts_of (txt wrong_price)) false /\ tested wrong_price = Done (TDiffers CBadValue) /\
  tested wrong_order = Done (TDiffers CBadId) /\ tested backwards = Done (TRefused RCauseBreak).
Proof. split; [apply playsb_ok; vm_compute; reflexivity|]. do 2 (split; [vm_compute; reflexivity|]). vm_compute. reflexivity. Qed.

(* the hypotheses of C69_state for the parts of lww.ron that are received, and
   for its query *)
Definition uop_dec (x y : uop) : {x = y} + {x <> y}.
Proof. decide equality; try (decide equality; apply N.eq_dec). apply list_eq_dec. apply value_dec. Defined.
Definition distinctb (U : list uop) : bool := forallb (fun a => forallb (fun b => negb (uuid_eqb (u_id a) (u_id b)) || if uop_dec a b then true else false) U) U.
Lemma distinctb_ok U : distinctb U = true -> forall a b, In a U -> In b U -> u_id a = u_id b -> a = b.
Proof.
  unfold distinctb. intros H a b IA IB E. rewrite forallb_forall in H. specialize (H a IA). rewrite forallb_forall in H. specialize (H b IB).
  apply uuid_eqb_eq in E. rewrite E in H. cbn [negb orb] in H. destruct (uop_dec a b); [assumption|discriminate].
Qed.
Definition written_parts : list (bytes * list rop) := Eval vm_compute in firstn 2 lww_parts.
Definition test_b : branch := Eval vm_compute in match find_store (h_stores test_h) (branch_id TEST_YARN) with Some b => b | None => mkBranch [] NIL end.
Definition after_1 : host := Eval vm_compute in match h_receive toy_sha one_float 200 test_h [] TEST_YARN (fst (nth 0 written_parts ([], []))) with Done (h, _) => h | _ => test_h end.
Definition after_2 : host := Eval vm_compute in match h_receive toy_sha one_float 200 after_1 [] TEST_YARN (fst (nth 1 written_parts ([], []))) with Done (h, _) => h | _ => test_h end.
Definition lww_q : rop := Eval vm_compute in nth 1 (snd (nth 2 lww_parts ([], []))) (mkRop NIL NIL [] 0).
Definition lww_c : rop := Eval vm_compute in nth 0 (snd (nth 2 lww_parts ([], []))) (mkRop NIL NIL [] 0).
Definition lww_expected : list rop := Eval vm_compute in snd (nth 3 lww_parts ([], [])).
Definition saidb (p : bytes * list rop) : bool :=
  plain_callsb origin_op (replay (snd p)) && (N.of_nat (List.length (replay (snd p))) <? 2 ^ 32) && (N.of_nat (List.length (fst p)) <? 2 ^ 32) &&
  match build_calls (replay (snd p)) with Some t => if list_eq_dec N.eq_dec t (fst p) then true else false | None => false end.
Lemma saidb_ok p : saidb p = true -> frame_says (fst p) (denote (replay (snd p))).
Proof.
  unfold saidb. rewrite !andb_true_iff, !N.ltb_lt. intros [[[A B] C] D]. destruct (build_calls (replay (snd p))) as [t|] eqn:E; [|discriminate].
  destruct (list_eq_dec N.eq_dec t (fst p)) as [Q|]; [|discriminate]. subst t. apply calls_say; [exact A|exact B|exact E|exact C].
Qed.
Example C69_state_case :
  unopened test_h test_b /\ in_order (br_main test_b) /\ Forall events_only (map fst written_parts) /\ Forall2 frame_says (map fst written_parts) (map snd written_parts) /\
  Forall (fun l => ends_with l [HEADER; RAW]) (map snd written_parts) /\ accepts toy_sha one_float 200 test_h [] (map fst written_parts) after_2 /\
  state_query lww_q /\ uuid2form (r_ref lww_q) <> RGA_RDT_FORM /\ state_at (br_main test_b) (state_key lww_q) [] /\
  keep_bound 200 [] (filter event_op (List.concat (map snd written_parts))) /\
  frame_says (fst (nth 2 lww_parts ([], []))) [lww_c; lww_q] /\ r_id lww_c = COMMENT /\ In (r_term lww_c) [HEADER; RAW] /\ ends_with lww_expected [QUERY] /\
  map bare (content lww_expected) = map bare (filter event_op (List.concat (map snd written_parts))).
Proof.
  split; [repeat split; vm_compute; reflexivity|]. split; [apply in_orderb_ok; vm_compute; reflexivity|].
  split; [apply Forall_cons; [apply events_onlyb_ok; vm_compute; reflexivity|apply Forall_cons; [apply events_onlyb_ok; vm_compute; reflexivity|constructor]]|].
  assert (SAY : forall p, saidb p = true -> denote (replay (snd p)) = snd p -> frame_says (fst p) (snd p)) by (intros p A B; apply saidb_ok in A; rewrite B in A; exact A).
  split.
  { assert (E : Forall (fun p => frame_says (fst p) (snd p)) written_parts).
    { apply Forall_cons; [apply SAY; vm_compute; reflexivity|apply Forall_cons; [apply SAY; vm_compute; reflexivity|constructor]]. }
    clear SAY. induction E as [|p l H E IH]; [constructor|]. constructor; assumption. }
  split; [apply Forall_cons; [left; reflexivity|apply Forall_cons; [left; reflexivity|constructor]]|].
  split; [apply (accepts_more _ _ _ test_h [] _ _ after_1); [vm_compute; reflexivity|apply (accepts_more _ _ _ after_1 [] _ _ after_2); [vm_compute; reflexivity|constructor]]|].
  split; [split; [reflexivity|split; [reflexivity|left; reflexivity]]|]. split; [vm_compute; discriminate|]. split.
  { exists []. assert (E : cell_at (br_main test_b) (state_key lww_q) = mkCell None []) by (vm_compute; reflexivity). rewrite E. cbn [ce_value ce_operands held app].
    split; [constructor|]. split; [reflexivity|]. split; [apply Nat.le_refl|]. split; [apply Nat.le_refl|]. intro X. contradiction. }
  split.
  { split; [apply mergeableb_ok; [vm_compute; reflexivity|apply distinctb_ok; vm_compute; reflexivity]|]. split; [apply Nat.ltb_lt; vm_compute; reflexivity|]. split; vm_compute; reflexivity. }
  split; [apply (SAY (nth 2 lww_parts ([], []))); vm_compute; reflexivity|]. split; [reflexivity|]. split; [left; reflexivity|]. split; [left; reflexivity|]. vm_compute. reflexivity.
Qed.

(* ---- what does not hold ---- *)

(* a span of characters that a terminator closes does not survive the cut: the
   characters after the first one become tokens of their own *)
Definition spans : string := "@~ 'write' ! @1hTDE6+test :rga, ('Hello'); @~ 'ask' ! @1hTDE6+test :rga ?".
Definition chars : string := "@~ 'write' ! @1hTDE6+test :rga; 'H'; 'e'; @~ 'ask' ! @1hTDE6+test :rga ?".
Theorem C68_span_refuted : exists script h t parts fs, parted (ops_in ((h, t) :: parts)) ((h, t) :: parts) /\ r_id h = COMMENT /\
  scan 200 (cursor_of script) = (ops_in ((h, t) :: parts), SEnd) /\ split_tests 200 script = Done fs /\
  ~ Forall2 (fun f p => exists l, scan 200 (cursor_of f) = (l, SEnd) /\ retold p l) fs ((h, t) :: parts).
Proof.
  pose (ps := partsb (fst (scan 200 (cursor_of (txt spans))))). exists (txt spans), (fst (hd (mkRop NIL NIL [] 0, []) ps)), (snd (hd (mkRop NIL NIL [] 0, []) ps)), (tl ps),
    (match split_tests 200 (txt spans) with Done l => l | _ => [] end).
  split; [apply partedb_ok; vm_compute; reflexivity|]. do 3 (split; [vm_compute; reflexivity|]). intro F.
  apply (all2_none (fun (f : bytes) (p : rop * list rop) => all2 (fun o x => if list_eq_dec value_dec (r_vals x) (r_vals o) then true else false) (snd p) (tl (fst (scan 200 (cursor_of f)))))) in F; [vm_compute in F; discriminate F|].
  intros f p (l & S & (h & t & -> & _ & G)). rewrite S. cbn [fst tl]. apply (all2_ok _ (fun o x => r_vals x = r_vals o)).
  - intros x y _ _. destruct (list_eq_dec value_dec (r_vals y) (r_vals x)); split; congruence.
  - clear -G. induction G as [|o x os xs [E _] G IH]; constructor; [|exact IH]. apply (f_equal u_vals) in E. exact E.
Qed.

(* what follows a syntax error is dropped: the comparison it holds is not made,
   and the script passes *)
Definition early : string := "@~ 'write' ! @1hTDE6+test :rga; 1; 2; ^^ @~ 'ask' ! @1hTDE6+test :rga ? @~ 'see' ? @1hTDE6+test :rga, 5;".
Theorem C69_syntax_refuted : exists script rest, tested script = Done TOk /\ (exists n l, scan n (cursor_of (txt script)) = (l, SBad)) /\
  script = String.append "@~ 'write' ! @1hTDE6+test :rga; 1; 2; ^^ " rest /\ tested (String.append "@~ 'write' ! @1hTDE6+test :rga; 1; 2; " rest) = Done (TDiffers CBadValue).
Proof.
  exists early, "@~ 'ask' ! @1hTDE6+test :rga ? @~ 'see' ? @1hTDE6+test :rga, 5;". split; [vm_compute; reflexivity|].
  split; [exists 200%nat, (fst (scan 200 (cursor_of (txt early)))); vm_compute; reflexivity|]. split; vm_compute; reflexivity.
Qed.

(* that nothing is answered cannot be expected: an object that is not there is
   answered with nothing, and the comparison with no ops fails *)
Definition absent : string := "@~ 'ask' ! @1hTDE6+test :rga ? @~ 'nothing is there' ?".
Theorem C69_empty_refuted : exists f l a re, frame_says f l /\ ends_with l [QUERY] /\ content l = [] /\ build a = Some re /\ re = [] /\
  tested absent = Done (TDiffers CBadValue) /\
  test_loop toy_sha one_float 200 test_h builder0 [] [f] = Done (test_h, TDiffers CBadValue).
Proof.
  pose (cs := [UAppend (mkUop COMMENT NIL [VStr (Some [110])]); UEnd QUERY]).
  exists (match build_calls cs with Some t => t | None => [] end), (denote cs), [], []. split; [apply calls_say; vm_compute; reflexivity|]. split; [left; reflexivity|].
  do 4 (split; [vm_compute; reflexivity|]). vm_compute. reflexivity.
Qed.

(* a part to be received that is a comment alone fails the script; an answer
   after the last comparison is not looked at *)
Example C69_comment_case : tested "@~ 'nothing' ! @~ 'ask' !" = Done (TRefused REndOfFrame).
Proof. vm_compute. reflexivity. Qed.
Example C69_unseen_case : tested "@~ 'write' ! @1hTDE6+test :rga; 1; 2; @~ 'ask' ! @1hTDE6+test :rga ?" = Done TOk.
Proof. vm_compute. reflexivity. Qed.
(* the hypotheses of C69_header: a script that begins with an event *)
Definition headless : string := "@1hTDE6+test :rga; @~ 'ask' ! @1hTDE6+test :rga ?".
Definition headless_calls := [UAppend (mkUop (ev "1hTDE6+test") RGA_FORM_UUID []); UEnd RAW].
Example C69_header_case : exists f fs o t,
  split_tests 200 (txt headless) = Done (f :: fs) /\ frame_says f (o :: t) /\ r_id o <> COMMENT /\
  tested headless = Done TBadHeader /\ tested "@~ 'write', @1hTDE6+test :rga;" = Done TBadHeader.
Proof.
  exists (match build_calls headless_calls with Some t => t | None => [] end), (match split_tests 200 (txt headless) with Done (_ :: fs) => fs | _ => [] end),
    (hd (mkRop NIL NIL [] RAW) (denote headless_calls)), (tl (denote headless_calls)).
  split; [vm_compute; reflexivity|]. split; [change (frame_says (match build_calls headless_calls with Some t => t | None => [] end) (denote headless_calls)); apply calls_say; vm_compute; reflexivity|].
  split; [intro X; vm_compute in X; discriminate|]. split; vm_compute; reflexivity.
Qed.
Print Assumptions C68_span_refuted.
Print Assumptions C69_syntax_refuted.
Print Assumptions C69_empty_refuted.
