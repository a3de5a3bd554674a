(* The RocksDB store: concrete cases and counterexamples for C45 and C46. *)
From Coq Require Import String Sorted Permutation.
From Verif Require Import Prelude UuidModel UuidSpec UuidProofs KeyModel CodecModel TextModel TextSpec BuilderSpec BuilderProofs MergeModel MergeSpec MergeTextModel
  MergeProofs RgaProofs MergeTheorems TextMergeSpec TextCursors TextMerge TextMergeTheorems StoreModel StoreSpec StoreProofs StoreTheorems RocksModel RocksSpec
  RocksProofs RocksTheorems Txt MergeCases TextMergeCases StoreCases.
Open Scope string_scope.
Open Scope N_scope.
Open Scope list_scope.

Notation rd := (rocks_read no_floats 100).
Notation rn := (rrun no_floats 100 []).
Definition ran (es : list revent) : list (key * cell) := match rn es with Done d => d | _ => [] end.

Lemma lww_frame us : In us [lwwA; lwwB] -> text_frame (text_for us) (chunk_of us).
Proof.
  intro I. split; [|split].
  - apply text_for_ok; [apply (mergeable_incl _ _ lww_mergeable)|..].
    + intros u J. apply in_or_app. destruct I as [<-|[<-|[]]]; tauto.
    + destruct I as [<-|[<-|[]]]; vm_compute; discriminate.
    + destruct I as [<-|[<-|[]]]; vm_compute; reflexivity.
  - assert (Forall sorted_ids [chunk_of lwwA; chunk_of lwwB]) as Q.
    { apply (ssb_ok id_le (fun a b => negb (uuid_ltb (r_id b) (r_id a)))); [|vm_compute; reflexivity].
      intros a b E. apply negb_true_iff in E. exact E. }
    rewrite Forall_forall in Q. apply Q. destruct I as [<-|[<-|[]]]; [left|right; left]; reflexivity.
  - destruct I as [<-|[<-|[]]]; vm_compute; reflexivity.
Qed.

(* ---- C45: three writes of two frames, with and without compactions ---- *)
Definition busy (k : key) : list revent :=
  [RWrite k (text_for lwwA); RBatch [(kB, text_for lwwA); (k, text_for lwwB)]; RCompact k (CPartial 0 2); RWrite KEY_END [1];
   RCompact k (CFull 1); RWrite k (text_for lwwA)].
Definition quiet (k : key) : list revent := [RWrite k (text_for lwwB); RWrite k (text_for lwwA)].
Definition in_mem (k : key) : list (sop bytes) := [SWrite _ k (text_for lwwA); SRead _ k []; SWrite _ k (text_for lwwB); SWrite _ k (text_for lwwA)].
Definition abl : list uop := lwwA ++ skipn 1 lwwB.
Example C45_case :
  In (key_form kA) [LWW_RDT_FORM; MX_RDT_FORM; YARN_RAW_FORM; META_META_FORM] /\ kA <> KEY_END /\
  rn (busy kA) = Done (ran (busy kA)) /\ rn (quiet kA) = Done (ran (quiet kA)) /\
  put_under kA (busy kA) = [text_for lwwA; text_for lwwB; text_for lwwA] /\
  Forall2 text_frame (put_under kA (busy kA)) [chunk_of lwwA; chunk_of lwwB; chunk_of lwwA] /\
  union_bound 100 [chunk_of lwwA; chunk_of lwwB; chunk_of lwwA] /\
  cell_at (ran (busy kA)) kA = mkCell (Some (text_for abl)) [text_for lwwA] /\
  cell_at (ran (quiet kA)) kA = mkCell None [text_for lwwB; text_for lwwA] /\
  rd (ran (busy kA)) kA = Done (text_for abl, KOk) /\ rd (ran (quiet kA)) kA = Done (text_for abl, KOk) /\
  written kA (in_mem kA) = put_under kA (busy kA) /\ rd (ran (busy kA)) kR = Done ([], KOk).
Proof.
  split; [left; vm_compute; reflexivity|]. split; [vm_compute; discriminate|].
  do 2 (split; [vm_compute; reflexivity|]). assert (PU : put_under kA (busy kA) = [text_for lwwA; text_for lwwB; text_for lwwA]) by (vm_compute; reflexivity).
  split; [exact PU|]. split.
  { rewrite PU. constructor; [apply lww_frame; left; reflexivity|]. constructor; [apply lww_frame; right; left; reflexivity|].
    constructor; [apply lww_frame; left; reflexivity|constructor]. }
  split.
  { split; [|split; [vm_compute; lia|split; vm_compute; reflexivity]]. unfold chunk_of. cbn [List.concat]. rewrite app_nil_r, !map_app, !bare_denote.
    apply (mergeable_incl _ _ lww_mergeable). intros u I. rewrite !in_app_iff in *. tauto. }
  do 5 (split; [vm_compute; reflexivity|]). vm_compute. reflexivity.
Qed.

(* a log, a last-one-wins record and a form without a rule *)
Definition kL : key := key_of (A 1) LOG_RAW_FORM.
Definition kZ : key := key_of (A 1) ZERO_RAW_FORM.
Example C45_log_case :
  key_form kL = LOG_RAW_FORM /\ key_form kZ = ZERO_RAW_FORM /\ key_form kC = CHAIN_RAW_FORM /\
  rn (busy kL) = Done (ran (busy kL)) /\ rn (busy kZ) = Done (ran (busy kZ)) /\ rn (busy kC) = Done (ran (busy kC)) /\
  Forall2 frame_text (put_under kL (busy kL)) [chunk_of lwwA; chunk_of lwwB; chunk_of lwwA] /\
  log_bound 100 [chunk_of lwwA; chunk_of lwwB; chunk_of lwwA] /\
  rd (ran (busy kL)) kL = Done (text_for lwwA ++ text_for lwwB ++ text_for lwwA, KOk) /\
  rd (ran (busy kZ)) kZ = Done (text_for lwwA, KOk) /\ rd (ran (busy kC)) kC = Done ([], KDbFail) /\
  cell_at (ran (busy kC)) kC = mkCell None [text_for lwwA; text_for lwwB; text_for lwwA].
Proof.
  do 6 (split; [vm_compute; reflexivity|]). split.
  { assert (PU : put_under kL (busy kL) = [text_for lwwA; text_for lwwB; text_for lwwA]) by (vm_compute; reflexivity). rewrite PU.
    assert (FT : forall us, In us [lwwA; lwwB] -> frame_text (text_for us) (chunk_of us)) by (intros us I; destruct (lww_frame us I) as (X & _ & Y); split; assumption).
    constructor; [apply FT; left; reflexivity|]. constructor; [apply FT; right; left; reflexivity|].
    constructor; [apply FT; left; reflexivity|constructor]. }
  split.
  { assert (M : map bare (List.concat [chunk_of lwwA; chunk_of lwwB; chunk_of lwwA]) = lwwA ++ lwwB ++ lwwA).
    { unfold chunk_of. cbn [List.concat]. rewrite app_nil_r, !map_app, !bare_denote. reflexivity. }
    unfold log_bound. rewrite M. split; [apply (mergeable_incl _ _ lww_mergeable); intros u I; rewrite !in_app_iff in *; tauto|].
    split; [|split; [vm_compute; lia|split; vm_compute; reflexivity]].
    assert (SP : forallb (fun a => forallb (fun b => negb (continues a b)) (lwwA ++ lwwB ++ lwwA)) (lwwA ++ lwwB ++ lwwA) = true) by (vm_compute; reflexivity).
    intros a b IA IB. rewrite forallb_forall in SP. specialize (SP a IA). rewrite forallb_forall in SP. specialize (SP b IB). apply negb_true_iff in SP. exact SP. }
  do 3 (split; [vm_compute; reflexivity|]). vm_compute. reflexivity.
Qed.

(* trees: four writes cannot be read, unless a compaction came in time *)
Definition rga_writes : list revent := map (fun us => RWrite kR (text_for us)) rgas.
Theorem C45_rga_refuted : exists es1 es2 d1 d2 f, accepted es1 = accepted es2 /\ rn es1 = Done d1 /\ rn es2 = Done d2 /\
  rd d1 kR = Done ([], KDbFail) /\ rd d2 kR = Done (f, KOk) /\ List.length (ops_of (untxt f)) = 4%nat.
Proof.
  set (es2 := firstn 2 rga_writes ++ [RCompact kR (CFull 2)] ++ skipn 2 rga_writes).
  assert (Q : exists f, rd (ran es2) kR = Done (f, KOk) /\ List.length (ops_of (untxt f)) = 4%nat).
  { subst es2. eexists. split; [vm_compute; reflexivity|]. vm_compute. reflexivity. }
  destruct Q as (f & Q1 & Q2). exists rga_writes, es2, (ran rga_writes), (ran es2), f.
  do 4 (split; [vm_compute; reflexivity|]). split; assumption.
Qed.
(* a log written once, with a span: the store in memory returns the frame, the
   RocksDB store passes it through the merge *)
Theorem C45_log_span_refuted : exists f d g, rn [RWrite kL f] = Done d /\ rd d kL = Done (g, KOk) /\
  read bytes [] mf [(kL, f)] kL [] = Done ([(kL, f)], f, StOK) /\
  map r_vals (ops_of (untxt f)) = [[]; [VStr (Some [97])]; [VStr (Some [98])]] /\
  map r_vals (ops_of (untxt g)) = [[]; [VStr (Some [97])]; [VUuid (mkUuid 684547143360315392 0)]].
Proof.
  exists (txt "@1+A :log; @2+A :1+A ('ab');"), (ran [RWrite kL (txt "@1+A :log; @2+A :1+A ('ab');")]).
  assert (Q : exists g, rd (ran [RWrite kL (txt "@1+A :log; @2+A :1+A ('ab');")]) kL = Done (g, KOk) /\
    map r_vals (ops_of (untxt g)) = [[]; [VStr (Some [97])]; [VUuid (mkUuid 684547143360315392 0)]]).
  { eexists. split; [vm_compute; reflexivity|]. vm_compute. reflexivity. }
  destruct Q as (g & Q1 & Q2). exists g. split; [vm_compute; reflexivity|]. split; [exact Q1|].
  do 2 (split; [vm_compute; reflexivity|]). exact Q2.
Qed.

(* ---- C46 ---- *)
Lemma donesb {X} (f : key -> res X) l : forallb (fun k => match f k with Done _ => true | _ => false end) l = true -> forall k, In k l -> exists g, f k = Done g.
Proof. intros Q k I. rewrite forallb_forall in Q. specialize (Q k I). destruct (f k) as [g| |]; try discriminate. exists g. reflexivity. Qed.
Definition stocked : list revent := [RWrite kB (text_for lwwA); RWrite kL (text_for lwwA)] ++ busy kA.
Example C46_case : rn stocked = Done (ran stocked) /\ Forall key64 (map fst (accepted stocked)) /\
  (forall k', In k' (map fst (ran stocked)) -> exists g, cell_get no_floats 100 k' (cell_at (ran stocked) k') = Done g) /\
  rbind (ri_seek no_floats 100 (ri_new (ran stocked)) KEY_ZERO false) (fun '(it, _) => ri_walk no_floats 100 9 it) =
    Done [(kL, GValue (text_for lwwA)); (kA, GValue (text_for abl)); (kB, GValue (text_for lwwA))] /\
  rbind (ri_seek no_floats 100 (ri_new (ran stocked)) kB true) (fun '(it, _) => Done (ri_key it)) = Done kB /\
  rbind (ri_seek no_floats 100 (ri_new (ran stocked)) kC true) (fun '(it, _) => Done (ri_key it)) = Done kL.
Proof.
  split; [vm_compute; reflexivity|]. split; [apply key64b; vm_compute; reflexivity|]. split.
  { apply (donesb (fun k => cell_get no_floats 100 k (cell_at (ran stocked) k))). vm_compute. reflexivity. }
  do 2 (split; [vm_compute; reflexivity|]). vm_compute. reflexivity.
Qed.
(* one record that cannot be merged hides the readable ones after it *)
Theorem C46_hidden_refuted : exists es d it s f, rn es = Done d /\ ri_seek no_floats 100 (ri_new d) KEY_ZERO false = Done (it, s) /\
  ri_walk no_floats 100 9 it = Done [(kL, GValue f)] /\ rd d kA = Done (text_for abl, KOk) /\ rd d kC = Done ([], KDbFail).
Proof.
  exists (RWrite kC (text_for lwwA) :: stocked), (ran (RWrite kC (text_for lwwA) :: stocked)), (mkRiter (ran (RWrite kC (text_for lwwA) :: stocked)) (Some 0%nat)), KOk, (text_for lwwA).
  do 4 (split; [vm_compute; reflexivity|]). vm_compute. reflexivity.
Qed.
Print Assumptions C45_case.
Print Assumptions C45_log_case.
Print Assumptions C45_rga_refuted.
Print Assumptions C45_log_span_refuted.
Print Assumptions C46_case.
Print Assumptions C46_hidden_refuted.
