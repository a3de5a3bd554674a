(* Replaying object logs: concrete cases and counterexamples for C51. *)
From Coq Require Import String Sorted Permutation.
From Verif Require Import Prelude UuidModel UuidSpec UuidProofs KeyModel CodecModel TextModel TextSpec BuilderSpec BuilderProofs MergeModel MergeSpec MergeTextModel
  MergeProofs RgaProofs MergeTheorems TextMergeSpec TextCursors TextMerge TextMergeTheorems Txt MergeCases TextMergeCases LogModel LogSpec LogTheorems.
Open Scope string_scope.
Open Scope N_scope.
Open Scope list_scope.

(* ---- deciders ---- *)
Definition last_intsb (o p : rop) : bool :=
  match last (r_vals o) (VUuid NIL), last (r_vals p) (VUuid NIL) with VInt x, VInt y => negb (x =? y)%Z | _, _ => false end.
Fixpoint settledb (v : uuid) (l : list rop) : bool :=
  match l with
  | o :: (p :: _) as t => (negb (uuid_eqb (r_id o) v) || negb (uuid_eqb (r_id p) (inc v) && uuid_eqb (r_ref p) v) || last_intsb o p) && settledb v t
  | _ => true
  end.
Lemma settledb_ok v l : settledb v l = true -> settled v l.
Proof.
  intros H q o p r E Z (P1 & P2 & _ & P3). revert l H E. induction q as [|x q IH]; intros l H E; subst l.
  - cbn [app settledb] in H. apply andb_prop in H as [H _]. rewrite P1, P2, Z, !(proj2 (uuid_eqb_eq _ _) eq_refl) in H. cbn [andb orb negb] in H.
    unfold last_intsb in H. destruct P3 as [P3|(q & a & s & P3 & P4)]; [|rewrite P3, P4, !last_last in H; discriminate]. rewrite <- P3 in H.
    destruct (last (r_vals o) (VUuid NIL)); try discriminate. rewrite Z.eqb_refl in H. discriminate.
  - destruct (q ++ o :: p :: r) as [|y t] eqn:Q; [destruct q; discriminate|]. cbn [app] in H. rewrite Q in H. cbn [settledb] in H.
    apply andb_prop in H as [_ H]. exact (IH (y :: t) H eq_refl).
Qed.
Definition backwardsb (l : list rop) : bool :=
  forallb (fun a => forallb (fun b => negb (uuid_eqb (r_ref b) (r_id a)) || uuid_ltb (r_id a) (r_id b)) l) l.
Lemma backwardsb_ok l : backwardsb l = true -> backwards l.
Proof.
  unfold backwardsb. intros H a b IA IB E. rewrite forallb_forall in H. specialize (H a IA). rewrite forallb_forall in H. specialize (H b IB).
  rewrite E, (proj2 (uuid_eqb_eq _ _) eq_refl) in H. exact H.
Qed.
Definition id_inb (u : uuid) (l : list rop) : bool := existsb (fun x => uuid_eqb u (r_id x)) l.
Definition attachedb (o : rop) (all : list rop) : bool :=
  forallb (fun x => uuid_ltb (r_id o) (r_id x) && id_inb (r_ref x) all) (tl all).
Lemma attachedb_ok o all : (exists q, all = o :: q) -> attachedb o all = true ->
  forall x, In x all -> x = o \/ (uuid_ltb (r_id o) (r_id x) = true /\ In (r_ref x) (map r_id all)).
Proof.
  intros (q & E) H x I. unfold attachedb in H. rewrite E in I, H. cbn [tl] in H. destruct I as [<-|I]; [left; reflexivity|right].
  rewrite forallb_forall in H. specialize (H x I). apply andb_prop in H as [H1 H2]. split; [exact H1|]. unfold id_inb in H2. rewrite <- E in H2.
  apply existsb_exists in H2 as (y & J & Q). apply uuid_eqb_eq in Q. rewrite Q. apply in_map. exact J.
Qed.
Fixpoint nodupb (l : list uuid) : bool := match l with [] => true | u :: r => negb (existsb (uuid_eqb u) r) && nodupb r end.
Lemma nodupb_ok l : nodupb l = true -> NoDup l.
Proof.
  induction l as [|u l IH]; intro H; constructor; cbn [nodupb] in H; apply andb_prop in H as [H1 H2]; [|auto].
  intro I. apply negb_true_iff in H1. assert (X : existsb (uuid_eqb u) l = true) by (apply existsb_exists; exists u; split; [exact I|apply uuid_eqb_eq; reflexivity]). congruence.
Qed.

(* ---- the split, unit test SplitLog (rdt/test/lww.cc:80-91), with a cutoff
   that is in the log ---- *)
Definition log1 : bytes := txt " @1lD5lN+A :lww, 'A' 'a', 'B' 'b', @1lD5z+B :1lD5lN0001+A 'C' 'c', 'D' 'd'; ".
Definition ids_of (c : cursor) : list uuid := text_id c :: map r_id (fst (scan 10 c)).
Example C51_split_case :
  snd (scan 10 (cursor_of log1)) = SEnd /\ List.length (fst (scan 10 (cursor_of log1))) = 5%nat /\
  exists chains, split_log 10 log1 (parse_uuid (txt "1lD5z+B")) = Done (chains, true) /\
    map ids_of chains = [map (fun s => parse_uuid (txt s)) ["1lD5lN+A"; "1lD5lN0001+A"; "1lD5lN0002+A"]; [parse_uuid (txt "1lD5z+B")]].
Proof.
  do 2 (split; [vm_compute; reflexivity|]).
  exists (match split_log 10 log1 (parse_uuid (txt "1lD5z+B")) with Done (c, _) => c | _ => [] end). split; vm_compute; reflexivity.
Qed.

(* ---- an LWW object: two writers, the second one with two writes at once; its state at the
   version of the first of these ---- *)
Definition lww_log : list uop :=
  [mkUop (A 1) LWW_FORM_UUID []; mkUop (A 4) (A 1) [VStr (Some [120]); VInt 1]; mkUop (A 6) (A 4) [VStr (Some [120]); VInt 2];
   mkUop (A 2) (A 1) [VStr (Some [121]); VInt 7]; mkUop (A 5) (A 2) [VStr (Some [121]); VInt 8]; mkUop (inc (A 5)) (A 5) [VStr (Some [121]); VInt 3]].
Lemma lww_log_ok : mergeable lww_log.
Proof.
  apply mergeableb_ok; [vm_compute; reflexivity|]. intros a b IA IB. cbn [lww_log In] in IA, IB.
  repeat (destruct IA as [<-|IA]; [repeat (destruct IB as [<-|IB]; [cbn [u_id]; intro E; first [reflexivity | discriminate E]|]); destruct IB|]). destruct IA.
Qed.
Definition hd_op (us : list uop) : rop := hd (mkRop NIL NIL [] 0) (chunk_of us).
Definition lww_kept : list uop :=
  [mkUop (A 1) LWW_FORM_UUID []; mkUop (A 4) (A 1) [VStr (Some [120]); VInt 1]; mkUop (A 6) (A 4) [VStr (Some [120]); VInt 2];
   mkUop (A 2) (A 1) [VStr (Some [121]); VInt 7]; mkUop (A 5) (A 2) [VStr (Some [121]); VInt 8]].
Example C51_state_case :
  chunk_of lww_log = hd_op lww_log :: tl (chunk_of lww_log) /\ frame_lit canon (text_for lww_log) (chunk_of lww_log) /\ small (text_for lww_log) /\
  A 5 <> NIL /\ settled (A 5) (chunk_of lww_log) /\ uuid2form (r_ref (hd_op lww_log)) = LWW_RDT_FORM /\ backwards (upto (A 5) (chunk_of lww_log)) /\
  map bare (upto (A 5) (chunk_of lww_log)) = lww_kept /\ mergeable lww_kept /\
  log_state no_floats 10 (text_for lww_log) (A 5) = Done (Some (text_for
    [mkUop (A 1) LWW_FORM_UUID []; mkUop (A 2) (A 1) [VStr (Some [121]); VInt 7]; mkUop (A 4) (A 1) [VStr (Some [120]); VInt 1];
     mkUop (A 5) (A 2) [VStr (Some [121]); VInt 8]; mkUop (A 6) (A 4) [VStr (Some [120]); VInt 2]]), LMerge StOK).
Proof.
  split; [vm_compute; reflexivity|]. split; [apply text_for_ok; [exact lww_log_ok|vm_compute; discriminate|vm_compute; reflexivity]|].
  split; [vm_compute; reflexivity|]. split; [discriminate|]. split; [apply settledb_ok; vm_compute; reflexivity|]. split; [vm_compute; reflexivity|].
  split; [apply backwardsb_ok; vm_compute; reflexivity|]. split; [vm_compute; reflexivity|].
  split; [apply (mergeable_incl _ _ lww_log_ok); intros u I; cbn [lww_kept lww_log In] in *; tauto|]. vm_compute. reflexivity.
Qed.

(* ---- a text: unit tests Log2State Basic and Cutoff (rdt/test/rga.cc:145-175)
   with two-character steps between the ids ---- *)
Definition rga_log : list uop :=
  [mkUop (A 1) RGA_FORM_UUID []; mkUop (A 2) (A 1) [VStr (Some [116])]; mkUop (A 3) (A 2) [VStr (Some [101])]; mkUop (A 4) (A 3) [VStr (Some [115])];
   mkUop (A 5) (A 4) [VStr (Some [116])]; mkUop (A 7) (A 4) [VUuid (parse_uuid (txt "rm"))]; mkUop (A 8) (A 4) [VStr (Some [120])]].
Lemma rga_log_ok : mergeable rga_log.
Proof.
  apply mergeableb_ok; [vm_compute; reflexivity|]. intros a b IA IB. cbn [rga_log In] in IA, IB.
  repeat (destruct IA as [<-|IA]; [repeat (destruct IB as [<-|IB]; [cbn [u_id]; intro E; first [reflexivity | discriminate E]|]); destruct IB|]). destruct IA.
Qed.
Example C51_rga_case :
  chunk_of rga_log = hd_op rga_log :: tl (chunk_of rga_log) /\ frame_lit canon (text_for rga_log) (chunk_of rga_log) /\ small (text_for rga_log) /\
  A 7 <> NIL /\ settled (A 7) (chunk_of rga_log) /\ uuid2form (r_ref (hd_op rga_log)) = RGA_RDT_FORM /\
  backwards (upto (A 7) (chunk_of rga_log)) /\ NoDup (map r_id (upto (A 7) (chunk_of rga_log))) /\
  map bare (upto (A 7) (chunk_of rga_log)) = removelast rga_log /\ mergeable (removelast rga_log) /\
  (forall x, In x (upto (A 7) (chunk_of rga_log)) -> x = hd_op rga_log \/
    (uuid_ltb (r_id (hd_op rga_log)) (r_id x) = true /\ In (r_ref x) (map r_id (upto (A 7) (chunk_of rga_log))))) /\
  List.length (pieces (upto (A 7) (chunk_of rga_log))) = 2%nat /\
  log_state no_floats 10 (text_for rga_log) (A 7) = Done (Some (text_for
    [mkUop (A 1) RGA_FORM_UUID []; mkUop (A 2) (A 1) [VStr (Some [116])]; mkUop (A 3) (A 2) [VStr (Some [101])]; mkUop (A 4) (A 3) [VStr (Some [115])];
     mkUop (A 7) (A 4) [VUuid (parse_uuid (txt "rm"))]; mkUop (A 5) (A 4) [VStr (Some [116])]]), LMerge StOK) /\
  log_version no_floats 10 (text_for rga_log) (A 7) = log_state no_floats 10 (text_for rga_log) (A 7).
Proof.
  split; [vm_compute; reflexivity|]. split; [apply text_for_ok; [exact rga_log_ok|vm_compute; discriminate|vm_compute; reflexivity]|].
  split; [vm_compute; reflexivity|]. split; [discriminate|]. split; [apply settledb_ok; vm_compute; reflexivity|]. split; [vm_compute; reflexivity|].
  split; [apply backwardsb_ok; vm_compute; reflexivity|]. split; [apply nodupb_ok; vm_compute; reflexivity|]. split; [vm_compute; reflexivity|].
  split; [apply (mergeable_incl _ _ rga_log_ok); intros u I; cbn [rga_log removelast In] in *; tauto|].
  split; [apply attachedb_ok; [exists (tl (upto (A 7) (chunk_of rga_log))); vm_compute; reflexivity|vm_compute; reflexivity]|].
  split; [vm_compute; reflexivity|]. split; vm_compute; reflexivity.
Qed.

(* A word typed in one go is written as a span. A version in the middle of the
   span is not the state recalled: the characters typed after it are there as
   well. *)
Theorem C51_span_refuted : exists input v ops text state,
  scan 10 (cursor_of input) = (ops, SEnd) /\ (exists o, In o ops /\ r_id o = v) /\
  log_state no_floats 10 input v = Done (Some text, LMerge StOK) /\ scan 10 (cursor_of text) = (state, SEnd) /\
  map r_vals (upto v ops) = [[]; [VStr (Some [99])]; [VStr (Some [97])]] /\
  map r_vals state = [[]; [VStr (Some [99])]; [VStr (Some [97])]; [VStr (Some [116])]].
Proof.
  set (input := txt "@1+A :rga, @2+A :1+A ('cat');"). set (v := parse_uuid (txt "2000000001+A")).
  exists input, v, (fst (scan 10 (cursor_of input))), (match log_state no_floats 10 input v with Done (Some t, _) => t | _ => [] end).
  exists (fst (scan 10 (cursor_of (match log_state no_floats 10 input v with Done (Some t, _) => t | _ => [] end)))).
  split; [vm_compute; reflexivity|]. split; [exists (nth 2 (fst (scan 10 (cursor_of input))) (mkRop NIL NIL [] 0)); split; [vm_compute; tauto|vm_compute; reflexivity]|].
  do 3 (split; [vm_compute; reflexivity|]). vm_compute. reflexivity.
Qed.
Print Assumptions C51_span_refuted.

(* Four places of editing: the log of a text cannot be replayed. *)
Theorem C51_places_refuted : exists input ops,
  scan 20 (cursor_of input) = (ops, SEnd) /\ backwards ops /\ NoDup (map r_id ops) /\
  (forall x, In x ops -> x = hd (mkRop NIL NIL [] 0) ops \/ In (r_ref x) (map r_id ops)) /\
  log_state no_floats 20 input FATAL = Done (None, LMerge StNotImplemented).
Proof.
  set (input := txt "@1+A :rga, @3+A :1+A 'a', @5+A :1+A 'b', @7+A :1+A 'c', @9+A :1+A 'd';").
  exists input, (fst (scan 20 (cursor_of input))). split; [vm_compute; reflexivity|]. split; [apply backwardsb_ok; vm_compute; reflexivity|].
  split; [apply nodupb_ok; vm_compute; reflexivity|]. split.
  - intros x I. assert (H : x = hd (mkRop NIL NIL [] 0) (fst (scan 20 (cursor_of input))) \/
      (uuid_ltb (r_id (hd (mkRop NIL NIL [] 0) (fst (scan 20 (cursor_of input))))) (r_id x) = true /\ In (r_ref x) (map r_id (fst (scan 20 (cursor_of input)))))).
    { revert x I. apply attachedb_ok; [exists (tl (fst (scan 20 (cursor_of input)))); vm_compute; reflexivity|vm_compute; reflexivity]. }
    tauto.
  - vm_compute. reflexivity.
Qed.
Print Assumptions C51_places_refuted.

(* A log that cannot be read at all is replayed as the empty state, without an
   error; an error further in is reported. *)
Theorem C51_garbage_refuted : exists input,
  scan 10 (cursor_of input) = ([], SBad) /\ log_state no_floats 10 input FATAL = Done (Some [], LMerge StOK) /\
  log_state no_floats 10 (txt "@1+A :lww; " ++ input) FATAL = Done (None, LBadSyntax).
Proof. exists (txt "@1+A :lww % ;"). split; [vm_compute; reflexivity|]. split; vm_compute; reflexivity. Qed.
Print Assumptions C51_garbage_refuted.
