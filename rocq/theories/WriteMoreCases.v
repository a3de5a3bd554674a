(* Several local writes in a frame: a concrete case for C54_texts. *)
From Coq Require Import String Sorted Permutation.
From Verif Require Import Prelude UuidModel UuidProofs KeyModel CodecModel TextTable TextModel TextSpec BuilderSpec BuilderProofs MergeModel MergeSpec MergeTextModel TextMergeSpec TextCursors TextMerge TextMergeTheorems
  StoreModel HashModel MetaModel ClockModel ReplicaModel ReplicaSpec ReplicaProofs ReplicaTheorems StoreSpec StoreTheorems RocksModel RocksSpec RocksProofs
  HashCases MetaCases Txt MergeCases TextMergeCases StoreCases JoinCases ReplicaCases BranchModel BranchSpec BranchProofs BranchTheorems BranchCases
  DurableSpec DurableProofs DurableTheorems DurableCases AnswerModel AnswerSpec AnswerTheorems AnswerCases LogSpec LogCases ScanModel ScanSpec ScanTheorems TextAnswerSpec TextAnswerTheorems TextAnswerCases
  WriteSpec WriteTheorems WriteCases WriteMore.
Open Scope string_scope.
Open Scope N_scope.
Open Scope list_scope.

(* two writes over the kept text, each a chunk of its own *)
Definition ho_us := [mkUop (derived (ev "2+A")) TXT_MAP_ID [VStr (Some [104; 111])]].
Definition two_calls := map UAppend text_us ++ [UEnd RAW] ++ map UAppend ho_us ++ [UEnd RAW].
Definition two_text : bytes := match build_calls two_calls with Some t => t | None => [] end.
Definition ho_op_of : rop := mkRop (derived (ev "2+A")) TXT_MAP_ID [VStr (Some [104; 111])] RAW.
Definition two_texts := BReceive (at_time "9+A") [at_time "Z+A"] two_text.

Lemma ho_us_mergeable : mergeable ho_us.
Proof.
  apply mergeableb_ok; [vm_compute; reflexivity|]. intros a b IA IB E. unfold ho_us in IA, IB. cbn [In] in IA, IB.
  destruct IA as [<-|[]]. destruct IB as [<-|[]]. reflexivity.
Qed.
Lemma two_calls_good : good_calls origin_op false false two_calls.
Proof.
  pose proof (Forall_inv (proj1 text_us_mergeable)) as K1. pose proof (Forall_inv (proj1 ho_us_mergeable)) as K2.
  unfold two_calls, text_us, ho_us. cbn [map app good_calls].
  split; [exact K1|]. split; [intro X; vm_compute in X; discriminate X|]. split; [intro X; vm_compute in X; discriminate X|].
  split; [left; reflexivity|].
  split; [exact K2|]. split; [intro X; vm_compute in X; discriminate X|]. split; [intro X; vm_compute in X; discriminate X|].
  split; [left; reflexivity|exact Logic.I].
Qed.
Lemma written_text_kept w : r_id w = derived (ev "2+A") -> kept_text one_float 100 (br_main openb) w.
Proof.
  intro E. exists (text_for whole), [true; true; true; false; false; false; false].
  assert (K : text_key w = text_key text_op_of) by (unfold text_key, object_of; rewrite E; reflexivity). rewrite K. split; vm_compute; reflexivity.
Qed.

(* the reading of the clock is used up by the first write; the stamp of the
   second one is two later *)
Example C54_texts_case :
  version idA = TIME /\ (exists t, healthy idA openb t) /\ clocks two_texts /\
  last_stamp 0 1 (at_time "9+A") [at_time "Z+A"] (uorigin (br_tip openb)) = ev "Z000000002+A" /\ uvalue (br_tip openb) < uvalue (ev "Z000000002+A") /\
  frame_lit canon two_text [text_op_of; ho_op_of] /\ N.of_nat (List.length two_text) < 2 ^ 32 /\ Forall text_write [text_op_of; ho_op_of] /\
  (List.length [text_op_of; ho_op_of] < 100)%nat /\ Forall (kept_text one_float 100 (br_main openb)) [text_op_of; ho_op_of] /\
  untxt two_text = "@2-A :txt 'hi';
@2-A :txt 'ho';
".
Proof.
  split; [vm_compute; reflexivity|]. split; [exact (proj1 (proj2 C54_text_case))|].
  split; [assert (C : Forall clocks [two_texts]) by (apply clocksb_ok; vm_compute; reflexivity); exact (Forall_inv C)|].
  split; [vm_compute; reflexivity|]. split; [vm_compute; reflexivity|]. split.
  { destruct (build_calls_frame two_calls canon_writes two_calls_good ltac:(vm_compute; reflexivity)) as (t & E & F).
    assert (Q : denote two_calls = [text_op_of; ho_op_of]) by (vm_compute; reflexivity). rewrite Q in F. unfold two_text. rewrite E. exact F. }
  split; [vm_compute; reflexivity|]. split.
  { apply Forall_cons; [|apply Forall_cons; [|apply Forall_nil]];
      (split; [vm_compute; reflexivity|]; split; [vm_compute; reflexivity|]; split; [discriminate|]; split; [discriminate|]; eexists _, _; reflexivity). }
  split; [vm_compute; lia|]. split; [|vm_compute; reflexivity].
  apply Forall_cons; [|apply Forall_cons; [|apply Forall_nil]]; apply written_text_kept; reflexivity.
Qed.

(* the frame that is refused after the writes, and accepted without them *)
Definition late_text := txt "@C+A :9+A 'z';".
Lemma late_last : last_event late_text (at_op 1 "@C+A :9+A 'z';").
Proof.
  assert (A : exists l, all_ops 100 (cursor_of late_text) = Some l /\ l = [at_op 1 "@C+A :9+A 'z';"]) by (eexists; split; vm_compute; reflexivity).
  destruct A as (l & A & ->). apply all_ops_ok in A. exists [], []. split; [exact A|]. split; [apply stampedb_iff; vm_compute; reflexivity|constructor].
Qed.
Example C54_forward_case :
  events_only late_text /\ last_event late_text (at_op 1 "@C+A :9+A 'z';") /\
  (exists b, b_receive toy_sha one_float 0 100 openb (at_time "9+A") [] late_text = Done (b, ROk)) /\
  br_tip openb = ev "9+A" /\ text_id (at_op 1 "@C+A :9+A 'z';") = ev "C+A".
Proof.
  split; [apply events_onlyb_ok; vm_compute; reflexivity|]. split; [exact late_last|].
  split; [exists (branch_of (runA openb [BReceive (at_time "9+A") [] late_text])); vm_compute; reflexivity|]. split; vm_compute; reflexivity.
Qed.
Example C54_ghost_case :
  events_only late_text /\ last_event late_text (at_op 1 "@C+A :9+A 'z';") /\ uvalue (text_id (at_op 1 "@C+A :9+A 'z';")) < uvalue (ev "Z000000002+A") /\
  exists b, runA openb [two_texts; BOpen 0; BReceive (at_time "C+A") [] late_text] = Done (b, [ROk; ROk; RBadState]) /\ br_tip b = ev "Z000000002+A".
Proof.
  split; [apply events_onlyb_ok; vm_compute; reflexivity|]. split; [exact late_last|]. split; [vm_compute; reflexivity|].
  exists (branch_of (runA openb [two_texts; BOpen 0; BReceive (at_time "C+A") [] late_text])). split; vm_compute; reflexivity.
Qed.
