(* C82: concrete cases and counterexamples. *)
From Coq Require Import String.
From Verif Require Import Prelude UuidModel UuidProofs KeyModel CodecModel TextTable TextModel TextSpec BuilderSpec BuilderProofs MergeModel MergeTextModel TextMergeSpec TextMerge TextMergeTheorems
  StoreModel HashModel CompareModel MetaModel ClockModel ReplicaModel ReplicaSpec ReplicaProofs ReplicaTheorems HashCases MetaCases Txt MergeCases TextMergeCases StoreCases JoinCases ReplicaCases
  BranchModel BranchSpec BranchProofs BranchCases DurableCases HashFrameModel HashFrameTheorems.
Open Scope string_scope.
Open Scope N_scope.
Open Scope list_scope.

Definition basedb (seen : list uuid) (c : cursor) : bool :=
  (version (text_ref c) =? NAME) || (version (text_ref c) =? TIME) && existsb (uuid_eqb (text_ref c)) seen.
Fixpoint all_basedb (seen : list uuid) (l : list cursor) : bool :=
  match l with
  | [] => true
  | c :: r => if is_event c then basedb seen c && all_basedb (seen ++ [text_id c]) r else all_basedb seen r
  end.
Lemma all_basedb_ok l : forall before, all_basedb (event_ids before) l = true -> forall a c b, l = a ++ c :: b -> is_event c = true -> based (before ++ a) c.
Proof.
  induction l as [|x l IH]; intros before H a c b E EV; [destruct a; discriminate E|]. cbn [all_basedb] in H. destruct a as [|y a].
  - injection E as -> ->. rewrite EV in H. apply andb_true_iff in H as [H _]. rewrite app_nil_r. unfold basedb in H. apply orb_true_iff in H as [H|H]; [left; apply N.eqb_eq; exact H|].
    apply andb_true_iff in H as [V H]. right. split; [apply N.eqb_eq; exact V|]. apply existsb_exists in H as (u & J & Q). apply uuid_eqb_eq in Q. rewrite Q. exact J.
  - injection E as -> ->. change (before ++ y :: a) with (before ++ [y] ++ a). rewrite app_assoc. apply (IH (before ++ [y])) with (b := b); [|reflexivity|exact EV].
    assert (EI : event_ids (before ++ [y]) = event_ids before ++ (if is_event y then [text_id y] else [])) by (unfold event_ids; rewrite filter_app, map_app; cbn [filter]; destruct (is_event y); reflexivity).
    rewrite EI. destruct (is_event y); [apply andb_true_iff in H as [_ H]; exact H|rewrite app_nil_r; exact H].
Qed.
Definition shortb (c : cursor) : bool :=
  negb (uuid_eqb (text_id c) SHA2_FORM_ID) || match nth_error (c_op c) 2 with Some (AStr cp n b e) => Nat.leb (List.length (read_string (c_buf c) cp n b e)) 43 | _ => true end.
Lemma shortb_ok l : forallb shortb l = true -> short_records l.
Proof.
  intros H c cp n b e I Q1 Q2. rewrite forallb_forall in H. specialize (H c I). unfold shortb in H. rewrite Q1, Q2, (proj2 (uuid_eqb_eq _ _) eq_refl) in H. apply Nat.leb_le. exact H.
Qed.
Definition ops (s : string) : list cursor := match all_ops 100 (cursor_of (txt s)) with Some l => l | None => [] end.
Definition hashing (s : string) : option (hf_status * option string) :=
  match hash_frame toy_sha one_float 100 (txt s) with Done (st, t) => Some (st, option_map untxt t) | _ => None end.

(* two authors; a record with a hash *)
Definition frame1 := "@1+A :lww; @2+A :1+A 'x' 1; @2+B :1+A 'y' 2; @sha2 :2+A 'abc'; @3+B :2+A 'z';".
(* the same ids, other values and other references; other hashes *)
Definition frame2 := "@1+A :lww; @2+A :1+A 'x' 5; @2+B :2+A 'y' 7 8; @sha2 :2+A 'zzz'; @sha2 :1+A 'qqqqqq'; @3+B :2+B 'w';".
Example C82_case :
  ReplicaSpec.ops_of (txt frame1) (ops frame1) /\ ReplicaSpec.ops_of (txt frame2) (ops frame2) /\ all_based (ops frame1) /\ all_based (ops frame2) /\ short_records (ops frame1) /\ short_records (ops frame2) /\
  event_ids (ops frame1) = event_ids (ops frame2) /\ event_ids (ops frame1) = [ev "1+A"; ev "2+A"; ev "2+B"; ev "3+B"] /\
  hashing frame1 = Some (HfOk, Some "@sha2 :1+A '',
@sha2 :2+A '',
@sha2 :2+B '',
@sha2 :3+B ''
").
Proof.
  assert (O : forall s, all_ops 100 (cursor_of (txt s)) = Some (ops s) -> ReplicaSpec.ops_of (txt s) (ops s)) by (intros s H; apply all_ops_ok in H; exact H).
  split; [apply O; vm_compute; reflexivity|]. split; [apply O; vm_compute; reflexivity|].
  split; [intros a c b E EV; refine (all_basedb_ok (ops frame1) [] _ a c b E EV); vm_compute; reflexivity|].
  split; [intros a c b E EV; refine (all_basedb_ok (ops frame2) [] _ a c b E EV); vm_compute; reflexivity|].
  split; [apply shortb_ok; vm_compute; reflexivity|]. split; [apply shortb_ok; vm_compute; reflexivity|].
  split; [vm_compute; reflexivity|]. split; vm_compute; reflexivity.
Qed.
(* an event that references one that is not there; one that references a hash; a
   record that is too long fails an assert *)
Example C82_gap_case : hashing "@1+A :lww; @2+A :1+B 'x';" = Some (HfTreeGap, None) /\ hashing "@1+A :lww; @2+A :1%B 'x';" = Some (HfBadState, None) /\
  hash_frame toy_sha one_float 100 (txt "@sha2 :2+A '01234567890123456789012345678901234567890123';") = Aborted.
Proof. split; [vm_compute; reflexivity|]. split; vm_compute; reflexivity. Qed.
(* The hashes are not reported: the op a branch records for the same event has
   one (C32). A wrong hash is not noticed either. *)
Theorem C82_hash_refuted : exists f c h, hash_frame toy_sha one_float 100 f = Done (HfOk, Some (txt "@sha2 :1+A ''
")) /\ delivered f c /\ text_id c = ev "1+A" /\ op_hash toy_sha one_float c (sha_uuid toy_sha (mkUuid 0 (uorigin (ev "1+A")))) (sha_uuid toy_sha LWW_FORM_UUID) = Done h /\
  sha2_base64 h <> Some [] /\ sha2_base64 h <> Some (txt "0000000000000000000000000000000000000000000") /\
  hashing "@1+A :lww; @sha2 :1+A '0000000000000000000000000000000000000000000';" = Some (HfOk, Some "@sha2 :1+A ''
").
Proof.
  exists (txt "@1+A :lww;"), (hd (cursor_of []) (ops "@1+A :lww;")), (match op_hash toy_sha one_float (hd (cursor_of []) (ops "@1+A :lww;")) (sha_uuid toy_sha (mkUuid 0 (uorigin (ev "1+A")))) (sha_uuid toy_sha LWW_FORM_UUID) with Done h => h | _ => SHA2_EMPTY end).
  split; [vm_compute; reflexivity|]. split.
  { exists []. eapply (run_next _ [] (cursor_of (txt "@1+A :lww;"))); [constructor|]. vm_compute. reflexivity. }
  split; [vm_compute; reflexivity|]. split; [vm_compute; reflexivity|]. split; [vm_compute; discriminate|]. split; [vm_compute; discriminate|]. vm_compute. reflexivity.
Qed.
Print Assumptions C82_hash_refuted.
