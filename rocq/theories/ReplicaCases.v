(* A replica's branch: concrete cases and counterexamples for C37, C38. *)
From Coq Require Import String.
From Verif Require Import Prelude UuidModel UuidProofs KeyModel CodecModel TextTable TextModel MergeModel MergeTextModel
  StoreModel HashModel MetaModel ClockModel ReplicaModel ReplicaSpec ReplicaProofs ReplicaTheorems StoreSpec StoreTheorems HashCases MetaCases Txt MergeCases TextMergeCases StoreCases JoinCases.
Open Scope string_scope.
Open Scope N_scope.
Open Scope list_scope.

(* a branch's store that reads do not change, as RocksDB: the records of a key
   are merged as in the in-memory store *)
Notation recs := (list (key * bytes)).
Definition pjread (m w : recs) (k : key) : res (recs * recs * bytes * rstatus) :=
  rbind (j_read bytes [] empty_text mf ma m w k []) (fun '(_, w', f, s) => Done (m, w', f, rstatus_of s)).
Definition pjprev (m w : recs) (k : key) : res (bytes * rstatus) :=
  rbind (j_seek bytes [] m w (new_jiter bytes []) k true) (fun it =>
  rbind (j_value bytes [] mf ma err m w it) (fun '(f, _) => Done (f, ROk))).
Definition pwrite (m : recs) (k : key) (f : bytes) : res (recs * rstatus) :=
  let '(m', s) := write bytes m k f in Done (m', rstatus_of s).
Definition pbatch (m b : recs) : res (recs * rstatus) :=
  let '(m', s) := write_batch bytes m b in Done (match s with StOK => m' | _ => m end, rstatus_of s).
Definition rcv (main : recs) (now : N) (readings : list N) (tip : uuid) (s : string) : res (recs * N * rstatus) :=
  receive_frame toy_sha one_float recs pjread pjprev pwrite pbatch 0 100 main now readings tip (txt s).
Definition yarnA : N := uorigin (parse_uuid (txt "1+A")).
(* a branch as it is created, db/rocks_store.cc:154-156, and after CreateBranch *)
Definition fresh : recs := match one_op NIL ZERO_FORM_UUID [] with Some f => [(KEY_ZERO, f)] | None => [] end.
Definition at_time (s : string) : N := uvalue (parse_uuid (txt s)).
Definition ev (s : string) : uuid := parse_uuid (txt s).
Definition created := create_branch toy_sha one_float recs pjread pjprev pbatch 0 100 fresh 0 [at_time "1+A"] yarnA false.
Definition store_of (x : res (recs * N * rstatus)) : recs := match x with Done (m, _, _) => m | _ => [] end.
Definition status_of (x : res (recs * N * rstatus)) : option rstatus := match x with Done (_, _, s) => Some s | _ => None end.
Definition main0 : recs := store_of created.
(* an object with an edit *)
Definition main1 : recs := store_of (rcv main0 (at_time "1+A") [] (ev "1+A") "@2+A :lww; @3+A :2+A 'key' 1;").
Definition clock : list N := [at_time "6+A"; at_time "7+A"].
Definition get (m : recs) (k : key) : option bytes :=
  match pjread m [] k with Done (_, _, f, ROk) => Some f | _ => None end.

(* the hypotheses of C37_atomic *)
Lemma pjread_keeps m w k m' w' f s : pjread m w k = Done (m', w', f, s) -> m' = m.
Proof.
  unfold pjread. destruct (j_read _ _ _ _ _ _ _ _ _) as [[[[a b] g] t]| |]; cbn [rbind]; try discriminate.
  intro H. injection H as <- _ _ _. reflexivity.
Qed.
Lemma pbatch_whole m w m' s : pbatch m w = Done (m', s) -> s <> ROk -> m' = m.
Proof.
  unfold pbatch. destruct (write_batch bytes m w) as [a t]. intro H. injection H as <- <-. destruct t; cbn; congruence.
Qed.

(* the op that the n-th call of Next delivers *)
Lemma at_delivered s n c : at_op (S n) s = c -> (forall k, (k <= n)%nat -> next (at_op k s) = NOk (at_op (S k) s)) -> delivered (txt s) c.
Proof.
  intros <- H. assert (R : forall k, (k <= S n)%nat -> exists l, run_to (cursor_of (txt s)) l (at_op k s) /\ List.length l = k).
  { induction k as [|k IH]; intro K; [exists []; split; [constructor|reflexivity]|].
    destruct (IH ltac:(lia)) as (l & R & L). exists (l ++ [at_op (S k) s]). split; [|rewrite app_length; cbn; lia].
    econstructor; [exact R|]. apply H. lia. }
  destruct (R n ltac:(lia)) as (l & Rn & _). exists l. econstructor; [exact Rn|]. apply H. lia.
Qed.
Ltac at_op_tac n := apply (at_delivered _ n); [reflexivity|]; intros k K; do 6 (destruct k as [|k]; [try lia; vm_compute; reflexivity|]); lia.

(* ---- C37, C38: accepted and rejected frames ---- *)
Definition good : string := "@4+B :yarn; @5+B :3+A 'x' 1; @6+A :5+B 'y' 2; @7+A :6+A 'y' 3;".
Definition main2 : recs := store_of (rcv main1 (at_time "3+A") [] (ev "3+A") good).
Example C37_case :
  rcv main1 (at_time "3+A") [] (ev "3+A") good = Done (main2, at_time "7+A", ROk) /\
  delivered (txt good) (at_op 4 good) /\ stamped (at_op 4 good) /\
  List.length main1 = 9%nat /\ List.length main2 = 19%nat /\
  get main2 (key_of (ev "2+A") LOG_RAW_FORM) = Some (txt "@2+A :lww,
@3+A 'key' 1;
@5+B 'x' 1;
@6+A 'y' 2,
@7+A 'y' 3;
").
Proof.
  split; [vm_compute; reflexivity|]. split; [at_op_tac 3%nat|]. split; [vm_compute; repeat split; discriminate|].
  split; [vm_compute; reflexivity|]. split; [vm_compute; reflexivity|]. vm_compute. reflexivity.
Qed.
(* the second chain is linked but has no grounds *)
Definition orphan : string := "@4+A :3+A 'x' 1; @6+A :5+A 'y' 2;".
Example C37_atomic_case :
  rcv main1 (at_time "3+A") [] (ev "3+A") orphan = Done (main1, at_time "4+A", RNotFound) /\
  (forall c, delivered (txt orphan) c -> ~ naming c).
Proof.
  split; [vm_compute; reflexivity|]. intros c D N.
  assert (O : ReplicaSpec.ops_of (txt orphan) [at_op 1 orphan; at_op 2 orphan]).
  { exists (at_op 2 orphan). eexists. split; [|left; vm_compute; reflexivity].
    change [at_op 1 orphan; at_op 2 orphan] with (([] ++ [at_op 1 orphan]) ++ [at_op 2 orphan]).
    econstructor; [econstructor; [constructor|]|]; vm_compute; reflexivity. }
  pose proof (ops_complete _ _ _ O D) as I. destruct I as [<-|[<-|[]]]; vm_compute in N; discriminate N.
Qed.
(* the grounds of the chains of the frame good: what C38 says about each *)
Example C38_case :
  (* not on top of the yarn *)
  status_of (rcv main1 (at_time "3+A") [] (ev "3+A") "@3+A :2+A 'again' 1;") = Some RCauseBreak /\
  (* an unknown reference *)
  status_of (rcv main1 (at_time "3+A") [] (ev "3+A") "@6+A :5+A 'y' 2;") = Some RNotFound /\
  (* a reference to the future *)
  status_of (rcv main1 (at_time "3+A") [] (ev "3+A") "@6+A :7+A 'y' 2;") = Some RCauseBreak /\
  (* an unknown yarn, a yarn that starts again *)
  status_of (rcv main1 (at_time "3+A") [] (ev "3+A") "@6+B :3+A 'y' 2;") = Some RNotFound /\
  status_of (rcv main1 (at_time "3+A") [] (ev "3+A") "@6+A :yarn;") = Some RConflict /\
  (* an object of an unknown type *)
  status_of (rcv main1 (at_time "3+A") [] (ev "3+A") "@6+A :whatever;") = Some RNotImplemented /\
  status_of (rcv main1 (at_time "3+A") [] (ev "3+A") "@6+A :rga, @7+A :6+A 'c';") = Some ROk.
Proof. do 6 (split; [vm_compute; reflexivity|]). vm_compute. reflexivity. Qed.

(* C37_clean: an event followed by a syntax error, by a check, or by a comment and
   a check; a comment alone does no harm, and the error is not seen after a query *)
Example C37_clean_case :
  status_of (rcv main1 (at_time "3+A") [] (ev "3+A") "@4+A :3+A 'x' 1; '") = Some RBadSyntax /\
  status_of (rcv main1 (at_time "3+A") [] (ev "3+A") "@4+A :3+A 'x' 1; @sha3 :4+A 'abc';") = Some RBadArgs /\
  status_of (rcv main1 (at_time "3+A") [] (ev "3+A") "@4+A :3+A 'x' 1; @~ 'note'; @sha3 :4+A 'abc';") = Some RBadArgs /\
  status_of (rcv main1 (at_time "3+A") [] (ev "3+A") "@4+A :3+A 'x' 1; @~ 'note'; @5+A :4+A 'x' 2;") = Some ROk /\
  status_of (rcv main1 (at_time "3+A") [] (ev "3+A") "@2+A :lww? '") = Some ROk.
Proof. do 4 (split; [vm_compute; reflexivity|]). vm_compute. reflexivity. Qed.

(* ---- what is not so ---- *)
(* a rejected frame can leave a name behind: it is written past the commit *)
Theorem C37_names_refuted : exists main now rs tip frame main' now' s,
  receive_frame toy_sha one_float recs pjread pjprev pwrite pbatch 0 100 main now rs tip frame = Done (main', now', s) /\
  s <> ROk /\ get main (key_of NIL LWW_RDT_FORM) = Some [] /\
  get main' (key_of NIL LWW_RDT_FORM) = Some (txt "@6+A tag 3+A;
").
Proof.
  exists main1, (at_time "3+A"), clock, (ev "3+A"), (txt "@name :0 tag; @6+A :5+A 'y' 2;"),
    (store_of (rcv main1 (at_time "3+A") clock (ev "3+A") "@name :0 tag; @6+A :5+A 'y' 2;")), (at_time "6+A"), RNotFound.
  split; [vm_compute; reflexivity|]. split; [discriminate|]. split; vm_compute; reflexivity.
Qed.
(* an accepted frame can have events that are not saved: those to be stamped by
   the replica *)
Theorem C37_unstamped_refuted : exists main now rs tip frame c now',
  receive_frame toy_sha one_float recs pjread pjprev pwrite pbatch 0 100 main now rs tip frame = Done (main, now', ROk) /\
  delivered frame c /\ version (text_id c) = TIME /\ c_term c <> QUERY /\ text_ref c = ev "2+A".
Proof.
  exists main1, (at_time "3+A"), clock, (ev "3+A"), (txt "@1+0 :2+A 'x' 1;"), (at_op 1 "@1+0 :2+A 'x' 1;"), (at_time "6+A").
  split; [vm_compute; reflexivity|]. split; [at_op_tac 0%nat|]. vm_compute. repeat split; discriminate.
Qed.
(* a naming op after such an event is dropped as well *)
Theorem C37_name_dropped_refuted : exists main now rs tip frame c now',
  receive_frame toy_sha one_float recs pjread pjprev pwrite pbatch 0 100 main now rs tip frame = Done (main, now', ROk) /\
  delivered frame c /\ naming c.
Proof.
  exists main1, (at_time "3+A"), clock, (ev "3+A"), (txt "@1+0 :2+A 'x' 1; @name :0 tag;"), (at_op 2 "@1+0 :2+A 'x' 1; @name :0 tag;"), (at_time "6+A").
  split; [vm_compute; reflexivity|]. split; [at_op_tac 1%nat|]. vm_compute. reflexivity.
Qed.
(* a malformed frame can be accepted, and the ops before the error saved *)
Theorem C37_malformed_refuted : exists main now rs tip frame l c d main' now',
  receive_frame toy_sha one_float recs pjread pjprev pwrite pbatch 0 100 main now rs tip frame = Done (main', now', ROk) /\
  run_to (cursor_of frame) l c /\ next c = NBad d /\ List.length l = 2%nat /\ (List.length main < List.length main')%nat.
Proof.
  set (s := "@4+A :3+A 'x' 1; @2+A :lww? $$$").
  exists main1, (at_time "3+A"), [], (ev "3+A"), (txt s), [at_op 1 s; at_op 2 s], (at_op 2 s). eexists.
  exists (store_of (rcv main1 (at_time "3+A") [] (ev "3+A") s)), (at_time "4+A").
  split; [vm_compute; reflexivity|]. split.
  { change [at_op 1 s; at_op 2 s] with (([] ++ [at_op 1 s]) ++ [at_op 2 s]).
    econstructor; [econstructor; [constructor|]|]; vm_compute; reflexivity. }
  split; [vm_compute; reflexivity|]. split; [reflexivity|]. vm_compute. repeat constructor.
Qed.
(* an otherwise accepted frame can be rejected because of a comment at its end *)
Theorem C37_comment_refuted :
  status_of (rcv main1 (at_time "3+A") [] (ev "3+A") "@4+A :3+A 'x' 1; @2+A :lww?") = Some ROk /\
  status_of (rcv main1 (at_time "3+A") [] (ev "3+A") "@4+A :3+A 'x' 1; @2+A :lww? @~ :0 'thanks';") = Some REndOfFrame.
Proof. split; vm_compute; reflexivity. Qed.

(* a list *)
Definition listed : recs := store_of (rcv main0 (at_time "1+A") [] (ev "1+A") "@2+A :rga, @3+A :2+A 'a', @4+A :3+A 'b';").
(* events that are accepted in two frames, one after another, can be rejected in
   one frame: the log of the object is then merged as a list, which puts it out
   of order, so the yarn's last event is not found *)
Theorem C38_one_frame_refuted : exists main now tip a b main1 main2 now' now'' tip',
  rcv main now [] tip a = Done (main1, now', ROk) /\ rcv main1 now' [] tip' b = Done (main2, now'', ROk) /\
  exists m n, rcv main now [] tip (a ++ b)%string = Done (m, n, RNotFound).
Proof.
  exists listed, (at_time "4+A"), (ev "4+A"), "@5+A :3+A 'c';", " @6+A :4+A 'd';".
  exists (store_of (rcv listed (at_time "4+A") [] (ev "4+A") "@5+A :3+A 'c';")).
  exists (store_of (rcv (store_of (rcv listed (at_time "4+A") [] (ev "4+A") "@5+A :3+A 'c';")) (at_time "5+A") [] (ev "5+A") " @6+A :4+A 'd';")).
  exists (at_time "5+A"), (at_time "6+A"), (ev "5+A").
  split; [vm_compute; reflexivity|]. split; [vm_compute; reflexivity|].
  exists listed, (at_time "5+A"). vm_compute. reflexivity.
Qed.
(* a received event can pose as the metadata of a chain; no event of the yarn is
   accepted any more: neither a continuation, nor another edit, nor a new object *)
Definition forged : recs := store_of (rcv main1 (at_time "3+A") [] (ev "3+A") "@4+A :meta 2+A lww 'zzz';").
Theorem C38_forged_refuted :
  status_of (rcv main1 (at_time "3+A") [] (ev "3+A") "@4+A :meta 2+A lww 'zzz';") = Some ROk /\
  status_of (rcv forged (at_time "4+A") [] (ev "4+A") "@5+A :4+A 'x' 1;") = Some RNotFound /\
  status_of (rcv forged (at_time "4+A") [] (ev "4+A") "@5+A :3+A 'x' 1;") = Some RNotFound /\
  status_of (rcv forged (at_time "4+A") [] (ev "4+A") "@5+A :lww;") = Some RNotFound /\
  status_of (rcv main1 (at_time "4+A") [] (ev "3+A") "@5+A :3+A 'x' 1;") = Some ROk /\
  status_of (rcv main1 (at_time "4+A") [] (ev "3+A") "@5+A :lww;") = Some ROk.
Proof. do 5 (split; [vm_compute; reflexivity|]). vm_compute. reflexivity. Qed.
(* a write to a text map makes a tip of an event that does not exist: it cannot
   be referenced by the next one *)
Theorem C38_phantom_refuted : exists main',
  rcv main1 (at_time "3+A") clock (ev "3+A") "@2-A :txt 'abc';" = Done (main', at_time "7+A", ROk) /\
  get main' KEY_ZERO = Some (txt "@6+A :zero;
") /\
  (forall k, In k (map fst main') -> In k (map fst main1)) /\ List.length main' = S (List.length main1) /\
  status_of (rcv main' (at_time "7+A") [] (ev "6+A") "@8+A :6+A 'y' 1;") = Some RNotFound.
Proof.
  exists (store_of (rcv main1 (at_time "3+A") clock (ev "3+A") "@2-A :txt 'abc';")).
  split; [vm_compute; reflexivity|]. split; [vm_compute; reflexivity|].
  split. { intros k I. vm_compute in I |- *. tauto. } split; vm_compute; reflexivity.
Qed.
Print Assumptions C37_names_refuted.
Print Assumptions C37_unstamped_refuted.
Print Assumptions C37_name_dropped_refuted.
Print Assumptions C37_malformed_refuted.
Print Assumptions C37_comment_refuted.
Print Assumptions C38_one_frame_refuted.
Print Assumptions C38_forged_refuted.
Print Assumptions C38_phantom_refuted.
