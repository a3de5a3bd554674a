(* Merging text frames: the corollaries of C19-C25 for text, the concrete cases
   and the counterexamples. *)
From Coq Require Import String Sorted Permutation.
From Verif Require Import Prelude UuidModel UuidSpec UuidProofs KeyModel CodecModel TextModel TextSpec MergeModel MergeSpec MergeTextModel
  MergeProofs RgaProofs MaxProofs MergeTheorems BuilderSpec Txt.
Open Scope string_scope.

Definition no_floats (_ : bytes) : N := 0.
Definition merge_texts (l : list string) : res (option string * status) :=
  rbind (merge_frames no_floats 100 (map txt l)) (fun '(r, s) => Done (option_map untxt r, s)).

Definition text_of (r : res (option string * status)) : string := match r with Done (Some s, _) => s | _ => "" end.

(* the ops of a text, the cursor on the first *)
Definition ops_of (s : string) : list rop := fst (scan 100 (cursor_of (txt s))).
Definition first_of (s : string) : cursor :=
  match text_next (cursor_of (txt s)) with Some (_, c) => c | None => cursor_of [] end.

Lemma ops_case : forall s l, scan 100 (cursor_of (txt s)) = (l, SEnd) -> frame_ops (txt s) l.
Proof. intros s l E. exists 100%nat, SEnd. split; [exact E|left; reflexivity]. Qed.
Lemma reads_case : forall s l, scan 100 (cursor_of (txt s)) = (l, SEnd) -> l <> [] ->
  valid (first_of s) = true /\ reads valid text_next rop_of (first_of s) l.
Proof.
  intros s l E N. pose proof (text_open _ _ (ops_case s l E)) as T. destruct l as [|o l]; [congruence|].
  destruct T as (c & T & V & R). unfold first_of. rewrite T. split; assumption.
Qed.

Ltac literal t := let x := eval vm_compute in t in let E := fresh "E" in assert (E : t = x) by (vm_compute; reflexivity); rewrite E; clear E.
(* ---- C19 ---- *)
Definition lww1 := "@1+A :lww; @2+A :1+A 'x' 1;".
Definition lww2 := "@1+A :lww; @3+B :1+A 'x' 2;".
Definition lww3 := "@2+A :1+A 'x' 1; @4+C :1+A 'y' 7;".
Example C19_case :
  merge_texts [lww1; lww2; lww3] = Done (Some "@1+A :lww,
@2+A 'x' 1,
@3+B :1+A 'x' 2,
@4+C :1+A 'y' 7;
", StOK).
Proof. vm_compute. reflexivity. Qed.
Fixpoint ssb (le : rop -> rop -> bool) (l : list rop) : bool :=
  match l with [] => true | x :: r => forallb (le x) r && ssb le r end.
Lemma ssb_ok : forall (P : rop -> rop -> Prop) le, (forall a b, le a b = true -> P a b) ->
  forall ls, forallb (ssb le) ls = true -> Forall (StronglySorted P) ls.
Proof.
  intros P le H ls E. rewrite forallb_forall in E. apply Forall_forall. intros l I. specialize (E l I). clear I.
  induction l as [|x l IH]; constructor; cbn [ssb] in E; apply andb_prop in E; destruct E as [E1 E2]; [apply IH; exact E2|].
  rewrite forallb_forall in E1. apply Forall_forall. intros y I. apply H, E1, I.
Qed.
Example C19_hypotheses : Forall sorted_ids (map ops_of [lww1; lww2; lww3]) /\
  Forall2 (reads valid text_next rop_of) (map first_of [lww1; lww2; lww3]) (map ops_of [lww1; lww2; lww3]).
Proof.
  split.
  - apply (ssb_ok id_le (fun a b => negb (uuid_ltb (r_id b) (r_id a)))); [|vm_compute; reflexivity].
    intros a b E. apply negb_true_iff in E. exact E.
  - repeat (apply Forall2_cons; [apply reads_case; [vm_compute; reflexivity|vm_compute; discriminate]|]). apply Forall2_nil.
Qed.

(* ---- C20 ---- *)
Example C20_case :
  merge_texts [lww3; lww1; lww1; lww2; lww3] = merge_texts [lww1; lww2; lww3] /\
  merge_texts [text_of (merge_texts [lww2; lww3]); lww1] = merge_texts [lww1; lww2; lww3].
Proof. split; vm_compute; reflexivity. Qed.
Example C20_hypotheses : bare_identify (concat (map ops_of [lww1; lww2; lww3])).
Proof.
  literal (concat (map ops_of [lww1; lww2; lww3])). intros a b IA IB. cbn [In] in IA, IB.
  repeat (destruct IA as [<-|IA]; [repeat (destruct IB as [<-|IB]; [cbn [r_id]; intro E; first [reflexivity | discriminate E]|]); destruct IB|]). destruct IA.
Qed.

(* ---- C21 ---- *)
Example C21_case :
  merge_texts ["@1+A :meta, @2+A :1+A 'a';"; "@1+A :meta; @2+A :3+A 'b'; @2+A :2+A 'c';"] = Done (Some "@1+A :meta,
@2+A :3+A 'b';
", StOK) /\ Forall (StronglySorted meta_le) (map ops_of ["@1+A :meta, @2+A :1+A 'a';"; "@1+A :meta; @2+A :3+A 'b'; @2+A :2+A 'c';"]).
Proof.
  split; [vm_compute; reflexivity|].
  apply (ssb_ok meta_le (fun a b => uuid_ltb (r_id a) (r_id b) || (uuid_eqb (r_id a) (r_id b) && negb (uuid_ltb (r_ref a) (r_ref b)))));
    [|vm_compute; reflexivity].
  intros a b E. apply orb_prop in E. destruct E as [E|E]; [left; exact E|right]. apply andb_prop in E. destruct E as [E1 E2].
  split; [apply uuid_eqb_eq; exact E1|apply negb_true_iff; exact E2].
Qed.

(* ---- C22, C23 ---- *)
Definition rga1 := "@1+A :rga, @3+A :1+A 'a', @2+A :1+A 'b';".
Definition rga2 := "@4+B :2+A 'c';".
Definition rga3 := "@5+B :3+A 'd', @6+B :5+B 'e';".
Example C22_case :
  merge_texts [rga1; rga2; rga3] = Done (Some "@1+A :rga,
@3+A 'a',
@5+B 'd',
@6+B 'e',
@2+A :1+A 'b',
@4+B 'c';
", StOK) /\
  merge_texts [rga3; rga2; rga1] = merge_texts [rga1; rga2; rga3].
Proof. vm_compute. repeat split; reflexivity. Qed.
Definition op_at (s : string) (i : nat) : rop := nth i (ops_of s) (mkRop NIL NIL [] 0).
Definition tree1 := Eval vm_compute in Node (op_at rga1 0) [Node (op_at rga1 1) []; Node (op_at rga1 2) []].
Definition tree2 := Eval vm_compute in Node (op_at rga2 0) [].
Definition tree3 := Eval vm_compute in Node (op_at rga3 0) [Node (op_at rga3 1) []].
Example C22_hypotheses :
  Forall2 (fun s t => ops_of s = listing t) [rga1; rga2; rga3] [tree1; tree2; tree3] /\
  Forall causal [tree1; tree2; tree3] /\ NoDup (ids (flat_map listing [tree1; tree2; tree3])) /\
  (forall o o', In o (flat_map listing [tree1; tree2; tree3]) -> In o' (flat_map listing [tree1; tree2; tree3]) ->
     r_ref o = r_id o' -> uuid_ltb (r_id o') (r_id o) = true).
Proof.
  split; [repeat (apply Forall2_cons; [vm_compute; reflexivity|]); apply Forall2_nil|]. split; [|split].
  - unfold tree1, tree2, tree3.
    repeat apply Forall_cons; try apply Forall_nil;
      repeat first [apply causal_node | apply SSorted_nil | apply SSorted_cons | apply Forall_nil | apply Forall_cons | split];
      vm_compute; reflexivity.
  - literal (ids (flat_map listing [tree1; tree2; tree3])).
    repeat (apply NoDup_cons; [cbn [In]; intro H; repeat (destruct H as [H|H]; [discriminate H|]); exact H|]). apply NoDup_nil.
  - literal (flat_map listing [tree1; tree2; tree3]). intros a b IA IB. cbn [In] in IA, IB.
    repeat (destruct IA as [<-|IA]; [repeat (destruct IB as [<-|IB]; [cbn [r_id r_ref]; intro E; first [discriminate E | vm_compute; reflexivity]|]); destruct IB|]). destruct IA.
Qed.
Theorem C22_idempotence_refuted : exists f, merge_texts [f; f] = Done (Some "@1+A :rga,
@3+A 'a',
@2+A :1+A 'b',
@1+A :rga,
@3+A 'a',
@2+A :1+A 'b';
", StOK).
Proof. exists rga1. vm_compute. reflexivity. Qed.
Print Assumptions C22_idempotence_refuted.
Example C23_case :
  merge_texts [rga1; "@9+B :8+A 'c';"] = Done (None, StCauseBreak) /\
  merge_texts [rga1; rga2; rga3; "@9+B :2+A 'c';"] = Done (None, StNotImplemented) /\
  (3 < List.length [rga1; rga2; rga3; "@9+B :2+A 'c';"])%nat.
Proof. split; [vm_compute; reflexivity|]. split; [vm_compute; reflexivity|]. cbn. lia. Qed.

(* ---- C24 ---- *)
Definition max1 := "@1+A :max, @3+A :1+A 5;".
Example C24_case :
  merge_texts [max1; "@4+B :1+A 7; @5+B :1+A 6;"; "@6+B :1+A 2;"] = Done (Some "@1+A :max,
@4+B 7;
", StOK) /\
  r_ref (op_at max1 0) = MAX_FORM_UUID /\ r_vals (op_at max1 1) = [VInt 5].
Proof. vm_compute. repeat split; reflexivity. Qed.
(* values are compared as unsigned words *)
Theorem C24_negative_refuted : exists f g, merge_texts [f; g] = Done (Some "@1+A :max,
@4+B -1;
", StOK) /\ r_vals (op_at f 1) = [VInt 5] /\ r_vals (op_at g 0) = [VInt (-1)].
Proof. exists max1, "@4+B :1+A -1;". vm_compute. repeat split; reflexivity. Qed.
Print Assumptions C24_negative_refuted.
(* a register without a value: an op is made up *)
Theorem C24_empty_register_refuted : exists f, map r_id (ops_of f) = [mkUuid (2 ^ 54) (2 * 2 ^ 60 + 10 * 2 ^ 54)] /\
  match merge_texts [f] with Done (_, s) => s = StOK | _ => False end /\
  map r_id (ops_of (text_of (merge_texts [f]))) = [mkUuid (2 ^ 54) (2 * 2 ^ 60 + 10 * 2 ^ 54); mkUuid (2 ^ 54 + 1) (2 * 2 ^ 60 + 10 * 2 ^ 54)].
Proof.
  exists "@1+A :max;
". vm_compute. repeat split; reflexivity.
Qed.
Print Assumptions C24_empty_register_refuted.

(* ---- C25 ---- *)
Example C25_case :
  merge_texts ["@1+A :log; @2+A :1+A 1;"; "@3+A :1+A 'x'!"] = Done (Some "@1+A :log;
@2+A 1;
@3+A :1+A 'x'!
", StOK) /\
  merge_texts ["@1+A :0; @2+A :1+A 1;"; "@3+A :1+A 'x'!"] = Done (Some "@3+A :1+A 'x'!
", StOK) /\
  merge_texts ["@1+A :patch; @2+A :1+A 1;"; "@3+A :1+A 'x'!"] = Done (None, StNotImplemented) /\
  merge_texts ["@1+A :lww;"; "@1+A :rga;"] = Done (None, StBadArgs).
Proof. vm_compute. repeat split; reflexivity. Qed.
