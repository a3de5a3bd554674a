(* C26, C27: cases. The frames of rdt/test/rga.cc and the two defects. *)
From Coq Require Import String.
From Verif Require Import Prelude Txt UuidModel KeyModel TextModel MergeModel MergeSpec MergeTextModel MergeTheorems MergeCases ScanModel ScanSpec ScanTheorems.
Open Scope string_scope.

Definition rm_un := "@1i08e4+path :rga, 'a', 'b', @1i08k+path rm, rm, un, @1i08e40003+path :1i08e40002+path 'd';".
Definition trash := "@1i08e4+path :rga, 'a', 'b', @1i08k+path rm, rm, 'c', @1i08e40003+path :1i08e40002+path 'd', un, rm, rm;".
Example C26_case :
  scan_frame 20 (txt rm_un) = ScanRet StOK [true; false; true; true; true; true; false] /\
  scan_frame 20 (txt trash) = ScanRet StOK [true; true; true; true; true; true; false; true; true; true].
Proof. split; vm_compute; reflexivity. Qed.

(* its hypotheses: the tree of the first frame *)
Definition rm_un_tree := Eval vm_compute in
  let o i := op_at rm_un i in
  Node (o 0%nat) [Node (o 1%nat) [Node (o 2%nat) [Node (o 3%nat) [Node (o 4%nat) [Node (o 5%nat) []]]; Node (o 6%nat) []]]].
Lemma rm_un_scan : scan 100 (cursor_of (txt rm_un)) = (listing rm_un_tree, SEnd).
Proof. vm_compute. reflexivity. Qed.
Lemma rm_un_layers : map (fun p => (layer_of (at_ p), rank (at_ p), length (target (at_ p)))) (places [] rm_un_tree) =
  [(LRoot, 1, 0); (LElement, 1, 1); (LElement, 2, 0); (LRemove, 1, 3); (LRemove, 2, 2); (LUndo, 1, 5); (LElement, 3, 0)]%nat.
Proof. vm_compute. reflexivity. Qed.
Example C26_hypotheses : frame_ops (txt rm_un) (listing rm_un_tree) /\ rga_tree rm_un_tree /\
  (forall p, In p (places [] rm_un_tree) -> ~ stray p).
Proof.
  split; [apply ops_case; exact rm_un_scan|]. split.
  - split; [|split; [vm_compute; reflexivity|split; [|vm_compute; reflexivity]]].
    + unfold rm_un_tree. constructor. constructor; [|constructor]. split; [|split; vm_compute; reflexivity].
      constructor. constructor; [|constructor]. split; [|split; vm_compute; reflexivity].
      constructor. constructor; [|constructor; [|constructor]]; (split; [|split; vm_compute; reflexivity]).
      * constructor. constructor; [|constructor]. split; [|split; vm_compute; reflexivity].
        constructor. constructor; [|constructor]. split; [|split; vm_compute; reflexivity]. constructor. constructor.
      * constructor. constructor.
    + apply Forall_forall. intros x H. unfold rm_un_tree in H. cbn [listing flat_map app] in H.
      repeat (destruct H as [<-|H]; [vm_compute; reflexivity|]). destruct H.
  - intros p IP (T & K). pose proof (in_map (fun p => (layer_of (at_ p), rank (at_ p), length (target (at_ p)))) _ _ IP) as M.
    rewrite rm_un_layers in M. cbv beta in M. rewrite T in M. cbn [List.length] in M.
    assert (KL : layer_of (at_ p) = LUndo \/ layer_of (at_ p) = LRemove) by (destruct K as [K|[K _]]; [left|right]; exact K).
    cbn [In] in M. destruct M as [M|[M|[M|[M|[M|[M|[M|M]]]]]]]; try contradiction; try discriminate;
      destruct KL as [KL|KL]; congruence.
Qed.

(* an undo of the only removal changes nothing: the element stays hidden *)
Theorem C26_undo_refuted : exists f g,
  ops_of f = (ops_of g ++ skipn 3 (ops_of f))%list /\
  map entry_type (ops_of f) = [ENTRY; ENTRY; REMOVE; UNDO] /\ map r_ref (ops_of f) = (RGA_FORM_UUID :: map r_id (firstn 3 (ops_of f)))%list /\
  scan_frame 10 (txt f) = ScanRet StOK [true; true; true; true] /\ scan_frame 10 (txt g) = ScanRet StOK [true; true; true].
Proof.
  exists "@1+A :rga, @2+A 'a', @3+A rm, @4+A un;", "@1+A :rga, @2+A 'a', @3+A rm,".
  do 4 (split; [vm_compute; reflexivity|]). vm_compute; reflexivity.
Qed.
Print Assumptions C26_undo_refuted.

(* three removals in a row on the first element write out of bounds *)
Theorem C27_refuted : exists f, scan_frame 10 (txt f) = ScanUB /\ snd (scan 10 (cursor_of (txt f))) = SEnd /\
  map r_ref (ops_of f) = (RGA_FORM_UUID :: map r_id (firstn 4 (ops_of f)))%list.
Proof. exists "@1+A :rga, @2+A 'a', @3+A rm, @4+A rm, @5+A rm;". do 2 (split; [vm_compute; reflexivity|]). vm_compute; reflexivity. Qed.
Print Assumptions C27_refuted.
