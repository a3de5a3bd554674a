(* C45: a causal tree in four pieces. *)
From Coq Require Import String Sorted Permutation.
From Verif Require Import Prelude UuidModel UuidSpec UuidProofs KeyModel CodecModel TextModel TextSpec BuilderSpec BuilderProofs MergeModel MergeSpec MergeTextModel
  MergeProofs RgaProofs MergeTheorems TextMergeSpec TextCursors TextMerge TextMergeTheorems StoreModel StoreSpec StoreProofs StoreTheorems RocksModel RocksSpec
  RocksProofs RocksTheorems Txt MergeCases TextMergeCases StoreCases RocksCases RocksRga.
Open Scope string_scope.
Open Scope N_scope.
Open Scope list_scope.

(* with a log under another key, compacted in between *)
Definition four_writes : list revent := firstn 2 rga_writes ++ [RWrite kL (text_for lwwA); RWrite kL (text_for lwwB); RCompact kL (CFull 2)] ++ skipn 2 rga_writes.
Example C45_rga_case :
  key_form kR = RGA_RDT_FORM /\ kR <> KEY_END /\ (forall ce, ~ In (RCompact kR ce) four_writes) /\ rn four_writes = Done (ran four_writes) /\
  Forall2 frame_text (put_under kR four_writes) (map chunk_of rgas) /\ (3 < List.length (filter nonempty (map chunk_of rgas)))%nat /\
  ce_value (cell_at (ran four_writes) kL) <> None.
Proof.
  split; [vm_compute; reflexivity|]. split; [vm_compute; discriminate|].
  split; [intros ce I; cbn [four_writes rga_writes rgas map firstn skipn app In] in I; repeat (destruct I as [E|I]; [discriminate E|]); destruct I|].
  split; [vm_compute; reflexivity|]. split.
  - assert (PU : put_under kR four_writes = contents lossy kR) by (vm_compute; reflexivity). rewrite PU. destruct C30_case as (_ & CE & _ & F & _).
    assert (SM : forallb (fun f => N.of_nat (List.length f) <? 2 ^ 32) (contents lossy kR) = true) by (rewrite CE; vm_compute; reflexivity).
    clear PU CE. rewrite forallb_forall in SM. induction F as [|f ds fs dss A F IH]; [constructor|]. constructor; [split; [exact A|apply N.ltb_lt; apply SM; left; reflexivity]|].
    apply IH. intros x I. apply SM. right. exact I.
  - split; [vm_compute; lia|vm_compute; discriminate].
Qed.
