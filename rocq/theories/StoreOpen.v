(* C28, continued: the in-memory store as it is opened. *)
From Verif Require Import Prelude UuidModel UuidSpec KeyModel CodecModel MergeModel StoreModel StoreSpec StoreProofs StoreTheorems.

Section Open.
Context {F : Type}.
Variable fempty : F.
Notation store := (list (key * F)).

(* Opening adds the frame that names the store at the key zero and an empty frame
   at the end key; it keeps all the rest. Opened once, a store holds nothing else. *)
Theorem C28_open (st : store) meta : sorted_store st ->
  let o := open_store F fempty st meta in
  sorted_store o /\ contents o KEY_ZERO = contents st KEY_ZERO ++ [meta] /\ contents o KEY_END = contents st KEY_END ++ [fempty]
  /\ (forall k, k <> KEY_ZERO -> k <> KEY_END -> contents o k = contents st k)
  /\ (st = [] -> o = [(KEY_ZERO, meta); (KEY_END, fempty)]).
Proof.
  intro SS. cbv zeta. unfold open_store. assert (ZE : KEY_ZERO <> KEY_END) by (vm_compute; discriminate).
  unfold write. rewrite (key_eqb_neq _ _ ZE). cbn [fst].
  destruct (insert_ok st KEY_ZERO meta SS) as [S1 C1]. destruct (insert_ok (insert F st (KEY_ZERO, meta)) KEY_END fempty S1) as [S2 C2].
  split; [exact S2|]. split; [|split; [|split]].
  - rewrite C2, C1, key_eqb_refl, (key_eqb_neq _ _ ZE). apply app_nil_r.
  - rewrite C2, C1, key_eqb_refl. rewrite (key_eqb_neq KEY_END KEY_ZERO) by congruence. rewrite app_nil_r. reflexivity.
  - intros k A B. rewrite C2, C1, (key_eqb_neq _ _ A), (key_eqb_neq _ _ B), !app_nil_r. reflexivity.
  - intros ->. reflexivity.
Qed.
End Open.
Print Assumptions C28_open.

Example C28_open_case : open_store N 0 [(KEY_ZERO, 5)] 7 = [(KEY_ZERO, 5); (KEY_ZERO, 7); (KEY_END, 0)].
Proof. vm_compute. reflexivity. Qed.
