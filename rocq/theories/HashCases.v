(* Concrete cases for C33. *)
From Coq Require Import String.
From Verif Require Import Prelude UuidModel CodecModel CodecSpec TextTable TextModel TextSpec TextSafety
  TextTheorems MergeModel HashModel HashSpec HashProofs HashTheorems Txt.
Open Scope string_scope. Open Scope N_scope. Open Scope list_scope.

(* all floats read as 1.0; a cursor on the n-th op of a text *)
Definition one_float (_ : bytes) : N := 4607182418800017408.
Fixpoint step (n : nat) (c : cursor) : cursor :=
  match n with O => c | S k => match next c with NOk c' => step k c' | _ => c end end.
Definition at_op (n : nat) (s : string) : cursor := step n (cursor_of (txt s)).
Definition hA : sha2 := mkSha2 256 (repeat 171 32).
Definition hB : sha2 := mkSha2 256 (repeat 5 32).
Definition image (c : cursor) : bytes := match hash_image one_float c hA hB with Done b => b | _ => [] end.

Definition said_okb (v : said) : bool :=
  match v with SStr None => false | SStr (Some l) => forallb (fun cp => cp <? 2 ^ 21) l | _ => true end.
Lemma said_okb_ok l : forallb said_okb l = true -> Forall said_ok l.
Proof.
  intro H. rewrite forallb_forall in H. apply Forall_forall. intros v Hv. pose proof (H v Hv) as K.
  destruct v as [u|z|[s|]|b]; cbn [said_okb said_ok] in *; try exact I; [|discriminate K].
  rewrite forallb_forall in K. apply Forall_forall. intros cp Hc. apply N.ltb_lt. exact (K cp Hc).
Qed.

(* an op with a UUID, an integer, a string and a float, in two frames *)
Example C33_case :
  let a := at_op 1 "@1A+B :1+B >2C -7 'xy' ^1.0;" in
  let b' := at_op 2 "@19+B :lww, @1A+B :1+B >2C -7 'xy' ^1.0;" in
  delivers (txt "@1A+B :1+B >2C -7 'xy' ^1.0;") a /\
  delivers (txt "@19+B :lww, @1A+B :1+B >2C -7 'xy' ^1.0;") b' /\
  Forall said_ok (says one_float a) /\ Forall said_ok (says one_float b') /\
  image a = image b' /\ List.length (image a) = 162%nat /\
  image (at_op 1 "@1A+B :1+B >2C -7 'xy' ^1.0;") <> image (at_op 1 "@1A+B :1+B >2C -7 'yx' ^1.0;").
Proof.
  cbv zeta. split.
  { split; [vm_compute; reflexivity|]. exists (cursor_of (txt "@1A+B :1+B >2C -7 'xy' ^1.0;")).
    split; [apply reach0|vm_compute; reflexivity]. }
  split.
  { split; [vm_compute; reflexivity|]. exists (at_op 1 "@19+B :lww, @1A+B :1+B >2C -7 'xy' ^1.0;").
    split; [|vm_compute; reflexivity].
    eapply reach_ok; [apply reach0|]. vm_compute. reflexivity. }
  do 2 (split; [apply said_okb_ok; vm_compute; reflexivity|]).
  split; [vm_compute; reflexivity|]. split; [vm_compute; reflexivity|]. vm_compute. discriminate.
Qed.

(* the first condition of C33_stable is needed: the same op, read alike, hashes
   to something else when it is written in a span *)
Theorem C33_span_refuted : exists s1 s2,
  let c1 := at_op 1 s1 in let c2 := at_op 1 s2 in
  delivers (txt s1) c1 /\ delivers (txt s2) c2 /\
  r_id (rop_of c1) = r_id (rop_of c2) /\ r_ref (rop_of c1) = r_ref (rop_of c2) /\
  r_vals (rop_of c1) = r_vals (rop_of c2) /\
  map r_vals (fst (scan 9 (cursor_of (txt s1)))) = map r_vals (fst (scan 9 (cursor_of (txt s2)))) /\
  image c1 <> image c2.
Proof.
  exists "@1A+B :1+B ('ab');", "@1A+B :1+B 'a'; @1A00000001+B :1A+B 'b';". cbv zeta.
  split; [split; [vm_compute; reflexivity|];
          exists (cursor_of (txt "@1A+B :1+B ('ab');")); split; [apply reach0|vm_compute; reflexivity]|].
  split; [split; [vm_compute; reflexivity|];
          exists (cursor_of (txt "@1A+B :1+B 'a'; @1A00000001+B :1A+B 'b';"));
          split; [apply reach0|vm_compute; reflexivity]|].
  do 4 (split; [vm_compute; reflexivity|]). vm_compute. discriminate.
Qed.

(* so is the second: the same integer hashes to something else when it ends at
   byte 2^28 or later of its frame. The op is as the parser would make it; the
   frame before it is arbitrary *)
Theorem C33_far_refuted : forall w, N.of_nat (List.length w) = 2 ^ 28 ->
  let near := mkCursor (txt "5;") 2 [AUuid NIL; AUuid NIL; AInt 0 1] RAW 74 0 in
  let far := mkCursor (w ++ txt "5;") (2 ^ 28 + 2) [AUuid NIL; AUuid NIL; AInt (2 ^ 28) (2 ^ 28 + 1)] RAW 74 0 in
  Forall ranged (c_op near) /\ Forall ranged (c_op far) /\
  rop_of near = rop_of far /\ r_vals (rop_of far) = [VInt 5] /\ image near <> image far.
Proof.
  intros w L. cbv zeta.
  assert (E : sub (w ++ txt "5;") (2 ^ 28) (2 ^ 28 + 1) = sub (txt "5;") 0 1).
  { unfold sub. rewrite <- L. rewrite Nat2N.id, skipn_app, skipn_all, Nat.sub_diag.
    replace (N.of_nat (List.length w) + 1 - N.of_nat (List.length w)) with 1 by lia. reflexivity. }
  split; [repeat constructor; vm_compute; reflexivity|].
  split; [repeat constructor; vm_compute; reflexivity|].
  unfold rop_of. cbn [c_op c_buf c_term skipn map value_of r_vals].
  unfold image, hash_image. cbn [c_op c_buf skipn flat_map atom_image]. rewrite E.
  split; [reflexivity|]. split; [reflexivity|]. vm_compute. discriminate.
Qed.
