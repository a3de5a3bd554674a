(* C24 with integers of both signs. *)
From Coq Require Import String.
From Verif Require Import Prelude UuidModel UuidProofs KeyModel CodecModel TextModel TextSpec BuilderSpec MergeModel MergeSpec MergeTextModel MergeProofs MaxProofs MergeTheorems MergeCases.
Open Scope string_scope.
Open Scope N_scope.
Open Scope list_scope.

(* all values 64-bit integers: with a negative one among them the value that comes
   out is the greatest of the negative ones, otherwise the greatest *)
Theorem C24_signed : forall fbits fuel c v r vs,
  visits valid text_next c (c :: v) -> Forall2 (visits valid text_next) r vs -> Forall (fun w => w <> []) vs ->
  (length (v ++ concat vs) + 1 < fuel)%nat ->
  text_ref c = MAX_FORM_UUID -> v ++ concat vs <> [] ->
  (forall y, In y (v ++ concat vs) -> exists z t, r_vals (rop_of y) = VInt z :: t /\ (- 2 ^ 63 <= z < 2 ^ 63)%Z) ->
  exists x z t, max_merge cursor valid text_next text_id text_ref (text_val fbits) fuel (c :: r)
              = Done ([MAppend c; MAppend x; MEnd RAW], StOK) /\
    In x (v ++ concat vs) /\ r_vals (rop_of x) = VInt z :: t /\
    forall y z' t', In y (v ++ concat vs) -> r_vals (rop_of y) = VInt z' :: t' ->
      (z' < 0 -> z' <= z < 0)%Z /\ (0 <= z' -> z < 0 \/ z' <= z)%Z.
Proof.
  intros fbits fuel c v r vs V F NV FU H NE INT.
  destruct (max_header cursor valid text_next text_id text_ref (text_val fbits) c_term fuel c v r vs V F NV H) as [x [E [I B]]]; [|lia|].
  { destruct v; [right|left; discriminate]. destruct r; [|discriminate]. inversion F; subst. cbn in NE. congruence. }
  destruct (INT x I) as (z & t & X1 & X2). exists x, z, t. split; [exact E|]. split; [exact I|]. split; [exact X1|].
  intros y z' t' IY Y1. specialize (B y IY). destruct (INT y IY) as (z2 & t2 & Y2 & Y3).
  assert (z2 = z') by congruence. subst z2.
  assert (W : forall c0 z0 t0, r_vals (rop_of c0) = VInt z0 :: t0 -> exists o, text_val fbits c0 = Some (Z.to_N (z0 mod 2 ^ 64), o)).
  { clear. intros c0 z0 t0 E. unfold text_val. cbn [rop_of r_vals] in E. destruct (skipn 2 (c_op c0)) as [|a l]; [discriminate E|].
    cbn [map] in E. assert (VA : value_of (c_buf c0) a = VInt z0) by congruence. destruct a; cbn [value_of] in VA; try discriminate VA.
    injection VA as VA. cbn [atom_words]. rewrite VA. eexists. reflexivity. }
  destruct (W x z t X1) as [ox WX]. destruct (W y z' t' Y1) as [oy WY].
  unfold less_max in B. rewrite WX, WY in B. apply orb_false_iff in B. destruct B as [B _]. apply N.ltb_ge in B.
  assert (M : forall a, (- 2 ^ 63 <= a < 2 ^ 63)%Z -> (a mod 2 ^ 64 = if a <? 0 then a + 2 ^ 64 else a)%Z).
  { clear. intros a R. destruct (Z.ltb_spec a 0) as [L|L]; [|apply Z.mod_small; lia]. rewrite <- (Z.mod_add a 1 (2 ^ 64)) by discriminate. apply Z.mod_small. lia. }
  rewrite (M z X2), (M z' Y3) in B. destruct (Z.ltb_spec z 0), (Z.ltb_spec z' 0); lia.
Qed.
Print Assumptions C24_signed.
(* 5, -7, -3 and 9 *)
Example C24_signed_case : merge_texts [max1; "@4+B :1+A -7;"; "@5+C :1+A -3;"; "@6+D :1+A 9;"] = Done (Some "@1+A :max,
@5+C -3;
", StOK) /\ r_vals (op_at max1 1) = [VInt 5] /\ merge_texts [max1; "@6+D :1+A 9;"] = Done (Some "@1+A :max,
@6+D 9;
", StOK).
Proof. split; [vm_compute; reflexivity|]. split; vm_compute; reflexivity. Qed.
