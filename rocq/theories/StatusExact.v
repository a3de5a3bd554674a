(* C73: just which statuses are printed alike. *)
From Coq Require Import String.
From Verif Require Import Prelude UuidModel UuidSpec UuidProofs UuidTheorems Txt StatusModel StatusSpec StatusTheorems.
Open Scope string_scope.
Open Scope N_scope.
Open Scope list_scope.

Lemma word_loop_mod tbl w : Forall (fun p => fst p <= 54 /\ snd p < 2 ^ 60) tbl -> write_word_loop tbl (w mod 2 ^ 60) = write_word_loop tbl w.
Proof.
  induction 1 as [|[off low] tbl [O L] _ IH]; [reflexivity|]. cbn [fst snd] in O, L. cbn [write_word_loop]. rewrite IH.
  assert (A : N.land 63 (N.shiftr (w mod 2 ^ 60) off) = N.land 63 (N.shiftr w off)).
  { change 63 with (N.ones 6). apply N.bits_inj. intro k. rewrite !N.land_spec, !N.shiftr_spec'. destruct (N.lt_ge_cases k 6) as [K|K]; [|rewrite N.ones_spec_high by exact K; reflexivity].
    rewrite N.mod_pow2_bits_low; [reflexivity|]. lia. }
  assert (B : N.land (w mod 2 ^ 60) low = N.land w low).
  { assert (E : low = N.land low (N.ones 60)) by (rewrite N.land_ones, N.mod_small by exact L; reflexivity). apply N.bits_inj. intro k. rewrite !N.land_spec.
    destruct (N.lt_ge_cases k 60) as [K|K]; [rewrite N.mod_pow2_bits_low by exact K; reflexivity|]. rewrite E, N.land_spec, N.ones_spec_high by exact K. rewrite !andb_false_r. reflexivity. }
  rewrite A, B. reflexivity.
Qed.
Lemma write_word_mod w : write_word (w mod 2 ^ 60) = write_word w.
Proof. apply word_loop_mod. unfold WORD_TABLE. repeat (apply Forall_cons; [split; vm_compute; [discriminate|reflexivity]|]). apply Forall_nil. Qed.

(* two statuses are printed alike if and only if their codes have the same 60 bits
   and their comments are the same; the scope of the code does not matter *)
Theorem C73_exact a b : st_str a = st_str b <-> uvalue (st_code a) mod 2 ^ 60 = uvalue (st_code b) mod 2 ^ 60 /\ st_note a = st_note b.
Proof.
  assert (K : forall w, word_payload w = w mod 2 ^ 60) by (intro w; unfold word_payload, MAX_VALUE; change (2 ^ 60 - 1) with (N.ones 60); apply N.land_ones).
  split.
  - intro E. apply C73_printed in E. rewrite !K in E. exact E.
  - intros [E N]. unfold st_str. rewrite N, <- (write_word_mod (uvalue (st_code a))), E, write_word_mod. reflexivity.
Qed.
(* so for every status there is one that is an error and one that is none, both
   printed like it *)
Theorem C73_twin s : (exists a, st_str a = st_str s /\ st_bool a = true) /\ (exists b, st_str b = st_str s /\ st_bool b = false).
Proof.
  split; [exists (st_comment (st_of (mkUuid (uvalue (st_code s)) 0) []) (st_note s))|exists (st_comment (st_error (uvalue (st_code s))) (st_note s))];
    (split; [apply C73_exact; split; reflexivity|reflexivity]).
Qed.
Print Assumptions C73_exact.
Print Assumptions C73_twin.
Example C73_exact_case : st_str (st_comment BADARGS (txt "x")) = txt "BADARGS" ++ [9] ++ txt "x" /\
  st_str (st_comment (st_of (parse_uuid (txt "BADARGS+me")) []) (txt "x")) = st_str (st_comment BADARGS (txt "x")) /\ st_bool (st_of (parse_uuid (txt "BADARGS+me")) []) = true /\
  st_str BADARGS <> st_str (st_comment BADARGS (txt "x")) /\ st_str BADARGS <> st_str NOT_FOUND.
Proof. split; [vm_compute; reflexivity|]. split; [vm_compute; reflexivity|]. split; [vm_compute; reflexivity|]. split; vm_compute; discriminate. Qed.
