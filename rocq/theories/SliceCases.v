(* Examples and counterexamples for C70 and C71. *)
From Coq Require Import String.
From Verif Require Import Prelude Txt MergeModel SliceModel SliceSpec SliceProofs SliceTheorems.
Open Scope string_scope. Open Scope N_scope. Open Scope list_scope.

(* a std::string in memory, after something else *)
Definition text := txt "abcdef".
Definition memory := [7; 8] ++ text ++ [0].
Definition all := s_string 2 6.
Lemma all_shows : shows memory all text.
Proof. apply (C70_whole memory 2 text [7; 8] [0]); vm_compute; reflexivity. Qed.
Lemma all_passed : shows memory (s_consumed all) [].
Proof. exists [7; 8], (text ++ [0]). repeat split; vm_compute; reflexivity. Qed.

(* C70_reads, C70_moves, C70_part, C70_empty_part, C70_caught *)
Example C70_reads_case :
  shows memory all text /\ s_size all = Done 6 /\ s_at memory all 2 = Done 99 /\ s_at memory all 6 = Aborted /\ s_first memory all = Done 97.
Proof. split; [exact all_shows|]. vm_compute. repeat split. Qed.
Definition there := [Step; Eat 2; Stop 5; Fit 1].
Lemma there_moves : moves_to there [] text (txt "abc") (txt "d").
Proof.
  apply (moves_more _ _ _ _ (txt "a") (txt "bcdef")). { exact (moved_step [] 97 (txt "bcdef")). }
  apply (moves_more _ _ _ _ (txt "abc") (txt "def")). { exact (moved_eat 2 (txt "a") (txt "bc") (txt "def") eq_refl). }
  apply (moves_more _ _ _ _ (txt "abc") (txt "de")). { exact (moved_stop 5 (txt "abc") (txt "de") (txt "f") eq_refl). }
  apply (moves_more _ _ _ _ (txt "abc") (txt "d")). { exact (moved_fit 1 (txt "abc") (txt "d") (txt "e") eq_refl). }
  apply moves_none.
Qed.
Example C70_moves_case :
  moves_to there [] text (txt "abc") (txt "d") /\ s_moves there all = Done (mkSlice 2 (mkRange 3 4))
  /\ loads memory (s_begin (mkSlice 2 (mkRange 3 4))) 1 = Done (txt "d").
Proof. split; [exact there_moves|]. vm_compute. repeat split. Qed.
Example C70_part_case :
  s_slice all (mkRange 1 4) = Done (mkSlice 2 (mkRange 1 4)) /\ s_range_of all (mkSlice 2 (mkRange 1 4)) = Done (mkRange 1 4)
  /\ s_slice (mkSlice 2 (mkRange 1 4)) (mkRange 1 2) = Done (mkSlice 2 (mkRange 2 3))
  /\ s_range_of all (mkSlice 5 (mkRange 0 2)) = Done (mkRange 3 5)
  /\ s_cut_off all (mkSlice 2 (mkRange 4 6)) = Done (mkSlice 2 (mkRange 0 4)).
Proof. vm_compute. repeat split. Qed.
Example C70_empty_part_case : s_slice all (mkRange 6 6) = Aborted /\ s_slice all (mkRange 5 5) = Done (mkSlice 2 (mkRange 5 5)).
Proof. vm_compute. repeat split. Qed.
Example C70_caught_case : s_move (Eat 7) all = Aborted /\ s_move (Stop 0) (mkSlice 2 (mkRange 1 4)) = Aborted
  /\ s_move Step (mkSlice 2 (mkRange 4 4)) = Aborted /\ s_slice (mkSlice 2 (mkRange 1 4)) (mkRange 2 4) = Aborted.
Proof. vm_compute. repeat split. Qed.
Example C70_equal_case :
  s_eq memory (mkSlice 2 (mkRange 1 3)) (txt "xbcx") (mkSlice 1 (mkRange 0 2)) = Done true
  /\ s_eq memory (mkSlice 2 (mkRange 1 3)) (txt "xbdx") (mkSlice 1 (mkRange 0 2)) = Done false
  /\ s_eq memory (mkSlice 2 (mkRange 1 3)) (txt "xbcx") (mkSlice 1 (mkRange 0 1)) = Done false.
Proof. vm_compute. repeat split. Qed.
Example C70_hash_case :
  let id := fun x : N => x in
  s_hash id id (txt "0123456789") (s_string 0 10) = s_hash id id (txt "x0123456789y") (mkSlice 0 (mkRange 1 11))
  /\ s_hash id id (txt "0123456789") (s_string 0 10) <> s_hash id id (txt "0123456798") (mkSlice 0 (mkRange 1 10)).
Proof. vm_compute. split; [reflexivity|discriminate]. Qed.

(* The bounds in C70_caught and C70_reads are needed: a large enough step goes
   back, and an index wraps around to the byte before the slice *)
Theorem C70_wrap_refuted :
  exists mem s bs n i, shows mem s bs /\ N.of_nat (List.length bs) < n /\ N.of_nat (List.length bs) <= i
    /\ s_move (Eat n) s <> Aborted /\ s_at mem s i <> Aborted.
Proof.
  exists memory, (mkSlice 2 (mkRange 2 4)), (txt "cd"), 4294967295, 4294967295. split; [|vm_compute; repeat split; discriminate].
  exists ([7; 8] ++ txt "ab"), (txt "ef" ++ [0]). vm_compute. repeat split.
Qed.
(* A slice can be made longer than what it showed, even than the memory *)
Theorem C70_grow_refuted :
  exists mem s bs t1 t2, shows mem s bs /\ s_move (Stop 9) s = Done t1 /\ s_move (Fit 9) s = Done t2
    /\ (forall b, ~ shows mem t1 b) /\ (forall b, ~ shows mem t2 b).
Proof.
  exists memory, all, text, (mkSlice 2 (mkRange 0 9)), (mkSlice 2 (mkRange 0 9)). split; [exact all_shows|].
  split; [vm_compute; reflexivity|]. split; [vm_compute; reflexivity|].
  assert (G : forall b, ~ shows memory (mkSlice 2 (mkRange 0 9)) b).
  { intros b (pre & post & M & P & L & W). cbn [s_buf s_range r_lo r_hi] in *. apply (f_equal (@List.length N)) in M.
    rewrite !app_length in M. change (List.length memory) with 9%nat in M. lia. }
  split; exact G.
Qed.
(* The slice of a string of 2^32 bytes or more does not have its size *)
Theorem C70_size_refuted : exists n, s_size (s_string 0 n) <> Done n.
Proof. exists 4294967297. vm_compute. discriminate. Qed.
(* Whatever std::hash is, a doubled byte hashes like nothing *)
Theorem C70_hash_refuted hash_word hash_char : exists mem1 s1 b1 mem2 s2 b2,
  shows mem1 s1 b1 /\ shows mem2 s2 b2 /\ b1 <> b2 /\ s_hash hash_word hash_char mem1 s1 = s_hash hash_word hash_char mem2 s2.
Proof.
  exists (txt "aa"), (s_string 0 2), (txt "aa"), (txt "aa"), (s_string 0 0), [].
  assert (V1 : shows (txt "aa") (s_string 0 2) (txt "aa")) by (exists [], []; vm_compute; repeat split).
  assert (V2 : shows (txt "aa") (s_string 0 0) []) by (exists [], (txt "aa"); vm_compute; repeat split).
  split; [exact V1|]. split; [exact V2|]. split; [discriminate|].
  rewrite (hash_shows _ _ _ _ _ V1), (hash_shows _ _ _ _ _ V2).
  assert (E1 : hash_in hash_word hash_char (txt "aa") = N.lxor (N.lxor 0 (hash_char 97)) (hash_char 97)) by reflexivity.
  rewrite E1, N.lxor_assoc, N.lxor_nilpotent. reflexivity.
Qed.

(* C71_string, C71_prefix, C71_zero *)
Example C71_string_case :
  s_str memory all = Done text /\ s_str memory (mkSlice 2 (mkRange 0 3)) = Done (txt "abc") /\ s_str memory (mkSlice 2 (mkRange 4 6)) = Done (txt "ef").
Proof. vm_compute. repeat split. Qed.
Theorem C71_middle_refuted :
  exists mem s y t, shows mem s y /\ s_str mem s = Done t /\ t <> y.
Proof.
  exists memory, (mkSlice 2 (mkRange 1 3)), (txt "bc"), (txt "bcd"). split; [|split; [vm_compute; reflexivity|discriminate]].
  exists ([7; 8] ++ txt "a"), (txt "def" ++ [0]). vm_compute. repeat split.
Qed.
(* a value that is not followed by a zero byte: read past its end *)
Theorem C71_end_refuted : exists mem s y, shows mem s y /\ s_str mem s = Aborted.
Proof.
  exists text, (s_string 0 6), text. split; [|vm_compute; reflexivity].
  apply (C70_whole text 0 text [] []); vm_compute; reflexivity.
Qed.
Example C71_zero_case :
  let mem := txt "ab" ++ [0] ++ txt "cd" ++ [0] in
  s_str mem (s_string 0 5) = Done (txt "ab") /\ s_str mem (mkSlice 0 (mkRange 3 5)) = Aborted.
Proof. vm_compute. repeat split. Qed.

Print Assumptions C70_wrap_refuted.
Print Assumptions C70_grow_refuted.
Print Assumptions C70_size_refuted.
Print Assumptions C70_hash_refuted.
Print Assumptions C71_middle_refuted.
Print Assumptions C71_end_refuted.
