(* C70, continued: how slices and ranges are made. *)
From Verif Require Import Prelude MergeModel SliceModel SliceSpec SliceProofs SliceTheorems.

(* A slice of a pointer and a size, of two pointers, and of a part of a string
   shows exactly the bytes it was made of *)
Theorem C70_made mem pre bs post : mem = pre ++ bs ++ post -> N.of_nat (length bs) <= FSIZE_MAX ->
  (exists s, s_chars (N.of_nat (length pre)) (N.of_nat (length bs)) = Done s /\ shows mem s bs)
  /\ (exists s, s_ptrs (N.of_nat (length pre)) (N.of_nat (length (pre ++ bs))) = Done s /\ shows mem s bs)
  /\ (forall x y z, bs = x ++ y ++ z ->
      exists r s, r_of_ptrs (N.of_nat (length pre)) (N.of_nat (length (pre ++ x))) (N.of_nat (length (pre ++ x ++ y))) = Done r
        /\ s_part (N.of_nat (length pre)) (N.of_nat (length bs)) r = Done s /\ shows mem s y).
Proof.
  intros M L. unfold FSIZE_MAX in L. split; [|split].
  - exists (s_sized (N.of_nat (length pre)) (N.of_nat (length bs))). split.
    + unfold s_chars, FSIZE_MAX. rewrite (proj2 (N.leb_le _ _) L). f_equal. unfold s_sized. f_equal. f_equal. apply N.mod_small. unfold W32. lia.
    + exists pre, post. unfold s_sized. cbn [s_buf s_range r_lo r_hi]. repeat split; [exact M|lia|lia].
  - exists (s_sized (N.of_nat (length pre)) (N.of_nat (length bs))). split.
    + unfold s_ptrs, FSIZE_MAX. rewrite app_length.
      assert (E : N.of_nat (length pre + length bs) - N.of_nat (length pre) = N.of_nat (length bs)) by lia. rewrite E.
      rewrite (proj2 (N.leb_le _ _) L), (proj2 (N.leb_le (N.of_nat (length pre)) _)) by lia. reflexivity.
    + exists pre, post. unfold s_sized. cbn [s_buf s_range r_lo r_hi]. repeat split; [exact M|lia|lia].
  - intros x y z B. subst bs. rewrite !app_length in L.
    assert (D : forall k, (N.of_nat k <= 1073741824) -> ptr_diff (N.of_nat (length pre + k)) (N.of_nat (length pre)) = N.of_nat k).
    { intros k K. unfold ptr_diff. set (p := N.of_nat (length pre)). replace (N.of_nat (length pre + k)) with (p + N.of_nat k) by (unfold p; lia).
      unfold W32. clearbody p. clear M L. zify. Z.to_euclidean_division_equations. lia. }
    exists (mkRange (N.of_nat (length x)) (N.of_nat (length x + length y))), (mkSlice (N.of_nat (length pre)) (mkRange (N.of_nat (length x)) (N.of_nat (length x + length y)))).
    split; [|split].
    + unfold r_of_ptrs. rewrite !app_length, !D by lia. unfold r_checked, r_valid. cbn [r_lo r_hi]. rewrite (proj2 (N.leb_le _ _)) by lia. reflexivity.
    + unfold s_part. cbn [r_hi]. rewrite (proj2 (N.leb_le _ _)) by (rewrite !app_length; lia). reflexivity.
    + exists (pre ++ x), (z ++ post). cbn [s_buf s_range r_lo r_hi]. rewrite app_length. repeat split; [rewrite M, <- !app_assoc; reflexivity|lia|lia|lia].
Qed.
(* and a size above the limit, pointers the wrong way round or too far apart, and
   a part past the end of the string are caught *)
Theorem C70_made_caught :
  (forall buf n, FSIZE_MAX < n -> s_chars buf n = Aborted)
  /\ (forall from till, till < from \/ FSIZE_MAX < till - from -> s_ptrs from till = Aborted)
  /\ (forall buf size r, size < r_hi r -> s_part buf size r = Aborted)
  /\ (forall base b e, base <= e -> e < b -> b - base < 2 ^ 32 -> r_of_ptrs base b e = Aborted).
Proof.
  split; [|split; [|split]].
  - intros buf n L. unfold s_chars. rewrite (proj2 (N.leb_gt _ _) L). reflexivity.
  - intros from till [L|L]; unfold s_ptrs.
    + rewrite (proj2 (N.leb_gt from till) L). reflexivity.
    + rewrite (proj2 (N.leb_gt (till - from) _) L), andb_false_r. reflexivity.
  - intros buf size r L. unfold s_part. rewrite (proj2 (N.leb_gt _ _) L). reflexivity.
  - intros base b e A B C. change (2 ^ 32) with 4294967296 in C.
    assert (D : forall p, base <= p -> p - base < 4294967296 -> ptr_diff p base = p - base).
    { clear. intros p A C. unfold ptr_diff, W32. zify. Z.to_euclidean_division_equations. lia. }
    unfold r_of_ptrs, r_checked, r_valid. cbn [r_lo r_hi]. rewrite !D by lia. rewrite (proj2 (N.leb_gt _ _)) by lia. reflexivity.
Qed.

(* Shortening a range drops the bytes at the end; to shorten it by more than its
   size is caught as long as the end does not fall below zero *)
Theorem C70_shorten mem s x y : shows mem s (x ++ y) ->
  (exists r, r_shorten (N.of_nat (length y)) (s_range s) = Done r /\ shows mem (mkSlice (s_buf s) r) x)
  /\ (forall n, N.of_nat (length (x ++ y)) < n -> n <= r_hi (s_range s) -> r_shorten n (s_range s) = Aborted).
Proof.
  intros (pre & post & M & P & L & W). rewrite app_length in L. change (2 ^ 32) with 4294967296 in W.
  assert (D : forall hi n, hi < 4294967296 -> n <= hi -> (hi + (W32 - n mod W32)) mod W32 = hi - n).
  { clear. intros hi n A B. unfold W32. zify. Z.to_euclidean_division_equations. lia. }
  split.
  - exists (mkRange (r_lo (s_range s)) (r_hi (s_range s) - N.of_nat (length y))). split.
    + unfold r_shorten. rewrite D by lia. unfold r_checked, r_valid. cbn [r_lo r_hi]. rewrite (proj2 (N.leb_le _ _)) by lia. reflexivity.
    + exists pre, (y ++ post). cbn [s_buf s_range r_lo r_hi]. change (2 ^ 32) with 4294967296. repeat split; [rewrite M, <- !app_assoc; reflexivity|lia|lia|lia].
  - intros n A B. rewrite app_length in A. unfold r_shorten. rewrite D by lia. unfold r_checked, r_valid. cbn [r_lo r_hi]. rewrite (proj2 (N.leb_gt _ _)) by lia. reflexivity.
Qed.

(* Ranges are compared by both ends, as one word of 64 bits *)
Definition r_word (r : range) : N := r_lo r + 2 ^ 32 * r_hi r.
Theorem C70_ranges a b : r_lo a < 2 ^ 32 -> r_lo b < 2 ^ 32 ->
  (r_eqb a b = true <-> a = b) /\ (r_eqb a b = true <-> r_word a = r_word b).
Proof.
  intros A B. assert (E : r_eqb a b = true <-> a = b).
  { unfold r_eqb. destruct a as [a1 a2], b as [b1 b2]. cbn [r_lo r_hi]. rewrite andb_true_iff, !N.eqb_eq. split; [intros [-> ->]; reflexivity|]. intro Q. injection Q as -> ->. auto. }
  split; [exact E|]. rewrite E. unfold r_word. change (2 ^ 32) with 4294967296 in *. split; [intros ->; reflexivity|]. intro Q.
  destruct a as [a1 a2], b as [b1 b2]. cbn [r_lo r_hi] in *. f_equal; lia.
Qed.
(* A range taken out of a word of a UUID has its flags masked: the range of an
   atom is what was put into it below the flags *)
Theorem C70_safe r fl fh : r_lo r < FSIZE_MAX -> r_hi r < FSIZE_MAX ->
  r_safe (mkRange (r_lo r + FSIZE_MAX * fl) (r_hi r + FSIZE_MAX * fh)) = r.
Proof.
  intros A B. unfold r_safe. cbn [r_lo r_hi]. assert (M : FSIZE_BITS = N.ones 30) by (vm_compute; reflexivity). rewrite M, !N.land_ones.
  change (2 ^ 30) with 1073741824. unfold FSIZE_MAX in *. rewrite !(N.mul_comm 1073741824), !N.mod_add, !N.mod_small by lia. destruct r; reflexivity.
Qed.
Print Assumptions C70_made.
Print Assumptions C70_made_caught.
Print Assumptions C70_shorten.
Print Assumptions C70_ranges.
Print Assumptions C70_safe.

(* Cases *)
Definition store0 : bytes := [1; 2; 97; 98; 99; 100; 0].
Example C70_made_case : s_chars 2 4 = Done (mkSlice 2 (mkRange 0 4)) /\ s_ptrs 2 6 = Done (mkSlice 2 (mkRange 0 4))
  /\ r_of_ptrs 2 3 5 = Done (mkRange 1 3) /\ s_part 2 4 (mkRange 1 3) = Done (mkSlice 2 (mkRange 1 3))
  /\ s_at store0 (mkSlice 2 (mkRange 1 3)) 0 = Done 98.
Proof. vm_compute. repeat split. Qed.
Example C70_made_caught_case : s_chars 2 1073741825 = Aborted /\ s_ptrs 6 2 = Aborted /\ s_part 2 4 (mkRange 1 5) = Aborted /\ r_of_ptrs 2 5 3 = Aborted.
Proof. vm_compute. repeat split. Qed.
Example C70_shorten_case : r_shorten 2 (mkRange 1 4) = Done (mkRange 1 2) /\ r_shorten 4 (mkRange 1 4) = Aborted.
Proof. vm_compute. repeat split. Qed.
(* the end wraps around below zero: the assert does not see it, the range reaches
   4 GB *)
Theorem C70_shorten_refuted : exists r n, r_valid r = true /\ r_hi r - r_lo r < n /\ r_shorten n r = Done (mkRange 1 4294967295).
Proof. exists (mkRange 1 4), 5. vm_compute. repeat split. Qed.
(* nor is a range that ends before it begins seen when a part of a string is taken *)
Theorem C70_made_refuted : exists buf size r s, s_part buf size r = Done s /\ s_size s = Aborted.
Proof. exists 2, 4, (mkRange 3 1), (mkSlice 2 (mkRange 3 1)). vm_compute. repeat split. Qed.
Example C70_ranges_case : r_eqb (mkRange 1 2) (mkRange 1 2) = true /\ r_eqb (mkRange 1 2) (mkRange 1 3) = false /\ r_word (mkRange 1 2) = 8589934593.
Proof. vm_compute. repeat split. Qed.
Example C70_safe_case : r_safe (mkRange (5 + 1073741824 * 1) (9 + 1073741824 * 2)) = mkRange 5 9.
Proof. vm_compute. reflexivity. Qed.
