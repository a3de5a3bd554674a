(* C70: a slice is a view of bytes. C71: the text of a slice. *)
From Verif Require Import Prelude MergeModel SliceModel SliceSpec SliceProofs.

(* Reading: the size, every byte by its index, the first byte, and nothing past
   the end *)
Theorem C70_reads mem s bs : shows mem s bs ->
  s_size s = Done (N.of_nat (length bs))
  /\ (s_empty s = true <-> bs = [])
  /\ (forall i b, nth_error bs (N.to_nat i) = Some b -> s_at mem s i = Done b)
  /\ (forall b r, bs = b :: r -> s_first mem s = Done b)
  /\ (forall i, N.of_nat (length bs) <= i -> r_lo (s_range s) + i < 2 ^ 32 -> s_at mem s i = Aborted).
Proof.
  intro V. split; [exact (shows_size _ _ _ V)|]. split; [|split; [|split]].
  - destruct V as (pre & post & M & P & L & W). unfold s_empty, r_empty. rewrite N.eqb_eq. split; intro E.
    + destruct bs; [reflexivity|cbn [length] in L; lia].
    + subst bs. cbn [length] in L. lia.
  - intros i b E. destruct (nth_error_split _ _ E) as (x & y & Q & L). subst bs.
    rewrite <- (shows_at _ _ _ _ _ V). f_equal. lia.
  - intros b r ->. destruct V as (pre & post & M & P & L & W). unfold s_first, s_begin. rewrite M. cbn [app]. rewrite <- P. apply load_in.
  - intros i A B. exact (shows_out _ _ _ _ V A B).
Qed.

(* A slice of a whole string shows it, if it has less than 2^32 bytes *)
Theorem C70_whole mem buf bs pre post : mem = pre ++ bs ++ post -> N.of_nat (length pre) = buf -> N.of_nat (length bs) < 2 ^ 32 ->
  shows mem (s_string buf (N.of_nat (length bs))) bs.
Proof.
  intros M P L. exists pre, post. unfold s_string, s_sized. cbn [s_buf s_range r_lo r_hi]. change W32 with (2 ^ 32).
  rewrite N.mod_small by exact L. repeat split; [exact M|lia|exact L].
Qed.

(* Moving along: after any moves, the bytes passed are what consumed() shows,
   the bytes left are what the slice shows, and reset() shows both *)
Theorem C70_moves mem s a b ms a1 b1 : shows mem (s_consumed s) a -> shows mem s b -> moves_to ms a b a1 b1 ->
  exists s1, s_moves ms s = Done s1
    /\ shows mem (s_consumed s1) a1 /\ shows mem s1 b1 /\ shows mem (s_reset s1) (a1 ++ b1).
Proof.
  intros A B V. destruct (moves_ok _ _ _ _ _ _ _ (shows_cut _ _ _ _ A B) V) as (s1 & E & _ & C).
  exists s1. split; [exact E|]. destruct (cut_shows _ _ _ _ C) as (X & Y & Z). auto.
Qed.
(* and a move past the end, an end before the beginning, a part past the end, and
   cutting off a slice of another buffer are caught *)
Theorem C70_caught mem s bs : shows mem s bs ->
  (forall n, N.of_nat (length bs) < n -> r_lo (s_range s) + n < 2 ^ 32 -> s_move (Eat n) s = Aborted)
  /\ (bs = [] -> r_lo (s_range s) + 1 < 2 ^ 32 -> s_move Step s = Aborted)
  /\ (forall o, o < r_lo (s_range s) -> s_move (Stop o) s = Aborted)
  /\ (forall r, N.of_nat (length bs) < r_hi r -> s_slice s r = Aborted)
  /\ (forall t, s_buf t <> s_buf s -> s_cut_off s t = Aborted).
Proof.
  intro V. pose proof (shows_size _ _ _ V) as Z. destruct V as (pre & post & M & P & L & W). split; [|split; [|split; [|split]]].
  - intros n A B. cbn [s_move]. unfold s_consume, s_with, r_consume, r_checked, r_valid. cbn [r_lo r_hi]. change W32 with (2 ^ 32).
    rewrite N.mod_small by exact B. rewrite (proj2 (N.leb_gt _ _)) by lia. reflexivity.
  - intros -> B. cbn [length] in L. cbn [s_move]. unfold s_next, s_consume, s_with, r_consume, r_checked, r_valid. cbn [r_lo r_hi]. change W32 with (2 ^ 32).
    rewrite N.mod_small by exact B. rewrite (proj2 (N.leb_gt _ _)) by lia. reflexivity.
  - intros o A. cbn [s_move]. unfold s_end_at, s_with, r_end_at, r_checked, r_valid. cbn [r_lo r_hi].
    rewrite (proj2 (N.leb_gt _ _)) by exact A. reflexivity.
  - intros r A. unfold s_slice. rewrite Z. cbn [rbind]. rewrite (proj2 (N.leb_gt _ _)) by exact A. reflexivity.
  - intros t A. unfold s_cut_off. rewrite (proj2 (N.eqb_neq _ _)) by congruence. reflexivity.
Qed.

(* Taking a part: the part of a range that begins inside of the slice; its range
   is found again *)
Theorem C70_part mem s x y z r : shows mem s (x ++ y ++ z) -> r_lo r = N.of_nat (length x) -> r_hi r = N.of_nat (length x + length y) ->
  y ++ z <> [] ->
  exists p, s_slice s r = Done p /\ shows mem p y /\ s_range_of s p = Done r.
Proof.
  intros V A B Nz. pose proof (shows_size _ _ _ V) as Sz. destruct V as (pre & post & M & P & L & W).
  rewrite !app_length in L, Sz. assert (Lyz : (0 < length y + length z)%nat) by (destruct y; [destruct z; [exfalso; apply Nz; reflexivity|]|]; cbn [length]; lia).
  unfold s_slice. rewrite Sz. cbn [rbind]. rewrite (proj2 (N.leb_le _ _)) by lia.
  rewrite r_offset_in by lia. cbn [rbind]. unfold r_size, r_valid. rewrite (proj2 (N.leb_le (r_lo r) (r_hi r))) by lia. cbn [rbind].
  eexists; split; [reflexivity|]. unfold r_at_for. change W32 with (2 ^ 32). rewrite N.mod_small by lia. split.
  - exists (pre ++ x), (z ++ post). cbn [s_buf s_range r_lo r_hi]. rewrite app_length.
    repeat split; [rewrite M, <- !app_assoc; reflexivity|lia|lia|lia].
  - unfold s_range_of, s_begin, s_end, s_size, r_size, r_valid. cbn [s_buf s_range r_lo r_hi].
    rewrite (proj2 (N.leb_le (s_buf s + r_lo (s_range s)) _)) by lia. rewrite (proj2 (N.leb_le (s_buf s + (r_lo (s_range s) + r_lo r + (r_hi r - r_lo r))) _)) by lia. cbn [andb].
    rewrite (proj2 (N.leb_le (r_lo (s_range s) + r_lo r) _)) by lia. cbn [rbind]. unfold r_at_for. change W32 with (2 ^ 32).
    assert (E1 : s_buf s + (r_lo (s_range s) + r_lo r) - (s_buf s + r_lo (s_range s)) = r_lo r) by lia. rewrite E1.
    assert (E2 : r_lo (s_range s) + r_lo r + (r_hi r - r_lo r) - (r_lo (s_range s) + r_lo r) = r_hi r - r_lo r) by lia. rewrite E2.
    rewrite N.mod_small by lia. assert (E3 : r_lo r + (r_hi r - r_lo r) = r_hi r) by lia. rewrite E3. rewrite N.mod_small by lia.
    destruct r as [lo hi]. reflexivity.
Qed.
(* but the empty part at the end is refused, with a failed assert *)
Theorem C70_empty_part mem s bs : shows mem s bs ->
  s_slice s (mkRange (N.of_nat (length bs)) (N.of_nat (length bs))) = Aborted.
Proof.
  intro V. unfold s_slice. rewrite (shows_size _ _ _ V). cbn [rbind r_lo r_hi]. rewrite N.leb_refl.
  destruct V as (pre & post & M & P & L & W). rewrite r_offset_out by lia. reflexivity.
Qed.
(* the other way round: where a part lies is found, and gives the part again *)
Theorem C70_found mem s p x y z : shows mem s (x ++ y ++ z) -> shows mem p y -> s_begin p = s_begin s + N.of_nat (length x) -> y ++ z <> [] ->
  exists r, s_range_of s p = Done r /\ r_lo r = N.of_nat (length x) /\ r_hi r = N.of_nat (length x + length y)
    /\ exists q, s_slice s r = Done q /\ s_same q p = true.
Proof.
  intros V U B Nz.
  destruct (C70_part mem s x y z (mkRange (N.of_nat (length x)) (N.of_nat (length x + length y))) V eq_refl eq_refl Nz) as (q & E & Q & R).
  exists (mkRange (N.of_nat (length x)) (N.of_nat (length x + length y))). 
  assert (QB : s_begin q = s_begin s + N.of_nat (length x)).
  { unfold s_slice in E. rewrite (shows_size _ _ _ V) in E. cbn [rbind r_lo r_hi] in E. rewrite !app_length in E.
    destruct (_ <=? _); [|discriminate]. unfold r_offset in E. cbv zeta in E. destruct (_ <? _) eqn:Lt; [|discriminate]. cbn [rbind] in E.
    unfold r_size, r_valid in E. cbn [r_lo r_hi] in E. destruct (_ <=? _); [|discriminate]. cbn [rbind] in E.
    injection E as <-. unfold s_begin. cbn [s_buf s_range r_at_for r_lo]. destruct V as (pre & post & M & P & L & W).
    change W32 with (2 ^ 32). rewrite !app_length in L. rewrite N.mod_small by lia. lia. }
  destruct U as (p1 & q1 & M1 & P1 & L1 & W1). destruct Q as (p2 & q2 & M2 & P2 & L2 & W2).
  assert (QE : s_end q = s_end p) by (unfold s_begin, s_end in *; lia).
  split; [|split; [reflexivity|split; [reflexivity|]]].
  - rewrite <- R. unfold s_range_of. rewrite QB, B, QE. unfold s_size, r_size, r_valid. rewrite !(proj2 (N.leb_le (r_lo _) _)) by lia.
    assert (D : r_hi (s_range p) - r_lo (s_range p) = r_hi (s_range q) - r_lo (s_range q)) by lia. rewrite D. reflexivity.
  - exists q. split; [exact E|]. unfold s_same. rewrite QB, B, QE, !N.eqb_refl. reflexivity.
Qed.
(* Cutting off what a later slice of the same buffer shows leaves what is between *)
Theorem C70_cut_off mem s t x y : shows mem s (x ++ y) -> shows mem t y -> s_buf t = s_buf s -> r_hi (s_range t) = r_hi (s_range s) ->
  exists p, s_cut_off s t = Done p /\ shows mem p x.
Proof.
  intros (pre & post & M & P & L & W) (p1 & q1 & M1 & P1 & L1 & W1) B H. unfold s_cut_off. rewrite B, N.eqb_refl.
  eexists; split; [reflexivity|]. rewrite app_length in L. exists pre, (y ++ post). cbn [s_buf s_range r_lo r_hi].
  repeat split; [rewrite M, <- !app_assoc; reflexivity|lia|lia|lia].
Qed.

(* Comparison: slices of any memories are equal iff they show the same bytes, and
   then they have the same hash *)
Theorem C70_equal mem1 s1 b1 mem2 s2 b2 : shows mem1 s1 b1 -> shows mem2 s2 b2 ->
  exists e, s_eq mem1 s1 mem2 s2 = Done e /\ (e = true <-> b1 = b2).
Proof.
  intros V1 V2. unfold s_eq. rewrite (shows_size _ _ _ V1), (shows_size _ _ _ V2). cbn [rbind].
  destruct (N.of_nat (length b1) =? N.of_nat (length b2)) eqn:E; cbn [negb].
  - apply N.eqb_eq in E. apply Nnat.Nat2N.inj in E. rewrite Nnat.Nat2N.id, (shows_loads _ _ _ V1). cbn [rbind].
    rewrite E, (shows_loads _ _ _ V2). cbn [rbind]. exists (all_eqb b1 b2). split; [reflexivity|apply all_eqb_eq].
  - exists false. split; [reflexivity|]. split; [discriminate|]. intros ->. rewrite N.eqb_refl in E. discriminate.
Qed.
Theorem C70_hash hash_word hash_char mem1 s1 mem2 s2 bs : shows mem1 s1 bs -> shows mem2 s2 bs ->
  exists h, s_hash hash_word hash_char mem1 s1 = Done h /\ s_hash hash_word hash_char mem2 s2 = Done h.
Proof.
  intros V1 V2. exists (hash_in hash_word hash_char bs). split; apply hash_shows; assumption.
Qed.

(* The text of a slice of a std::string that has no zero byte: right iff the
   slice is at the beginning or at the end of the string *)
Theorem C71_string mem pre x y z post s :
  mem = pre ++ (x ++ y ++ z) ++ 0 :: post -> Forall (fun b => b <> 0) (x ++ y ++ z) ->
  N.of_nat (length pre) = s_buf s -> N.of_nat (length x) = r_lo (s_range s) -> N.of_nat (length x + length y) = r_hi (s_range s) ->
  exists t, s_str mem s = Done t /\ (t = y <-> x = [] \/ z = []).
Proof.
  intros M F B A E. unfold s_str. rewrite M, skipn_app. rewrite (skipn_all2 pre) by lia. cbn [app].
  replace (N.to_nat (s_buf s) - length pre)%nat with 0%nat by lia. cbn [skipn].
  rewrite (c_string_app _ _ F). cbn [rbind]. rewrite !app_length. rewrite (proj2 (N.leb_le _ _)) by lia.
  eexists; split; [reflexivity|].
  assert (Q : skipn (N.to_nat (r_lo (s_range s))) (x ++ y ++ z) = y ++ z).
  { rewrite skipn_app, skipn_all2 by lia. replace (N.to_nat (r_lo (s_range s)) - length x)%nat with 0%nat by lia. reflexivity. }
  rewrite Q. rewrite firstn_app, firstn_all2 by lia.
  replace (N.to_nat (r_hi (s_range s)) - length y)%nat with (length x) by lia. split; intro H.
  - rewrite <- (app_nil_r y) in H at 2. apply app_inv_head in H. destruct x; [left; reflexivity|]. destruct z; [right; reflexivity|discriminate].
  - destruct H as [-> | ->]; [|rewrite firstn_nil]; cbn [length firstn]; apply app_nil_r.
Qed.
(* in any memory: the text of a slice from the start of its buffer is what it
   shows, if what it shows has no zero byte and a zero byte comes later *)
Theorem C71_prefix mem s y : shows mem s y -> r_lo (s_range s) = 0 -> Forall (fun b => b <> 0) y ->
  s_str mem s = Done y \/ s_str mem s = Aborted /\ Forall (fun b => b <> 0) (skipn (N.to_nat (s_buf s)) mem).
Proof.
  intros (pre & post & M & P & L & W) Z F. unfold s_str. rewrite M, skipn_app. rewrite (skipn_all2 pre) by lia. cbn [app].
  replace (N.to_nat (s_buf s) - length pre)%nat with 0%nat by lia. cbn [skipn].
  assert (D : Forall (fun b => b <> 0) post \/ exists q r, post = q ++ 0 :: r /\ Forall (fun b => b <> 0) q).
  { clear. induction post as [|b post I]; [left; constructor|]. destruct (N.eq_dec b 0) as [-> | Nz].
    - right. exists [], post. split; [reflexivity|constructor].
    - destruct I as [I | (q & r & -> & I)]; [left; constructor; assumption|right]. exists (b :: q), r. split; [reflexivity|constructor; assumption]. }
  destruct D as [D | (q & r & -> & D)].
  - right. assert (G : Forall (fun b => b <> 0) (y ++ post)) by (apply Forall_app; auto). split; [|exact G].
    rewrite (c_string_none _ G). reflexivity.
  - left. rewrite app_assoc. rewrite (c_string_app (y ++ q)) by (apply Forall_app; auto). cbn [rbind]. rewrite Z.
    rewrite (proj2 (N.leb_le _ _)) by lia. cbn [N.to_nat skipn]. rewrite firstn_app, firstn_all2 by lia.
    replace (N.to_nat (r_hi (s_range s)) - length y)%nat with 0%nat by lia. cbn [firstn]. rewrite app_nil_r. reflexivity.
Qed.
(* a zero byte cuts the text, or makes the call throw *)
Theorem C71_zero mem pre z post s : mem = pre ++ z ++ 0 :: post -> Forall (fun b => b <> 0) z -> N.of_nat (length pre) = s_buf s ->
  (r_lo (s_range s) <= N.of_nat (length z) -> N.of_nat (length z) < r_hi (s_range s) ->
     exists t, s_str mem s = Done t /\ t = skipn (N.to_nat (r_lo (s_range s))) z)
  /\ (N.of_nat (length z) < r_lo (s_range s) -> s_str mem s = Aborted).
Proof.
  intros M F B. unfold s_str. rewrite M, skipn_app. rewrite (skipn_all2 pre) by lia. cbn [app].
  replace (N.to_nat (s_buf s) - length pre)%nat with 0%nat by lia. cbn [skipn]. rewrite (c_string_app _ _ F). cbn [rbind]. split.
  - intros A C. rewrite (proj2 (N.leb_le _ _)) by exact A. eexists; split; [reflexivity|]. apply firstn_all2. rewrite skipn_length. lia.
  - intro A. rewrite (proj2 (N.leb_gt _ _)) by exact A. reflexivity.
Qed.

Print Assumptions C70_reads.
Print Assumptions C70_whole.
Print Assumptions C70_moves.
Print Assumptions C70_caught.
Print Assumptions C70_part.
Print Assumptions C70_empty_part.
Print Assumptions C70_found.
Print Assumptions C70_cut_off.
Print Assumptions C70_equal.
Print Assumptions C70_hash.
Print Assumptions C71_string.
Print Assumptions C71_prefix.
Print Assumptions C71_zero.
