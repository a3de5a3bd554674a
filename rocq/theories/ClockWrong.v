(* C31: a replica whose system clock was once set before 2010. *)
From Verif Require Import Prelude UuidModel UuidSpec UuidProofs KeyModel MergeModel ClockModel ClockTheorems.

Lemma top_shift r t : t < 2 ^ 24 -> N.lor (N.shiftl r 24 mod two64) t = (r mod 2 ^ 40) * 2 ^ 24 + t.
Proof.
  intro T. rewrite N.shiftl_mul_pow2. unfold two64. change (2 ^ 64) with (2 ^ 40 * 2 ^ 24). rewrite N.mul_mod_distr_r by discriminate.
  pose proof (N.mod_lt r (2 ^ 40) ltac:(discriminate)) as B. set (q := r mod 2 ^ 40) in *. clearbody q.
  apply lor_shl_add. exact T.
Qed.

Lemma boot_time year mon mday h m s ns : 1970 <= year <= 2009 -> mon < 12 -> 1 <= mday <= 31 -> h < 24 -> m < 60 -> s <= 60 -> ns < 1000000000 ->
  let boot := hybrid_time (mkTm (year_field year) mon mday h m s ns) in NEVER_W < boot /\ boot + 2 ^ 40 < two64.
Proof.
  intros Y Mo D H M S0 Ns. cbv zeta. assert (Ey : year_field year = 4294967296 - (2010 - year)).
  { unfold year_field. change (2 ^ 32) with 4294967296. rewrite N.mod_small; lia. }
  rewrite Ey. set (k := 2010 - year). assert (K : 1 <= k <= 40) by (subst k; lia). clearbody k. clear Ey Y.
  unfold hybrid_time. cbn [tm_year2010 tm_mon tm_mday tm_hour tm_min tm_sec tm_nanos].
  assert (Hn : ns / 100 < 10000000) by (apply N.div_lt_upper_bound; lia). set (t := ns / 100) in *. clearbody t. clear Ns.
  replace (((4294967296 - k) * 12) mod two64) with ((4294967296 - k) * 12) by (symmetry; apply N.mod_small; rewrite two64_val; lia).
  replace (((4294967296 - k) * 12 + mon) mod two64) with ((4294967296 - k) * 12 + mon) by (symmetry; apply N.mod_small; rewrite two64_val; lia).
  set (w := 12 * k - mon). assert (W : 1 <= w <= 480) by (subst w; lia).
  replace ((4294967296 - k) * 12 + mon) with (51539607552 - w) by (subst w; lia). clearbody w. clear K Mo.
  rewrite (shl_lor_eq (51539607552 - w) (mday - 1) 6) by (change (2 ^ 64) with 18446744073709551616; change (2 ^ 6) with 64; lia). change (2 ^ 6) with 64.
  set (r1 := (51539607552 - w) * 64 + (mday - 1)). assert (R1 : r1 < 2 ^ 42) by (subst r1; change (2 ^ 42) with 4398046511104; lia).
  rewrite (shl_lor_eq r1 h 6) by (change (2 ^ 64) with 18446744073709551616; change (2 ^ 42) with 4398046511104 in R1; change (2 ^ 6) with 64; lia). change (2 ^ 6) with 64.
  set (r2 := r1 * 64 + h). assert (R2 : r2 < 2 ^ 48) by (subst r2; change (2 ^ 42) with 4398046511104 in R1; change (2 ^ 48) with 281474976710656; lia).
  rewrite (shl_lor_eq r2 m 6) by (change (2 ^ 64) with 18446744073709551616; change (2 ^ 48) with 281474976710656 in R2; change (2 ^ 6) with 64; lia). change (2 ^ 6) with 64.
  set (r3 := r2 * 64 + m). assert (R3 : r3 < 2 ^ 54) by (subst r3; change (2 ^ 48) with 281474976710656 in R2; change (2 ^ 54) with 18014398509481984; lia).
  rewrite (shl_lor_eq r3 s 6) by (change (2 ^ 64) with 18446744073709551616; change (2 ^ 54) with 18014398509481984 in R3; change (2 ^ 6) with 64; lia). change (2 ^ 6) with 64.
  rewrite top_shift by (change (2 ^ 24) with 16777216; lia).
  assert (E : (r3 * 64 + s) mod 2 ^ 40 = ((((65536 - w) * 64 + (mday - 1)) * 64 + h) * 64 + m) * 64 + s).
  { replace (r3 * 64 + s) with (((((65536 - w) * 64 + (mday - 1)) * 64 + h) * 64 + m) * 64 + s + 786431 * 2 ^ 40)
      by (subst r3 r2 r1; change (2 ^ 40) with 1099511627776; lia).
    rewrite N.mod_add by discriminate. apply N.mod_small. change (2 ^ 40) with 1099511627776. lia. }
  rewrite E. rewrite never_val, two64_val. change (2 ^ 60) with 1152921504606846976. change (2 ^ 54) with 18014398509481984. change (2 ^ 24) with 16777216. change (2 ^ 40) with 1099511627776. clear E R1 R2 R3. clearbody r1. lia.
Qed.

Lemma stuck active ops : forall now, NEVER_W <= now + 1 -> now + N.of_nat (length ops) < two64 -> Forall reading_ok ops ->
  forall r o u, In (EIssued r o u) (clock_run active now ops) -> exists v y, u = uuid_time v y /\ NEVER_W <= v.
Proof.
  induction ops as [|[r0 o0|id] ops IH]; intros now G B F r o u I; [destruct I| |]; inversion F as [|? ? R0 F1]; subst; cbn [length] in B; rewrite Nat2N.inj_succ in B; cbn [clock_run] in I.
  - unfold clock_now in I. cbn [reading_ok] in R0. replace (now <? r0) with false in I by (symmetry; apply N.ltb_ge; lia).
    rewrite N.mod_small in I by lia. destruct I as [E|I].
    + injection E as _ _ <-. eexists _, _. split; [reflexivity|]. lia.
    + apply (IH (now + 1)) with (r := r) (o := o); [lia|lia|exact F1|exact I].
  - assert (E : fst (clock_see now id) = now).
    { unfold clock_see. destruct (negb _); [reflexivity|]. destruct (uvalue id <? now) eqn:L; [reflexivity|]. apply N.ltb_ge in L.
      destruct (NEVER_W <=? uvalue id) eqn:V; [reflexivity|]. apply N.leb_gt in V. cbn [fst]. lia. }
    destruct (clock_see now id) as [n1 s1]. cbn [fst] in E. subst n1. destruct I as [E|I]; [discriminate E|].
    apply (IH now) with (r := r) (o := o); [exact G|lia|exact F1|exact I].
Qed.

Lemma never_accepted v y : NEVER_W <= v -> forall other, other <= NEVER_W -> clock_see other (uuid_time v y) = (other, StBadArgs).
Proof.
  intros GV other LO. unfold clock_see. rewrite time_version.
  change (negb (TIME =? TIME)) with false. cbv iota. cbn [uuid_time uvalue].
  replace (v <? other) with false by (symmetry; apply N.ltb_ge; lia). replace (NEVER_W <=? v) with true by (symmetry; apply N.leb_le; lia). reflexivity.
Qed.

(* After one reading of a system clock set anywhere from 1970 to 2009 all
   timestamps a replica issues, that one and any number of later ones, are refused
   by every replica with a right clock, even if its own clock is right by then. *)
Theorem C31_wrong active now origin ops year mon mday h m s ns :
  1970 <= year <= 2009 -> mon < 12 -> 1 <= mday <= 31 -> h < 24 -> m < 60 -> s <= 60 -> ns < 1000000000 ->
  now <= NEVER_W -> Forall reading_ok ops -> N.of_nat (length ops) < 2 ^ 40 ->
  forall r o u, In (EIssued r o u) (clock_run active now (CNow (hybrid_time (mkTm (year_field year) mon mday h m s ns)) origin :: ops)) ->
  NEVER_W <= uvalue u /\ forall other, other <= NEVER_W -> clock_see other u = (other, StBadArgs).
Proof.
  intros Y Mo D H M S0 Ns L F B r o u I. destruct (boot_time year mon mday h m s ns Y Mo D H M S0 Ns) as [G T].
  set (boot := hybrid_time _) in *. clearbody boot. cbn [clock_run] in I. unfold clock_now in I.
  replace (now <? boot) with true in I by (symmetry; apply N.ltb_lt; lia).
  assert (U : exists v y, u = uuid_time v y /\ NEVER_W <= v).
  { destruct I as [E|I]; [injection E as _ _ <-; eexists _, _; split; [reflexivity|lia]|].
    apply (stuck active ops boot) with (r := r) (o := o); [lia|lia|exact F|exact I]. }
  destruct U as (v & y & -> & GV). split; [exact GV|]. apply never_accepted. exact GV.
Qed.
(* So it is once a replica has accepted the last timestamp below NEVER, whoever
   made it up. *)
Theorem C31_poisoned active now id ops : version id = TIME -> uvalue id = NEVER_W - 1 -> now < NEVER_W ->
  Forall reading_ok ops -> N.of_nat (length ops) < 2 ^ 40 ->
  snd (clock_see now id) = StOK /\
  forall r o u, In (EIssued r o u) (clock_run active now (CSee id :: ops)) ->
  NEVER_W <= uvalue u /\ forall other, other <= NEVER_W -> clock_see other u = (other, StBadArgs).
Proof.
  intros V U L F B. assert (E : clock_see now id = (NEVER_W - 1, StOK)).
  { unfold clock_see. rewrite V. change (negb (TIME =? TIME)) with false. cbv iota. rewrite U.
    replace (NEVER_W - 1 <? now) with false by (symmetry; apply N.ltb_ge; lia). reflexivity. }
  rewrite E. split; [reflexivity|]. intros r o u I. cbn [clock_run] in I. rewrite E in I. destruct I as [Q|I]; [discriminate Q|].
  destruct (stuck active ops (NEVER_W - 1)) with (r := r) (o := o) (u := u) as (v & y & -> & GV).
  - change (NEVER_W - 1 + 1) with NEVER_W. lia.
  - change (NEVER_W - 1) with 1134907106097364991. rewrite two64_val. change (2 ^ 40) with 1099511627776 in B. lia.
  - exact F.
  - exact I.
  - split; [exact GV|]. apply never_accepted. exact GV.
Qed.
Print Assumptions C31_wrong.
Print Assumptions C31_poisoned.

(* a clock at the end of 2009, then right ones, with an id received between *)
Example C31_wrong_case :
  let boot := hybrid_time (mkTm (year_field 2009) 11 31 23 59 60 999999999) in
  let right := hybrid_time (mkTm (year_field 2019) 4 7 10 0 0 0) in
  let ops := [CNow right 0; CSee (uuid_time right 9); CNow right 7] in
  Forall reading_ok ops /\
  clock_run 3 0 (CNow boot 0 :: ops) =
    [EIssued boot 0 (uuid_time boot 3); EIssued right 0 (uuid_time (boot + 1) 3); ESeen (uuid_time right 9) StOK; EIssued right 7 (uuid_time (boot + 2) 7)].
Proof. cbv zeta. split; [repeat constructor; vm_compute; reflexivity|vm_compute; reflexivity]. Qed.

Example C31_poisoned_case :
  let id := uuid_time (NEVER_W - 1) 9 in let ops := [CNow 5 0; CSee (uuid_time 6 8); CNow 7 0] in
  version id = TIME /\ uvalue id = NEVER_W - 1 /\ Forall reading_ok ops /\
  clock_run 3 0 (CSee id :: ops) = [ESeen id StOK; EIssued 5 0 (uuid_time NEVER_W 3); ESeen (uuid_time 6 8) StOK; EIssued 7 0 (uuid_time (NEVER_W + 1) 3)].
Proof. cbv zeta. split; [vm_compute; reflexivity|]. split; [vm_compute; reflexivity|]. split; [repeat constructor; vm_compute; reflexivity|vm_compute; reflexivity]. Qed.
