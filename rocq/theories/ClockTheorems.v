(* Properties C31 (the replica's clock) and C34 (version vectors). *)
From Verif Require Import Prelude UuidModel UuidSpec UuidProofs KeyModel MergeModel ClockModel.

(* the timestamps a replica knows of after an event: the ones it issued and the
   ones it was shown and accepted *)
Definition known (e : cev) : list N :=
  match e with
  | EIssued _ _ u => [uvalue u]
  | ESeen id StOK => [uvalue id]
  | ESeen _ _ => []
  end.
Definition reading_ok (c : cop) : Prop := match c with CNow r _ => r < NEVER_W | CSee _ => True end.

Lemma never_val : NEVER_W = 2 ^ 60 - 2 ^ 54. Proof. reflexivity. Qed.
Lemma two64_val : two64 = 18446744073709551616. Proof. reflexivity. Qed.

Lemma time_origin v o : uorigin (uuid_time v o) = TIME * 2 ^ 60 + o mod 2 ^ 60.
Proof.
  unfold uuid_time. cbn [uorigin]. rewrite land_ones_mod, N.lor_comm, shiftl_mul.
  apply lor_shl_add. apply N.mod_lt. discriminate.
Qed.
Lemma time_version v o : version (uuid_time v o) = TIME.
Proof.
  unfold version, word_flags. rewrite time_origin, shiftr_div, N.add_comm, N.div_add by discriminate.
  rewrite N.div_small by (apply N.mod_lt; discriminate). reflexivity.
Qed.
Lemma time_payload v o : uorigin (uuid_time v o) mod 2 ^ 60 = o mod 2 ^ 60.
Proof.
  rewrite time_origin, N.add_comm, N.mod_add by discriminate. apply N.mod_mod. discriminate.
Qed.

(* one use of the clock *)
Lemma now_step active now r o : now + 1 < 2 ^ 60 -> r < NEVER_W ->
  fst (clock_now active now r o) = N.max (now + 1) r /\
  uvalue (snd (clock_now active now r o)) = N.max (now + 1) r.
Proof.
  intros L R. unfold clock_now. cbn [fst snd uuid_time uvalue].
  assert (E : (if now <? r then r else (now + 1) mod two64) = N.max (now + 1) r).
  { rewrite two64_val. change (2 ^ 60) with 1152921504606846976 in L.
    destruct (now <? r) eqn:Q; [apply N.ltb_lt in Q; lia|apply N.ltb_ge in Q].
    rewrite N.mod_small by lia. lia. }
  rewrite E. split; reflexivity.
Qed.
Lemma see_step now id :
  fst (clock_see now id) = now \/
  (fst (clock_see now id) = uvalue id /\ now <= uvalue id /\ uvalue id < NEVER_W).
Proof.
  unfold clock_see. destruct (negb (version id =? TIME)); [left; reflexivity|].
  destruct (uvalue id <? now) eqn:A; [left; reflexivity|]. apply N.ltb_ge in A.
  destruct (NEVER_W <=? uvalue id) eqn:B; [left; reflexivity|]. apply N.leb_gt in B.
  right. repeat split; assumption.
Qed.
Lemma see_known now id : forall v, In v (known (ESeen id (snd (clock_see now id)))) ->
  v <= fst (clock_see now id).
Proof.
  intros v. unfold clock_see. destruct (negb (version id =? TIME)); [intros []|].
  destruct (uvalue id <? now) eqn:A; [cbn; apply N.ltb_lt in A; intros [<-|[]]; lia|].
  destruct (NEVER_W <=? uvalue id); [intros []|]. cbn. intros [<-|[]]. lia.
Qed.

Definition room (now : N) (ops : list cop) : Prop := now + N.of_nat (length ops) < 2 ^ 60.
Definition few (ops : list cop) : Prop := N.of_nat (length ops) <= 2 ^ 54.

Lemma room_never r c ops : r < NEVER_W -> few (c :: ops) -> room r ops.
Proof.
  unfold few, room. rewrite never_val. cbn [length]. rewrite Nat2N.inj_succ.
  change (2 ^ 60) with 1152921504606846976. change (2 ^ 54) with 18014398509481984. lia.
Qed.
Lemma few_tail c ops : few (c :: ops) -> few ops.
Proof. unfold few. cbn [length]. rewrite Nat2N.inj_succ. lia. Qed.

Lemma issued_above active ops : forall now pre r o u post,
  room now ops -> few ops -> Forall reading_ok ops ->
  clock_run active now ops = pre ++ EIssued r o u :: post ->
  now < uvalue u /\ (forall v, In v (flat_map known pre) -> v < uvalue u) /\
  r <= uvalue u /\ uvalue u < 2 ^ 60 /\
  u = uuid_time (uvalue u) (if o =? 0 then active else o).
Proof.
  induction ops as [|c ops IH]; intros now pre r o u post Rm Fw Rd E.
  { destruct pre; discriminate E. }
  apply Forall_cons_iff in Rd. destruct Rd as [Rd Rds].
  destruct c as [r' o'|id]; cbn [clock_run] in E.
  - cbn [reading_ok] in Rd.
    assert (L1 : now + 1 < 2 ^ 60).
    { unfold room in Rm. cbn [length] in Rm. rewrite Nat2N.inj_succ in Rm.
      change (2 ^ 60) with 1152921504606846976 in *. lia. }
    pose proof (now_step active now r' o' L1 Rd) as [A B].
    destruct (clock_now active now r' o') as [now' u'] eqn:Ec. cbn [fst snd] in A, B.
    assert (Rm' : room now' ops).
    { rewrite A. destruct (N.max_spec (now + 1) r') as [[? ->]|[? ->]]; [exact (room_never _ _ _ Rd Fw)|].
      unfold room in *. cbn [length] in Rm. rewrite Nat2N.inj_succ in Rm.
      change (2 ^ 60) with 1152921504606846976 in *. lia. }
    destruct pre as [|e pre]; cbn [app] in E.
    + injection E as -> -> -> _. split; [lia|]. split; [intros v []|]. split; [lia|]. split.
      * rewrite B. rewrite never_val in Rd.
        change (2 ^ 60) with 1152921504606846976 in *. change (2 ^ 54) with 18014398509481984 in *. lia.
      * unfold clock_now in Ec. injection Ec as E1 E2. rewrite <- E2. reflexivity.
    + assert (E' : clock_run active now' ops = pre ++ EIssued r o u :: post)
        by (injection E; intros; assumption).
      assert (Ee : e = EIssued r' o' u') by (injection E; intros; symmetry; assumption).
      destruct (IH _ _ _ _ _ _ Rm' (few_tail _ _ Fw) Rds E') as [P1 [P2 [P3 [P4 P5]]]].
      split; [lia|]. split; [|split; [exact P3|split; [exact P4|exact P5]]].
      intros v Hv. cbn [flat_map] in Hv. apply in_app_or in Hv. destruct Hv as [Hv|Hv]; [|exact (P2 v Hv)].
      subst e. cbn [known In] in Hv. destruct Hv as [<-|[]]. lia.
  - pose proof (see_step now id) as St. pose proof (see_known now id) as Sk.
    destruct (clock_see now id) as [now' s]. cbn [fst snd] in St, Sk.
    assert (Rm' : room now' ops).
    { destruct St as [->|[-> [_ L]]]; [|exact (room_never _ _ _ L Fw)].
      unfold room in *. cbn [length] in Rm. rewrite Nat2N.inj_succ in Rm. lia. }
    destruct pre as [|e pre]; cbn [app] in E; [discriminate E|].
    assert (E' : clock_run active now' ops = pre ++ EIssued r o u :: post)
      by (injection E; intros; assumption).
    assert (Ee : e = ESeen id s) by (injection E; intros; symmetry; assumption).
    destruct (IH _ _ _ _ _ _ Rm' (few_tail _ _ Fw) Rds E') as [P1 [P2 [P3 [P4 P5]]]].
    split; [destruct St as [->|[-> [? _]]]; lia|].
    split; [|split; [exact P3|split; [exact P4|exact P5]]].
    intros v Hv. cbn [flat_map] in Hv. apply in_app_or in Hv. destruct Hv as [Hv|Hv]; [|exact (P2 v Hv)].
    subst e. pose proof (Sk v Hv). lia.
Qed.

(* C31. A replica whose clock starts below NEVER (it starts at 0) and whose
   system clock may jump in any way below NEVER (the year 2345, C31_calendar)
   uses its clock at most 2^54 times. Every timestamp it issues is greater than
   every one it issued before and every one it was shown and accepted before,
   is not behind the system clock, fits 60 bits, and is a time UUID of the
   origin asked for (the active store's if none). *)
Theorem C31_clock : forall active now ops pre r o u post,
  now < NEVER_W -> N.of_nat (length ops) <= 2 ^ 54 -> Forall reading_ok ops ->
  clock_run active now ops = pre ++ EIssued r o u :: post ->
  (forall v, In v (flat_map known pre) -> v < uvalue u) /\
  now < uvalue u /\ r <= uvalue u /\ uvalue u < 2 ^ 60 /\
  version u = TIME /\ uorigin u mod 2 ^ 60 = (if o =? 0 then active else o) mod 2 ^ 60.
Proof.
  intros active now ops pre r o u post L Fw Rd E.
  assert (Rm : room now ops).
  { unfold room. rewrite never_val in L. change (2 ^ 60) with 1152921504606846976 in *.
    change (2 ^ 54) with 18014398509481984 in *. lia. }
  destruct (issued_above active ops now pre r o u post Rm Fw Rd E) as [P1 [P2 [P3 [P4 P5]]]].
  rewrite P5. rewrite time_version, time_payload. cbn [uuid_time uvalue]. repeat split; assumption.
Qed.
Print Assumptions C31_clock.

(* the timestamps issued for one origin are increasing UUIDs *)
Theorem C31_increasing : forall active now ops pre r o u mid r' o' u' post,
  now < NEVER_W -> N.of_nat (length ops) <= 2 ^ 54 -> Forall reading_ok ops ->
  clock_run active now ops = pre ++ EIssued r o u :: mid ++ EIssued r' o' u' :: post ->
  uuid_ltb u u' = true.
Proof.
  intros active now ops pre r o u mid r' o' u' post L Fw Rd E.
  assert (E' : clock_run active now ops = (pre ++ EIssued r o u :: mid) ++ EIssued r' o' u' :: post)
    by (rewrite E, <- app_assoc; reflexivity).
  destruct (C31_clock _ _ _ _ _ _ _ _ L Fw Rd E') as [K _].
  assert (H : uvalue u < uvalue u').
  { apply K. rewrite flat_map_app. apply in_or_app. right. left. reflexivity. }
  unfold uuid_ltb. apply N.ltb_lt in H. rewrite H. reflexivity.
Qed.
Print Assumptions C31_increasing.

(* what See accepts: a time UUID that is below NEVER or below a timestamp the
   replica started with, issued or accepted; a refusal changes nothing *)
Lemma see_accepts active ops : forall now pre id s post,
  room now ops -> few ops -> Forall reading_ok ops ->
  clock_run active now ops = pre ++ ESeen id s :: post ->
  (s = StOK <-> version id = TIME /\
     (uvalue id < NEVER_W \/ uvalue id < now \/ exists v, In v (flat_map known pre) /\ uvalue id < v)) /\
  (s = StOK \/ s = StBadArgs).
Proof.
  induction ops as [|c ops IH]; intros now pre id s post Rm Fw Rd E.
  { destruct pre; discriminate E. }
  apply Forall_cons_iff in Rd. destruct Rd as [Rd Rds].
  destruct c as [r' o'|id']; cbn [clock_run] in E.
  - cbn [reading_ok] in Rd.
    assert (L1 : now + 1 < 2 ^ 60).
    { unfold room in Rm. cbn [length] in Rm. rewrite Nat2N.inj_succ in Rm.
      change (2 ^ 60) with 1152921504606846976 in *. lia. }
    pose proof (now_step active now r' o' L1 Rd) as [A B].
    destruct (clock_now active now r' o') as [now' u']. cbn [fst snd] in A, B.
    assert (Rm' : room now' ops).
    { rewrite A. destruct (N.max_spec (now + 1) r') as [[? ->]|[? ->]]; [exact (room_never _ _ _ Rd Fw)|].
      unfold room in *. cbn [length] in Rm. rewrite Nat2N.inj_succ in Rm.
      change (2 ^ 60) with 1152921504606846976 in *. lia. }
    destruct pre as [|e pre]; cbn [app] in E; [discriminate E|].
    assert (E' : clock_run active now' ops = pre ++ ESeen id s :: post)
      by (injection E; intros; assumption).
    assert (Ee : e = EIssued r' o' u') by (injection E; intros; symmetry; assumption).
    destruct (IH _ _ _ _ _ Rm' (few_tail _ _ Fw) Rds E') as [P1 P2]. split; [|exact P2].
    rewrite P1. subst e. cbn [flat_map known app In]. split.
    + intros [V [D|[D|[v [Hv D]]]]]; (split; [exact V|]).
      * left. exact D.
      * right. right. exists (uvalue u'). split; [left; reflexivity|lia].
      * right. right. exists v. split; [right; exact Hv|exact D].
    + intros [V [D|[D|[v [[Hv|Hv] D]]]]]; (split; [exact V|]).
      * left. exact D.
      * right. left. lia.
      * subst v. right. left. lia.
      * right. right. exists v. split; assumption.
  - destruct pre as [|e pre]; cbn [app] in E.
    + clear IH. destruct (clock_see now id') as [now' s'] eqn:Ec.
      assert (Q : id' = id /\ s' = s) by (injection E; intros; split; assumption).
      destruct Q as [-> ->]. clear E. unfold clock_see in Ec. cbn [flat_map In].
      destruct (version id =? TIME) eqn:V; cbn [negb] in Ec.
      2:{ injection Ec as _ <-. split; [|right; reflexivity]. split; [discriminate|].
          intros [V' _]. rewrite V' in V. discriminate V. }
      apply N.eqb_eq in V.
      destruct (uvalue id <? now) eqn:A.
      { apply N.ltb_lt in A. injection Ec as _ <-. split; [|left; reflexivity].
        split; [intros _; split; [exact V|right; left; exact A]|reflexivity]. }
      apply N.ltb_ge in A.
      destruct (NEVER_W <=? uvalue id) eqn:B.
      { apply N.leb_le in B. injection Ec as _ <-. split; [|right; reflexivity]. split; [discriminate|].
        intros [_ [D|[D|[v [[] _]]]]]; lia. }
      apply N.leb_gt in B. injection Ec as _ <-. split; [|left; reflexivity].
      split; [intros _; split; [exact V|left; exact B]|reflexivity].
    + pose proof (see_step now id') as St. pose proof (see_known now id') as Sk.
      destruct (clock_see now id') as [now' s'] eqn:Ec. cbn [fst snd] in St, Sk.
      assert (Rm' : room now' ops).
      { destruct St as [->|[-> [_ L]]]; [|exact (room_never _ _ _ L Fw)].
        unfold room in *. cbn [length] in Rm. rewrite Nat2N.inj_succ in Rm. lia. }
      assert (E' : clock_run active now' ops = pre ++ ESeen id s :: post)
        by (injection E; intros; assumption).
      assert (Ee : e = ESeen id' s') by (injection E; intros; symmetry; assumption).
      destruct (IH _ _ _ _ _ Rm' (few_tail _ _ Fw) Rds E') as [P1 P2]. split; [|exact P2].
      rewrite P1. subst e. cbn [flat_map]. split.
      * intros [V [D|[D|[v [Hv D]]]]]; (split; [exact V|]).
        -- left. exact D.
        -- destruct St as [->|[-> [_ L]]]; [right; left; exact D|]. left. lia.
        -- right. right. exists v. split; [apply in_or_app; right; exact Hv|exact D].
      * intros [V [D|[D|[v [Hv D]]]]]; (split; [exact V|]).
        -- left. exact D.
        -- right. left. destruct St as [->|[-> [? _]]]; lia.
        -- apply in_app_or in Hv. destruct Hv as [Hv|Hv].
           ++ right. left. pose proof (Sk v Hv). lia.
           ++ right. right. exists v. split; assumption.
Qed.
Theorem C31_see : forall active now ops pre id s post,
  now < NEVER_W -> N.of_nat (length ops) <= 2 ^ 54 -> Forall reading_ok ops ->
  clock_run active now ops = pre ++ ESeen id s :: post ->
  (s = StOK <-> version id = TIME /\
     (uvalue id < NEVER_W \/ uvalue id < now \/ exists v, In v (flat_map known pre) /\ uvalue id < v)) /\
  (s = StOK \/ s = StBadArgs).
Proof.
  intros active now ops pre id s post L Fw Rd E.
  assert (Rm : room now ops).
  { unfold room. rewrite never_val in L. change (2 ^ 60) with 1152921504606846976 in *.
    change (2 ^ 54) with 18014398509481984 in *. lia. }
  exact (see_accepts active ops now pre id s post Rm Fw Rd E).
Qed.
Print Assumptions C31_see.

(* a refused timestamp leaves no trace: all other results are what they are
   without it *)
Theorem C31_refused : forall active ops1 now id ops2 pre s post,
  clock_run active now (ops1 ++ CSee id :: ops2) = pre ++ ESeen id s :: post ->
  length pre = length ops1 -> s <> StOK ->
  clock_run active now (ops1 ++ ops2) = pre ++ post.
Proof.
  intros active ops1. induction ops1 as [|c ops1 IH]; intros now id ops2 pre s post E L Ns.
  - destruct pre; [|discriminate L]. cbn [app clock_run] in *.
    destruct (clock_see now id) as [now' s'] eqn:Ec.
    assert (Q : s' = s /\ clock_run active now' ops2 = post) by (injection E; intros; split; assumption).
    destruct Q as [-> <-]. f_equal. unfold clock_see in Ec.
    destruct (negb (version id =? TIME)); [injection Ec as -> _; reflexivity|].
    destruct (uvalue id <? now); [injection Ec as -> _; reflexivity|].
    destruct (NEVER_W <=? uvalue id); [injection Ec as -> _; reflexivity|].
    injection Ec as _ H. exfalso. apply Ns. symmetry. exact H.
  - destruct pre as [|e pre]; [discriminate L|]. cbn [length] in L. injection L as L.
    destruct c as [r o|id']; cbn [app clock_run] in *.
    + destruct (clock_now active now r o) as [now' u].
      assert (Q : EIssued r o u = e /\ clock_run active now' (ops1 ++ CSee id :: ops2) = pre ++ ESeen id s :: post)
        by (injection E; intros; split; assumption).
      destruct Q as [-> Q]. f_equal. exact (IH _ _ _ _ _ _ Q L Ns).
    + destruct (clock_see now id') as [now' s'].
      assert (Q : ESeen id' s' = e /\ clock_run active now' (ops1 ++ CSee id :: ops2) = pre ++ ESeen id s :: post)
        by (injection E; intros; split; assumption).
      destruct Q as [-> Q]. f_equal. exact (IH _ _ _ _ _ _ Q L Ns).
Qed.
Print Assumptions C31_refused.

(* the system clock is below NEVER in the years 2010 to 2345 *)
Theorem C31_calendar : forall year mon mday h m s ns,
  2010 <= year <= 2345 -> mon < 12 -> 1 <= mday <= 31 -> h < 24 -> m < 60 -> s <= 60 ->
  ns < 1000000000 ->
  hybrid_time (mkTm (year_field year) mon mday h m s ns) < NEVER_W.
Proof.
  intros year mon mday h m s ns Y Mo D H M S0 Ns.
  assert (Ey : year_field year = year - 2010).
  { unfold year_field. replace (year + 2 ^ 32 - 2010) with (year - 2010 + 1 * 2 ^ 32)
      by (change (2 ^ 32) with 4294967296; lia).
    rewrite N.mod_add by discriminate. apply N.mod_small. change (2 ^ 32) with 4294967296. lia. }
  rewrite Ey. destruct (hybrid_time_eq (mkTm (year - 2010) mon mday h m s ns)) as [E _].
  { unfold calendar_ok. cbn [tm_year2010 tm_mon tm_mday tm_hour tm_min tm_sec tm_nanos]. lia. }
  rewrite E. cbn [tm_year2010 tm_mon tm_mday tm_hour tm_min tm_sec tm_nanos].
  assert (Hn : ns / 100 < 10000000) by (apply N.div_lt_upper_bound; lia).
  set (t := ns / 100) in *. clearbody t. clear E. rewrite never_val. unfold mixed.
  change (2 ^ 60 - 2 ^ 54) with 1134907106097364992. change (2 ^ 24) with 16777216. lia.
Qed.
Print Assumptions C31_calendar.

(* a clock that goes back, a timestamp from the future, one from the past *)
Example C31_case :
  let day h := hybrid_time (mkTm (year_field 2019) 4 7 h 0 0 0) in
  let ops := [CNow (day 10) 0; CNow (day 9) 0; CSee (uuid_time (day 12) 77); CNow (day 9) 0;
              CSee (uuid_time (day 1) 77); CSee (uuid_time NEVER_W 77); CNow (day 11) 5] in
  Forall reading_ok ops /\
  clock_run 3 0 ops =
   [EIssued (day 10) 0 (uuid_time (day 10) 3); EIssued (day 9) 0 (uuid_time (day 10 + 1) 3);
    ESeen (uuid_time (day 12) 77) StOK; EIssued (day 9) 0 (uuid_time (day 12 + 1) 3);
    ESeen (uuid_time (day 1) 77) StOK; ESeen (uuid_time NEVER_W 77) StBadArgs;
    EIssued (day 11) 5 (uuid_time (day 12 + 2) 5)].
Proof.
  cbv zeta. split; [|vm_compute; reflexivity].
  repeat constructor; vm_compute; reflexivity.
Qed.

(* outside the domain. See lets a timestamp just below NEVER in: the next one
   issued has the value NEVER, and no other replica accepts it *)
Theorem C31_never_refuted : exists id u, snd (clock_see 0 id) = StOK /\
  clock_run 3 0 [CSee id; CNow 5 0] = [ESeen id StOK; EIssued 5 0 u] /\
  uvalue u = NEVER_W /\ (forall now, now <= NEVER_W -> clock_see now u = (now, StBadArgs)).

Proof.
  exists (uuid_time (NEVER_W - 1) 9), (uuid_time NEVER_W 3).
  split; [vm_compute; reflexivity|]. split; [vm_compute; reflexivity|]. split; [reflexivity|].
  intros now L. unfold clock_see. rewrite time_version.
  change (negb (TIME =? TIME)) with false. cbv iota. cbn [uuid_time uvalue].
  replace (NEVER_W <? now) with false by (symmetry; apply N.ltb_ge; exact L).
  rewrite N.leb_refl. reflexivity.
Qed.

(* a system clock before 2010 (a machine that boots in 1970): the timestamps are
   above NEVER and carry variety bits; no replica accepts them, and the replica
   keeps issuing such ones after its clock is set right *)
Theorem C31_boot_refuted :
  let boot := hybrid_time (mkTm (year_field 1970) 0 1 0 0 0 0) in
  let right := hybrid_time (mkTm (year_field 2019) 4 7 10 0 0 0) in
  NEVER_W < boot /\ word_flags boot <> 0 /\
  clock_run 3 0 [CNow boot 0; CNow right 0] =
    [EIssued boot 0 (uuid_time boot 3); EIssued right 0 (uuid_time (boot + 1) 3)] /\
  (forall now, now <= NEVER_W ->
     clock_see now (uuid_time boot 3) = (now, StBadArgs) /\
     clock_see now (uuid_time (boot + 1) 3) = (now, StBadArgs)).
Proof.
  cbv zeta. split; [vm_compute; reflexivity|]. split; [vm_compute; discriminate|].
  split; [vm_compute; reflexivity|]. intros now L.
  assert (G : forall v, NEVER_W <= v -> clock_see now (uuid_time v 3) = (now, StBadArgs)).
  { intros v Lv. unfold clock_see. rewrite time_version.
    change (negb (TIME =? TIME)) with false. cbv iota. cbn [uuid_time uvalue].
    replace (v <? now) with false by (symmetry; apply N.ltb_ge; lia).
    replace (NEVER_W <=? v) with true by (symmetry; apply N.leb_le; exact Lv). reflexivity. }
  split; apply G; vm_compute; discriminate.
Qed.

(* ---- version vectors ---- *)

(* C34. A vector with one entry per origin covers an event iff it has an entry
   for the event's origin that is not below the event, or the event's timestamp
   is zero. *)
Theorem C34_covers : forall v p, NoDup (map fst v) ->
  (vv_covers v p = true <->
   uvalue p = 0 \/ exists x, In (uorigin p, x) v /\ uvalue p <= x).
Proof.
  intros v p Nd. unfold vv_covers, vv_get. rewrite N.leb_le.
  destruct (find (fun q => fst q =? uorigin p) v) as [[o x]|] eqn:E; cbn [uvalue fst snd].
  - apply find_some in E. cbn [fst] in E. destruct E as [Hi Eo]. apply N.eqb_eq in Eo. subst o.
    split; [intro H; right; exists x; split; assumption|].
    intros [Z|[y [Hy L]]]; [rewrite Z; apply N.le_0_l|].
    enough (x = y) by (subst; exact L). clear -Nd Hi Hy.
    induction v as [|[o z] v IH]; [destruct Hi|]. cbn [map fst] in Nd. apply NoDup_cons_iff in Nd.
    destruct Nd as [Ni Nd]. destruct Hi as [Hi|Hi], Hy as [Hy|Hy].
    + congruence.
    + injection Hi as -> ->. exfalso. apply Ni. apply (in_map fst) in Hy. exact Hy.
    + injection Hy as -> ->. exfalso. apply Ni. apply (in_map fst) in Hi. exact Hi.
    + apply IH; assumption.
  - split; [intro H; left; lia|]. intros [Z|[y [Hy L]]]; [lia|].
    pose proof (find_none _ _ E _ Hy) as F. cbn [fst] in F. rewrite N.eqb_refl in F. discriminate F.
Qed.
Print Assumptions C34_covers.

(* coverage is closed downwards on a yarn, and a vector that is pointwise not
   below another covers what the other covers *)
Theorem C34_monotone : forall v w p q, NoDup (map fst v) -> NoDup (map fst w) ->
  (forall o x, In (o, x) v -> exists y, In (o, y) w /\ x <= y) ->
  uorigin q = uorigin p -> uvalue q <= uvalue p ->
  vv_covers v p = true -> vv_covers w q = true.
Proof.
  intros v w p q Nv Nw Lw Eo Lq H. apply (C34_covers v p Nv) in H. apply (C34_covers w q Nw).
  destruct H as [Z|[x [Hx L]]]; [left; lia|]. right. rewrite Eo.
  destruct (Lw _ _ Hx) as [y [Hy Ly]]. exists y. split; [exact Hy|lia].
Qed.
Print Assumptions C34_monotone.

Example C34_case : NoDup (map fst [(7, 100); (8, 5)]) /\
  map (vv_covers [(7, 100); (8, 5)])
      [mkUuid 100 7; mkUuid 101 7; mkUuid 5 8; mkUuid 6 8; mkUuid 1 9; mkUuid 0 9] =
  [true; false; true; false; false; true].
Proof.
  split; [|vm_compute; reflexivity]. repeat constructor; cbn; intuition discriminate.
Qed.
