From Verif Require Import Prelude UuidModel UuidSpec.

Lemma base_punct_ok d : d < 64 ->
  abc (base_punct d) = d /\ is_dgt (base_punct d) = true /\ base_punct d < 128.
Proof.
  intro H.
  pose proof (forall_below_spec 64
    (fun d => (abc (base_punct d) =? d) && is_dgt (base_punct d) && (base_punct d <? 128))
    ltac:(vm_compute; reflexivity) d H) as K.
  cbv beta in K. lia.
Qed.

Lemma dgt_ok c : is_dgt c = true -> abc c < 64 /\ base_punct (abc c) = c /\ c < 128.
Proof.
  intro H. assert (Hc : c < 128) by (unfold is_dgt in H; lia).
  pose proof (forall_below_spec 128
    (fun c => implb (is_dgt c) ((abc c <? 64) && (base_punct (abc c) =? c)))
    ltac:(vm_compute; reflexivity) c Hc) as K.
  cbv beta in K. rewrite H in K. cbn [implb] in K. lia.
Qed.

Lemma digit_value_abc c : c < 128 ->
  digit_value c = (if is_dgt c then Some (abc c) else None).
Proof.
  intro H.
  pose proof (forall_below_spec 128
    (fun c => match digit_value c, (if is_dgt c then Some (abc c) else None) with
              | Some a, Some b => a =? b | None, None => true | _, _ => false end)
    ltac:(vm_compute; reflexivity) c H) as K.
  cbv beta in K.
  destruct (digit_value c), (is_dgt c); try discriminate; try reflexivity.
  f_equal; lia.
Qed.

Lemma digit_value_some c : digit_value c <> None <-> is_dgt c = true.
Proof.
  destruct (N.lt_ge_cases c 128) as [H|H].
  - rewrite digit_value_abc by exact H. destruct (is_dgt c); split; congruence.
  - assert (is_dgt c = false) by (unfold is_dgt; lia).
    assert (digit_value c = None).
    { unfold digit_value.
      repeat match goal with |- (if ?b then _ else _) = _ =>
        let E := fresh in destruct b eqn:E; [exfalso; lia|] end. reflexivity. }
    split; congruence.
Qed.

Lemma digit_value_dgt c : is_dgt c = true -> digit_value c = Some (abc c).
Proof.
  intro H. rewrite digit_value_abc by (apply dgt_ok in H; tauto). now rewrite H.
Qed.

Lemma Forall_digit_char s : Forall is_digit_char s <-> forallb is_dgt s = true.
Proof.
  rewrite forallb_forall, Forall_forall. split; intros H x Hx; apply digit_value_some; apply H; exact Hx.
Qed.

(* ---- positional values ---- *)

Fixpoint lval (k : nat) (ds : list N) : N :=
  match ds with
  | [] => 0
  | d :: t => d * 2 ^ (6 * N.of_nat (k - 1)) + lval (k - 1) t
  end.

Lemma pow64 n : 64 ^ n = 2 ^ (6 * n).
Proof. rewrite N.pow_mul_r. reflexivity. Qed.

Lemma left_aligned_lval k s : forallb is_dgt s = true ->
  left_aligned k s = lval k (map abc s).
Proof.
  revert k. induction s as [|c s IH]; intros k H; cbn [left_aligned lval map]; [reflexivity|].
  cbn [forallb] in H. apply andb_prop in H as [H1 H2].
  rewrite digit_value_dgt by exact H1. rewrite IH by exact H2. rewrite pow64. reflexivity.
Qed.

Lemma lval_bound k ds : Forall (fun d => d < 64) ds -> (length ds <= k)%nat ->
  lval k ds < 2 ^ (6 * N.of_nat k).
Proof.
  revert k. induction ds as [|d ds IH]; intros k HF HL; cbn [lval].
  - apply pow2_pos.
  - inversion HF; subst. cbn [length] in HL.
    destruct k as [|k]; [lia|].
    replace (S k - 1)%nat with k by lia.
    specialize (IH k H2 ltac:(lia)).
    replace (6 * N.of_nat (S k)) with (6 + 6 * N.of_nat k) by lia.
    rewrite N.pow_add_r. change (2 ^ 6) with 64. nia.
Qed.

Lemma lval_shift n k ds : (length ds <= k)%nat ->
  lval (n + k) ds = lval k ds * 2 ^ (6 * N.of_nat n).
Proof.
  revert k. induction ds as [|d ds IH]; intros k HL; cbn [lval]; [lia|].
  cbn [length] in HL.
  replace (n + k - 1)%nat with (n + (k - 1))%nat by lia.
  rewrite IH by lia.
  replace (6 * N.of_nat (n + (k - 1))) with (6 * N.of_nat (k - 1) + 6 * N.of_nat n) by lia.
  rewrite N.pow_add_r. lia.
Qed.

(* ---- writing ---- *)

Fixpoint tbl (k : nat) : list (N * N) :=
  match k with
  | O => []
  | S k' => (6 * N.of_nat k', 2 ^ (6 * N.of_nat k') - 1) :: tbl k'
  end.

Lemma word_table_tbl : WORD_TABLE = tbl 10.
Proof. vm_compute. reflexivity. Qed.

Lemma land63 a : N.land 63 a = a mod 64.
Proof. rewrite N.land_comm. change 63 with (2^6 - 1). rewrite land_ones_mod. reflexivity. Qed.

Lemma write_loop_digits k w : (0 < k)%nat ->
  exists ds, write_word_loop (tbl k) w = map base_punct ds /\
    Forall (fun d => d < 64) ds /\ (1 <= length ds <= k)%nat /\
    lval k ds = w mod 2 ^ (6 * N.of_nat k) /\
    (length ds = 1%nat \/ last ds 0 <> 0).
Proof.
  induction k as [|k IH]; intro Hk; [lia|].
  cbn [tbl write_word_loop].
  rewrite land63, shiftr_div, land_ones_mod.
  set (j := 6 * N.of_nat k).
  replace (6 * N.of_nat (S k)) with (j + 6) by (unfold j; lia).
  rewrite (mod_pow2_split w j (j + 6)) by lia.
  replace (j + 6 - j) with 6 by lia. change (2 ^ 6) with 64.
  set (d := (w / 2 ^ j) mod 64).
  assert (Hd : d < 64) by (apply N.mod_lt; lia).
  destruct (w mod 2 ^ j =? 0) eqn:E.
  - exists [d]. cbn [map lval length last].
    replace (S k - 1)%nat with k by lia. fold j.
    repeat split; auto; try lia.
  - destruct k as [|k].
    { exfalso. subst j. change (2 ^ (6 * N.of_nat 0)) with 1 in E.
      rewrite N.mod_1_r in E. discriminate. }
    destruct (IH ltac:(lia)) as (ds & E1 & F & L & V & La).
    exists (d :: ds). rewrite E1. cbn [map lval length].
    replace (S (S k) - 1)%nat with (S k) by lia. fold j. fold j in V.
    split; [reflexivity|]. split; [constructor; auto|]. split; [lia|].
    split; [rewrite V; reflexivity|].
    right. destruct ds as [|d2 ds]; [cbn [length] in L; lia|].
    change (last (d :: d2 :: ds) 0) with (last (d2 :: ds) 0).
    destruct La as [La|La]; [|exact La].
    destruct ds; [|cbn [length] in La; lia].
    cbn [last]. intros ->. cbn [lval] in V. lia.
Qed.

Lemma write_word_digits w :
  exists ds, write_word w = map base_punct ds /\
    Forall (fun d => d < 64) ds /\ (1 <= length ds <= 10)%nat /\
    lval 10 ds = w mod 2 ^ 60 /\ (length ds = 1%nat \/ last ds 0 <> 0).
Proof.
  unfold write_word. rewrite word_table_tbl.
  apply (write_loop_digits 10 w). lia.
Qed.

Lemma map_base_punct_dgt ds : Forall (fun d => d < 64) ds ->
  forallb is_dgt (map base_punct ds) = true /\ map abc (map base_punct ds) = ds.
Proof.
  induction 1 as [|d ds Hd HF [IH1 IH2]]; [split; reflexivity|].
  cbn [map forallb]. destruct (base_punct_ok d Hd) as (A & B & _).
  rewrite A, B, IH1, IH2. split; reflexivity.
Qed.

(* ---- parsing a word ---- *)

Lemma word_shift_eq w : w < 2 ^ 58 -> word_shift w = w * 2 ^ 6.
Proof.
  intro H. unfold word_shift, two64. rewrite shiftl_mul. apply N.mod_small.
  change (2 ^ 6) with 64. change (2 ^ 64) with (2 ^ 58 * 64). lia.
Qed.

Lemma word_push_eq data : forall w,
  forallb is_dgt data = true -> w * 2 ^ (6 * N.of_nat (length data)) < 2 ^ 64 ->
  (length data <= 10)%nat ->
  word_push w data = w * 2 ^ (6 * N.of_nat (length data)) + lval (length data) (map abc data).
Proof.
  induction data as [|c data IH]; intros w HD HW HL; cbn [word_push lval map length].
  - change (2 ^ (6 * N.of_nat 0)) with 1. lia.
  - cbn [forallb] in HD. apply andb_prop in HD as [H1 H2].
    cbn [length] in HW, HL.
    set (n := N.of_nat (length data)) in *.
    replace (6 * N.of_nat (S (length data))) with (6 + 6 * n) in * by lia.
    rewrite N.pow_add_r in *. change (2 ^ 6) with 64 in *.
    pose proof (pow2_pos (6 * n)) as Pn.
    assert (Hw : w < 2 ^ 58).
    { change (2 ^ 64) with (2 ^ 58 * 64) in HW. nia. }
    destruct (dgt_ok c H1) as (Ha & _ & _).
    rewrite word_shift_eq by exact Hw.
    rewrite lor_shl_add by exact Ha. change (2 ^ 6) with 64.
    rewrite IH; [|exact H2| |lia].
    + replace (S (length data) - 1)%nat with (length data) by lia. fold n. lia.
    + fold n.
      replace (2 ^ 64) with (2 ^ (64 - 6 * n) * 2 ^ (6 * n)) in *.
      2:{ rewrite <- N.pow_add_r. f_equal. subst n. lia. }
      apply N.mul_lt_mono_pos_r; [exact Pn|].
      assert (w * 64 < 2 ^ (64 - 6 * n)) by nia.
      replace (64 - 6 * n) with (6 + (58 - 6 * n)) in * by (subst n; lia).
      rewrite N.pow_add_r in *. change (2 ^ 6) with 64 in *. nia.
Qed.

Lemma word_pad_eq n : forall w, (n <= 10)%nat -> w * 2 ^ (6 * N.of_nat n) < 2 ^ 64 ->
  word_pad n w = w * 2 ^ (6 * N.of_nat n).
Proof.
  induction n as [|n IH]; intros w HN HW; cbn [word_pad].
  - change (2 ^ (6 * N.of_nat 0)) with 1. lia.
  - replace (6 * N.of_nat (S n)) with (6 + 6 * N.of_nat n) in * by lia.
    rewrite N.pow_add_r in *. change (2 ^ 6) with 64 in *.
    pose proof (pow2_pos (6 * N.of_nat n)).
    rewrite word_shift_eq. 2:{ change (2 ^ 64) with (2 ^ 58 * 64) in HW. nia. }
    change (2 ^ 6) with 64.
    rewrite IH; [lia|lia|nia].
Qed.

Lemma word_parse_eq f data :
  forallb is_dgt data = true -> (length data <= 10)%nat ->
  word_parse f data = f mod 16 * 2 ^ 60 + lval 10 (map abc data).
Proof.
  intros HD HL. unfold word_parse.
  change 15 with (2 ^ 4 - 1). rewrite land_ones_mod. change (2 ^ 4) with 16.
  set (g := f mod 16). assert (Hg : g < 16) by (apply N.mod_lt; lia).
  set (n := length data) in *.
  assert (HF : Forall (fun d => d < 64) (map abc data)).
  { apply Forall_forall. intros x Hx. apply in_map_iff in Hx as (c & <- & Hc).
    apply dgt_ok. rewrite forallb_forall in HD. apply HD. exact Hc. }
  assert (HB : lval n (map abc data) < 2 ^ (6 * N.of_nat n)).
  { apply lval_bound; [exact HF|]. rewrite map_length. unfold n; lia. }
  assert (HG : g * 2 ^ (6 * N.of_nat n) < 2 ^ 64).
  { apply N.lt_le_trans with (16 * 2 ^ (6 * N.of_nat n)).
    - pose proof (pow2_pos (6 * N.of_nat n)). nia.
    - change 16 with (2 ^ 4). rewrite <- N.pow_add_r. apply N.pow_le_mono_r; lia. }
  assert (E : word_push g data = g * 2 ^ (6 * N.of_nat n) + lval n (map abc data)).
  { apply word_push_eq; auto. }
  rewrite E. rewrite word_pad_eq; [|lia|].
  - replace 10%nat with ((10 - n) + n)%nat at 2 by lia.
    rewrite lval_shift by (rewrite map_length; unfold n; lia).
    replace 60 with (6 * N.of_nat n + 6 * N.of_nat (10 - n)) by lia.
    rewrite N.pow_add_r. lia.
  - replace (2 ^ 64) with (2 ^ (4 + 6 * N.of_nat n) * 2 ^ (6 * N.of_nat (10 - n))).
    2:{ rewrite <- N.pow_add_r. f_equal. lia. }
    apply N.mul_lt_mono_pos_r; [apply pow2_pos|].
    rewrite N.pow_add_r. change (2 ^ 4) with 16. nia.
Qed.

Lemma word_parse_write f w : word_parse f (write_word w) = f mod 16 * 2 ^ 60 + w mod 2 ^ 60.
Proof.
  destruct (write_word_digits w) as (ds & E & F & L & V & _).
  destruct (map_base_punct_dgt ds F) as (D & M).
  rewrite word_parse_eq; rewrite E.
  - rewrite M, V. reflexivity.
  - exact D.
  - rewrite map_length. lia.
Qed.

(* ---- the automaton ---- *)

Lemma fold6 ds : forall w v o vr vs pr, forallb is_dgt ds = true ->
  fold_left up_step ds (mkUp 6 w v o vr vs pr) = mkUp 6 (w ++ ds) v o vr vs (last ds pr).
Proof.
  induction ds as [|c ds IH]; intros w v o vr vs pr H; cbn [fold_left].
  - rewrite app_nil_r. reflexivity.
  - cbn [forallb] in H. apply andb_prop in H as [H1 H2].
    cbn [up_step].
    assert (is_vsn c = false) as -> by (unfold is_vsn; unfold is_dgt in H1; lia).
    rewrite H1. rewrite IH by exact H2. rewrite <- app_assoc. f_equal.
    destruct ds as [|d ds]; [reflexivity|].
    change (last (c :: d :: ds) pr) with (last (d :: ds) pr).
    clear. revert d. induction ds as [|e ds IH]; intro d; [reflexivity|].
    change (last (d :: e :: ds) c) with (last (e :: ds) c).
    change (last (d :: e :: ds) pr) with (last (e :: ds) pr). apply IH.
Qed.

Lemma fold5 ds : forall w v o vr vs pr, forallb is_dgt ds = true ->
  exists pr', fold_left up_step ds (mkUp 5 w v o vr vs pr) = mkUp 5 (w ++ ds) v o vr vs pr'.
Proof.
  induction ds as [|c ds IH]; intros w v o vr vs pr H; cbn [fold_left].
  - rewrite app_nil_r. eauto.
  - cbn [forallb] in H. apply andb_prop in H as [H1 H2].
    cbn [up_step]. rewrite H1.
    destruct (IH (w ++ [c]) v o vr vs c H2) as (pr' & ->).
    rewrite <- app_assoc. eauto.
Qed.

(* character-level text of a UUID: like uuid_text, without the length limits *)
Definition shape (s : bytes) (vr : N) (value : bytes) (vs : N) (origin : bytes) : Prop :=
  exists vp op, s = vp ++ value ++ op /\
    ((vp = [] /\ vr = 48) \/ (vp = [vr; 47] /\ is_hexcap vr = true)) /\
    forallb is_dgt value = true /\
    ((op = [] /\ vs = 36 /\ origin = []) \/ (op = vs :: origin /\ is_vsn vs = true)) /\
    forallb is_dgt origin = true /\
    (value = [] -> op = []).

Definition tail_state (s : N) : Prop := s = 4 \/ s = 6.

(* after the value, whatever its first-character state *)
Lemma fold_op vs origin op : forall s w vr pr,
  tail_state s ->
  ((op = [] /\ vs = 36 /\ origin = []) \/ (op = vs :: origin /\ is_vsn vs = true)) ->
  forallb is_dgt origin = true ->
  exists s' w' pr', s' <> 0 /\
    up_eof (fold_left up_step op (mkUp s w [] [] vr 36 pr)) = mkUp s' w' w origin vr vs pr'.
Proof.
  intros s w vr pr Hs [(-> & -> & ->)|(-> & Hv)] Ho.
  - cbn [fold_left]. destruct Hs as [-> | ->]; cbn [up_eof]; do 3 eexists; split; try reflexivity; lia.
  - assert (E : up_step (mkUp s w [] [] vr 36 pr) vs = mkUp 2 w w [] vr vs vs).
    { destruct Hs as [-> | ->]; cbn [up_step]; rewrite Hv; reflexivity. }
    cbn [fold_left]. rewrite E.
    destruct origin as [|c o]; cbn [fold_left].
    + cbn [up_eof]. do 3 eexists; split; [|reflexivity]; lia.
    + cbn [forallb] in Ho. apply andb_prop in Ho as [H1 H2].
      cbn [up_step]. rewrite H1.
      destruct (fold5 o [c] w [] vr vs c H2) as (pr' & ->).
      cbn [up_eof]. do 3 eexists; split; [|reflexivity]; lia.
Qed.

Lemma shape_complete s vr value vs origin : shape s vr value vs origin ->
  exists st w pr, st <> 0 /\
    up_eof (fold_left up_step s up0) = mkUp st w value origin vr vs pr.
Proof.
  intros (vp & op & -> & Hvp & Hval & Hop & Ho & Hnil).
  rewrite !fold_left_app.
  destruct value as [|c t].
  - rewrite (Hnil eq_refl). cbn [fold_left].
    assert (origin = [] /\ vs = 36) as [-> ->].
    { destruct Hop as [(_ & ? & ?)|(H & _)]; [auto|]. rewrite (Hnil eq_refl) in H. discriminate. }
    destruct Hvp as [(-> & ->)|(-> & Hh)]; cbn [fold_left].
    + cbn [up_eof up0]. do 3 eexists; split; [|reflexivity]; lia.
    + unfold up0. cbn [up_step]. rewrite Hh. cbn [up_step].
      change (is_vsn 47) with false. change (47 =? 47) with true. cbn match.
      cbn [up_eof]. do 3 eexists; split; [|reflexivity]; lia.
  - cbn [forallb] in Hval. apply andb_prop in Hval as [H1 H2].
    assert (exists st pr, tail_state st /\
      fold_left up_step (c :: t) (fold_left up_step vp up0) = mkUp st (c :: t) [] [] vr 36 pr)
      as (st & pr & Hst & E).
    { destruct Hvp as [(-> & ->)|(-> & Hh)]; cbn [fold_left].
      - unfold up0. cbn [up_step].
        destruct (is_hexcap c) eqn:Hx.
        + destruct t as [|d t]; cbn [fold_left].
          * do 2 eexists; split; [left; reflexivity|reflexivity].
          * cbn [forallb] in H2. apply andb_prop in H2 as [H3 H4].
            cbn [up_step].
            assert (is_vsn d = false) as -> by (unfold is_vsn; unfold is_dgt in H3; lia).
            assert (d =? 47 = false) as -> by (unfold is_dgt in H3; lia).
            rewrite H3. rewrite fold6 by exact H4.
            do 2 eexists; split; [right; reflexivity|reflexivity].
        + rewrite H1. rewrite fold6 by exact H2.
          do 2 eexists; split; [right; reflexivity|reflexivity].
      - unfold up0. cbn [up_step]. rewrite Hh. cbn [up_step].
        change (is_vsn 47) with false. change (47 =? 47) with true. cbn match.
        cbn [up_step]. rewrite H1. rewrite fold6 by exact H2.
        do 2 eexists; split; [right; reflexivity|reflexivity]. }
    rewrite E.
    destruct (fold_op vs origin op st (c :: t) vr pr Hst Hop Ho) as (s' & w' & pr' & N0 & ->).
    do 3 eexists; split; [exact N0|reflexivity].
Qed.

(* invariant of the automaton along any prefix *)
Definition vp_ok (vp : bytes) (vr : N) : Prop :=
  (vp = [] /\ vr = 48) \/ (vp = [vr; 47] /\ is_hexcap vr = true).

Definition up_inv (s : bytes) (m : up) : Prop :=
  match ups m with
  | 0 => True
  | 1 => s = [] /\ m = up0
  | 4 => exists h, s = [h] /\ is_hexcap h = true /\ m = mkUp 4 [h] [] [] 48 36 h
  | 3 => exists h, s = [h; 47] /\ is_hexcap h = true /\ m = mkUp 3 [h] [] [] h 36 47
  | 6 => exists vp vr w pr, s = vp ++ w /\ vp_ok vp vr /\ w <> [] /\
           forallb is_dgt w = true /\ m = mkUp 6 w [] [] vr 36 pr
  | 2 => exists vp vr w v pr, s = vp ++ w ++ [v] /\ vp_ok vp vr /\ w <> [] /\
           forallb is_dgt w = true /\ is_vsn v = true /\ m = mkUp 2 w w [] vr v pr
  | 5 => exists vp vr w v o pr, s = vp ++ w ++ v :: o /\ vp_ok vp vr /\ w <> [] /\
           forallb is_dgt w = true /\ is_vsn v = true /\ o <> [] /\
           forallb is_dgt o = true /\ m = mkUp 5 o w [] vr v pr
  | _ => False
  end.

Lemma hexcap_dgt c : is_hexcap c = true -> is_dgt c = true.
Proof. unfold is_hexcap, is_dgt. lia. Qed.

Lemma up_inv_step s m c : up_inv s m -> up_inv (s ++ [c]) (up_step m c).
Proof.
  destruct m as [st w v o vr vs pr]. unfold up_inv. cbn [ups].
  assert (D : st = 0 \/ st = 1 \/ st = 2 \/ st = 3 \/ st = 4 \/ st = 5 \/ st = 6 \/ 6 < st) by lia.
  destruct D as [->|[->|[->|[->|[->|[->|[->|D]]]]]]]; intro H.
  - cbn [up_step ups]. exact I.
  - destruct H as (-> & E). injection E; intros; subst. cbn [up_step].
    destruct (is_hexcap c) eqn:H1; [cbn [ups]|].
    + exists c. auto.
    + destruct (is_dgt c) eqn:H2; cbn [ups]; [|exact I].
      exists [], 48, [c], c. cbn [forallb]. rewrite H2. unfold vp_ok.
      repeat split; auto; discriminate.
  - destruct H as (vp & vr' & w' & v' & pr' & -> & Hvp & Hw & Hd & Hv & E).
    injection E; intros; subst. cbn [up_step].
    destruct (is_dgt c) eqn:H2; cbn [ups]; [|exact I].
    exists vp, vr', w', v', [c], c. cbn [forallb]. rewrite H2.
    rewrite <- !app_assoc. cbn [app]. repeat split; auto; discriminate.
  - destruct H as (h & -> & Hh & E). injection E; intros; subst. cbn [up_step].
    destruct (is_dgt c) eqn:H2; cbn [ups]; [|exact I].
    exists [h; 47], h, [c], c. cbn [forallb]. rewrite H2. unfold vp_ok.
    repeat split; auto; discriminate.
  - destruct H as (h & -> & Hh & E). injection E; intros; subst. cbn [up_step].
    destruct (is_vsn c) eqn:H1; [cbn [ups]|].
    + exists [], 48, [h], c, c. cbn [forallb]. rewrite (hexcap_dgt h Hh). unfold vp_ok.
      repeat split; auto; discriminate.
    + destruct (c =? 47) eqn:H3; cbn [ups].
      * assert (c = 47) as -> by lia. exists h. auto.
      * destruct (is_dgt c) eqn:H2; cbn [ups]; [|exact I].
        exists [], 48, [h; c], c. cbn [forallb]. rewrite H2, (hexcap_dgt h Hh). unfold vp_ok.
        repeat split; auto; discriminate.
  - destruct H as (vp & vr' & w' & v' & o' & pr' & -> & Hvp & Hw & Hd & Hv & Ho & Hod & E).
    injection E; intros; subst. cbn [up_step].
    destruct (is_dgt c) eqn:H2; cbn [ups]; [|exact I].
    exists vp, vr', w', v', (o' ++ [c]), c.
    rewrite forallb_app, Hod. cbn [forallb]. rewrite H2.
    rewrite <- !app_assoc. cbn [app]. repeat split; auto.
    destruct o'; discriminate.
  - destruct H as (vp & vr' & w' & pr' & -> & Hvp & Hw & Hd & E).
    injection E; intros; subst. cbn [up_step].
    destruct (is_vsn c) eqn:H1; [cbn [ups]|].
    + exists vp, vr', w', c, c. rewrite <- app_assoc. repeat split; auto.
    + destruct (is_dgt c) eqn:H2; cbn [ups]; [|exact I].
      exists vp, vr', (w' ++ [c]), c. rewrite forallb_app, Hd. cbn [forallb]. rewrite H2.
      rewrite <- app_assoc. repeat split; auto. destruct w'; discriminate.
  - exfalso. destruct st as [|p]; [lia|].
    destruct p as [[[|q|]|[|q|]|]|[[|q|]|[|q|]|]|]; try lia; try exact H.
Qed.

Lemma up_inv_fold s : up_inv s (fold_left up_step s up0).
Proof.
  induction s as [|c s IH] using rev_ind.
  - split; reflexivity.
  - rewrite fold_left_app. cbn [fold_left]. apply up_inv_step. exact IH.
Qed.

Lemma shape_sound s : let m := up_eof (fold_left up_step s up0) in
  ups m <> 0 -> shape s (upvariety m) (upvalue m) (upversion m) (uporigin m).
Proof.
  cbv zeta. pose proof (up_inv_fold s) as H.
  destruct (fold_left up_step s up0) as [st w v o vr vs pr] eqn:E0. clear E0.
  unfold up_inv in H. cbn [ups] in H.
  assert (D : st = 0 \/ st = 1 \/ st = 2 \/ st = 3 \/ st = 4 \/ st = 5 \/ st = 6 \/ 6 < st) by lia.
  unfold shape, vp_ok in *.
  destruct D as [->|[->|[->|[->|[->|[->|[->|D]]]]]]]; intro N0.
  - cbn in N0. lia.
  - destruct H as (-> & E). injection E; intros; subst. cbn [up_eof upvariety upvalue upversion uporigin].
    exists [], []. repeat split; auto.
  - destruct H as (vp & vr' & w' & v' & pr' & -> & Hvp & Hw & Hd & Hv & E).
    injection E; intros; subst. cbn [up_eof upvariety upvalue upversion uporigin].
    exists vp, [v']. repeat split; auto. intros ->; congruence.
  - destruct H as (h & -> & Hh & E). injection E; intros; subst.
    cbn [up_eof upvariety upvalue upversion uporigin].
    exists [h; 47], []. repeat split; auto.
  - destruct H as (h & -> & Hh & E). injection E; intros; subst.
    cbn [up_eof upvariety upvalue upversion uporigin].
    exists [], []. cbn [forallb]. rewrite (hexcap_dgt h Hh). repeat split; auto.
  - destruct H as (vp & vr' & w' & v' & o' & pr' & -> & Hvp & Hw & Hd & Hv & Ho & Hod & E).
    injection E; intros; subst. cbn [up_eof upvariety upvalue upversion uporigin].
    exists vp, (v' :: o'). repeat split; auto. intros ->; congruence.
  - destruct H as (vp & vr' & w' & pr' & -> & Hvp & Hw & Hd & E).
    injection E; intros; subst. cbn [up_eof upvariety upvalue upversion uporigin].
    exists vp, []. rewrite app_nil_r. repeat split; auto.
  - exfalso. destruct st as [|p]; [lia|].
    destruct p as [[[|q|]|[|q|]|]|[[|q|]|[|q|]|]|]; try lia; try exact H.
Qed.

Lemma vsn_chars c : is_vsn c = true <-> exists v, version_value c = Some v.
Proof.
  unfold is_vsn, version_value. split.
  - destruct (c =? 36); [eauto|]. destruct (c =? 37); [eauto|].
    destruct (c =? 43); [eauto|]. destruct (c =? 45); [eauto|]. discriminate.
  - intros (v & H). destruct (c =? 36); [reflexivity|]. destruct (c =? 37); [reflexivity|].
    destruct (c =? 43); [reflexivity|]. destruct (c =? 45); [reflexivity|]. discriminate.
Qed.

Lemma vsn_abc c v : version_value c = Some v -> abc c = v /\ v < 4.
Proof.
  unfold version_value.
  destruct (c =? 36) eqn:E1; [intros [= <-]; assert (c = 36) as -> by lia; split; reflexivity|].
  destruct (c =? 37) eqn:E2; [intros [= <-]; assert (c = 37) as -> by lia; split; reflexivity|].
  destruct (c =? 43) eqn:E3; [intros [= <-]; assert (c = 43) as -> by lia; split; reflexivity|].
  destruct (c =? 45) eqn:E4; [intros [= <-]; assert (c = 45) as -> by lia; split; reflexivity|].
  discriminate.
Qed.

Lemma hexcap_value h v : digit_value h = Some v -> v < 16 -> is_hexcap h = true /\ abc h = v.
Proof.
  intros H Hv. assert (D : is_dgt h = true) by (apply digit_value_some; congruence).
  rewrite digit_value_dgt in H by exact D. injection H as <-.
  split; [|reflexivity]. assert (Hc : h < 128) by (apply dgt_ok in D; tauto).
  pose proof (forall_below_spec 128 (fun c => implb (is_dgt c && (abc c <? 16)) (is_hexcap c))
    ltac:(vm_compute; reflexivity) h Hc) as K. cbv beta in K.
  rewrite D in K. replace (abc h <? 16) with true in K by lia. exact K.
Qed.

Lemma hexcap_abc h : is_hexcap h = true -> digit_value h = Some (abc h) /\ abc h < 16.
Proof.
  intro H. split; [apply digit_value_dgt, hexcap_dgt, H|].
  assert (Hc : h < 128) by (unfold is_hexcap in H; lia).
  pose proof (forall_below_spec 128 (fun c => implb (is_hexcap c) (abc c <? 16))
    ltac:(vm_compute; reflexivity) h Hc) as K. cbv beta in K.
  rewrite H in K. cbn [implb] in K. lia.
Qed.

Theorem parse_uuid_accepts s vrt value vsn origin :
  uuid_text s vrt value vsn origin ->
  parse_uuid s = mkUuid (vrt * 2 ^ 60 + left_aligned 10 value)
                        (vsn * 2 ^ 60 + left_aligned 10 origin).
Proof.
  intros (vp & op & -> & Hvp & Hval & HL1 & Hop & Hor & HL2 & Hn).
  apply Forall_digit_char in Hval, Hor.
  set (vr := match vp with [] => 48 | h :: _ => h end).
  set (vs := match op with [] => 36 | v :: _ => v end).
  assert (Avr : abc vr = vrt /\ vrt < 16).
  { destruct Hvp as [(-> & ->)|(h & -> & Hh & Hlt)]; unfold vr; [split; reflexivity|].
    destruct (hexcap_value h vrt Hh Hlt); auto. }
  assert (Avs : abc vs = vsn /\ vsn < 4).
  { destruct Hop as [(-> & -> & ->)|(v & -> & Hv)]; unfold vs; [split; reflexivity|].
    apply vsn_abc; exact Hv. }
  assert (S : shape (vp ++ value ++ op) vr value vs origin).
  { exists vp, op. split; [reflexivity|]. split; [|split; [exact Hval|split; [|split; [exact Hor|exact Hn]]]].
    - destruct Hvp as [(-> & ->)|(h & -> & Hh & Hlt)]; [left; auto|right].
      split; [reflexivity|]. apply (hexcap_value h vrt Hh Hlt).
    - destruct Hop as [(-> & -> & ->)|(v & -> & Hv)]; [left; auto|right].
      split; [reflexivity|]. apply vsn_chars; eauto. }
  destruct (shape_complete _ _ _ _ _ S) as (st & w & pr & N0 & E).
  unfold parse_uuid. rewrite E. cbn [ups upvalue uporigin upvariety upversion].
  replace (negb (st =? 0) && (N.of_nat (length value) <=? 10) && (N.of_nat (length origin) <=? 10))
    with true by lia.
  unfold uuid_of_parts. rewrite !word_parse_eq by auto.
  rewrite !left_aligned_lval by auto.
  destruct Avr as [-> Hv1], Avs as [-> Hv2].
  rewrite !N.mod_small by lia. reflexivity.
Qed.

Theorem parse_uuid_rejects s :
  (~ exists vrt value vsn origin, uuid_text s vrt value vsn origin) ->
  parse_uuid s = FATAL.
Proof.
  intro H. unfold parse_uuid.
  set (m := up_eof (fold_left up_step s up0)).
  destruct (negb (ups m =? 0) && (N.of_nat (length (upvalue m)) <=? 10)
            && (N.of_nat (length (uporigin m)) <=? 10)) eqn:E; [|reflexivity].
  exfalso. apply H.
  assert (N0 : ups m <> 0) by lia.
  destruct (shape_sound s N0) as (vp & op & Es & Hvp & Hval & Hop & Hor & Hn).
  fold m in Es, Hvp, Hval, Hop, Hor, Hn.
  exists (match vp with [] => 0 | h :: _ => abc h end), (upvalue m),
         (match op with [] => 0 | v :: _ => abc v end), (uporigin m), vp, op.
  split; [exact Es|].
  split.
  { destruct Hvp as [(-> & _)|(-> & Hh)]; [left; auto|right].
    exists (upvariety m). destruct (hexcap_abc _ Hh). auto. }
  split; [apply Forall_digit_char; exact Hval|]. split; [lia|].
  split.
  { destruct Hop as [(-> & _ & ->)|(-> & Hv)]; [left; auto|right].
    exists (upversion m). split; [reflexivity|].
    apply vsn_chars in Hv as (v & Hv). destruct (vsn_abc _ _ Hv) as [<- _]. exact Hv. }
  split; [apply Forall_digit_char; exact Hor|]. split; [lia|]. exact Hn.
Qed.

(* ---- round trip ---- *)

Lemma write_word_text w :
  Forall is_digit_char (write_word w) /\ (1 <= length (write_word w) <= 10)%nat /\
  left_aligned 10 (write_word w) = w mod 2 ^ 60.
Proof.
  destruct (write_word_digits w) as (ds & E & F & L & V & _).
  destruct (map_base_punct_dgt ds F) as (D & M).
  rewrite E. split; [apply Forall_digit_char; exact D|].
  split; [rewrite map_length; lia|].
  rewrite left_aligned_lval by exact D. rewrite M. exact V.
Qed.

Lemma uuid_punct_version v : v < 4 -> version_value (uuid_punct v) = Some v.
Proof.
  intro H.
  assert (v = 0 \/ v = 1 \/ v = 2 \/ v = 3) as [->|[->|[->| ->]]] by lia; reflexivity.
Qed.

Lemma write_uuid_text u : uuid_wf u -> uorigin u < 2 ^ 62 ->
  exists vrt value vsn origin, uuid_text (write_uuid u) vrt value vsn origin /\
    vrt * 2 ^ 60 + left_aligned 10 value = uvalue u /\
    vsn * 2 ^ 60 + left_aligned 10 origin = uorigin u.
Proof.
  destruct u as [val org]. unfold uuid_wf. cbn [uvalue uorigin]. intros [Hv _] Ho.
  unfold write_uuid, variety, version, word_flags. cbn [uvalue uorigin].
  rewrite !shiftr_div.
  set (vrt := val / 2 ^ 60). set (f := org / 2 ^ 60).
  assert (Hvrt : vrt < 16). { apply N.div_lt_upper_bound; [vm_compute; discriminate|]. exact Hv. }
  assert (Hf : f < 4). { apply N.div_lt_upper_bound; [vm_compute; discriminate|]. exact Ho. }
  change 3 with (2 ^ 2 - 1). rewrite land_ones_mod. change (2 ^ 2) with 4.
  rewrite (N.mod_small f 4) by exact Hf.
  destruct (write_word_text val) as (D1 & L1 & V1).
  destruct (write_word_text org) as (D2 & L2 & V2).
  assert (Ev : vrt * 2 ^ 60 + val mod 2 ^ 60 = val).
  { unfold vrt. rewrite N.mul_comm. symmetry. apply N.div_mod. vm_compute; discriminate. }
  assert (Eo : f * 2 ^ 60 + org mod 2 ^ 60 = org).
  { unfold f. rewrite N.mul_comm. symmetry. apply N.div_mod. vm_compute; discriminate. }
  assert (Hvp : (if vrt =? 0 then [] else [base_punct vrt; 47]) = [] /\ vrt = 0 \/
          exists h, (if vrt =? 0 then [] else [base_punct vrt; 47]) = [h; 47] /\
             digit_value h = Some vrt /\ vrt < 16).
  { destruct (vrt =? 0) eqn:E; [left; split; [reflexivity|lia]|right].
    exists (base_punct vrt). destruct (base_punct_ok vrt ltac:(lia)) as (A & B & _).
    rewrite digit_value_dgt by exact B. rewrite A. auto. }
  assert (Nv : write_word val <> []) by (intro E; rewrite E in L1; cbn [length] in L1; lia).
  destruct (negb (f =? 0) || negb (org =? 0)) eqn:E.
  - exists vrt, (write_word val), f, (write_word org).
    rewrite V1, V2. split; [|split; assumption].
    eexists _, _. split; [reflexivity|]. split; [exact Hvp|].
    repeat split; auto; try lia; try tauto.
    right. exists (uuid_punct f). split; [reflexivity|]. apply uuid_punct_version; exact Hf.
  - exists vrt, (write_word val), 0, [].
    rewrite V1. split; [|split; [exact Ev|cbn [left_aligned]; lia]].
    eexists _, []. split; [reflexivity|]. split; [exact Hvp|].
    repeat split; auto; try lia; try tauto. cbn; lia.
Qed.

Theorem uuid_roundtrip u : uuid_wf u -> uorigin u < 2 ^ 62 -> parse_uuid (write_uuid u) = u.
Proof.
  intros Hw Ho. destruct (write_uuid_text u Hw Ho) as (a & b & c & d & T & E1 & E2).
  rewrite (parse_uuid_accepts _ _ _ _ _ T), E1, E2. destruct u; reflexivity.
Qed.

Theorem write_uuid_inj u v : uuid_wf u -> uuid_wf v -> uorigin u < 2 ^ 62 -> uorigin v < 2 ^ 62 ->
  write_uuid u = write_uuid v -> u = v.
Proof.
  intros. rewrite <- (uuid_roundtrip u), <- (uuid_roundtrip v) by assumption. congruence.
Qed.

Lemma left_aligned_bound s : Forall is_digit_char s -> (length s <= 10)%nat ->
  left_aligned 10 s < 2 ^ 60.
Proof.
  intros H L. apply Forall_digit_char in H.
  rewrite left_aligned_lval by exact H.
  apply (lval_bound 10); [|rewrite map_length; exact L].
  apply Forall_forall. intros x Hx. apply in_map_iff in Hx as (c & <- & Hc).
  apply dgt_ok. rewrite forallb_forall in H. auto.
Qed.

Theorem parse_uuid_wf s : uuid_wf (parse_uuid s) /\ uorigin (parse_uuid s) < 2 ^ 62.
Proof.
  assert (K : (exists vrt value vsn origin, uuid_text s vrt value vsn origin) \/ parse_uuid s = FATAL).
  { unfold parse_uuid at 1.
    set (m := up_eof (fold_left up_step s up0)).
    destruct (negb (ups m =? 0) && (N.of_nat (length (upvalue m)) <=? 10)
            && (N.of_nat (length (uporigin m)) <=? 10)) eqn:E; [left|right; reflexivity].
    assert (N0 : ups m <> 0) by lia.
    destruct (shape_sound s N0) as (vp & op & Es & Hvp & Hval & Hop & Hor & Hn).
    fold m in Es, Hvp, Hval, Hop, Hor, Hn.
    exists (match vp with [] => 0 | h :: _ => abc h end), (upvalue m),
         (match op with [] => 0 | v :: _ => abc v end), (uporigin m), vp, op.
    split; [exact Es|].
    split.
    { destruct Hvp as [(-> & _)|(-> & Hh)]; [left; auto|right].
      exists (upvariety m). destruct (hexcap_abc _ Hh). auto. }
    split; [apply Forall_digit_char; exact Hval|]. split; [lia|].
    split.
    { destruct Hop as [(-> & _ & ->)|(-> & Hv)]; [left; auto|right].
      exists (upversion m). split; [reflexivity|].
      apply vsn_chars in Hv as (v & Hv). destruct (vsn_abc _ _ Hv) as [<- _]. exact Hv. }
    split; [apply Forall_digit_char; exact Hor|]. split; [lia|]. exact Hn. }
  destruct K as [(vrt & value & vsn & origin & T)|E].
  - rewrite (parse_uuid_accepts _ _ _ _ _ T).
    destruct T as (vp & op & -> & Hvp & Hval & HL1 & Hop & Hor & HL2 & Hn).
    pose proof (left_aligned_bound _ Hval HL1). pose proof (left_aligned_bound _ Hor HL2).
    assert (vrt < 16) by (destruct Hvp as [(_ & ->)|(h & _ & _ & Hlt)]; [lia|exact Hlt]).
    assert (vsn < 4).
    { destruct Hop as [(_ & -> & _)|(v & _ & Hv)]; [lia|]. apply (vsn_abc _ _ Hv). }
    unfold uuid_wf. cbn [uvalue uorigin].
    change (2 ^ 64) with (16 * 2 ^ 60). change (2 ^ 62) with (4 * 2 ^ 60). lia.
  - rewrite E. split; [split|]; vm_compute; reflexivity.
Qed.

Theorem parse_canonical s : parse_uuid (write_uuid (parse_uuid s)) = parse_uuid s.
Proof. apply uuid_roundtrip; apply parse_uuid_wf. Qed.

(* ---- order of texts ---- *)

Lemma base_punct_mono a b : a < 64 -> b < 64 -> (base_punct a <? base_punct b) = (a <? b).
Proof.
  intros Ha Hb.
  pose proof (forall_below_spec 64 (fun a => forall_below 64 (fun b =>
    Bool.eqb (base_punct a <? base_punct b) (a <? b))) ltac:(vm_compute; reflexivity) a Ha) as K.
  cbv beta in K. pose proof (forall_below_spec 64 _ K b Hb) as K2. cbv beta in K2.
  apply Bool.eqb_prop in K2. exact K2.
Qed.

Lemma base_punct_eq a b : a < 64 -> b < 64 -> (base_punct a =? base_punct b) = (a =? b).
Proof.
  intros Ha Hb. destruct (base_punct_ok a Ha) as (A & _). destruct (base_punct_ok b Hb) as (B & _).
  destruct (a =? b) eqn:E.
  - assert (a = b) as -> by lia. apply N.eqb_refl.
  - apply N.eqb_neq. intro H. rewrite H in A. lia.
Qed.

Lemma lex_map_digits a b : Forall (fun d => d < 64) a -> Forall (fun d => d < 64) b ->
  lex_ltb (map base_punct a) (map base_punct b) = lex_ltb a b.
Proof.
  intro Ha. revert b. induction Ha as [|x a Hx Ha IH]; intros b Hb; destruct Hb as [|y b Hy Hb]; try reflexivity.
  cbn [map lex_ltb]. rewrite base_punct_mono, base_punct_eq by assumption. rewrite IH by assumption. reflexivity.
Qed.

(* canonical digit lists: no trailing zero, except the single digit 0 *)
Definition trimmed (ds : list N) : Prop := length ds = 1%nat \/ last ds 0 <> 0.

Lemma lval_pos k ds : (length ds <= k)%nat -> last ds 0 <> 0 -> 0 < lval k ds.
Proof.
  revert k. induction ds as [|d ds IH]; intros k L H; [cbn in H; lia|].
  cbn [lval length] in *. destruct ds as [|e ds].
  - cbn [last] in H. pose proof (pow2_pos (6 * N.of_nat (k - 1))). nia.
  - change (last (d :: e :: ds) 0) with (last (e :: ds) 0) in H.
    specialize (IH (k - 1)%nat ltac:(cbn [length] in *; lia) H). lia.
Qed.

Lemma lex_lval k : forall a b,
  Forall (fun d => d < 64) a -> Forall (fun d => d < 64) b ->
  (length a <= k)%nat -> (length b <= k)%nat ->
  (a = [] \/ last a 0 <> 0) -> (b = [] \/ last b 0 <> 0) ->
  lex_ltb a b = (lval k a <? lval k b).
Proof.
  induction k as [|k IH]; intros a b Ha Hb La Lb Ta Tb.
  - destruct a; [|cbn in La; lia]. destruct b; [reflexivity|cbn in Lb; lia].
  - destruct a as [|x a], b as [|y b]; cbn [lex_ltb lval].
    + reflexivity.
    + destruct Tb as [Tb|Tb]; [discriminate|].
      pose proof (lval_pos (S k) (y :: b) Lb Tb) as P. cbn [lval] in P. lia.
    + lia.
    + inversion Ha; subst. inversion Hb; subst. cbn [length] in La, Lb.
      replace (S k - 1)%nat with k by lia.
      assert (Ta' : a = [] \/ last a 0 <> 0).
      { destruct a; [left; reflexivity|right]. destruct Ta as [Ta|Ta]; [discriminate|exact Ta]. }
      assert (Tb' : b = [] \/ last b 0 <> 0).
      { destruct b; [left; reflexivity|right]. destruct Tb as [Tb|Tb]; [discriminate|exact Tb]. }
      rewrite (IH a b H2 H4 ltac:(lia) ltac:(lia) Ta' Tb').
      pose proof (lval_bound k a H2 ltac:(lia)) as Ba.
      pose proof (lval_bound k b H4 ltac:(lia)) as Bb.
      set (P := 2 ^ (6 * N.of_nat k)) in *.
      destruct (N.lt_trichotomy x y) as [C|[C|C]].
      * assert (x * P + P <= y * P) by nia. replace (x <? y) with true by lia.
        cbn [orb]. symmetry. apply N.ltb_lt. lia.
      * subst y. replace (x <? x) with false by lia. replace (x =? x) with true by lia.
        cbn [orb andb]. apply Bool.eq_iff_eq_true. rewrite !N.ltb_lt. lia.
      * assert (y * P + P <= x * P) by nia.
        replace (x <? y) with false by lia. replace (x =? y) with false by lia.
        cbn [orb andb]. symmetry. apply N.ltb_ge. lia.
Qed.

(* the digit list of a word whose only digit may be a single 0 *)
Theorem write_word_order a b : a < 2 ^ 60 -> b < 2 ^ 60 ->
  lex_ltb (write_word a) (write_word b) = (a <? b).
Proof.
  intros Ha Hb.
  destruct (write_word_digits a) as (da & Ea & Fa & La & Va & Ta).
  destruct (write_word_digits b) as (db & Eb & Fb & Lb & Vb & Tb).
  rewrite N.mod_small in Va, Vb by assumption.
  rewrite Ea, Eb, lex_map_digits by assumption.
  (* the lone digit 0 is handled apart: its value is 0 *)
  assert (Da : da = [0] \/ last da 0 <> 0).
  { destruct Ta as [Ta|Ta]; [|right; exact Ta].
    destruct da as [|x [|? ?]]; try (cbn in Ta; lia). destruct (N.eq_dec x 0); [left; congruence|right; exact n]. }
  assert (Db : db = [0] \/ last db 0 <> 0).
  { destruct Tb as [Tb|Tb]; [|right; exact Tb].
    destruct db as [|x [|? ?]]; try (cbn in Tb; lia). destruct (N.eq_dec x 0); [left; congruence|right; exact n]. }
  destruct Da as [->|Da], Db as [->|Db].
  - cbn [lval] in Va, Vb. assert (a = 0) by lia. assert (b = 0) by lia. subst a b. reflexivity.
  - pose proof (lval_pos 10 db ltac:(lia) Db) as P. cbn [lval] in Va.
    replace (a <? b) with true by lia.
    destruct db as [|y t]; [cbn in Db; lia|]. cbn [lex_ltb].
    destruct (N.eq_dec y 0) as [->|Hy]; [|replace (0 <? y) with true by lia; reflexivity].
    cbn [lex_ltb]. destruct t as [|z t]; [cbn in Db; lia|reflexivity].
  - cbn [lval] in Vb. replace (a <? b) with false by lia.
    destruct da as [|y t]; [cbn in La; lia|]. cbn [lex_ltb].
    replace (y <? 0) with false by lia. destruct t; cbn [lex_ltb]; apply andb_false_r.
  - rewrite (lex_lval 10 da db) by (auto; lia). congruence.
Qed.

(* ---- UUID order ---- *)

Lemma uuid_eqb_eq a b : uuid_eqb a b = true <-> a = b.
Proof.
  destruct a as [v1 o1], b as [v2 o2]. unfold uuid_eqb. cbn [uvalue uorigin]. split.
  - intro H. f_equal; lia.
  - intros [= -> ->]. lia.
Qed.

Lemma uuid_ltb_irrefl a : uuid_ltb a a = false.
Proof. unfold uuid_ltb. lia. Qed.

Lemma uuid_ltb_trans a b c : uuid_ltb a b = true -> uuid_ltb b c = true -> uuid_ltb a c = true.
Proof. unfold uuid_ltb. lia. Qed.

Lemma uuid_total a b : uuid_ltb a b = true \/ a = b \/ uuid_ltb b a = true.
Proof.
  destruct (uuid_ltb a b) eqn:H1; [auto|]. destruct (uuid_ltb b a) eqn:H2; [auto|].
  right; left. destruct a as [v1 o1], b as [v2 o2]. unfold uuid_ltb in *. cbn [uvalue uorigin] in *.
  f_equal; lia.
Qed.

Lemma inc_gt u : uvalue u < 2 ^ 64 - 1 -> uuid_ltb u (inc u) = true.
Proof.
  intro H. unfold uuid_ltb, inc, inc_by, two64. cbn [uvalue uorigin].
  rewrite N.mod_small by lia. lia.
Qed.

Lemma inc_least u v : uvalue u < 2 ^ 64 - 1 -> uorigin v = uorigin u ->
  uuid_ltb u v = true -> uuid_leb (inc u) v = true.
Proof.
  intros H Ho Hl. unfold uuid_leb, uuid_ltb, inc, inc_by, two64 in *. cbn [uvalue uorigin].
  rewrite N.mod_small by lia. lia.
Qed.

Lemma inc_wrap o : inc (mkUuid (2 ^ 64 - 1) o) = mkUuid 0 o.
Proof. reflexivity. Qed.

(* ---- timestamps ---- *)

Definition mixed (y mon mday h m s t : N) : N :=
  (((((y * 12 + mon) * 64 + (mday - 1)) * 64 + h) * 64 + m) * 64 + s) * 2 ^ 24 + t.

Lemma shl_lor_eq r d k : r * 2 ^ k < 2 ^ 64 -> d < 2 ^ k ->
  N.lor (N.shiftl r k mod two64) d = r * 2 ^ k + d.
Proof.
  intros H1 H2. rewrite shiftl_mul. unfold two64. rewrite N.mod_small by exact H1.
  apply lor_shl_add. exact H2.
Qed.

Lemma hybrid_time_eq t :
  calendar_ok (tm_year2010 t) (tm_mon t) (tm_mday t) (tm_hour t) (tm_min t) (tm_sec t) (tm_nanos t) ->
  hybrid_time t = mixed (tm_year2010 t) (tm_mon t) (tm_mday t) (tm_hour t) (tm_min t) (tm_sec t) (tm_nanos t / 100)
  /\ hybrid_time t < 2 ^ 60.
Proof.
  destruct t as [y mon md h m s ns]. unfold calendar_ok, hybrid_time, mixed.
  cbn [tm_year2010 tm_mon tm_mday tm_hour tm_min tm_sec tm_nanos].
  intros (Hy & Hmon & Hmd & Hh & Hm & Hs & Hns).
  assert (Hn : ns / 100 < 10000000) by dlia.
  set (t := ns / 100) in *. clearbody t.
  replace ((y * 12) mod two64) with (y * 12) by (symmetry; apply N.mod_small; unfold two64; change (2^64) with 18446744073709551616; lia).
  replace ((y * 12 + mon) mod two64) with (y * 12 + mon) by (symmetry; apply N.mod_small; unfold two64; change (2^64) with 18446744073709551616; lia).
  change (2 ^ 60) with 1152921504606846976.
  rewrite (shl_lor_eq (y * 12 + mon) (md - 1) 6)
    by (change (2 ^ 64) with 18446744073709551616; change (2 ^ 6) with 64; lia).
  change (2 ^ 6) with 64.
  set (r1 := (y * 12 + mon) * 64 + (md - 1)).
  rewrite (shl_lor_eq r1 h 6)
    by (change (2 ^ 64) with 18446744073709551616; change (2 ^ 6) with 64; lia).
  change (2 ^ 6) with 64. set (r2 := r1 * 64 + h).
  rewrite (shl_lor_eq r2 m 6)
    by (change (2 ^ 64) with 18446744073709551616; change (2 ^ 6) with 64; lia).
  change (2 ^ 6) with 64. set (r3 := r2 * 64 + m).
  rewrite (shl_lor_eq r3 s 6)
    by (change (2 ^ 64) with 18446744073709551616; change (2 ^ 6) with 64; lia).
  change (2 ^ 6) with 64. set (r4 := r3 * 64 + s).
  rewrite (shl_lor_eq r4 t 24)
    by (change (2 ^ 64) with 18446744073709551616; change (2 ^ 24) with 16777216; lia).
  change (2 ^ 24) with 16777216. lia.
Qed.

Theorem hybrid_time_mono a b :
  calendar_ok (tm_year2010 a) (tm_mon a) (tm_mday a) (tm_hour a) (tm_min a) (tm_sec a) (tm_nanos a) ->
  calendar_ok (tm_year2010 b) (tm_mon b) (tm_mday b) (tm_hour b) (tm_min b) (tm_sec b) (tm_nanos b) ->
  (hybrid_time a < hybrid_time b <->
   fields_lt [tm_year2010 a; tm_mon a; tm_mday a; tm_hour a; tm_min a; tm_sec a; tm_nanos a / 100]
             [tm_year2010 b; tm_mon b; tm_mday b; tm_hour b; tm_min b; tm_sec b; tm_nanos b / 100]).
Proof.
  intros Ha Hb.
  destruct (hybrid_time_eq a Ha) as [-> _]. destruct (hybrid_time_eq b Hb) as [-> _].
  unfold calendar_ok in *.
  destruct a as [y mon md h m s ns], b as [y' mon' md' h' m' s' ns'].
  cbn [tm_year2010 tm_mon tm_mday tm_hour tm_min tm_sec tm_nanos fields_lt] in *.
  assert (Hn : ns / 100 < 10000000) by dlia.
  assert (Hn' : ns' / 100 < 10000000) by dlia.
  set (t := ns / 100) in *. clearbody t. set (t' := ns' / 100) in *. clearbody t'.
  unfold mixed. change (2 ^ 24) with 16777216. lia.
Qed.

Lemma hybrid_time_inj a b :
  calendar_ok (tm_year2010 a) (tm_mon a) (tm_mday a) (tm_hour a) (tm_min a) (tm_sec a) (tm_nanos a) ->
  calendar_ok (tm_year2010 b) (tm_mon b) (tm_mday b) (tm_hour b) (tm_min b) (tm_sec b) (tm_nanos b) ->
  hybrid_time a = hybrid_time b ->
  [tm_year2010 a; tm_mon a; tm_mday a; tm_hour a; tm_min a; tm_sec a; tm_nanos a / 100] =
  [tm_year2010 b; tm_mon b; tm_mday b; tm_hour b; tm_min b; tm_sec b; tm_nanos b / 100].
Proof.
  intros Ha Hb.
  destruct (hybrid_time_eq a Ha) as [-> _]. destruct (hybrid_time_eq b Hb) as [-> _].
  unfold calendar_ok in *.
  destruct a as [y mon md h m s ns], b as [y' mon' md' h' m' s' ns'].
  cbn [tm_year2010 tm_mon tm_mday tm_hour tm_min tm_sec tm_nanos] in *.
  assert (Hn : ns / 100 < 10000000) by dlia.
  assert (Hn' : ns' / 100 < 10000000) by dlia.
  set (t := ns / 100) in *. clearbody t. set (t' := ns' / 100) in *. clearbody t'.
  unfold mixed. change (2 ^ 24) with 16777216. intro E.
  assert (t = t') as -> by lia. assert (s = s') as -> by lia. assert (m = m') as -> by lia.
  assert (h = h') as -> by lia. assert (md = md') as -> by lia. assert (mon = mon') as -> by lia.
  assert (y = y') as -> by lia. reflexivity.
Qed.
