(* Status codes: theorems (C73). *)
From Coq Require Import String.
From Verif Require Import Prelude UuidModel UuidSpec UuidProofs UuidTheorems Txt StatusModel StatusSpec.
Open Scope string_scope.
Open Scope N_scope.
Open Scope list_scope.

(* a word and what follows are told apart by the tab *)
Lemma no_tab w : ~ In 9 (write_word w).
Proof.
  intro I. destruct (write_word_text w) as (F & _). rewrite Forall_forall in F. exact (F 9 I eq_refl).
Qed.
Lemma cut_tab (a b c d : bytes) : ~ In 9 a -> ~ In 9 b -> a ++ [9] ++ c = b ++ [9] ++ d -> a = b /\ c = d.
Proof.
  revert b. induction a as [|x a IH]; intros [|y b] A B E; cbn [app] in E.
  - injection E as E. auto.
  - injection E as E _. exfalso. apply B. left. congruence.
  - injection E as E _. exfalso. apply A. left. congruence.
  - injection E as E1 E2. destruct (IH b) as [-> ->]; [intro I; apply A; right; exact I|intro I; apply B; right; exact I|exact E2|]. subst. auto.
Qed.

(* Each constant is printed as its name; the constants are told apart by == and
   by what is printed; OK is the only one that is true. *)
Theorem C73_names :
  st_bool OK = true /\ st_str OK = txt "0" ++ [9] /\
  (forall s w, In (s, w) errors -> st_bool s = false /\ st_str s = txt w ++ [9] /\ st_eqb s OK = false) /\
  (forall i j s w s' w', nth_error errors i = Some (s, w) -> nth_error errors j = Some (s', w') -> (st_eqb s s' = true \/ w = w') -> i = j).
Proof.
  split; [reflexivity|]. split; [vm_compute; reflexivity|]. split.
  - assert (K : forallb (fun '(s, w) => negb (st_bool s) && (if list_eq_dec N.eq_dec (st_str s) (txt w ++ [9]) then true else false) && negb (st_eqb s OK)) errors = true) by (vm_compute; reflexivity).
    rewrite forallb_forall in K. intros s w I. specialize (K (s, w) I). cbn beta iota in K. apply andb_prop in K as [K K3]. apply andb_prop in K as [K1 K2].
    apply negb_true_iff in K1, K3. destruct (list_eq_dec N.eq_dec (st_str s) (txt w ++ [9])) as [E|]; [auto|discriminate].
  - assert (ND1 : NoDup (map (fun p => st_code (fst p)) errors)).
    { assert (D : forall a b : uuid, {a = b} + {a <> b}) by (decide equality; apply N.eq_dec). vm_compute. repeat (constructor; [cbn [In]; intro K; repeat (destruct K as [K|K]; [discriminate K|]); exact K|]). constructor. }
    assert (ND2 : NoDup (map snd errors)).
    { cbn [errors map snd]. repeat (constructor; [cbn [In]; intro K; repeat (destruct K as [K|K]; [discriminate K|]); exact K|]). constructor. }
    intros i j s w s' w' I J [E|E].
    + apply (proj1 (NoDup_nth_error _) ND1); [rewrite map_length; apply nth_error_Some; congruence|]. rewrite !nth_error_map, I, J. cbn [option_map fst]. apply uuid_eqb_eq in E. congruence.
    + apply (proj1 (NoDup_nth_error _) ND2); [rewrite map_length; apply nth_error_Some; congruence|]. rewrite !nth_error_map, I, J. cbn [option_map snd]. congruence.
Qed.

(* An error sent as a UUID text is received as the same error; it reads as its
   name in the scope of ten tildes. *)
Theorem C73_sent n c : n < 2 ^ 60 -> let s := st_comment (st_error n) c in
  st_bool s = false /\ write_uuid (st_code s) = write_word n ++ txt "$~~~~~~~~~~" /\
  st_eqb (st_of (parse_uuid (write_uuid (st_code s))) []) s = true.
Proof.
  intro L. cbn [st_comment st_of st_error st_code]. split; [reflexivity|]. split.
  - unfold write_uuid. cbn [uvalue uorigin]. unfold variety, version. cbn [uvalue uorigin].
    assert (E : word_flags n = 0) by (unfold word_flags; rewrite N.shiftr_div_pow2; apply N.div_small; exact L). rewrite E. reflexivity.
  - unfold st_eqb. cbn [st_of st_code]. apply uuid_eqb_eq. apply C01_uuid_text_roundtrip; [split; cbn [uvalue uorigin]; [apply (N.lt_trans _ (2 ^ 60)); [exact L|vm_compute; reflexivity]|vm_compute; reflexivity]|vm_compute; reflexivity].
Qed.

Lemma full_word origin : Forall is_digit_char origin -> (List.length origin <= 10)%nat -> left_aligned 10 origin = 2 ^ 60 - 1 -> origin = List.repeat 126 10.
Proof.
  assert (DV : forall c d, digit_value c = Some d -> d <= 63 /\ (d = 63 -> c = 126)).
  { intros c d. unfold digit_value. destruct ((48 <=? c) && (c <=? 57)) eqn:E1; [intro Q; injection Q as <-; apply andb_prop in E1 as [A B]; apply N.leb_le in A, B; lia|].
    destruct ((65 <=? c) && (c <=? 90)) eqn:E2; [intro Q; injection Q as <-; apply andb_prop in E2 as [A B]; apply N.leb_le in A, B; lia|].
    destruct (c =? 95) eqn:E3; [intro Q; injection Q as <-; lia|]. destruct ((97 <=? c) && (c <=? 122)) eqn:E4; [intro Q; injection Q as <-; apply andb_prop in E4 as [A B]; apply N.leb_le in A, B; lia|].
    destruct (c =? 126) eqn:E5; [intro Q; injection Q as <-; apply N.eqb_eq in E5; auto|discriminate]. lia. }
  assert (BD : forall k s, (List.length s <= k)%nat -> left_aligned k s <= 64 ^ N.of_nat k - 1 /\ (left_aligned k s = 64 ^ N.of_nat k - 1 -> Forall is_digit_char s -> s = List.repeat 126 k)).
  { induction k as [|k IH]; intros [|c s] L; cbn [List.length] in L; [split; [apply N.le_0_l|reflexivity]|lia| |].
    - cbn [left_aligned]. assert (P : 1 < 64 ^ N.of_nat (Datatypes.S k)). { rewrite Nat2N.inj_succ, N.pow_succ_r'. pose proof (N.pow_nonzero 64 (N.of_nat k) ltac:(lia)). lia. } split; [lia|intro Q; lia].
    - cbn [left_aligned]. replace (Datatypes.S k - 1)%nat with k by lia. destruct (IH s ltac:(lia)) as [IH1 IH2]. rewrite Nat2N.inj_succ, N.pow_succ_r'. pose proof (N.pow_nonzero 64 (N.of_nat k) ltac:(lia)) as P.
      set (p := 64 ^ N.of_nat k) in *. set (x := left_aligned k s) in *. destruct (digit_value c) as [d|] eqn:D.
      + destruct (DV _ _ D) as [D1 D2]. split; [nia|]. intros Q F. inversion F as [|? ? _ F2]; subst. assert (d = 63) by nia. assert (x = p - 1) by nia. cbn [List.repeat]. f_equal; auto.
      + split; [nia|]. intros Q F. inversion F as [|? ? K _]; subst. exfalso. apply K. exact D. }
  intros F L Q. apply (BD 10%nat origin L); [|exact F]. rewrite Q. reflexivity.
Qed.
Lemma text_or_fatal s : (exists vrt value vsn origin, uuid_text s vrt value vsn origin) \/ parse_uuid s = FATAL.
Proof.
  unfold parse_uuid at 1.
    set (m := up_eof (fold_left up_step s up0)).
    destruct (negb (ups m =? 0) && (N.of_nat (length (upvalue m)) <=? 10)
            && (N.of_nat (length (uporigin m)) <=? 10)) eqn:E; [left|right; reflexivity].
    assert (N0 : ups m <> 0) by lia.
    destruct (shape_sound s N0) as (vp & op & Es & Hvp & Hval & Hop & Hor & Hn).
    fold m in Es, Hvp, Hval, Hop, Hor, Hn.
    exists (match vp with [] => 0 | h :: _ => abc h end), (upvalue m),
         (match op with [] => 0 | v :: _ => abc v end), (uporigin m), vp, op.
    split; [exact Es|].
    split.
    { destruct Hvp as [(-> & _)|(-> & Hh)]; [left; auto|right].
      exists (upvariety m). destruct (hexcap_abc _ Hh). auto. }
    split; [apply Forall_digit_char; exact Hval|]. split; [lia|].
    split.
    { destruct Hop as [(-> & _ & ->)|(-> & Hv)]; [left; auto|right].
      exists (upversion m). split; [reflexivity|].
      apply vsn_chars in Hv as (v & Hv). destruct (vsn_abc _ _ Hv) as [<- _]. exact Hv. }
    split; [apply Forall_digit_char; exact Hor|]. split; [lia|]. exact Hn.
Qed.
(* A text received for a status is no error if and only if it is a UUID of
   another scope; a text that is no UUID is an error. *)
Theorem C73_received s : st_bool (st_of (parse_uuid s) []) = true <->
  exists vrt value vsn origin, uuid_text s vrt value vsn origin /\ ~ (vsn = 0 /\ origin = List.repeat 126 10).
Proof.
  destruct (C02_uuid_parser_exact s) as [P F]. unfold st_bool. cbn [st_of st_code]. rewrite negb_true_iff, N.eqb_neq. split.
  - intro E. destruct (text_or_fatal s) as [(vrt & value & vsn & origin & U)|K]; [|rewrite K in E; exfalso; apply E; reflexivity].
    exists vrt, value, vsn, origin. split; [exact U|]. intros [-> ->]. apply E. rewrite (P _ _ _ _ U). reflexivity.
  - intros (vrt & value & vsn & origin & U & N) E. rewrite (P _ _ _ _ U) in E. cbn [uorigin] in E. apply N.
    destruct U as (vp & op & _ & _ & _ & _ & _ & Hor & HL & _). pose proof (left_aligned_bound _ Hor HL) as B. unfold MAX_VALUE in E. change (2 ^ 60) with 1152921504606846976 in *.
    assert (V : vsn = 0) by lia. split; [exact V|]. apply full_word; [exact Hor|exact HL|]. change (2 ^ 60) with 1152921504606846976. lia.
Qed.

(* What is printed tells the word of the code and the comment. A comment changes
   neither the code nor whether it is an error. *)
Theorem C73_printed a b : st_str a = st_str b -> word_payload (uvalue (st_code a)) = word_payload (uvalue (st_code b)) /\ st_note a = st_note b.
Proof.
  unfold st_str. intro E. apply cut_tab in E as [E N]; [|apply no_tab|apply no_tab]. split; [|exact N].
  assert (K : forall w, word_payload w = left_aligned 10 (write_word w)).
  { intro w. destruct (write_word_text w) as (_ & _ & ->). unfold word_payload, MAX_VALUE. change (2 ^ 60 - 1) with (N.ones 60). apply N.land_ones. }
  rewrite !K, E. reflexivity.
Qed.
Theorem C73_comment s c : st_eqb (st_comment s c) s = true /\ st_bool (st_comment s c) = st_bool s /\ st_note (st_comment s c) = c.
Proof. split; [apply uuid_eqb_eq; reflexivity|]. split; reflexivity. Qed.
(* IFOK gives the first error, if there is one *)
Theorem C73_first l s : (Forall (fun x => st_bool x = true) l -> if_ok l s = s) /\
  (forall a e b, l = a ++ e :: b -> Forall (fun x => st_bool x = true) a -> st_bool e = false -> if_ok l s = e).
Proof.
  split.
  - induction 1 as [|x l H _ IH]; [reflexivity|]. cbn [if_ok]. rewrite H. exact IH.
  - intros a e b -> F E. induction F as [|x a H _ IH]; cbn [app if_ok]; [rewrite E; reflexivity|rewrite H; exact IH].
Qed.

(* ---- cases ---- *)
Example C73_case : In (BADARGS, "BADARGS") errors /\ nth_error errors 3 = Some (NOT_FOUND, "NotFound") /\
  write_uuid (st_code (st_comment CAUSEBREAK (txt "no such event"))) = txt "CAUSEBREAK$~~~~~~~~~~" /\ st_str (st_comment CAUSEBREAK (txt "no")) = txt "CAUSEBREAK	no" /\
  st_bool (st_of (parse_uuid (txt "1gOFEM+gritzko")) []) = true /\ st_bool (st_of (parse_uuid (txt "no such event")) []) = false /\
  if_ok [OK; st_comment OK (txt "x"); REPEAT; BADARGS] NOTYPE = REPEAT.
Proof. split; [unfold errors; cbn [In]; auto 9|]. repeat split; vm_compute; reflexivity. Qed.
(* The scope of the code is not printed: an event can look like an error. *)
Theorem C73_look_refuted : exists a b, st_str a = st_str b /\ st_bool a = true /\ st_bool b = false.
Proof. exists (st_of (parse_uuid (txt "BADARGS")) []), BADARGS. vm_compute. auto. Qed.
Print Assumptions C73_names.
Print Assumptions C73_sent.
Print Assumptions C73_received.
Print Assumptions C73_printed.
Print Assumptions C73_comment.
Print Assumptions C73_first.
Print Assumptions C73_case.
Print Assumptions C73_look_refuted.
