(* String tokens and spans. *)
From Verif Require Import Prelude UuidModel UuidSpec UuidProofs CodecModel CodecSpec CodecProofs StringProofs
  TextTable TextModel TextSpec TextSafety TextTokens TokenValues.

(* the string sub-machine occurs twice: as a value and inside a span *)
Record smach : Set := mkSm {
  m_open : N; m_in : N; m_esc : N; m_u0 : N; m_u1 : N; m_u2 : N; m_u3 : N; m_uni : N;
  m_c1 : N; m_c2 : N; m_c3 : N; m_close : N }.
Definition sm_value : smach := mkSm 1 2 51 52 53 54 55 56 57 58 59 3.
Definition sm_span : smach := mkSm 6 7 11 12 13 14 15 16 17 18 19 8.

Definition plain_byte (c : N) : bool := (1 <=? c) && (c <? 128) && negb (inN c [10; 13; 39; 92]).
Definition between (a b c : N) : bool := (a <=? c) && (c <=? b).
Definition is_hex (c : N) : bool := match hex_value c with Some _ => true | None => false end.

Definition entries (m : smach) : list (N * list action) :=
  [(m_open m, [a_begin_string]); (m_in m, [a_end_cp]); (m_uni m, [a_string_uesc; a_end_cp])].
Definition entry_chk (m : smach) (e : N * list action) : bool :=
  let '(st, A) := e in
  for_class [st] plain_byte (fun s c => goes s c A (m_in m)) &&
  for_class [st] (N.eqb 92) (fun s c => goes s c A (m_esc m)) &&
  for_class [st] (between 192 223) (fun s c => goes s c A (m_c1 m)) &&
  for_class [st] (between 224 239) (fun s c => goes s c A (m_c2 m)) &&
  for_class [st] (between 240 247) (fun s c => goes s c A (m_c3 m)) &&
  for_class [st] (N.eqb 39) (fun s c => goes s c (A ++ [a_end_string]) (m_close m)).
Definition sm_ok (m : smach) : bool :=
  forallb (entry_chk m) (entries m) &&
  for_class [m_esc m] (fun c => inN c [34; 39; 47; 92; 98; 110; 114; 116]) (fun s c => goes s c [a_string_esc] (m_in m)) &&
  for_class [m_esc m] (N.eqb 117) (fun s c => goes s c [] (m_u0 m)) &&
  for_class [m_u0 m] is_hex (fun s c => goes s c [] (m_u1 m)) &&
  for_class [m_u1 m] is_hex (fun s c => goes s c [] (m_u2 m)) &&
  for_class [m_u2 m] is_hex (fun s c => goes s c [] (m_u3 m)) &&
  for_class [m_u3 m] is_hex (fun s c => goes s c [] (m_uni m)) &&
  for_class [m_c1 m] (between 128 191) (fun s c => goes s c [] (m_in m)) &&
  for_class [m_c2 m] (between 128 191) (fun s c => goes s c [] (m_c1 m)) &&
  for_class [m_c3 m] (between 128 191) (fun s c => goes s c [] (m_c2 m)).
Lemma sm_ok_true : sm_ok sm_value && sm_ok sm_span = true.
Proof. vm_compute. reflexivity. Qed.

Lemma hex_byte c v : hex_value c = Some v -> is_hex c = true /\ c < 256.
Proof.
  intro H. unfold is_hex. rewrite H. split; [reflexivity|]. unfold hex_value in H.
  destruct ((48 <=? c) && (c <=? 57)) eqn:E1; [lia|]. destruct ((65 <=? c) && (c <=? 70)) eqn:E2; [lia|].
  destruct ((97 <=? c) && (c <=? 102)) eqn:E3; [lia|discriminate].
Qed.

Ltac one := left; reflexivity.

(* one character, entered from the open, inner or after-\uXXXX state *)
Lemma char_run m buf pe st A bs cp l l1 p : sm_ok m = true -> In (st, A) (entries m) -> esc_char bs cp ->
  (forall c, exec_all buf pe A c p l = ECont l1) ->
  exists st', (st' = m_in m \/ st' = m_uni m) /\ runs buf pe st l p bs = Some (st', l1).
Proof.
  intros M I C E. unfold sm_ok in M.
  repeat match type of M with _ && _ = true => let T := fresh "T" in apply andb_prop in M as [M T] end.
  rewrite forallb_forall in M. specialize (M _ I). unfold entry_chk in M.
  repeat match type of M with _ && _ = true => let T := fresh "R" in apply andb_prop in M as [M T] end.
  repeat match goal with H : for_class ?a ?b ?c = true |- _ => change (holds (for_class a b c)) in H end.
  destruct C as [bs cp U P|c cp H|a b c d va vb vc vd Ha Hb Hc Hd].
  - exists (m_in m). split; [left; reflexivity|]. destruct U as [a H|a b H1 H2|a b c H1 H2 H3|a b c d H1 H2 H3 H4].
    + erewrite runs_cons; [reflexivity|apply (for_class_goes _ _ _ _ M st a); [one| |lia]|apply E].
      destruct P as [P|P]; [|cbn in P; lia]. unfold plain_byte, inN. cbn [existsb]. cbn [In] in P. lia.
    + erewrite runs_cons; [|apply (for_class_goes _ _ _ _ R2 st _); [one|unfold between; lia|lia]|apply E].
      erewrite runs_cons; [|apply (for_class_goes _ _ _ _ T1 _ _); [one|unfold between; lia|lia]|reflexivity]. reflexivity.
    + erewrite runs_cons; [|apply (for_class_goes _ _ _ _ R1 st _); [one|unfold between; lia|lia]|apply E].
      erewrite runs_cons; [|apply (for_class_goes _ _ _ _ T0 _ _); [one|unfold between; lia|lia]|reflexivity].
      erewrite runs_cons; [|apply (for_class_goes _ _ _ _ T1 _ _); [one|unfold between; lia|lia]|reflexivity]. reflexivity.
    + erewrite runs_cons; [|apply (for_class_goes _ _ _ _ R0 st _); [one|unfold between; lia|lia]|apply E].
      erewrite runs_cons; [|apply (for_class_goes _ _ _ _ T _ _); [one|unfold between; lia|lia]|reflexivity].
      erewrite runs_cons; [|apply (for_class_goes _ _ _ _ T0 _ _); [one|unfold between; lia|lia]|reflexivity].
      erewrite runs_cons; [|apply (for_class_goes _ _ _ _ T1 _ _); [one|unfold between; lia|lia]|reflexivity]. reflexivity.
  - exists (m_in m). split; [left; reflexivity|].
    erewrite runs_cons; [|apply (for_class_goes _ _ _ _ R3 st _); [one|reflexivity|lia]|apply E].
    erewrite runs_cons; [|apply (for_class_goes _ _ _ _ T7 _ _); [one| |]|reflexivity]; [reflexivity| |];
      cbn [In] in H; intuition (inversion H0 || inversion H); subst; reflexivity.
  - exists (m_uni m). split; [right; reflexivity|].
    destruct (hex_byte _ _ Ha), (hex_byte _ _ Hb), (hex_byte _ _ Hc), (hex_byte _ _ Hd).
    erewrite runs_cons; [|apply (for_class_goes _ _ _ _ R3 st _); [one|reflexivity|lia]|apply E].
    erewrite runs_cons; [|apply (for_class_goes _ _ _ _ T6 _ _); [one|reflexivity|lia]|reflexivity].
    erewrite runs_cons; [|apply (for_class_goes _ _ _ _ T5 _ _); [one|assumption|assumption]|reflexivity].
    erewrite runs_cons; [|apply (for_class_goes _ _ _ _ T4 _ _); [one|assumption|assumption]|reflexivity].
    erewrite runs_cons; [|apply (for_class_goes _ _ _ _ T3 _ _); [one|assumption|assumption]|reflexivity].
    erewrite runs_cons; [|apply (for_class_goes _ _ _ _ T2 _ _); [one|assumption|assumption]|reflexivity]. reflexivity.
Qed.

(* the locals between the quotes: start of the string, count of characters *)
Definition in_str (l : loc) (b n : N) : loc :=
  mkLoc (l_int l) (l_float l) b (l_word l) (l_uuid l) (l_val l) (l_org l)
        (l_var l) (l_vsn l) n (l_span l) (l_term l) (l_op l).

Lemma chars_run m buf pe cs : sm_ok m = true -> esc_text cs -> forall st l b n p,
  (st = m_in m \/ st = m_uni m) -> n + N.of_nat (length cs) < two32 ->
  exists st', (st' = m_in m \/ st' = m_uni m) /\
    runs buf pe st (in_str l b n) p (concat (map fst cs)) = Some (st', in_str l b (n + N.of_nat (length cs))).
Proof.
  intros M. induction 1 as [|[bs cp] cs C F IH]; intros st l b n p HS B.
  - exists st. split; [exact HS|]. cbn [map concat runs length]. rewrite N.add_0_r. reflexivity.
  - cbn [fst snd] in C. cbn [length] in B.
    assert (H : exists A, In (st, A) (entries m) /\ forall c, exec_all buf pe A c p (in_str l b n) = ECont (in_str l b (n + 1))).
    { assert (E : (n + 1) mod two32 = n + 1) by (apply N.mod_small; lia).
      destruct HS as [->| ->].
      - exists [a_end_cp]. split; [cbn; auto|]. intro c. cbn [exec_all exec in_str l_cpn]. rewrite E. reflexivity.
      - exists [a_string_uesc; a_end_cp]. split; [cbn; auto|]. intro c. cbn [exec_all exec in_str l_cpn]. rewrite E. reflexivity. }
    destruct H as (A & IA & E).
    destruct (char_run m buf pe st A bs cp _ _ p M IA C E) as (st1 & S1 & R1).
    destruct (IH st1 l b (n + 1) (p + N.of_nat (length bs)) S1 ltac:(lia)) as (st2 & S2 & R2).
    exists st2. split; [exact S2|]. cbn [map fst concat]. rewrite (runs_app _ _ _ _ _ _ _ _ _ R1), R2.
    cbn [length]. replace (n + N.of_nat (S (length cs))) with (n + 1 + N.of_nat (length cs)) by lia. reflexivity.
Qed.

(* from the opening quote to the closing one *)
Lemma string_run m buf pe cs l p : sm_ok m = true -> esc_text cs -> N.of_nat (length cs) < two32 ->
  runs buf pe (m_open m) l p (concat (map fst cs) ++ [39]) =
  Some (m_close m, push (in_str l p (N.of_nat (length cs)))
          (AStr 0 (N.of_nat (length cs)) p (p + N.of_nat (length (concat (map fst cs)))))).
Proof.
  intros M H B. pose proof M as M'. unfold sm_ok in M'.
  repeat match type of M' with _ && _ = true => apply andb_prop in M' as [M' _] end.
  rewrite forallb_forall in M'.
  assert (Q : forall st A, In (st, A) (entries m) -> look (text_row st) 39 = Some (A ++ [a_end_string], m_close m)).
  { intros st A I. specialize (M' _ I). unfold entry_chk in M'. apply andb_prop in M' as [_ K].
    apply (for_class_goes _ _ _ _ K st 39); [one|reflexivity|lia]. }
  clear M'. inversion H as [|[bs cp] cs' C F]; subst.
  - cbn [map concat app length]. erewrite runs_cons; [|apply (Q _ [a_begin_string]); cbn; auto|].
    2:{ cbn [app exec_all exec l_str]. replace (p <? p) with false by lia. reflexivity. }
    cbn [runs]. rewrite N.add_0_r. reflexivity.
  - cbn [fst snd] in C. cbn [map fst concat]. rewrite <- app_assoc. cbn [length] in B.
    destruct (char_run m buf pe (m_open m) [a_begin_string] bs cp l (in_str l p 0) p M) as (st1 & S1 & R1);
      [left; reflexivity|exact C|reflexivity|].
    rewrite (runs_app _ _ _ _ _ _ _ _ _ R1).
    destruct (chars_run m buf pe cs' M F st1 l p 0 (p + N.of_nat (length bs)) S1 ltac:(lia)) as (st2 & S2 & R2).
    rewrite (runs_app _ _ _ _ _ _ _ _ _ R2). rewrite N.add_0_l.
    replace (p + N.of_nat (length bs) + N.of_nat (length (concat (map fst cs'))))
      with (p + N.of_nat (length (bs ++ concat (map fst cs')))) by (rewrite app_length; lia).
    set (q := p + N.of_nat (length (bs ++ concat (map fst cs')))).
    assert (LE : q <? p = false) by (unfold q; lia). clearbody q.
    assert (E : (N.of_nat (length cs') + 1) mod two32 = N.of_nat (S (length cs'))) by (rewrite N.mod_small; lia).
    destruct S2 as [->| ->].
    + erewrite runs_cons; [|apply (Q _ [a_end_cp]); cbn; auto|].
      2:{ cbn [app exec_all exec in_str l_cpn l_str]. rewrite E, LE. reflexivity. }
      reflexivity.
    + erewrite runs_cons; [|apply (Q _ [a_string_uesc; a_end_cp]); cbn; auto|].
      2:{ cbn [app exec_all exec in_str l_cpn l_str]. rewrite E, LE. reflexivity. }
      reflexivity.
Qed.

Lemma string_token buf pe st l p cs d rest : In st [4; 63; 74] -> esc_text cs -> N.of_nat (length cs) < two32 ->
  is_delim d = true ->
  exists l2, same l l2 /\
    l_op l2 = l_op l ++ [AStr 0 (N.of_nat (length cs)) (p + 1) (p + 1 + N.of_nat (length (concat (map fst cs))))] /\
    run buf pe st l p ((39 :: concat (map fst cs) ++ [39]) ++ d :: rest) =
    run buf pe 4 l2 (p + N.of_nat (length (39 :: concat (map fst cs) ++ [39]))) (d :: rest).
Proof.
  intros I H B D.
  assert (L : look (text_row st) 39 = Some ([], 1)) by (destruct I as [<-|[<-|[<-|[]]]]; reflexivity).
  pose proof sm_ok_true as M. apply andb_prop in M as [M _].
  assert (R : runs buf pe st l p (39 :: concat (map fst cs) ++ [39]) = Some (3, push (in_str l (p + 1) (N.of_nat (length cs)))
          (AStr 0 (N.of_nat (length cs)) (p + 1) (p + 1 + N.of_nat (length (concat (map fst cs))))))).
  { erewrite runs_cons; [|exact L|reflexivity]. apply (string_run sm_value _ _ _ _ _ M H B). }
  rewrite (run_runs _ _ _ _ _ _ _ _ _ R).
  eexists. split; [|split; [|apply (closing_run buf pe [3] [] 4 3); [vm_compute; reflexivity|one|exact D|reflexivity]]].
  - split; reflexivity.
  - reflexivity.
Qed.
