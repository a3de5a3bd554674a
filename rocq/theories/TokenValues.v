(* Value tokens: bare UUIDs, numbers and strings. *)
From Verif Require Import Prelude UuidModel UuidSpec UuidProofs CodecModel CodecSpec CodecProofs StringProofs
  TextTable TextModel TextSpec TextSafety TextTokens.

(* ---- bare UUIDs ---- *)

(* the text read so far, by the state reached *)
Definition shape (st : N) (s : bytes) : Prop :=
  (st = 40 \/ st = 45 -> s <> [] /\ Forall is_dec s) /\
  (st = 46 -> exists a e, s = a ++ [e] /\ a <> [] /\ Forall is_dec a /\ exp_char e) /\
  (st = 47 -> exists a e g, s = a ++ [e; g] /\ a <> [] /\ Forall is_dec a /\ exp_char e /\ sign_char g) /\
  (st = 48 -> exists a e g d, s = a ++ [e; g] ++ d /\ a <> [] /\ Forall is_dec a /\ exp_char e /\ sign_char g /\ d <> [] /\ Forall is_dec d) /\
  (st = 49 -> exists a e d, s = a ++ [e] ++ d /\ a <> [] /\ Forall is_dec a /\ exp_char e /\ d <> [] /\ Forall is_dec d).

Definition bare_states : list N := [40; 41; 42; 43; 44; 45; 46; 47; 48; 49; 50].
Definition uuid_char (c : N) : bool := is_dgt c || is_vsn c || (c =? 47).
Definition shape_step (st c t : N) : bool :=
  negb (t =? 40) &&
  implb (t =? 45) (inN st [40; 45] && is_decimal c) &&
  implb (t =? 46) (inN st [40; 45] && inN c [69; 101]) &&
  implb (t =? 47) ((st =? 46) && inN c [43; 45]) &&
  implb (t =? 48) (inN st [47; 48] && is_decimal c) &&
  implb (t =? 49) (inN st [46; 49] && is_decimal c) &&
  inN t bare_states.
Definition first_step (c t : N) : bool :=
  implb (t =? 40) (is_decimal c) && negb (inN t [45; 46; 47; 48; 49]) && inN t bare_states.

Lemma is_decimal_dec c : is_decimal c = true -> is_dec c.
Proof. unfold is_decimal, is_dec. lia. Qed.

Definition steps_ok : bool :=
  for_class bare_states uuid_char (fun st c =>
    match look (text_row st) c with Some (_, t) => shape_step st c t | None => true end) &&
  for_class [4; 63; 74] uuid_char (fun st c =>
    match look (text_row st) c with Some (_, t) => implb (is_dgt c) (first_step c t) | None => true end).
Lemma steps_ok_true : steps_ok = true. Proof. vm_compute. reflexivity. Qed.

Lemma inN_In x l : inN x l = true -> In x l.
Proof. unfold inN. intro H. apply existsb_exists in H as (y & I & E). apply N.eqb_eq in E. congruence. Qed.

Lemma shape_next st c t s : shape st s -> shape_step st c t = true -> shape t (s ++ [c]).
Proof.
  intros (H40 & H46 & H47 & H48 & H49) H. unfold shape_step in H.
  apply andb_prop in H as [H _]. apply andb_prop in H as [H S49]. apply andb_prop in H as [H S48].
  apply andb_prop in H as [H S47]. apply andb_prop in H as [H S46]. apply andb_prop in H as [S40 S45].
  split; [|split; [|split; [|split]]].
  - intros [->| ->]; [discriminate|]. split; [intro K; apply app_eq_nil in K as [_ K]; discriminate|]. rewrite N.eqb_refl in S45. cbn [implb] in S45.
    apply andb_prop in S45 as [I D]. apply inN_In in I. apply is_decimal_dec in D.
    destruct H40 as [N40 F40]; [cbn in I; intuition|]. apply Forall_app. split; [exact F40|]. constructor; [exact D|constructor].
  - intros ->. rewrite N.eqb_refl in S46. cbn [implb] in S46. apply andb_prop in S46 as [I D]. apply inN_In in I. apply inN_In in D.
    destruct H40 as [N40 F40]; [cbn in I; intuition|]. exists s, c. repeat split; auto. unfold exp_char. cbn in D. intuition.
  - intros ->. rewrite N.eqb_refl in S47. cbn [implb] in S47. apply andb_prop in S47 as [I D]. apply N.eqb_eq in I. apply inN_In in D.
    destruct (H46 I) as (a & e & -> & N1 & F1 & E1). exists a, e, c. rewrite <- app_assoc. repeat split; auto. unfold sign_char. cbn in D. intuition.
  - intros ->. rewrite N.eqb_refl in S48. cbn [implb] in S48. apply andb_prop in S48 as [I D]. apply inN_In in I. apply is_decimal_dec in D.
    destruct I as [<-|[<-|[]]].
    + destruct (H47 eq_refl) as (a & e & g & -> & N1 & F1 & E1 & G1). exists a, e, g, [c]. rewrite <- app_assoc.
      repeat split; auto; discriminate.
    + destruct (H48 eq_refl) as (a & e & g & d & -> & N1 & F1 & E1 & G1 & ND & FD). exists a, e, g, (d ++ [c]).
      rewrite <- !app_assoc. repeat split; auto; [intro K; apply app_eq_nil in K as [_ K]; discriminate|].
      apply Forall_app. split; [exact FD|]. constructor; [exact D|constructor].
  - intros ->. rewrite N.eqb_refl in S49. cbn [implb] in S49. apply andb_prop in S49 as [I D]. apply inN_In in I. apply is_decimal_dec in D.
    destruct I as [<-|[<-|[]]].
    + destruct (H46 eq_refl) as (a & e & -> & N1 & F1 & E1). exists a, e, [c]. rewrite <- app_assoc.
      repeat split; auto; discriminate.
    + destruct (H49 eq_refl) as (a & e & d & -> & N1 & F1 & E1 & ND & FD). exists a, e, (d ++ [c]).
      rewrite <- !app_assoc. repeat split; auto; [intro K; apply app_eq_nil in K as [_ K]; discriminate|].
      apply Forall_app. split; [exact FD|]. constructor; [exact D|constructor].
Qed.

Lemma shape_runs buf pe t : forall s st l p st' l',
  Forall (fun c => uuid_char c = true) t -> In st bare_states -> shape st s ->
  runs buf pe st l p t = Some (st', l') -> shape st' (s ++ t).
Proof.
  induction t as [|c t IH]; intros s st l p st' l' F I S R; cbn [runs] in R.
  - injection R as <- <-. rewrite app_nil_r. exact S.
  - inversion F as [|c' t' F1 F2]; subst.
    pose proof steps_ok_true as T. unfold steps_ok in T. apply andb_prop in T as [T _].
    assert (B : c < 256) by (unfold uuid_char, is_dgt, is_vsn in F1; lia).
    pose proof (for_class_spec _ _ _ T st c I F1 B) as K. cbv beta in K. clear T.
    destruct (look (text_row st) c) as [[acts tgt]|]; [|discriminate].
    destruct (exec_all buf pe acts c p l) as [l1| |]; [|discriminate|discriminate].
    rewrite (app_assoc s [c] t : s ++ c :: t = (s ++ [c]) ++ t).
    apply (IH _ tgt l1 (p + 1) st' l' F2); [|apply (shape_next st); assumption|exact R].
    unfold shape_step in K. apply andb_prop in K as [_ K]. apply inN_In. exact K.
Qed.

Lemma lit_chars t u : uuid_lit t u -> Forall (fun c => uuid_char c = true) t /\ exists c r, t = c :: r /\ is_dgt c = true.
Proof.
  intro H. destruct (lit_parts t u H) as (vp & vr & value & op & vs & origin & -> & HV & DV & NV & LV & HO & DO & LO & EU).
  assert (D : forall s, forallb is_dgt s = true -> Forall (fun c => uuid_char c = true) s).
  { intros s E. rewrite forallb_forall in E. apply Forall_forall. intros c I. unfold uuid_char. rewrite (E c I). reflexivity. }
  split.
  - apply Forall_app. split; [|apply Forall_app; split; [apply D; exact DV|]].
    + destruct HV as [[-> _]|[-> Hh]]; [constructor|]. constructor; [|constructor; [reflexivity|constructor]].
      unfold uuid_char. rewrite (hexcap_dgt vr Hh). reflexivity.
    + destruct HO as [(-> & _ & _)|(-> & Hv & _)]; [constructor|]. constructor; [|apply D; exact DO].
      unfold uuid_char. rewrite Hv. destruct (is_dgt vs); reflexivity.
  - destruct HV as [[-> _]|[-> Hh]].
    + destruct value as [|c value]; [contradiction|]. cbn [forallb] in DV. apply andb_prop in DV as [Dc _].
      cbn [app]. eexists c, _. split; [reflexivity|exact Dc].
    + cbn [app]. eexists vr, _. split; [reflexivity|apply hexcap_dgt; exact Hh].
Qed.

Lemma shape_lit buf pe st l p t u st' l' : In st [4; 63; 74] -> uuid_lit t u ->
  runs buf pe st l p t = Some (st', l') -> shape st' t.
Proof.
  intros I H R. destruct (lit_chars t u H) as (F & c & r & -> & D). cbn [runs] in R.
  inversion F as [|c' t' F1 F2]; subst.
  pose proof steps_ok_true as T. unfold steps_ok in T. apply andb_prop in T as [_ T].
  assert (B : c < 256) by (unfold uuid_char, is_dgt, is_vsn in F1; lia).
  pose proof (for_class_spec _ _ _ T st c I F1 B) as K. cbv beta in K. clear T.
  destruct (look (text_row st) c) as [[acts tgt]|]; [|discriminate].
  destruct (exec_all buf pe acts c p l) as [l1| |]; [|discriminate|discriminate].
  rewrite D in K. cbn [implb] in K. unfold first_step in K. apply andb_prop in K as [K K3]. apply andb_prop in K as [K1 K2].
  change (c :: r) with ([c] ++ r). apply (shape_runs buf pe r [c] tgt l1 (p + 1) st' l' F2); [apply inN_In; exact K3| |exact R].
  split; [|split; [|split; [|split]]].
  - intros [->| ->]; [|discriminate K2]. split; [discriminate|]. rewrite N.eqb_refl in K1. constructor; [apply is_decimal_dec; exact K1|constructor].
  - intros ->. discriminate K2.
  - intros ->. discriminate K2.
  - intros ->. discriminate K2.
  - intros ->. discriminate K2.
Qed.

Lemma bare_token buf pe st l p t u d rest :
  In st [4; 63; 74] -> skipn (N.to_nat p) buf = t ++ d :: rest -> uuid_lit t u ->
  ~ number_like t -> ~ float_like t -> is_delim d = true ->
  exists l2, same l l2 /\ l_op l2 = l_op l ++ [AUuid u] /\
    run buf pe st l p (t ++ d :: rest) = run buf pe 4 l2 (p + N.of_nat (length t)) (d :: rest).
Proof.
  intros I HS HL NN NF HD.
  assert (K : ctx_ok (k_bare st) = true) by (destruct I as [<-|[<-|[<-|[]]]]; vm_compute; reflexivity).
  destruct (uuid_states (k_bare st) buf pe l p t u _ K HS HL) as (st1 & l1 & R & J).
  change (k_start (k_bare st)) with st in R.
  pose proof (shape_lit _ _ _ _ _ _ _ _ _ I HL R) as (S40 & S46 & S47 & S48 & S49).
  eapply (uuid_token (k_bare st) a_end_bare_uuid 4 [44; 46; 50; 42] st); try eassumption;
    [reflexivity|auto|vm_compute; reflexivity|vm_compute; reflexivity|constructor|].
  assert (N40 : st1 <> 40 /\ st1 <> 45).
  { split; intro E; apply NN; apply S40; auto. }
  assert (N48 : st1 <> 48).
  { intro E. apply NF. destruct (S48 E) as (a & e & g & dd & -> & A1 & A2 & A3 & A4 & A5 & A6).
    exists a, e, (g :: dd). repeat split; auto. right. exists g, dd. auto. }
  assert (N49 : st1 <> 49).
  { intro E. apply NF. destruct (S49 E) as (a & e & dd & -> & A1 & A2 & A3 & A5 & A6).
    exists a, e, dd. repeat split; auto. }
  cbn in J |- *. intuition congruence.
Qed.

(* ---- numbers ---- *)

Definition is_sign (c : N) : bool := (c =? 43) || (c =? 45).
Definition is_exp (c : N) : bool := (c =? 69) || (c =? 101).

Definition num_ok : bool :=
  for_class [4; 63; 74] is_sign (fun st c => goes st c [a_begin_int; a_begin_float] 21) &&
  for_class [21] is_decimal (fun st c => goes st c [] 22) &&
  for_class [22] is_decimal (fun st c => goes_in st c [] [22]) &&
  for_class [4; 63; 74] is_decimal (fun st c => goes st c [a_begin_int; a_begin_float; a_begin_uuid; a_begin_word] 40) &&
  for_class [40; 45] is_decimal (fun st c => goes_in st c [] [40; 45]) &&
  for_class [22; 40; 45] (N.eqb 46) (fun st c => goes st c [] 23) &&
  for_class [23] is_decimal (fun st c => goes st c [] 24) &&
  for_class [24] is_decimal (fun st c => goes_in st c [] [24]) &&
  for_class [22; 24] is_exp (fun st c => goes st c [] 35) &&
  for_class [35] is_sign (fun st c => goes st c [] 36) &&
  for_class [35; 36] is_decimal (fun st c => goes st c [] 37) &&
  for_class [37] is_decimal (fun st c => goes_in st c [] [37]) &&
  closing [22] [a_end_int] 4 && closing [40; 45] [a_end_int; a_end_value; a_end_bare_uuid] 4 &&
  closing [24; 37] [a_end_float] 4.
Lemma num_ok_true : num_ok = true. Proof. vm_compute. reflexivity. Qed.

Ltac num_facts :=
  let K := fresh "K" in
  pose proof num_ok_true as K; unfold num_ok in K;
  repeat match type of K with _ && _ = true => let K' := fresh "T" in apply andb_prop in K as [K K'] end;
  repeat match goal with H : for_class ?a ?b ?c = true |- _ => change (holds (for_class a b c)) in H end;
  repeat match goal with H : closing ?a ?b ?c = true |- _ => change (holds (closing a b c)) in H end.

Lemma dec_class s : Forall is_dec s -> Forall (fun c => is_decimal c = true /\ c < 256) s.
Proof. apply Forall_impl. intros c H. unfold is_dec in H. unfold is_decimal. lia. Qed.

Lemma for_class_goes sts f acts tgt : for_class sts f (fun st c => goes st c acts tgt) = true ->
  forall st c, In st sts -> f c = true -> c < 256 -> look (text_row st) c = Some (acts, tgt).
Proof. intros H st c I F B. apply goes_spec. apply (for_class_spec _ _ _ H st c I F B). Qed.

(* the digits before a point, an exponent or a delimiter *)
Lemma sign_run buf pe st l p g a : In st [4; 63; 74] -> is_sign g = true -> a <> [] -> Forall is_dec a ->
  exists l1, runs buf pe st l p (g :: a) = Some (22, l1) /\ same l l1 /\ l_op l1 = l_op l /\ l_int l1 = p /\ l_float l1 = p.
Proof.
  intros I G NA FA. num_facts. destruct a as [|c a]; [contradiction|].
  inversion FA as [|c' a' F1 F2]; subst. apply dec_class in F2.
  assert (Dc : is_decimal c = true /\ c < 256) by (unfold is_dec in F1; unfold is_decimal; lia).
  assert (Bg : g < 256) by (unfold is_sign in G; lia).
  pose proof (for_class_goes _ _ _ _ K st g I G Bg) as L1.
  pose proof (for_class_goes _ _ _ _ T12 21 c (or_introl eq_refl) (proj1 Dc) (proj2 Dc)) as L2.
  erewrite runs_cons; [|exact L1|reflexivity]. erewrite runs_cons; [|exact L2|reflexivity].
  match goal with |- context [runs buf pe 22 ?x ?q a] =>
    destruct (runs_loop buf pe _ _ a T11 F2 22 x q (or_introl eq_refl)) as (st1 & [<-|[]] & R); rewrite R end.
  eexists. split; [reflexivity|]. repeat split.
Qed.

Lemma dec_run buf pe st l p a : In st [4; 63; 74] -> a <> [] -> Forall is_dec a ->
  exists st1 l1, In st1 [40; 45] /\ runs buf pe st l p a = Some (st1, l1) /\ same l l1 /\ l_op l1 = l_op l /\
    l_int l1 = p /\ l_float l1 = p /\ l_word l1 = p.
Proof.
  intros I NA FA. num_facts. destruct a as [|c a]; [contradiction|].
  inversion FA as [|c' a' F1 F2]; subst. apply dec_class in F2.
  assert (Dc : is_decimal c = true /\ c < 256) by (unfold is_dec in F1; unfold is_decimal; lia).
  pose proof (for_class_goes _ _ _ _ T10 st c I (proj1 Dc) (proj2 Dc)) as L1.
  erewrite runs_cons; [|exact L1|reflexivity].
  match goal with |- context [runs buf pe 40 ?x ?q a] =>
    destruct (runs_loop buf pe _ _ a T9 F2 40 x q (or_introl eq_refl)) as (st1 & I1 & R); rewrite R end.
  eexists st1, _. split; [exact I1|]. split; [reflexivity|]. repeat split.
Qed.

Lemma int_accept buf pe d p q l : l_int l = p -> int_too_big (sub buf p q) = false -> p <= q ->
  exec buf pe a_end_int d q l = ECont (mkLoc (l_int l) (l_float l) (l_str l) (l_word l) false (l_val l) (l_org l)
        (l_var l) (l_vsn l) (l_cpn l) (l_span l) (l_term l) (l_op l ++ [AInt p q])).
Proof.
  intros E T LE. cbn [exec]. rewrite E. replace (q <? p) with false by lia. rewrite T, andb_false_r. reflexivity.
Qed.

Lemma int_token buf pe st l p t v d rest :
  In st [4; 63; 74] -> skipn (N.to_nat p) buf = t ++ d :: rest -> int_literal t v ->
  int_too_big t = false -> is_delim d = true ->
  exists l2, same l l2 /\ l_op l2 = l_op l ++ [AInt p (p + N.of_nat (length t))] /\
    run buf pe st l p (t ++ d :: rest) = run buf pe 4 l2 (p + N.of_nat (length t)) (d :: rest).
Proof.
  intros I HS HL HB HD. pose proof (sub_text _ _ _ _ HS) as ST.
  set (q := p + N.of_nat (length t)) in *. assert (LE : p <= q) by (unfold q; lia).
  num_facts.
  assert (CS : (exists a g, t = g :: a /\ is_sign g = true /\ a <> [] /\ Forall is_dec a) \/ (t <> [] /\ Forall is_dec t)).
  { destruct HL as [s Hn F|s Hn F|s Hn F]; [right; auto|left; exists s, 43; auto|left; exists s, 45; auto]. }
  destruct CS as [(a & g & -> & G & NA & FA)|[NA FA]].
  - destruct (sign_run buf pe st l p g a I G NA FA) as (l1 & R & [S1 S2] & O1 & B1 & _).
    rewrite (run_runs _ _ _ _ _ _ _ _ _ R). fold q.
    eexists. split; [|split; [|apply (closing_run _ _ _ _ _ _ _ _ _ _ _ T1); [left; reflexivity|exact HD|]]].
    3:{ cbn [exec_all]. rewrite (int_accept buf pe d p q l1 B1); [reflexivity|rewrite ST; exact HB|exact LE]. }
    + split; cbn; assumption.
    + cbn. rewrite O1. reflexivity.
  - destruct (dec_run buf pe st l p t I NA FA) as (st1 & l1 & I1 & R & [S1 S2] & O1 & B1 & _ & W1).
    rewrite (run_runs _ _ _ _ _ _ _ _ _ R). fold q.
    eexists. split; [|split; [|apply (closing_run _ _ _ _ _ _ _ _ _ _ _ T0); [exact I1|exact HD|]]].
    3:{ cbn [exec_all]. rewrite (int_accept buf pe d p q l1 B1); [|rewrite ST; exact HB|exact LE].
        cbn [exec l_word l_uuid]. rewrite W1. replace (q <? p) with false by lia. reflexivity. }
    + split; cbn; assumption.
    + cbn. rewrite O1. reflexivity.
Qed.

(* an over-large integer: the parser leaves the machine in the state the
   delimiter leads to, with nothing consumed but that delimiter *)
Lemma big_int_token buf pe st l p t v d rest acts tgt :
  In st [4; 63; 74] -> skipn (N.to_nat p) buf = t ++ d :: rest -> int_literal t v ->
  int_too_big t = true -> (19 <= length t)%nat -> is_delim d = true -> look (text_row 4) d = Some (acts, tgt) ->
  exists l2, same l l2 /\ run buf pe st l p (t ++ d :: rest) = Some (tgt, l2, p + N.of_nat (length t) + 1).
Proof.
  intros I HS HL HB HN HD LD. pose proof (sub_text _ _ _ _ HS) as ST.
  set (q := p + N.of_nat (length t)) in *. assert (LE : p <= q /\ 19 <= q - p) by (unfold q; lia).
  assert (X : forall l1, l_int l1 = p -> exec buf pe a_end_int d q l1 = EBreak l1).
  { intros l1 E. cbn [exec]. rewrite E. replace (q <? p) with false by lia. rewrite ST, HB.
    replace (19 <=? q - p) with true by lia. reflexivity. }
  assert (Y : forall sts pend st1, closing sts pend 4 = true -> In st1 sts -> look (text_row st1) d = Some (pend ++ acts, tgt)).
  { intros sts pend st1 C J. pose proof (for_class_spec _ _ _ C st1 d J HD (delim_byte d HD)) as W. cbv beta in W.
    rewrite LD in W. destruct (look (text_row st1) d) as [[a' t']|]; [|discriminate].
    apply andb_prop in W as [W1 W2]. apply acts_eqb_eq in W1. apply N.eqb_eq in W2. congruence. }
  num_facts.
  assert (CS : (exists a g, t = g :: a /\ is_sign g = true /\ a <> [] /\ Forall is_dec a) \/ (t <> [] /\ Forall is_dec t)).
  { destruct HL as [s Hn F|s Hn F|s Hn F]; [right; auto|left; exists s, 43; auto|left; exists s, 45; auto]. }
  destruct CS as [(a & g & -> & G & NA & FA)|[NA FA]].
  - destruct (sign_run buf pe st l p g a I G NA FA) as (l1 & R & S & O1 & B1 & _).
    exists l1. split; [exact S|].
    rewrite (run_runs _ _ _ _ _ _ _ _ _ R). fold q. cbn [run]. rewrite (Y _ _ _ T1 (or_introl eq_refl)).
    cbn [app exec_all]. rewrite (X l1 B1). reflexivity.
  - destruct (dec_run buf pe st l p t I NA FA) as (st1 & l1 & I1 & R & S & O1 & B1 & _ & W1).
    exists l1. split; [exact S|].
    rewrite (run_runs _ _ _ _ _ _ _ _ _ R). fold q. cbn [run]. rewrite (Y _ _ _ T0 I1).
    cbn [app exec_all]. rewrite (X l1 B1). reflexivity.
Qed.

(* floats *)
Lemma float_accept buf pe d p q l : l_float l = p -> p <= q -> q - p <= 24 ->
  exec buf pe a_end_float d q l = ECont (push l (AFloat p q)).
Proof.
  intros E LE B. cbn [exec]. rewrite E. replace (q <? p) with false by lia. replace (24 <? q - p) with false by lia. reflexivity.
Qed.

Lemma exp_run buf pe st l p x : In st [22; 24] -> exponent x ->
  exists st1, (x = [] -> st1 = st) /\ (x <> [] -> st1 = 37) /\ runs buf pe st l p x = Some (st1, l).
Proof.
  intros I [->|(e & g & dd & -> & He & Hg & ND & FD)]; [exists st; repeat split; congruence|].
  exists 37. split; [discriminate|]. split; [reflexivity|]. num_facts.
  destruct dd as [|c dd]; [contradiction|]. inversion FD as [|c' a' F1 F2]; subst. apply dec_class in F2.
  assert (Dc : is_decimal c = true /\ c < 256) by (unfold is_dec in F1; unfold is_decimal; lia).
  assert (De : is_exp e = true /\ e < 256) by (unfold exp_char in He; unfold is_exp; lia).
  erewrite runs_cons; [|exact (for_class_goes _ _ _ _ T5 st e I (proj1 De) (proj2 De))|reflexivity].
  destruct Hg as [->|(s & -> & Hs)]; cbn [app].
  - erewrite runs_cons; [|exact (for_class_goes _ _ _ _ T3 35 c (or_introl eq_refl) (proj1 Dc) (proj2 Dc))|reflexivity].
    match goal with |- context [runs buf pe 37 ?x ?q dd] =>
      destruct (runs_loop buf pe _ _ dd T2 F2 37 x q (or_introl eq_refl)) as (st1 & [<-|[]] & R); rewrite R end. reflexivity.
  - assert (Ds : is_sign s = true /\ s < 256) by (unfold sign_char in Hs; unfold is_sign; lia).
    erewrite runs_cons; [|exact (for_class_goes _ _ _ _ T4 35 s (or_introl eq_refl) (proj1 Ds) (proj2 Ds))|reflexivity].
    erewrite runs_cons; [|exact (for_class_goes _ _ _ _ T3 36 c (or_intror (or_introl eq_refl)) (proj1 Dc) (proj2 Dc))|reflexivity].
    match goal with |- context [runs buf pe 37 ?x ?q dd] =>
      destruct (runs_loop buf pe _ _ dd T2 F2 37 x q (or_introl eq_refl)) as (st1 & [<-|[]] & R); rewrite R end. reflexivity.
Qed.

Lemma float_token buf pe st l p t d rest :
  In st [4; 63; 74] -> float_lit t -> (length t <= 24)%nat -> is_delim d = true ->
  exists l2, same l l2 /\ l_op l2 = l_op l ++ [AFloat p (p + N.of_nat (length t))] /\
    run buf pe st l p (t ++ d :: rest) = run buf pe 4 l2 (p + N.of_nat (length t)) (d :: rest).
Proof.
  intros I (g & a & f & x & -> & Hg & NA & FA & HX & HF) HN HD.
  assert (A : exists st1 l1, In st1 [22; 40; 45] /\ (g <> [] -> st1 = 22) /\ runs buf pe st l p (g ++ a) = Some (st1, l1) /\
                same l l1 /\ l_op l1 = l_op l /\ l_float l1 = p).
  { destruct Hg as [->|(s & -> & Hs)].
    - destruct (dec_run buf pe st l p a I NA FA) as (st1 & l1 & I1 & R & S & O1 & _ & B1 & W1).
      exists st1, l1. split; [cbn in I1 |- *; tauto|]. split; [congruence|]. auto.
    - assert (Ds : is_sign s = true) by (unfold sign_char in Hs; unfold is_sign; lia).
      destruct (sign_run buf pe st l p s a I Ds NA FA) as (l1 & R & S & O1 & _ & B1).
      exists 22, l1. split; [cbn; tauto|]. auto. }
  destruct A as (st1 & l1 & I1 & G1 & R1 & S1 & O1 & B1).
  assert (Z : exists st2, In st2 [24; 37] /\ runs buf pe st l p (g ++ a ++ f ++ x) = Some (st2, l1)).
  { rewrite app_assoc. rewrite (runs_app _ _ _ _ _ _ _ _ _ R1).
    destruct HF as [(b & -> & NB & FB)|(-> & NG & NX)].
    - num_facts. destruct b as [|c b]; [contradiction|]. inversion FB as [|c' a' F1 F2]; subst. apply dec_class in F2.
      assert (Dc : is_decimal c = true /\ c < 256) by (unfold is_dec in F1; unfold is_decimal; lia).
      cbn [app].
      erewrite runs_cons; [|exact (for_class_goes _ _ _ _ T8 st1 46 I1 eq_refl ltac:(lia))|reflexivity].
      erewrite runs_cons; [|exact (for_class_goes _ _ _ _ T7 23 c (or_introl eq_refl) (proj1 Dc) (proj2 Dc))|reflexivity].
      match goal with |- context [runs buf pe 24 ?y ?q (b ++ x)] =>
        destruct (runs_loop buf pe _ _ b T6 F2 24 y q (or_introl eq_refl)) as (s3 & [<-|[]] & R3);
        rewrite (runs_app _ _ _ _ _ _ _ _ _ R3) end.
      match goal with |- context [runs buf pe 24 ?y ?q x] =>
        destruct (exp_run buf pe 24 y q x (or_intror (or_introl eq_refl)) HX) as (s4 & E1 & E2 & R4); rewrite R4 end.
      exists s4. split; [|reflexivity]. destruct x; [rewrite (E1 eq_refl)|rewrite E2 by discriminate]; cbn; tauto.
    - rewrite (G1 NG). cbn [app].
      match goal with |- context [runs buf pe 22 ?y ?q x] =>
        destruct (exp_run buf pe 22 y q x (or_introl eq_refl) HX) as (s4 & E1 & E2 & R4); rewrite R4 end.
      exists s4. split; [|reflexivity]. rewrite (E2 NX). cbn; tauto. }
  destruct Z as (st2 & I2 & R2). rewrite (run_runs _ _ _ _ _ _ _ _ _ R2).
  set (q := p + N.of_nat (length (g ++ a ++ f ++ x))) in *. assert (LE : p <= q /\ q - p <= 24) by (unfold q; lia).
  exists (push l1 (AFloat p q)). split; [destruct S1; split; assumption|]. split; [cbn; rewrite O1; reflexivity|].
  num_facts. apply (closing_run _ _ _ _ _ _ _ _ _ _ _ T); [exact I2|exact HD|].
  cbn [exec_all]. rewrite (float_accept buf pe d p q l1 B1); [reflexivity|apply LE|apply LE].
Qed.
