(* What the parser automaton does on each token of an op. *)
From Verif Require Import Prelude UuidModel UuidSpec UuidProofs CodecModel CodecSpec CodecProofs StringProofs
  TextTable TextModel TextSpec TextSafety.

(* ---- looking up the table by computation ---- *)

Scheme Equality for action.
Fixpoint acts_eqb (a b : list action) : bool :=
  match a, b with
  | [], [] => true
  | x :: a', y :: b' => action_beq x y && acts_eqb a' b'
  | _, _ => false
  end.
Lemma acts_eqb_eq a : forall b, acts_eqb a b = true -> a = b.
Proof.
  induction a as [|x a IH]; intros [|y b] H; cbn [acts_eqb] in H; try discriminate; [reflexivity|].
  apply andb_prop in H as [H1 H2]. apply internal_action_dec_bl in H1. apply IH in H2. congruence.
Qed.

Definition goes (st c : N) (acts : list action) (tgt : N) : bool :=
  match look (text_row st) c with Some (a, t) => acts_eqb a acts && (t =? tgt) | None => false end.
Definition goes_in (st c : N) (acts : list action) (tgts : list N) : bool := existsb (goes st c acts) tgts.

Lemma goes_spec st c acts tgt : goes st c acts tgt = true -> look (text_row st) c = Some (acts, tgt).
Proof.
  unfold goes. destruct (look (text_row st) c) as [[a t]|]; [|discriminate].
  intro H. apply andb_prop in H as [H1 H2]. apply acts_eqb_eq in H1. apply N.eqb_eq in H2. congruence.
Qed.
Lemma goes_in_spec st c acts tgts : goes_in st c acts tgts = true ->
  exists tgt, In tgt tgts /\ look (text_row st) c = Some (acts, tgt).
Proof.
  unfold goes_in. intro H. apply existsb_exists in H as (t & I & H). exists t. split; [exact I|].
  apply goes_spec. exact H.
Qed.

(* for all states of a list and all bytes of a class *)
Definition for_class (sts : list N) (f : N -> bool) (chk : N -> N -> bool) : bool :=
  forallb (fun st => forall_below 256 (fun c => implb (f c) (chk st c))) sts.
Lemma for_class_spec sts f chk : for_class sts f chk = true ->
  forall st c, In st sts -> f c = true -> c < 256 -> chk st c = true.
Proof.
  unfold for_class. intros H st c I F B. rewrite forallb_forall in H. specialize (H st I).
  pose proof (forall_below_spec 256 _ H c ltac:(change (N.of_nat 256) with 256; exact B)) as K. cbv beta in K.
  rewrite F in K. exact K.
Qed.

(* table facts hidden from lia *)
Definition holds (b : bool) : Prop := b = true.

(* ---- reading a stretch of text without leaving the machine ---- *)

Fixpoint runs (buf : bytes) (pe : N) (st : N) (l : loc) (p : N) (s : bytes) : option (N * loc) :=
  match s with
  | [] => Some (st, l)
  | c :: t =>
      match look (text_row st) c with
      | None => None
      | Some (acts, tgt) =>
          match exec_all buf pe acts c p l with
          | ECont l' => runs buf pe tgt l' (p + 1) t
          | _ => None
          end
      end
  end.

Lemma run_runs buf pe s1 s2 : forall st l p st' l',
  runs buf pe st l p s1 = Some (st', l') ->
  run buf pe st l p (s1 ++ s2) = run buf pe st' l' (p + N.of_nat (length s1)) s2.
Proof.
  induction s1 as [|c t IH]; intros st l p st' l' H; cbn [runs] in H.
  - injection H as <- <-. cbn [app length]. rewrite N.add_0_r. reflexivity.
  - cbn [app run length]. destruct (look (text_row st) c) as [[acts tgt]|]; [|discriminate].
    destruct (exec_all buf pe acts c p l) as [l1| |]; [|discriminate|discriminate].
    rewrite (IH _ _ _ _ _ H). f_equal. lia.
Qed.

Lemma runs_app buf pe s1 s2 : forall st l p st' l',
  runs buf pe st l p s1 = Some (st', l') ->
  runs buf pe st l p (s1 ++ s2) = runs buf pe st' l' (p + N.of_nat (length s1)) s2.
Proof.
  induction s1 as [|c t IH]; intros st l p st' l' H; cbn [runs] in H.
  - injection H as <- <-. cbn [app length]. rewrite N.add_0_r. reflexivity.
  - cbn [app runs length]. destruct (look (text_row st) c) as [[acts tgt]|]; [|discriminate].
    destruct (exec_all buf pe acts c p l) as [l1| |]; [|discriminate|discriminate].
    rewrite (IH _ _ _ _ _ H). f_equal. lia.
Qed.

Lemma runs_cons buf pe st l p c t acts tgt l1 :
  look (text_row st) c = Some (acts, tgt) -> exec_all buf pe acts c p l = ECont l1 ->
  runs buf pe st l p (c :: t) = runs buf pe tgt l1 (p + 1) t.
Proof. intros H1 H2. cbn [runs]. rewrite H1, H2. reflexivity. Qed.

(* a class of characters on which a set of states loops without action *)
Lemma runs_loop buf pe sts f s : for_class sts f (fun st c => goes_in st c [] sts) = true ->
  Forall (fun c => f c = true /\ c < 256) s ->
  forall st l p, In st sts -> exists st', In st' sts /\ runs buf pe st l p s = Some (st', l).
Proof.
  intros T. induction s as [|c t IH]; intros F st l p I; [exists st; split; [exact I|reflexivity]|].
  inversion F as [|c' t' [F1 F2] F3]; subst.
  pose proof (for_class_spec _ _ _ T st c I F1 F2) as K. cbv beta in K.
  destruct (goes_in_spec _ _ _ _ K) as (tgt & I' & L).
  destruct (IH F3 tgt l (p + 1) I') as (st' & I'' & R). exists st'. split; [exact I''|].
  rewrite (runs_cons _ _ _ _ _ _ _ _ _ _ L eq_refl). exact R.
Qed.

Lemma sub_text buf p w r : skipn (N.to_nat p) buf = w ++ r -> sub buf p (p + N.of_nat (length w)) = w.
Proof.
  intro H. unfold sub. rewrite H. replace (N.to_nat (p + N.of_nat (length w) - p)) with (length w) by lia.
  rewrite firstn_app, Nat.sub_diag, firstn_all. cbn [firstn]. apply app_nil_r.
Qed.

Lemma skipn_text (buf : bytes) p w r : skipn (N.to_nat p) buf = w ++ r ->
  skipn (N.to_nat (p + N.of_nat (length w))) buf = r.
Proof.
  intro H. replace (N.to_nat (p + N.of_nat (length w))) with (length w + N.to_nat p)%nat by lia.
  rewrite <- skipn_skipn, H, skipn_app, skipn_all, Nat.sub_diag. reflexivity.
Qed.

(* what tokens leave alone *)
Definition same (l l' : loc) : Prop := l_span l' = l_span l /\ l_term l' = l_term l.
Lemma same_refl l : same l l. Proof. split; reflexivity. Qed.
Lemma same_trans a b c : same a b -> same b c -> same a c.
Proof. intros [H1 H2] [H3 H4]. split; congruence. Qed.

(* delimiters: white space, terminators, opening brackets and quotes *)
Definition is_delim (c : N) : bool :=
  existsb (N.eqb c) [9; 10; 13; 32; 33; 39; 40; 44; 59; 61; 62; 63; 94].
Lemma delim_byte c : is_delim c = true -> c < 256.
Proof. unfold is_delim. cbn [existsb]. lia. Qed.

(* at a delimiter, state st first executes pend and then behaves as state base *)
Definition closing (sts : list N) (pend : list action) (base : N) : bool :=
  for_class sts is_delim (fun st c =>
    match look (text_row base) c, look (text_row st) c with
    | Some (a, t), Some (a', t') => acts_eqb a' (pend ++ a) && (t' =? t)
    | _, _ => false
    end).

Lemma exec_all_app buf pe a b c p : forall l l1, exec_all buf pe a c p l = ECont l1 ->
  exec_all buf pe (a ++ b) c p l = exec_all buf pe b c p l1.
Proof.
  induction a as [|x a IH]; intros l l1 H; cbn [exec_all app] in *; [injection H as <-; reflexivity|].
  destruct (exec buf pe x c p l); [|discriminate|discriminate]. apply IH. exact H.
Qed.

Lemma closing_run buf pe sts pend base st l l1 p d rest :
  closing sts pend base = true -> In st sts -> is_delim d = true ->
  exec_all buf pe pend d p l = ECont l1 ->
  run buf pe st l p (d :: rest) = run buf pe base l1 p (d :: rest).
Proof.
  intros T I D E. pose proof (for_class_spec _ _ _ T st d I D (delim_byte d D)) as K. cbv beta in K.
  cbn [run]. destruct (look (text_row base) d) as [[a t]|]; [|discriminate].
  destruct (look (text_row st) d) as [[a' t']|]; [|discriminate].
  apply andb_prop in K as [K1 K2]. apply acts_eqb_eq in K1. apply N.eqb_eq in K2. subst a' t'.
  rewrite (exec_all_app _ _ _ _ _ _ _ _ E). reflexivity.
Qed.

(* ---- UUID tokens ---- *)

Record ctx : Set := mkCtx {
  k_start : N; k_Vh : list N; k_V : list N; k_Q : list N; k_P : list N; k_O : list N }.
Definition k_id : ctx := mkCtx 61 [62] [62; 73] [72] [70] [71].
Definition k_ref : ctx := mkCtx 64 [65] [65; 69] [68] [66] [67].
Definition k_quoted : ctx := mkCtx 28 [29] [29; 39] [38] [30] [31].
Definition k_bare (s : N) : ctx := mkCtx s [40; 50] [40; 44; 45; 46; 49; 50] [43] [41; 47] [42; 48].

Definition subsetN (a b : list N) : bool := forallb (fun x => inN x b) a.
Definition inset (x : N) (l : list N) : Prop := In x l.

Definition starts_uuid : list (list action) :=
  [[a_begin_uuid; a_begin_word]; [a_begin_int; a_begin_float; a_begin_uuid; a_begin_word]].

Definition ctx_ok (k : ctx) : bool :=
  for_class [k_start k] is_dgt (fun st c => existsb (fun a => goes_in st c a (k_V k)) starts_uuid) &&
  for_class [k_start k] is_hexcap (fun st c => existsb (fun a => goes_in st c a (k_Vh k)) starts_uuid) &&
  for_class (k_V k) is_dgt (fun st c => goes_in st c [] (k_V k)) &&
  for_class (k_Vh k) (N.eqb 47) (fun st c => goes_in st c [a_variety] (k_Q k)) &&
  for_class (k_Q k) is_dgt (fun st c => goes_in st c [a_begin_word] (k_V k)) &&
  for_class (k_V k) is_vsn (fun st c => goes_in st c [a_end_value; a_version] (k_P k)) &&
  for_class (k_P k) is_dgt (fun st c => goes_in st c [a_begin_word] (k_O k)) &&
  for_class (k_O k) is_dgt (fun st c => goes_in st c [] (k_O k)).

Lemma ctxs_ok : forallb ctx_ok [k_id; k_ref; k_quoted; k_bare 4; k_bare 63; k_bare 74] = true.
Proof. vm_compute. reflexivity. Qed.

Lemma digits_class s : forallb is_dgt s = true -> Forall (fun c => is_dgt c = true /\ c < 256) s.
Proof.
  intro H. rewrite forallb_forall in H. apply Forall_forall. intros c I. specialize (H c I).
  split; [exact H|]. apply dgt_ok in H. lia.
Qed.

(* the state after a UUID text: its parts are in the locals, the last word still open *)
Definition uuid_open (k : ctx) (buf : bytes) (l l' : loc) (p' st' : N) (vr : N) (value : bytes) (vs : N) (origin : bytes) (op : bytes) : Prop :=
  same l l' /\ l_op l' = l_op l /\ l_uuid l' = true /\ l_var l' = vr /\ l_vsn l' = vs /\
  ((op = [] /\ In st' (k_V k) /\ l_org l' = [] /\ l_word l' <= p' /\ sub buf (l_word l') p' = value) \/
   (op <> [] /\ In st' (k_O k) /\ l_val l' = value /\ l_word l' <= p' /\ sub buf (l_word l') p' = origin)).

Lemma begin_uuid_exec buf pe a c p l : In a starts_uuid ->
  exists l1, exec_all buf pe a c p l = ECont l1 /\ same l l1 /\ l_op l1 = l_op l /\ l_uuid l1 = true /\
    l_var l1 = 48 /\ l_vsn l1 = 36 /\ l_org l1 = [] /\ l_word l1 = p.
Proof.
  intros [<-|[<-|[]]]; eexists; (split; [reflexivity|]); cbn; repeat split.
Qed.

Lemma uuid_run k buf pe st l p vp vr value op vs origin rest :
  ctx_ok k = true -> st = k_start k ->
  skipn (N.to_nat p) buf = (vp ++ value ++ op) ++ rest ->
  (vp = [] /\ vr = 48) \/ (vp = [vr; 47] /\ is_hexcap vr = true) ->
  forallb is_dgt value = true -> value <> [] ->
  (op = [] /\ vs = 36 /\ origin = []) \/ (op = vs :: origin /\ is_vsn vs = true /\ origin <> []) ->
  forallb is_dgt origin = true ->
  exists st' l', runs buf pe st l p (vp ++ value ++ op) = Some (st', l') /\
    uuid_open k buf l l' (p + N.of_nat (length (vp ++ value ++ op))) st' vr value vs origin op.
Proof.
  intros K -> HS HV DV NV HO DO.
  unfold ctx_ok in K.
  apply andb_prop in K as [K K8]. apply andb_prop in K as [K K7]. apply andb_prop in K as [K K6].
  apply andb_prop in K as [K K5]. apply andb_prop in K as [K K4]. apply andb_prop in K as [K K3].
  apply andb_prop in K as [K1 K2].
  repeat match goal with H : for_class ?a ?b ?c = true |- _ => change (holds (for_class a b c)) in H end.
  (* variety and the first digit of the value, then the other digits *)
  assert (A : exists st1 l1, runs buf pe (k_start k) l p (vp ++ value) = Some (st1, l1) /\ In st1 (k_V k) /\
     same l l1 /\ l_op l1 = l_op l /\ l_uuid l1 = true /\ l_var l1 = vr /\ l_vsn l1 = 36 /\ l_org l1 = [] /\
     l_word l1 = p + N.of_nat (length vp)).
  { destruct value as [|c value]; [contradiction|]. cbn [forallb] in DV. apply andb_prop in DV as [Dc DV].
    pose proof (digits_class value DV) as CV.
    assert (Bc : c < 256) by (apply dgt_ok in Dc; lia).
    destruct HV as [[-> ->]|[-> Hh]].
    - cbn [app]. pose proof (for_class_spec _ _ _ K1 (k_start k) c (or_introl eq_refl) Dc Bc) as Q. cbv beta in Q.
      apply existsb_exists in Q as (a & Ia & Q). destruct (goes_in_spec _ _ _ _ Q) as (t1 & I1 & L1). clear Q.
      destruct (begin_uuid_exec buf pe a c p l Ia) as (l1 & E1 & S1 & O1 & U1 & V1 & W1 & G1 & Z1).
      destruct (runs_loop buf pe _ _ value K3 CV t1 l1 (p + 1) I1) as (st1 & I2 & R).
      exists st1, l1. rewrite (runs_cons _ _ _ _ _ _ _ _ _ _ L1 E1). split; [exact R|].
      split; [exact I2|]. split; [exact S1|]. repeat split; auto; try apply S1. rewrite Z1. cbn [length]. lia.
    - cbn [app].
      assert (Bh : vr < 256) by (unfold is_hexcap in Hh; lia).
      pose proof (for_class_spec _ _ _ K2 (k_start k) vr (or_introl eq_refl) Hh Bh) as Q. cbv beta in Q.
      apply existsb_exists in Q as (a & Ia & Q). destruct (goes_in_spec _ _ _ _ Q) as (t1 & I1 & L1). clear Q.
      destruct (begin_uuid_exec buf pe a vr p l Ia) as (l1 & E1 & S1 & O1 & U1 & V1 & W1 & G1 & Z1).
      pose proof (for_class_spec _ _ _ K4 t1 47 I1 eq_refl ltac:(lia)) as Q2. cbv beta in Q2.
      destruct (goes_in_spec _ _ _ _ Q2) as (t2 & I2 & L2). clear Q2.
      pose proof (for_class_spec _ _ _ K5 t2 c I2 Dc Bc) as Q3. cbv beta in Q3.
      destruct (goes_in_spec _ _ _ _ Q3) as (t3 & I3 & L3). clear Q3.
      rewrite (runs_cons _ _ _ _ _ _ _ _ _ _ L1 E1).
      erewrite runs_cons; [|exact L2|reflexivity]. erewrite runs_cons; [|exact L3|reflexivity].
      match goal with |- context [runs buf pe t3 ?x ?q value] => destruct (runs_loop buf pe _ _ value K3 CV t3 x q I3) as (st1 & I4 & R); rewrite R end.
      eexists st1, _. split; [reflexivity|]. split; [exact I4|].
      assert (EV : nth (N.to_nat (p + 1 - 1)) buf 0 = vr).
      { replace (p + 1 - 1) with p by lia. rewrite <- (firstn_skipn (N.to_nat p) buf), HS.
        assert (LP : length (firstn (N.to_nat p) buf) = N.to_nat p).
        { rewrite firstn_length. assert (length (skipn (N.to_nat p) buf) <> O) by (rewrite HS; discriminate).
          rewrite skipn_length in H. lia. }
        rewrite app_nth2 by (rewrite LP; lia). rewrite LP, Nat.sub_diag. reflexivity. }
      cbn. rewrite EV. destruct S1 as [S1 S2]. repeat split; auto. cbn [length]. lia. }
  destruct A as (st1 & l1 & R1 & I1 & S1 & O1 & U1 & V1 & W1 & G1 & Z1).
  assert (HSV : skipn (N.to_nat (p + N.of_nat (length vp))) buf = value ++ op ++ rest).
  { apply (skipn_text buf p vp). rewrite HS, <- !app_assoc. reflexivity. }
  pose proof (sub_text buf _ value _ HSV) as SV.
  rewrite app_assoc. rewrite (runs_app _ _ _ _ _ _ _ _ _ R1).
  destruct HO as [(-> & -> & ->)|(-> & Hv & No)].
  - cbn [runs]. exists st1, l1. split; [reflexivity|]. split; [exact S1|]. split; [exact O1|]. split; [exact U1|].
    split; [exact V1|]. split; [exact W1|]. left. split; [reflexivity|]. split; [exact I1|]. split; [exact G1|].
    rewrite Z1, app_nil_r. rewrite app_length, Nnat.Nat2N.inj_add, N.add_assoc. split; [lia|exact SV].
  - destruct origin as [|c origin]; [contradiction|]. cbn [forallb] in DO. apply andb_prop in DO as [Dc DO].
    pose proof (digits_class origin DO) as CO.
    assert (Bc : c < 256) by (apply dgt_ok in Dc; lia).
    assert (Bv : vs < 256) by (unfold is_vsn in Hv; lia).
    pose proof (for_class_spec _ _ _ K6 st1 vs I1 Hv Bv) as Q. cbv beta in Q.
    destruct (goes_in_spec _ _ _ _ Q) as (t2 & I2 & L2). clear Q.
    pose proof (for_class_spec _ _ _ K7 t2 c I2 Dc Bc) as Q3. cbv beta in Q3.
    destruct (goes_in_spec _ _ _ _ Q3) as (t3 & I3 & L3). clear Q3.
    set (p1 := p + N.of_nat (length (vp ++ value))).
    assert (P1 : p1 = p + N.of_nat (length vp) + N.of_nat (length value)) by (unfold p1; rewrite app_length; lia).
    assert (NLT : p1 <? l_word l1 = false) by lia.
    erewrite runs_cons; [|exact L2|cbn [exec_all exec]; rewrite NLT; reflexivity].
    erewrite runs_cons; [|exact L3|reflexivity].
    match goal with |- context [runs buf pe t3 ?x ?q origin] => destruct (runs_loop buf pe _ _ origin K8 CO t3 x q I3) as (st4 & I4 & R); rewrite R end.
    eexists st4, _. split; [reflexivity|]. destruct S1 as [S1 S2].
    split; [split; cbn; assumption|]. cbn. split; [exact O1|]. split; [exact U1|]. split; [exact V1|]. split; [reflexivity|].
    right. split; [discriminate|]. split; [exact I4|].
    split; [rewrite Z1, P1; exact SV|].
    split; [rewrite !app_length in *; cbn [length]; lia|].
    replace (p + N.of_nat (length ((vp ++ value) ++ vs :: c :: origin))) with (p1 + 1 + N.of_nat (length (c :: origin)))
      by (unfold p1; rewrite !app_length; cbn [length]; lia).
    apply (sub_text buf (p1 + 1) (c :: origin) rest).
    replace (p1 + 1) with (p + N.of_nat (length vp) + N.of_nat (length (value ++ [vs]))).
    2:{ rewrite app_length. cbn [length]. lia. }
    apply (skipn_text buf). rewrite HSV, <- !app_assoc. reflexivity.
Qed.

Lemma lit_parts t u : uuid_lit t u ->
  exists vp vr value op vs origin, t = vp ++ value ++ op /\
    ((vp = [] /\ vr = 48) \/ (vp = [vr; 47] /\ is_hexcap vr = true)) /\
    forallb is_dgt value = true /\ value <> [] /\ (length value <= 10)%nat /\
    ((op = [] /\ vs = 36 /\ origin = []) \/ (op = vs :: origin /\ is_vsn vs = true /\ origin <> [])) /\
    forallb is_dgt origin = true /\ (length origin <= 10)%nat /\
    uuid_of_parts vr value vs origin = u.
Proof.
  destruct 1 as [vp vrt value op vsn origin HV DV LV HO DO LO].
  apply Forall_digit_char in DV. apply Forall_digit_char in DO.
  assert (NV : value <> []) by (destruct value; [cbn [length] in LV; lia|discriminate]).
  assert (EV : exists vr, ((vp = [] /\ vr = 48) \/ (vp = [vr; 47] /\ is_hexcap vr = true)) /\ abc vr = vrt /\ vrt < 16).
  { destruct HV as [[-> ->]|(h & -> & H & B)].
    - exists 48. split; [left; split; reflexivity|split; [reflexivity|lia]].
    - destruct (hexcap_value h vrt H B). exists h. split; [right; split; [reflexivity|assumption]|split; assumption]. }
  assert (EO : exists vs, ((op = [] /\ vs = 36 /\ origin = []) \/ (op = vs :: origin /\ is_vsn vs = true /\ origin <> [])) /\ abc vs = vsn /\ vsn < 4).
  { destruct HO as [(-> & -> & ->)|(v & -> & H & N)].
    - exists 36. split; [left; repeat split|split; [reflexivity|lia]].
    - destruct (vsn_abc v vsn H). exists v. split; [right; repeat split; [apply vsn_chars; eauto|assumption]|split; assumption]. }
  destruct EV as (vr & EV & AV & BV). destruct EO as (vs & EO & AO & BO).
  exists vp, vr, value, op, vs, origin. split; [reflexivity|]. split; [exact EV|]. split; [exact DV|].
  split; [exact NV|]. split; [lia|]. split; [exact EO|]. split; [exact DO|]. split; [exact LO|].
  unfold uuid_of_parts. rewrite !word_parse_eq by (try assumption; lia).
  rewrite AV, AO, !left_aligned_lval by assumption. rewrite (N.mod_small vrt 16), (N.mod_small vsn 16) by lia. reflexivity.
Qed.

Lemma words_ok_short l : (length (l_val l) <= 10)%nat -> (length (l_org l) <= 10)%nat -> words_ok l = true.
Proof.
  intros H1 H2. unfold words_ok, word_too_big.
  replace (10 <? length (l_val l))%nat with false by (symmetry; apply Nat.ltb_ge; exact H1).
  replace (10 <? length (l_org l))%nat with false by (symmetry; apply Nat.ltb_ge; exact H2). reflexivity.
Qed.

(* what a UUID-ending action does to the op *)
Inductive uuid_end : action -> list atom -> uuid -> list atom -> Prop :=
| ue_id op u : uuid_end a_end_id op u (set_nth op 0 (AUuid u))
| ue_ref op u : uuid_end a_end_ref op u (set_nth op 1 (AUuid u))
| ue_quoted op u : uuid_end a_end_quoted_uuid op u (op ++ [AUuid u])
| ue_bare op u : uuid_end a_end_bare_uuid op u (op ++ [AUuid u]).

Lemma uuid_end_exec buf pe a d p l u op' : uuid_end a (l_op l) u op' ->
  words_ok l = true -> loc_uuid l = u -> l_uuid l = true ->
  exists l1, exec buf pe a d p l = ECont l1 /\ same l l1 /\ l_op l1 = op'.
Proof.
  intros H W E U. remember (l_op l) as op eqn:Eop. destruct H; cbn [exec]; rewrite ?U, W, ?E; subst op;
  (eexists; split; [reflexivity|]); repeat split.
Qed.

Lemma uuid_token k a base good st buf pe l p t u d rest op' st1 l1 :
  ctx_ok k = true -> st = k_start k ->
  skipn (N.to_nat p) buf = t ++ d :: rest -> uuid_lit t u ->
  (forall x, In x (k_V k) -> In x good -> In x good) ->
  closing (filter (fun x => inN x good) (k_V k)) [a_end_value; a] base = true ->
  closing (filter (fun x => inN x good) (k_O k)) [a_end_origin; a] base = true ->
  is_delim d = true -> uuid_end a (l_op l) u op' ->
  runs buf pe st l p t = Some (st1, l1) -> In st1 good ->
  exists l2, same l l2 /\ l_op l2 = op' /\
    run buf pe st l p (t ++ d :: rest) = run buf pe base l2 (p + N.of_nat (length t)) (d :: rest).
Proof.
  intros K ES HS HL _ CV CO HD UE R IG.
  destruct (lit_parts t u HL) as (vp & vr & value & op & vs & origin & -> & HV & DV & NV & LV & HO & DO & LO & EU).
  destruct (uuid_run k buf pe st l p vp vr value op vs origin (d :: rest) K ES HS HV DV NV HO DO)
    as (st' & l' & R' & S1 & O1 & U1 & V1 & W1 & Z).
  rewrite R in R'. injection R' as <- <-.
  rewrite (run_runs _ _ _ _ _ _ _ _ _ R).
  set (p' := p + N.of_nat (length (vp ++ value ++ op))) in *. clearbody p'.
  assert (FI : forall L, In st1 L -> In st1 (filter (fun x => inN x good) L)).
  { intros L IL. apply filter_In. split; [exact IL|]. unfold inN. apply existsb_exists. exists st1.
    split; [exact IG|apply N.eqb_refl]. }
  destruct Z as [(-> & I1 & G1 & LE & EV)|(NO & I1 & VV & LE & EO)].
  - destruct HO as [(_ & -> & ->)|(HO & _ & _)]; [|discriminate].
    set (l2 := mkLoc (l_int l1) (l_float l1) (l_str l1) (l_word l1) (l_uuid l1) (sub buf (l_word l1) p') (l_org l1)
        (l_var l1) (l_vsn l1) (l_cpn l1) (l_span l1) (l_term l1) (l_op l1)).
    assert (E2 : exec buf pe a_end_value d p' l1 = ECont l2).
    { cbn [exec]. replace (p' <? l_word l1) with false by (symmetry; apply N.ltb_ge; exact LE). reflexivity. }
    destruct (uuid_end_exec buf pe a d p' l2 u op') as (l3 & E3 & S3 & O3).
    { replace (l_op l2) with (l_op l1) by reflexivity. rewrite O1. exact UE. }
    { apply words_ok_short; unfold l2; cbn [l_val l_org]; rewrite ?EV, ?G1; [exact LV|cbn [length]; lia]. }
    { unfold loc_uuid, l2. cbn [l_var l_val l_vsn l_org]. rewrite EV, G1, V1, W1. exact EU. }
    { exact U1. }
    exists l3. split; [apply (same_trans l l1 l3 S1); destruct S3; split; assumption|]. split; [exact O3|].
    apply (closing_run _ _ _ _ _ _ _ _ _ _ _ CV); [apply FI; exact I1|exact HD|].
    cbn [exec_all]. rewrite E2, E3. reflexivity.
  - destruct HO as [(HO & _ & _)|(_ & _ & NE)]; [contradiction|].
    set (l2 := mkLoc (l_int l1) (l_float l1) (l_str l1) (l_word l1) (l_uuid l1) (l_val l1) (sub buf (l_word l1) p')
        (l_var l1) (l_vsn l1) (l_cpn l1) (l_span l1) (l_term l1) (l_op l1)).
    assert (E2 : exec buf pe a_end_origin d p' l1 = ECont l2).
    { cbn [exec]. replace (p' <? l_word l1) with false by (symmetry; apply N.ltb_ge; exact LE). reflexivity. }
    destruct (uuid_end_exec buf pe a d p' l2 u op') as (l3 & E3 & S3 & O3).
    { replace (l_op l2) with (l_op l1) by reflexivity. rewrite O1. exact UE. }
    { apply words_ok_short; unfold l2; cbn [l_val l_org]; rewrite ?EO, ?VV; assumption. }
    { unfold loc_uuid, l2. cbn [l_var l_val l_vsn l_org]. rewrite EO, VV, V1, W1. exact EU. }
    { exact U1. }
    exists l3. split; [apply (same_trans l l1 l3 S1); destruct S3; split; assumption|]. split; [exact O3|].
    apply (closing_run _ _ _ _ _ _ _ _ _ _ _ CO); [apply FI; exact I1|exact HD|].
    cbn [exec_all]. rewrite E2, E3. reflexivity.
Qed.

Lemma uuid_states k buf pe l p t u rest :
  ctx_ok k = true -> skipn (N.to_nat p) buf = t ++ rest -> uuid_lit t u ->
  exists st1 l1, runs buf pe (k_start k) l p t = Some (st1, l1) /\ (In st1 (k_V k) \/ In st1 (k_O k)).
Proof.
  intros K HS HL.
  destruct (lit_parts t u HL) as (vp & vr & value & op & vs & origin & -> & HV & DV & NV & LV & HO & DO & LO & EU).
  destruct (uuid_run k buf pe (k_start k) l p vp vr value op vs origin rest K eq_refl HS HV DV NV HO DO)
    as (st' & l' & R' & S1 & O1 & U1 & V1 & W1 & Z).
  exists st', l'. split; [exact R'|]. destruct Z as [(_ & I & _)|(_ & I & _)]; [left|right]; exact I.
Qed.

(* @id, :ref and >uuid *)
Lemma id_token buf pe l p t u d rest :
  skipn (N.to_nat p) buf = t ++ d :: rest -> uuid_lit t u -> is_delim d = true ->
  exists l2, same l l2 /\ l_op l2 = set_nth (l_op l) 0 (AUuid u) /\
    run buf pe 61 l p (t ++ d :: rest) = run buf pe 63 l2 (p + N.of_nat (length t)) (d :: rest).
Proof.
  intros HS HL HD. destruct (uuid_states k_id buf pe l p t u _ ltac:(vm_compute; reflexivity) HS HL) as (st1 & l1 & R & I).
  eapply (uuid_token k_id a_end_id 63 [62; 73; 71] 61); try eassumption;
    [vm_compute; reflexivity|reflexivity|auto|vm_compute; reflexivity|vm_compute; reflexivity|constructor|].
  cbn in I |- *. tauto.
Qed.
Lemma ref_token buf pe l p t u d rest :
  skipn (N.to_nat p) buf = t ++ d :: rest -> uuid_lit t u -> is_delim d = true ->
  exists l2, same l l2 /\ l_op l2 = set_nth (l_op l) 1 (AUuid u) /\
    run buf pe 64 l p (t ++ d :: rest) = run buf pe 4 l2 (p + N.of_nat (length t)) (d :: rest).
Proof.
  intros HS HL HD. destruct (uuid_states k_ref buf pe l p t u _ ltac:(vm_compute; reflexivity) HS HL) as (st1 & l1 & R & I).
  eapply (uuid_token k_ref a_end_ref 4 [65; 69; 67] 64); try eassumption;
    [vm_compute; reflexivity|reflexivity|auto|vm_compute; reflexivity|vm_compute; reflexivity|constructor|].
  cbn in I |- *. tauto.
Qed.
Lemma quoted_token buf pe l p t u d rest :
  skipn (N.to_nat p) buf = t ++ d :: rest -> uuid_lit t u -> is_delim d = true ->
  exists l2, same l l2 /\ l_op l2 = l_op l ++ [AUuid u] /\
    run buf pe 28 l p (t ++ d :: rest) = run buf pe 4 l2 (p + N.of_nat (length t)) (d :: rest).
Proof.
  intros HS HL HD. destruct (uuid_states k_quoted buf pe l p t u _ ltac:(vm_compute; reflexivity) HS HL) as (st1 & l1 & R & I).
  eapply (uuid_token k_quoted a_end_quoted_uuid 4 [29; 39; 31] 28); try eassumption;
    [vm_compute; reflexivity|reflexivity|auto|vm_compute; reflexivity|vm_compute; reflexivity|constructor|].
  cbn in I |- *. tauto.
Qed.

