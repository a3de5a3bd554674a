(* C79: the strings of ops made in the program. *)
From Verif Require Import Prelude UuidModel UuidSpec CodecModel CodecSpec CodecProofs CodecTheorems TextModel TextSpec BuilderSpec BuilderProofs BuilderTheorems MergeModel MergeKeeps TextSafety OpModel.

(* ---- specification ---- *)
(* s is the characters l and then rest, which begins with no whole character *)
Definition readable_part (s : bytes) (l : list N) (rest : bytes) : Prop :=
  exists good, s = good ++ rest /\ utf8_text good l /\ forall bs cp r, utf8_char bs cp -> rest <> bs ++ r.
(* bytes that can be the first of a character *)
Definition starts (b : N) : Prop := b < 128 \/ 192 <= b < 248.
(* the value an argument stands for *)
Definition arg_value (a : oarg) : value :=
  match a with ArgUuid u => VUuid u | ArgInt z => VInt z | ArgFloat t => VFloat t | ArgString s => VStr (Some (utf8_pushed s)) end.
Definition arg_says (a : oarg) (v : value) : Prop :=
  match a, v with
  | ArgUuid u, VUuid u' => u = u'
  | ArgInt z, VInt z' => z = z'
  | ArgFloat t, VFloat t' => t = t'
  | ArgString s, VStr (Some l) => utf8_text s l
  | _, _ => False
  end.

(* ---- what is pushed ---- *)
Definition at_lead (st cp : N) (out out' : list N) : Prop := st = 4 /\ out' = out \/ st = 5 /\ out' = cp :: out.
Lemma lead_step st cp out out' b : at_lead st cp out out' -> p8_step st cp out b = p8_lead b out'.
Proof. intros [[-> ->]|[-> ->]]; reflexivity. Qed.

Lemma pushed_char bs cp : utf8_char bs cp -> forall st c out out' s, at_lead st c out out' ->
  p8_pushed st c out (bs ++ s) = p8_pushed 5 cp out' s.
Proof.
  destruct 1; intros st c0 out out' s L.
  - cbn [app p8_pushed]. rewrite (lead_step _ _ _ _ _ L). unfold p8_lead.
    rewrite (proj2 (N.ltb_lt a 128)) by assumption. reflexivity.
  - cbn [app p8_pushed]. rewrite (lead_step _ _ _ _ _ L). unfold p8_lead.
    rewrite land_192_31 by assumption.
    replace (192 + a <? 128) with false by lia. replace (192 + a <? 192) with false by lia.
    replace (192 + a <? 224) with true by lia.
    unfold p8_step at 1. change (1 =? 4) with false. change (1 =? 5) with false.
    replace ((128 <=? 128 + b) && (128 + b <=? 191)) with true by lia.
    change (1 =? 1) with true. cbn iota beta.
    rewrite cont_eq by (try assumption; change (2 ^ 26) with 67108864; lia). reflexivity.
  - cbn [app p8_pushed]. rewrite (lead_step _ _ _ _ _ L). unfold p8_lead.
    rewrite land_224_15 by assumption.
    replace (224 + a <? 128) with false by lia. replace (224 + a <? 192) with false by lia.
    replace (224 + a <? 224) with false by lia. replace (224 + a <? 240) with true by lia.
    unfold p8_step at 1. change (2 =? 4) with false. change (2 =? 5) with false.
    replace ((128 <=? 128 + b) && (128 + b <=? 191)) with true by lia.
    change (2 =? 1) with false. change (2 =? 2) with true. cbn iota beta.
    rewrite cont_eq by (try assumption; change (2 ^ 26) with 67108864; lia).
    unfold p8_step at 1. change (1 =? 4) with false. change (1 =? 5) with false.
    replace ((128 <=? 128 + c) && (128 + c <=? 191)) with true by lia.
    change (1 =? 1) with true. cbn iota beta.
    rewrite cont_eq by (try assumption; change (2 ^ 26) with 67108864; lia).
    replace ((a * 64 + b) * 64 + c) with (a * 4096 + b * 64 + c) by lia. reflexivity.
  - cbn [app p8_pushed]. rewrite (lead_step _ _ _ _ _ L). unfold p8_lead.
    rewrite land_240_7 by assumption.
    replace (240 + a <? 128) with false by lia. replace (240 + a <? 192) with false by lia.
    replace (240 + a <? 224) with false by lia. replace (240 + a <? 240) with false by lia. replace (240 + a <? 248) with true by lia.
    unfold p8_step at 1. change (3 =? 4) with false. change (3 =? 5) with false.
    replace ((128 <=? 128 + b) && (128 + b <=? 191)) with true by lia.
    change (3 =? 1) with false. change (3 =? 2) with false. cbn iota beta.
    rewrite cont_eq by (try assumption; change (2 ^ 26) with 67108864; lia).
    unfold p8_step at 1. change (2 =? 4) with false. change (2 =? 5) with false.
    replace ((128 <=? 128 + c) && (128 + c <=? 191)) with true by lia.
    change (2 =? 1) with false. change (2 =? 2) with true. cbn iota beta.
    rewrite cont_eq by (try assumption; change (2 ^ 26) with 67108864; lia).
    unfold p8_step at 1. change (1 =? 4) with false. change (1 =? 5) with false.
    replace ((128 <=? 128 + d) && (128 + d <=? 191)) with true by lia.
    change (1 =? 1) with true. cbn iota beta.
    rewrite cont_eq by (try assumption; change (2 ^ 26) with 67108864; lia).
    replace (((a * 64 + b) * 64 + c) * 64 + d) with (a * 262144 + b * 4096 + c * 64 + d) by lia. reflexivity.
Qed.

(* the pushes once no whole character follows *)
Lemma pushed_stuck st c out out' rest : at_lead st c out out' -> (forall bs cp r, utf8_char bs cp -> rest <> bs ++ r) ->
  p8_pushed st c out rest = match rest with
                            | [] => rev out'
                            | b :: _ => if (192 <=? b) && (b <? 248) then rev out' else rev out
                            end.
Proof.
  intros L NO. destruct rest as [|b t].
  { cbn [p8_pushed]. destruct L as [[-> ->]|[-> ->]]; reflexivity. }
  cbn [p8_pushed]. rewrite (lead_step _ _ _ _ _ L). unfold p8_lead.
  destruct (b <? 128) eqn:E1; [exfalso; apply (NO [b] b t); [apply u8_1; lia|reflexivity]|].
  destruct (b <? 192) eqn:E2; [replace ((192 <=? b) && (b <? 248)) with false by lia; reflexivity|].
  assert (CONT : forall x, (128 <=? x) && (x <=? 191) = true -> exists z, x = 128 + z /\ z < 64) by (intros x X; exists (x - 128); lia).
  assert (ST : forall st cp o x, (st = 1 \/ st = 2 \/ st = 3) -> p8_step st cp o x = if (128 <=? x) && (x <=? 191) then Some (if st =? 1 then 5 else if st =? 2 then 1 else 2, cont cp x, o) else None).
  { intros st0 cp o x [->|[->| ->]]; reflexivity. }
  destruct (b <? 224) eqn:E3.
  { replace ((192 <=? b) && (b <? 248)) with true by lia. destruct t as [|b1 t]; [reflexivity|]. cbn [p8_pushed]. rewrite ST by auto.
    destruct ((128 <=? b1) && (b1 <=? 191)) eqn:C1; [|reflexivity]. exfalso. destruct (CONT _ C1) as (z & -> & Hz).
    apply (NO [192 + (b - 192); 128 + z] ((b - 192) * 64 + z) t); [apply u8_2; lia|]. cbn [app]. f_equal. lia. }
  destruct (b <? 240) eqn:E4.
  { replace ((192 <=? b) && (b <? 248)) with true by lia. destruct t as [|b1 t]; [reflexivity|]. cbn [p8_pushed]. rewrite ST by auto.
    destruct ((128 <=? b1) && (b1 <=? 191)) eqn:C1; [|reflexivity]. destruct (CONT _ C1) as (z & -> & Hz).
    change (2 =? 1) with false. change (2 =? 2) with true. cbn iota.
    destruct t as [|b2 t]; [reflexivity|]. cbn [p8_pushed]. rewrite ST by auto.
    destruct ((128 <=? b2) && (b2 <=? 191)) eqn:C2; [|reflexivity]. exfalso. destruct (CONT _ C2) as (y & -> & Hy).
    apply (NO [224 + (b - 224); 128 + z; 128 + y] ((b - 224) * 4096 + z * 64 + y) t); [apply u8_3; lia|]. cbn [app]. f_equal. lia. }
  destruct (b <? 248) eqn:E5; [|replace ((192 <=? b) && false) with false by lia; reflexivity].
  replace ((192 <=? b) && true) with true by lia. destruct t as [|b1 t]; [reflexivity|]. cbn [p8_pushed]. rewrite ST by auto.
  destruct ((128 <=? b1) && (b1 <=? 191)) eqn:C1; [|reflexivity]. destruct (CONT _ C1) as (z & -> & Hz).
  change (3 =? 1) with false. change (3 =? 2) with false. cbn iota.
  destruct t as [|b2 t]; [reflexivity|]. cbn [p8_pushed]. rewrite ST by auto.
  destruct ((128 <=? b2) && (b2 <=? 191)) eqn:C2; [|reflexivity]. destruct (CONT _ C2) as (y & -> & Hy).
  change (2 =? 1) with false. change (2 =? 2) with true. cbn iota.
  destruct t as [|b3 t]; [reflexivity|]. cbn [p8_pushed]. rewrite ST by auto.
  destruct ((128 <=? b3) && (b3 <=? 191)) eqn:C3; [|reflexivity]. exfalso. destruct (CONT _ C3) as (x & -> & Hx).
  apply (NO [240 + (b - 240); 128 + z; 128 + y; 128 + x] ((b - 240) * 262144 + z * 4096 + y * 64 + x) t); [apply u8_4; lia|]. cbn [app]. f_equal. lia.
Qed.

Lemma pushed_text cs : Forall (fun c => utf8_char (fst c) (snd c)) cs -> forall st c out out' rest, at_lead st c out out' ->
  (forall bs cp r, utf8_char bs cp -> rest <> bs ++ r) ->
  p8_pushed st c out (concat (map fst cs) ++ rest) =
    match rest with
    | b :: _ => if (192 <=? b) && (b <? 248) then rev out' ++ map snd cs else match cs with [] => rev out | _ => rev out' ++ removelast (map snd cs) end
    | [] => rev out' ++ map snd cs
    end.
Proof.
  induction 1 as [|[bs cp] cs Hc HF IH]; intros st c out out' rest L NO; cbn [map concat fst snd].
  - cbn [app]. rewrite (pushed_stuck _ _ _ _ _ L NO). destruct rest; rewrite ?app_nil_r; reflexivity.
  - rewrite <- app_assoc, (pushed_char _ _ Hc _ _ _ _ _ L).
    pose proof (IH 5 cp out' (cp :: out') rest (or_intror (conj eq_refl eq_refl)) NO) as E. etransitivity; [exact E|]. cbn [rev].
    destruct rest as [|b t]; [rewrite <- app_assoc; reflexivity|]. destruct ((192 <=? b) && (b <? 248)); [rewrite <- app_assoc; reflexivity|].
    destruct cs as [|c1 cs]; [cbn [map removelast]; rewrite app_nil_r; reflexivity|]. rewrite <- app_assoc. reflexivity.
Qed.

(* a string is read up to the first place where no character is; if a byte is
   there that starts none, the character before is lost too *)
Theorem C79_utf8 : forall s l rest, readable_part s l rest ->
  (rest = [] -> utf8_pushed s = l) /\
  (forall b t, rest = b :: t -> starts b -> utf8_pushed s = l) /\
  (forall b t, rest = b :: t -> ~ starts b -> utf8_pushed s = removelast l).
Proof.
  intros s l rest (good & -> & (cs & -> & -> & F) & NO).
  pose proof (pushed_text cs F 4 0 [] [] rest (or_introl (conj eq_refl eq_refl)) NO) as E. unfold utf8_pushed. split; [|split].
  - intros ->. exact E.
  - intros b t -> ST. rewrite E. replace ((192 <=? b) && (b <? 248)) with true; [reflexivity|]. destruct ST as [ST|ST]; [|lia].
    exfalso. apply (NO [b] b t); [apply u8_1; exact ST|reflexivity].
  - intros b t -> ST. rewrite E. replace ((192 <=? b) && (b <? 248)) with false by (unfold starts in ST; lia). destruct cs; reflexivity.
Qed.
(* every string has such a part *)
Lemma char_dec (s : bytes) : (exists bs cp r, utf8_char bs cp /\ s = bs ++ r) \/ (forall bs cp r, utf8_char bs cp -> s <> bs ++ r).
Proof.
  assert (D : forall n, (n = 1 \/ n = 2 \/ n = 3 \/ n = 4)%nat -> (exists cp, utf8_char (firstn n s) cp) \/ ~ exists cp, utf8_char (firstn n s) cp).
  { intros n _. destruct (parse_utf8 (firstn n s)) as [l|] eqn:P.
    - apply parse_utf8_exact in P as (cs & E & _ & F). destruct cs as [|[bs cp] [|c2 cs]].
      + right. intros (cp & C). cbn in E. rewrite E in C. inversion C.
      + left. exists cp. cbn in E. rewrite app_nil_r in E. rewrite E. exact (Forall_inv F).
      + right. intros (cp' & C). pose proof (proj2 (parse_utf8_exact (firstn n s) [cp'])) as Q1.
        assert (U1 : utf8_text (firstn n s) [cp']) by (exists [(firstn n s, cp')]; cbn; rewrite app_nil_r; repeat constructor; assumption).
        assert (U2 : utf8_text (firstn n s) (map snd ((bs, cp) :: c2 :: cs))) by (exists ((bs, cp) :: c2 :: cs); auto).
        apply Q1 in U1. apply parse_utf8_exact in U2. rewrite U1 in U2. discriminate.
    - right. intros (cp & C). assert (U : utf8_text (firstn n s) [cp]) by (exists [(firstn n s, cp)]; cbn; rewrite app_nil_r; repeat constructor; assumption).
      apply parse_utf8_exact in U. congruence. }
  assert (W : forall n, (exists cp, utf8_char (firstn n s) cp) -> exists bs cp r, utf8_char bs cp /\ s = bs ++ r).
  { intros n (cp & C). exists (firstn n s), cp, (skipn n s). split; [exact C|]. symmetry. apply firstn_skipn. }
  destruct (D 1%nat) as [H|H1]; [auto|left; eapply W; exact H|].
  destruct (D 2%nat) as [H|H2]; [auto|left; eapply W; exact H|].
  destruct (D 3%nat) as [H|H3]; [auto|left; eapply W; exact H|].
  destruct (D 4%nat) as [H|H4]; [auto|left; eapply W; exact H|].
  right. intros bs cp r C E.
  assert (FN : firstn (length bs) s = bs) by (rewrite E, firstn_app, firstn_all, Nat.sub_diag; apply app_nil_r).
  destruct C; cbn [length] in FN; [apply H1|apply H2|apply H3|apply H4]; rewrite FN; eexists; [apply u8_1|apply u8_2|apply u8_3|apply u8_4]; assumption.
Qed.
Theorem C79_part : forall s, exists l rest, readable_part s l rest.
Proof.
  intro s. remember (length s) as n eqn:E. revert s E. induction n as [n IH] using (well_founded_induction lt_wf). intros s E.
  destruct (char_dec s) as [(bs & cp & r & C & ->)|NO].
  - destruct (IH (length r)) with (s := r) as (l & rest & good & -> & (cs & -> & -> & F) & NO); [|reflexivity|].
    + rewrite E, app_length. destruct C; cbn [length]; lia.
    + exists (cp :: map snd cs), rest, (bs ++ concat (map fst cs)). split; [rewrite app_assoc; reflexivity|]. split; [|exact NO].
      exists ((bs, cp) :: cs). split; [reflexivity|]. split; [reflexivity|]. constructor; assumption.
  - exists [], s, []. split; [reflexivity|]. split; [|exact NO]. exists []. split; [reflexivity|]. split; [reflexivity|constructor].
Qed.

(* ---- what AppendOp sees of an op made ---- *)
(* an atom that stands for the value v *)
Definition atom_is (strs : list N) (a : oatom) (v : value) : Prop :=
  match a, v with
  | OUuid u, VUuid u' => u = u'
  | OInt z, VInt z' => z = z'
  | OFloat t, VFloat t' => t = t'
  | OStr cp b e n, VStr (Some l) =>
      match l with
      | [] => cp = 0 /\ n = 0
      | c :: l' => cp = c /\ n = N.of_nat (length l') /\ e = b + n /\ exists pre post, strs = pre ++ l' ++ post /\ b = N.of_nat (length pre)
      end
  | _, _ => False
  end.
Lemma atom_is_more strs more a v : atom_is strs a v -> atom_is (strs ++ more) a v.
Proof.
  destruct a, v as [| |[l|]|]; cbn [atom_is]; auto. destruct l as [|c l]; [auto|]. intros (A & B & D & pre & post & -> & E).
  split; [exact A|]. split; [exact B|]. split; [exact D|]. exists pre, (post ++ more). rewrite <- !app_assoc. auto.
Qed.
Lemma made_atoms args : forall atoms strs vs, Forall2 (atom_is strs) atoms vs ->
  Forall2 (atom_is (snd (write_atoms atoms strs args))) (fst (write_atoms atoms strs args)) (vs ++ map arg_value args).
Proof.
  induction args as [|a args IH]; intros atoms strs vs F; [cbn; rewrite app_nil_r; exact F|].
  replace (vs ++ map arg_value (a :: args)) with ((vs ++ [arg_value a]) ++ map arg_value args) by (rewrite <- app_assoc; reflexivity).
  destruct a as [u|z|t|s]; cbn [write_atoms]; try (apply IH; apply Forall2_app; [exact F|constructor; [reflexivity|constructor]]).
  apply IH. apply Forall2_app; [clear -F; induction F; constructor; [apply atom_is_more; assumption|assumption]|].
  constructor; [|constructor]. cbn [arg_value]. rewrite app_length. set (l := utf8_pushed s). destruct l as [|c l].
  - replace (N.of_nat (length strs + length []) - N.of_nat (length strs)) with 0 by (cbn [length]; lia). cbn [N.eqb]. change (0 =? 0) with true. cbn iota. split; reflexivity.
  - replace (N.of_nat (length strs + length (c :: l)) - N.of_nat (length strs) =? 0) with false by (cbn [length]; lia).
    cbn [atom_is]. rewrite Nnat.Nat2N.id, app_nth2, Nat.sub_diag by lia. cbn [nth length]. split; [reflexivity|]. split; [lia|]. split; [lia|].
    exists (strs ++ [c]), []. rewrite app_nil_r, <- app_assoc, app_length. cbn [length app]. split; [reflexivity|]. lia.
Qed.

Lemma op_next_in strs cp b e n c l : n = N.of_nat (length (c :: l)) -> e = b + n -> (exists pre post, strs = pre ++ (c :: l) ++ post /\ b = N.of_nat (length pre)) ->
  op_next strs cp b e n = Done (true, (c, b + 1, e, N.of_nat (length l))) /\ e = (b + 1) + N.of_nat (length l) /\
  exists pre post, strs = pre ++ l ++ post /\ b + 1 = N.of_nat (length pre).
Proof.
  intros EN EE (pre & post & -> & EB). split; [|split].
  - unfold op_next. replace (n =? 0) with false by (subst n; cbn [length]; lia). subst b. rewrite Nnat.Nat2N.id, nth_error_app2, Nat.sub_diag by lia. cbn [nth_error app].
    replace (N.of_nat (length pre) + 1 <=? e) with true by (subst; cbn [length]; lia). subst n. cbn [length]. f_equal. f_equal. f_equal. lia.
  - subst. cbn [length]. lia.
  - exists (pre ++ [c]), post. rewrite <- app_assoc, app_length. cbn [length app]. split; [reflexivity|]. lia.
Qed.
Lemma op_chars_all l : forall strs cp b e n fuel, n = N.of_nat (length l) -> e = b + n -> (exists pre post, strs = pre ++ l ++ post /\ b = N.of_nat (length pre)) ->
  (S (length l) < fuel)%nat -> op_chars fuel strs cp b e n = Done (flat_map utf8esc_append (until_zero (cp :: l))).
Proof.
  induction l as [|c l IH]; intros strs cp b e n fuel EN EE P L; (destruct fuel as [|fuel]; [lia|]); cbn [op_chars]; cbn [until_zero].
  - destruct (cp =? 0) eqn:Z; [reflexivity|]. subst n. unfold op_next. change (N.of_nat (length []) =? 0) with true. cbn iota. cbn [rbind].
    destruct fuel as [|fuel]; [cbn [length] in L; lia|]. cbn [op_chars]. change (0 =? 0) with true. reflexivity.
  - destruct (cp =? 0) eqn:Z; [reflexivity|]. destruct (op_next_in strs cp b e n c l EN EE P) as (E & E2 & P2). rewrite E. cbn [rbind].
    rewrite (IH strs c (b + 1) e (N.of_nat (length l)) fuel eq_refl E2 P2) by (cbn [length] in L; lia). reflexivity.
Qed.

Lemma atom_wval strs a v : atom_is strs a v -> op_wval strs a = match wval_of_value v with Some w => Done w | None => Aborted end.
Proof.
  destruct a as [u|z|t|cp b e n], v as [u'|z'|[l|]|t']; cbn [atom_is]; try contradiction.
  - intros <-. reflexivity.
  - intros <-. cbn [op_wval wval_of_value option_map]. destruct (write_int z); reflexivity.
  - intros <-. reflexivity.
  - cbn [op_wval wval_of_value]. destruct l as [|c l].
    + intros [-> ->]. reflexivity.
    + intros (-> & EN & EE & P). rewrite (op_chars_all l strs c b e n) by (try assumption; lia). cbn [rbind].
      cbn [str_size str_first]. destruct (c =? 0) eqn:Z.
      * destruct l as [|d l].
        -- subst n. unfold op_next. cbn. reflexivity.
        -- destruct (op_next_in strs c b e n d l EN EE P) as (E & _). rewrite E. cbn [rbind]. rewrite EN. reflexivity.
      * cbn [rbind]. do 3 f_equal. cbn [length]. lia.
Qed.
Lemma atoms_wvals strs l vs : Forall2 (atom_is strs) l vs -> op_wvals strs l = match wvals_of vs with Some ws => Done ws | None => Aborted end.
Proof.
  induction 1 as [|a v l vs H F IH]; [reflexivity|]. cbn [op_wvals wvals_of]. rewrite (atom_wval _ _ _ H), IH.
  destruct (wval_of_value v); [|reflexivity]. cbn [rbind]. destruct (wvals_of vs); reflexivity.
Qed.
(* an op made is written as the op with the values its arguments stand for
   (TextModel.wop_of_op, C16) *)
Theorem C79_written : forall id ref args,
  wop_of_sop (op_made id ref args) = match wop_of_op id ref (map arg_value args) with Some w => Done w | None => Aborted end.
Proof.
  intros id ref args. unfold op_made. pose proof (made_atoms args [] [] [] (Forall2_nil _)) as F. cbn [app] in F.
  destruct (write_atoms [] [] args) as [atoms strs]. cbn [fst snd] in F. unfold wop_of_sop. cbn [so_atoms so_strs so_id so_ref].
  rewrite (atoms_wvals _ _ _ F). unfold wop_of_op. destruct (wvals_of (map arg_value args)); reflexivity.
Qed.

Lemma says_value a v : arg_says a v -> arg_value a = v.
Proof.
  destruct a, v as [| |[l|]|]; cbn [arg_says arg_value]; try contradiction; try (intros ->; reflexivity).
  intro U. do 2 f_equal. apply (C79_utf8 s l []); [|reflexivity]. exists s. rewrite app_nil_r. split; [reflexivity|]. split; [exact U|].
  intros bs cp r C E. destruct C; discriminate E.
Qed.
(* so ops made of proper UTF-8 come back whole from the text written *)
Theorem C79_text : forall id ref args vs, Forall2 arg_says args vs -> good_calls origin_op false false [UAppend (mkUop id ref vs)] ->
  exists w text, wop_of_sop (op_made id ref args) = Done w /\ build [BAppend w] = Some text /\
    (N.of_nat (length text) < 2 ^ 32 -> forall fuel, (1 < fuel)%nat -> scan fuel (cursor_of text) = ([mkRop id ref vs RAW], SEnd)).
Proof.
  intros id ref args vs F G. assert (E : map arg_value args = vs).
  { clear G. induction F as [|a v args vs H F IH]; [reflexivity|]. cbn [map]. rewrite (says_value _ _ H), IH. reflexivity. }
  destruct (C16_roundtrip [UAppend (mkUop id ref vs)] G) as (text & B & R); [reflexivity|].
  rewrite C79_written, E. unfold build_calls in B. cbn [calls_of u_id u_ref u_vals] in B.
  destruct (wop_of_op id ref vs) as [w|]; [|discriminate]. cbn [option_map] in B. exists w, text. split; [reflexivity|]. split; [exact B|].
  intros L fuel FU. apply R; assumption.
Qed.

(* ---- reading the strings of an op made ---- *)
Lemma rest_all put l : forall strs cp b e n fuel, n = N.of_nat (length l) -> e = b + n -> (exists pre post, strs = pre ++ l ++ post /\ b = N.of_nat (length pre)) ->
  (length l < fuel)%nat -> op_read_rest put fuel strs cp b e n = Done (flat_map put l, false).
Proof.
  induction l as [|c l IH]; intros strs cp b e n fuel EN EE P L; (destruct fuel as [|fuel]; [lia|]); cbn [op_read_rest].
  - subst n. reflexivity.
  - destruct (op_next_in strs cp b e n c l EN EE P) as (E & E2 & P2). rewrite E. cbn [rbind].
    rewrite (IH strs c (b + 1) e (N.of_nat (length l)) fuel eq_refl E2 P2) by (cbn [length] in L; lia). reflexivity.
Qed.
Lemma made_nth id ref args i s : nth_error args i = Some (ArgString s) ->
  exists cp b e n, nth_error (so_atoms (op_made id ref args)) i = Some (OStr cp b e n) /\ atom_is (so_strs (op_made id ref args)) (OStr cp b e n) (VStr (Some (utf8_pushed s))).
Proof.
  intro E. unfold op_made. pose proof (made_atoms args [] [] [] (Forall2_nil _)) as F. cbn [app] in F.
  destruct (write_atoms [] [] args) as [atoms strs]. cbn [fst snd so_atoms so_strs] in *.
  assert (EV : nth_error (map arg_value args) i = Some (VStr (Some (utf8_pushed s)))) by (rewrite nth_error_map, E; reflexivity).
  clear E. revert i EV. induction F as [|a v l vs H F IH]; intros [|i] EV; cbn [nth_error] in *; try discriminate.
  - injection EV as ->. destruct a as [| | |cp b e n]; try contradiction. exists cp, b, e, n. auto.
  - apply IH. exact EV.
Qed.
(* ReadString and GetString of an op made give the first character only;
   ReadString16 gives all but the first, and says that it failed *)
Theorem C79_get : forall id ref args i s c l, nth_error args i = Some (ArgString s) -> utf8_pushed s = c :: l ->
  exists a, nth_error (so_atoms (op_made id ref args)) i = Some a /\
    (c <> 0 -> op_read_string (so_strs (op_made id ref args)) a = Done (utf8append c, true)) /\
    (c = 0 -> op_read_string (so_strs (op_made id ref args)) a = Done (flat_map utf8append l, false)) /\
    op_read_string16 (so_strs (op_made id ref args)) a = Done (flat_map utf16append l, false).
Proof.
  intros id ref args i s c l E U. destruct (made_nth id ref args i s E) as (cp & b & e & n & EA & AI). rewrite U in AI. destruct AI as (-> & EN & EE & P).
  exists (OStr c b e n). split; [exact EA|]. cbn [op_read_string op_read_string16]. split; [|split].
  - intro NZ. replace (c =? 0) with false by lia. reflexivity.
  - intros ->. change (0 =? 0) with true. cbn iota. apply rest_all; try assumption. lia.
  - apply rest_all; try assumption. lia.
Qed.
Theorem C79_get_empty : forall id ref args i s, nth_error args i = Some (ArgString s) -> utf8_pushed s = [] ->
  exists a, nth_error (so_atoms (op_made id ref args)) i = Some a /\
    op_read_string (so_strs (op_made id ref args)) a = Done ([], false) /\ op_read_string16 (so_strs (op_made id ref args)) a = Done ([], false).
Proof.
  intros id ref args i s E U. destruct (made_nth id ref args i s E) as (cp & b & e & n & EA & AI). rewrite U in AI. destruct AI as (-> & ->).
  exists (OStr 0 b e 0). split; [exact EA|]. split; reflexivity.
Qed.

(* ---- ops amended ---- *)
Lemma sub_more buf b e k : sub buf (b + k) e = skipn (N.to_nat k) (sub buf b e).
Proof. unfold sub. rewrite skipn_firstn_comm, skipn_skipn. f_equal; [lia|]. f_equal. lia. Qed.
Lemma amend_all m : forall buf strs cp b e k l fuel, read_codepoints m (sub buf b e) = Some l -> (m < fuel)%nat ->
  amend_loop fuel buf strs cp (N.of_nat m) b e k = Done (strs ++ match m with O => [] | _ => removelast (cp :: l) end, k + N.of_nat m) /\ length l = m.
Proof.
  induction m as [|m IH]; intros buf strs cp b e k l fuel R L; (destruct fuel as [|fuel]; [lia|]).
  - injection R as <-. cbn. rewrite app_nil_r, N.add_0_r. auto.
  - cbn [read_codepoints] in R. cbn [amend_loop next_cp]. replace (N.of_nat (S m) =? 0) with false by lia.
    destruct (next_codepoint (sub buf b e) (N.of_nat (S m))) as [|c j|]; try discriminate R. cbn [option_map] in R.
    destruct (read_codepoints m (skipn (N.to_nat j) (sub buf b e))) as [l'|] eqn:R'; [|discriminate R]. cbn [option_map] in R. injection R as <-.
    rewrite <- sub_more in R'. replace (N.of_nat (S m) - 1) with (N.of_nat m) by lia.
    destruct (IH buf (strs ++ [cp]) c (b + j) e (k + 1) l' fuel R' ltac:(lia)) as (E & LL). rewrite E. split; [|cbn [length]; lia].
    f_equal. f_equal; [|lia]. rewrite <- app_assoc. f_equal. destruct m as [|m].
    + destruct l'; [reflexivity|discriminate LL].
    + destruct l' as [|d l']; [discriminate LL|]. reflexivity.
Qed.
(* an op made from one that was read holds the character the string is at
   twice and the last one not at all; of a string at its beginning nothing is
   written *)
Theorem C79_amend : forall buf strs cp n b e l fuel, n <> 0 -> read_codepoints (N.to_nat n) (sub buf b e) = Some l -> (N.to_nat n < fuel)%nat ->
  exists a strs', amend_string fuel buf strs cp n b e = Done (a, strs') /\
    (cp <> 0 -> op_wval strs' a = Done (WStr (flat_map utf8esc_append (cp :: until_zero (cp :: removelast l))) (n + 1) cp)) /\
    (cp = 0 -> op_wval strs' a = Done (WStr [] n 0)).
Proof.
  intros buf strs cp n b e l fuel NZ R L. destruct (amend_all (N.to_nat n) buf strs cp b e 0 l fuel R L) as (E & LL).
  rewrite Nnat.N2Nat.id in E. destruct (N.to_nat n) as [|m] eqn:EM; [lia|].
  destruct l as [|c l]; [discriminate LL|]. cbn [length] in LL.
  assert (RL : removelast (cp :: c :: l) = cp :: removelast (c :: l)) by reflexivity. rewrite RL in E.
  assert (LR : length (removelast (c :: l)) = m).
  { clear -LL. revert c m LL. induction l as [|d l IH]; intros c m LL; [cbn in *; lia|]. change (removelast (c :: d :: l)) with (c :: removelast (d :: l)).
    cbn [length] in *. rewrite (IH d (pred m)); lia. }
  unfold amend_string. rewrite E. cbn [rbind]. rewrite nth_error_app2, Nat.sub_diag by lia. cbn [nth_error].
  exists (OStr cp (N.of_nat (length strs)) (N.of_nat (length (strs ++ cp :: removelast (c :: l)))) (0 + n)), (strs ++ cp :: removelast (c :: l)).
  split; [reflexivity|].
  assert (AI : atom_is (strs ++ cp :: removelast (c :: l)) (OStr cp (N.of_nat (length strs)) (N.of_nat (length (strs ++ cp :: removelast (c :: l)))) (0 + n)) (VStr (Some (cp :: cp :: removelast (c :: l))))).
  { split; [reflexivity|]. rewrite app_length. cbn [length]. rewrite LR. split; [lia|]. split; [lia|]. exists strs, []. rewrite app_nil_r. auto. }
  rewrite (atom_wval _ _ _ AI). cbn [wval_of_value str_size str_first length]. rewrite LR. split.
  - intro CZ. cbn [until_zero]. replace (cp =? 0) with false by lia. f_equal. f_equal. lia.
  - intros ->. cbn [until_zero]. change (0 =? 0) with true. cbn iota. cbn [flat_map]. f_equal. f_equal. lia.
Qed.

(* ---- cases: "ab" and "cd" and a number; a byte FF after "ab"; a cut character after "ab" ---- *)
Definition C79_id (n : N) : uuid := mkUuid (n * 2 ^ 24) (1000 * 2 ^ 40).
Definition C79_args : list oarg := [ArgString [97; 195; 169]; ArgInt 7; ArgString [99; 100]].
Example C79_case :
  Forall2 arg_says C79_args [VStr (Some [97; 233]); VInt 7; VStr (Some [99; 100])] /\
  good_calls origin_op false false [UAppend (mkUop (C79_id 9) (C79_id 5) [VStr (Some [97; 233]); VInt 7; VStr (Some [99; 100])])] /\
  so_strs (op_made (C79_id 9) (C79_id 5) C79_args) = [97; 233; 99; 100].
Proof.
  split; [|split; [|vm_compute; reflexivity]].
  - constructor; [exists [([97], 97); ([195; 169], 233)]; split; [reflexivity|]; split; [reflexivity|]; constructor; [apply u8_1; reflexivity|constructor; [apply (u8_2 3 41); reflexivity|constructor]]|].
    constructor; [reflexivity|]. constructor; [|constructor].
    exists [([99], 99); ([100], 100)]. split; [reflexivity|]. split; [reflexivity|]. constructor; [apply u8_1; reflexivity|constructor; [apply u8_1; reflexivity|constructor]].
  - cbn [good_calls u_id u_ref u_vals]. split; [|split; [|split; [|exact Logic.I]]].
    + split; [|split]; [split; [split|]; reflexivity|split; [split|]; reflexivity|]. repeat (apply Forall_cons; [|]); [..|apply Forall_nil]; cbn [value_ok]; try lia;
        repeat (apply Forall_cons; [|]); try apply Forall_nil; (split; [reflexivity|split; discriminate]).
    + intro H. discriminate H.
    + intro H. discriminate H.
Qed.
Example C79_part_case : readable_part [97; 98; 255; 99] [97; 98] [255; 99] /\ ~ starts 255 /\ readable_part [97; 98; 195; 99] [97; 98] [195; 99] /\ starts 195.
Proof.
  assert (U : utf8_text [97; 98] [97; 98]).
  { exists [([97], 97); ([98], 98)]. split; [reflexivity|]. split; [reflexivity|]. constructor; [apply u8_1; reflexivity|constructor; [apply u8_1; reflexivity|constructor]]. }
  split; [|split; [unfold starts; lia|split; [|unfold starts; lia]]].
  - exists [97; 98]. split; [reflexivity|]. split; [exact U|]. intros bs cp r C E. destruct C; cbn [app] in E; injection E; intros; lia.
  - exists [97; 98]. split; [reflexivity|]. split; [exact U|]. intros bs cp r C E. destruct C; cbn [app] in E; injection E; intros; lia.
Qed.
(* the string abc in quotes, at its beginning and at its first character *)
Example C79_amend_case :
  read_codepoints 3 (sub [39; 97; 98; 99; 39] 1 4) = Some [97; 98; 99] /\ read_codepoints 2 (sub [39; 97; 98; 99; 39] 2 4) = Some [98; 99] /\
  amend_string 4 [39; 97; 98; 99; 39] [] 0 3 1 4 = Done (OStr 0 0 3 3, [0; 97; 98]) /\
  op_wval [0; 97; 98] (OStr 0 0 3 3) = Done (WStr [] 3 0) /\
  amend_string 4 [39; 97; 98; 99; 39] [] 97 2 2 4 = Done (OStr 97 0 2 2, [97; 98]) /\
  op_wval [97; 98] (OStr 97 0 2 2) = Done (WStr [97; 97; 98] 3 97).
Proof. do 5 (split; [vm_compute; reflexivity|]). vm_compute. reflexivity. Qed.
(* an amended op does not keep a string *)
Theorem C79_amend_refuted : exists buf n b e l a strs, read_codepoints (N.to_nat n) (sub buf b e) = Some l /\ l <> [] /\
  amend_string 9 buf [] 0 n b e = Done (a, strs) /\ op_wval strs a <> Done (WStr (flat_map utf8esc_append l) n 97).
Proof.
  exists [39; 97; 98; 99; 39], 3, 1, 4, [97; 98; 99], (OStr 0 0 3 3), [0; 97; 98]. split; [vm_compute; reflexivity|]. split; [discriminate|].
  split; [vm_compute; reflexivity|]. vm_compute. discriminate.
Qed.
(* a string with a wrong byte loses a right character as well *)
Theorem C79_bad_byte_refuted : exists s rest l, readable_part s l rest /\ utf8_pushed s <> l.
Proof. exists [97; 98; 255; 99], [255; 99], [97; 98]. split; [apply C79_part_case|vm_compute; discriminate]. Qed.
(* GetString of an op made does not give the string *)
Theorem C79_get_refuted : exists s a, nth_error (so_atoms (op_made (C79_id 9) (C79_id 5) [ArgString s])) 0 = Some a /\ utf8_text s [97; 98] /\
  op_read_string (so_strs (op_made (C79_id 9) (C79_id 5) [ArgString s])) a = Done ([97], true).
Proof.
  exists [97; 98], (OStr 97 1 2 1). split; [vm_compute; reflexivity|]. split; [|vm_compute; reflexivity].
  exists [([97], 97); ([98], 98)]. split; [reflexivity|]. split; [reflexivity|]. constructor; [apply u8_1; reflexivity|constructor; [apply u8_1; reflexivity|constructor]].
Qed.
Print Assumptions C79_utf8.
Print Assumptions C79_part.
Print Assumptions C79_written.
Print Assumptions C79_text.
Print Assumptions C79_get.
Print Assumptions C79_get_empty.
Print Assumptions C79_amend.
Print Assumptions C79_amend_refuted.
Print Assumptions C79_bad_byte_refuted.
Print Assumptions C79_get_refuted.
