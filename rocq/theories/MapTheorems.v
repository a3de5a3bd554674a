(* C77: the codes of mappers. *)
From Coq Require Import String.
From Verif Require Import Prelude UuidModel UuidProofs KeyModel Txt MapModel.
Open Scope string_scope.
Open Scope N_scope.
Open Scope list_scope.

(* the enumeration, in words *)
Definition map_words : list (N * string) :=
  [(CHAIN_MAP, "chain"); (META_MAP, "meta"); (OP_MAP, "op"); (YARN_MAP, "yarn"); (SHA2_MAP, "sha2"); (PREV_MAP, "prev");
   (HEAD_MAP, "head"); (OBJ_MAP, "obj"); (CSV_MAP, "csv"); (TXT_MAP, "txt"); (JSON_MAP, "json")].
Lemma switch_in u names : NoDup (map map_byte names) -> forall code, map_switch u code names = MAP_COUNT /\ ~ In u (map (fun n => mkUuid n 0) names) \/
  exists i, nth_error names i = Some (uvalue u) /\ uorigin u = 0 /\ map_switch u code names = code + N.of_nat i.
Proof.
  induction names as [|n r IH]; intros ND code; [left; split; [reflexivity|intros []]|]. cbn [map map_switch] in *. inversion ND as [|a b N1 N2]; subst.
  destruct (map_byte (uvalue u) =? map_byte n) eqn:B.
  - apply N.eqb_eq in B. destruct (uuid_eqb u (mkUuid n 0)) eqn:E.
    + apply uuid_eqb_eq in E. subst u. right. exists 0%nat. cbn [nth_error uvalue uorigin]. split; [reflexivity|]. split; [reflexivity|]. lia.
    + left. split; [reflexivity|]. intros [Q|Q].
      * subst u. rewrite (proj2 (uuid_eqb_eq _ _) eq_refl) in E. discriminate.
      * apply N1. apply in_map_iff in Q as (m & Q & I). subst u. cbn [uvalue] in B. rewrite <- B. apply in_map. exact I.
  - destruct (IH N2 (code + 1)) as [[E O]|(i & E & O & S)].
    + left. split; [exact E|]. intros [Q|Q]; [|exact (O Q)]. subst u. cbn [uvalue] in B. rewrite N.eqb_refl in B. discriminate.
    + right. exists (Datatypes.S i). cbn [nth_error]. split; [exact E|]. split; [exact O|]. rewrite S. lia.
Qed.
Lemma bytes_nodup : NoDup (map map_byte MAP_NAMES).
Proof. vm_compute. repeat (constructor; [intro H; cbn in H; intuition discriminate|]). constructor. Qed.
(* A UUID has the code of a mapper exactly if it is the word of that mapper, as it
   is written; all other UUIDs have MAP_COUNT. *)
Theorem C77_code u : 
  (forall e w, In (e, w) map_words -> (uuid2map u = e <-> u = parse_uuid (txt w))) /\
  (uuid2map u = MAP_COUNT <-> forall e w, In (e, w) map_words -> u <> parse_uuid (txt w)) /\
  (uuid2map u <= MAP_COUNT).
Proof.
  assert (W : map (fun p => parse_uuid (txt (snd p))) map_words = map (fun n => mkUuid n 0) MAP_NAMES) by (vm_compute; reflexivity).
  assert (C : map fst map_words = map N.of_nat (seq 0 11)) by (vm_compute; reflexivity).
  assert (AT : forall e w, In (e, w) map_words -> e < MAP_COUNT /\ nth_error MAP_NAMES (N.to_nat e) = Some (uvalue (parse_uuid (txt w))) /\ uorigin (parse_uuid (txt w)) = 0).
  { intros e w I. cbn [map_words In] in I. repeat (destruct I as [I|I]; [injection I as <- <-; vm_compute; auto|]). destruct I. }
  unfold uuid2map. destruct (switch_in u MAP_NAMES bytes_nodup 0) as [[E O]|(i & E & O & S)].
  - rewrite E. assert (NO : forall e w, In (e, w) map_words -> u <> parse_uuid (txt w)).
    { intros e w I Q. apply O. rewrite <- W, Q. apply in_map_iff. exists (e, w). auto. }
    split; [|split].
    + intros e w I. split; [|intro Q; destruct (NO e w I Q)]. intro Q. destruct (AT e w I) as [L _]. subst e. lia.
    + split; [intros _; exact NO|reflexivity].
    + lia.
  - rewrite S, N.add_0_l. assert (L : (i < 11)%nat) by (apply (proj1 (nth_error_Some MAP_NAMES i)); congruence).
    assert (IW : exists w, In (N.of_nat i, w) map_words).
    { assert (I : In (N.of_nat i) (map fst map_words)) by (rewrite C; apply in_map; apply in_seq; lia). apply in_map_iff in I as ([e w] & Q & I). cbn [fst] in Q. subst e. eauto. }
    assert (UE : forall v, nth_error MAP_NAMES i = Some (uvalue v) -> uorigin v = 0 -> u = v) by (intros [a b] Q Z; destruct u as [c d]; cbn [uvalue uorigin] in *; rewrite E in Q; injection Q as ->; congruence).
    split; [|split].
    + intros e w I. destruct (AT e w I) as (LE & NE & OE). split.
      * intro Q. subst e. rewrite Nnat.Nat2N.id in NE. exact (UE _ NE OE).
      * intro Q. assert (X : N.to_nat e = i); [|lia]. rewrite <- Q, <- E in NE. 
        assert (ND : NoDup MAP_NAMES) by (apply (NoDup_map_inv map_byte); exact bytes_nodup). apply (proj1 (NoDup_nth_error _) ND); [|exact NE].
        change (List.length MAP_NAMES) with 11%nat. unfold MAP_COUNT in LE. lia.
    + split; [unfold MAP_COUNT; intro Q; exfalso; lia|]. intro NO. exfalso. destruct IW as (w & I). destruct (AT _ _ I) as (_ & NE & OE). rewrite Nnat.Nat2N.id in NE. exact (NO _ _ I (UE _ NE OE)).
    + unfold MAP_COUNT. lia.
Qed.
(* map2uuid is the inverse; MAP_COUNT is the fatal error, which is no mapper. *)
Theorem C77_back : (forall e w, In (e, w) map_words -> map2uuid e = Some (parse_uuid (txt w))) /\ map2uuid MAP_COUNT = Some FATAL /\ uuid2map FATAL = MAP_COUNT /\
  forall u v, uuid2map u = uuid2map v -> uuid2map u <> MAP_COUNT -> u = v.
Proof.
  split; [|split; [|split]].
  - intros e w I. cbn [map_words In] in I. repeat (destruct I as [I|I]; [injection I as <- <-; vm_compute; reflexivity|]). destruct I.
  - reflexivity.
  - vm_compute. reflexivity.
  - intros u v E N. unfold uuid2map in *. destruct (switch_in u MAP_NAMES bytes_nodup 0) as [[Q _]|(i & E1 & O1 & S1)]; [contradiction|].
    destruct (switch_in v MAP_NAMES bytes_nodup 0) as [[Q _]|(j & E2 & O2 & S2)]; [congruence|]. assert (i = j) by lia. subst j. destruct u as [a b], v as [c d]. cbn [uvalue uorigin] in *. congruence.
Qed.
(* The words that are names of forms too (ron/form.hpp) have the same UUID. *)
Theorem C77_forms f : (f < 20)%nat -> uuid2map (form_uuid (N.of_nat f)) = 
  match f with 1%nat => YARN_MAP | 6%nat => CHAIN_MAP | 8%nat => META_MAP | 9%nat => PREV_MAP | 10%nat => OBJ_MAP | 16%nat => JSON_MAP | 17%nat => CSV_MAP | 18%nat => TXT_MAP | _ => MAP_COUNT end.
Proof. intro L. do 20 (destruct f as [|f]; [vm_compute; reflexivity|]). lia. Qed.
(* mapped words and words next to them *)
Example C77_case : uuid2map (parse_uuid (txt "txt")) = TXT_MAP /\ uuid2map (parse_uuid (txt "txt1")) = MAP_COUNT /\ uuid2map (parse_uuid (txt "txt+A")) = MAP_COUNT /\ uuid2map (parse_uuid (txt "sha3")) = MAP_COUNT /\
  In (TXT_MAP, "txt") map_words /\ (18 < 20)%nat.
Proof. do 4 (split; [vm_compute; reflexivity|]). split; [cbn; auto 12|lia]. Qed.
(* The byte the switch looks at does not tell a mapper: the comparison after it is
   needed. *)
Theorem C77_byte_refuted : exists u v, map_byte (uvalue u) = map_byte (uvalue v) /\ uuid2map u = OP_MAP /\ uuid2map v = MAP_COUNT.
Proof. exists (parse_uuid (txt "op")), (parse_uuid (txt "oq")). do 2 (split; [vm_compute; reflexivity|]). vm_compute. reflexivity. Qed.
Print Assumptions C77_code.
Print Assumptions C77_back.
Print Assumptions C77_forms.
