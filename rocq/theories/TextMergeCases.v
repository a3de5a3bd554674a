(* C44: concrete cases and counterexamples. *)
From Coq Require Import String Sorted Permutation.
From Verif Require Import Prelude UuidModel UuidSpec UuidProofs KeyModel CodecModel TextModel TextSpec BuilderSpec BuilderProofs MergeModel MergeSpec MergeTextModel
  MergeProofs RgaProofs MergeTheorems TextMergeSpec TextCursors TextMerge TextMergeTheorems Txt MergeCases.
Open Scope string_scope.
Open Scope N_scope.
Open Scope list_scope.

(* ---- deciding mergeable for ops with integers and strings only ---- *)
Definition id_okb (u : uuid) : bool := (uvalue u <? 2 ^ 64) && (uorigin u <? 2 ^ 62).
Definition value_okb (v : value) : bool :=
  match v with
  | VInt z => (Z.leb (-922337203685477580) z && Z.ltb z (2 ^ 63))%Z
  | VStr (Some s) => forallb (fun cp => (cp <? 2 ^ 21) && negb (cp =? 0) && negb (cp =? 12)) s
  | VUuid u => id_okb u && (match write_uuid u with c :: _ => 57 <? c | [] => false end || forallb (fun c => negb (c =? 101) && negb (c =? 69)) (write_uuid u))
  | _ => false
  end.
Definition uop_okb (o : uop) : bool := id_okb (u_id o) && id_okb (u_ref o) && forallb value_okb (u_vals o).
Definition plainb (o : uop) : bool :=
  match u_vals o with [VStr (Some [cp])] => (cp <? 128) && negb (existsb (N.eqb cp) [0; 8; 9; 10; 12; 13; 34; 39; 92]) | _ => true end.
Definition fit (a b : uop) : bool :=
  (negb (uuid_eqb (u_id b) (inc (u_id a))) || uuid_eqb (u_ref b) (u_id a)).
Definition mergeableb (U : list uop) : bool :=
  forallb uop_okb U && forallb (fun a => forallb (fun b => fit a b) U) (origin_op :: U) &&
  forallb (fun a => forallb (fun b => negb (continues a b) || plainb a) U) U && forallb (fun b => negb (continues origin_op b)) U.
Lemma uop_okb_ok o : uop_okb o = true -> uop_ok o.
Proof.
  assert (I : forall u, id_okb u = true -> id_ok u).
  { intros u H. unfold id_okb in H. apply andb_prop in H as [A B]. apply N.ltb_lt in A, B. change (2 ^ 62) with 4611686018427387904 in B.
    split; [split; [exact A|change (2 ^ 64) with 18446744073709551616; lia]|exact B]. }
  unfold uop_okb. intro H. apply andb_prop in H as [H V]. apply andb_prop in H as [A B]. split; [apply I; exact A|]. split; [apply I; exact B|].
  rewrite forallb_forall in V. apply Forall_forall. intros v J. specialize (V v J). destruct v as [u|z|[s|]|t]; cbn [value_okb value_ok] in *; try discriminate.
  - apply andb_prop in V as [V1 V2]. destruct (I u V1) as [W1 W2]. split; [exact W1|]. split; [exact W2|].
    intros (a & e & b & E & NA & D & X & _). apply orb_prop in V2 as [V2|V2].
    { destruct a as [|c a]; [apply NA; reflexivity|]. rewrite E in V2. cbn [app] in V2. inversion D as [|? ? D1 D2]; subst. unfold CodecSpec.is_dec in D1. apply N.ltb_lt in V2. lia. }
    rewrite forallb_forall in V2. specialize (V2 e ltac:(rewrite E; apply in_or_app; right; left; reflexivity)).
    destruct X as [->| ->]; discriminate.
  - apply andb_prop in V as [V1 V2]. split; [apply Z.leb_le; exact V1|apply Z.ltb_lt; exact V2].
  - rewrite forallb_forall in V. apply Forall_forall. intros cp K. specialize (V cp K). apply andb_prop in V as [V V3]. apply andb_prop in V as [V1 V2].
    apply N.ltb_lt in V1. apply negb_true_iff, N.eqb_neq in V2, V3. auto.
Qed.
Lemma mergeableb_ok U : mergeableb U = true -> (forall a b, In a U -> In b U -> u_id a = u_id b -> a = b) -> mergeable U.
Proof.
  unfold mergeableb. intros H ID. apply andb_prop in H as [H H4]. apply andb_prop in H as [H H3]. apply andb_prop in H as [H1 H2].
  rewrite forallb_forall in H1, H2, H3, H4. split; [|split; [exact ID|split; [|split]]].
  - apply Forall_forall. intros o I. apply uop_okb_ok, H1, I.
  - intros a b IA IB E. specialize (H2 a IA). rewrite forallb_forall in H2. specialize (H2 b IB). unfold fit in H2.
    apply uuid_eqb_eq in E. rewrite E in H2. apply uuid_eqb_eq. exact H2.
  - intros a b IA IB E. specialize (H3 a IA). rewrite forallb_forall in H3. specialize (H3 b IB). rewrite E in H3. cbn [negb orb] in H3.
    unfold plainb in H3. unfold plain_string. destruct (u_vals a) as [|[u|z|[[|cp [|? ?]]|]|t] [|? ?]]; try exact Logic.I.
    apply andb_prop in H3 as [A B]. apply N.ltb_lt in A. apply negb_true_iff in B. split; [exact A|]. intro J.
    assert (X : existsb (N.eqb cp) [0; 8; 9; 10; 12; 13; 34; 39; 92] = true) by (apply existsb_exists; exists cp; split; [exact J|apply N.eqb_refl]).
    congruence.
  - intros b IB. specialize (H4 b IB). apply negb_true_iff in H4. exact H4.
Qed.

(* ---- C44 ---- *)
Definition A (n : N) : uuid := mkUuid (n * 2 ^ 54) (2 * 2 ^ 60 + 10 * 2 ^ 54).
Definition lwwA : list uop := [mkUop (A 1) LWW_FORM_UUID []; mkUop (A 2) (A 1) [VStr (Some [120]); VInt 1]].
Definition lwwB : list uop := [mkUop (A 1) LWW_FORM_UUID []; mkUop (A 3) (A 1) [VStr (Some [104; 233]); VInt (-2)]].
Definition text_for (us : list uop) : bytes := match build_calls (map UAppend us ++ [UEnd RAW])%list with Some t => t | None => [] end.
Lemma text_for_ok us : mergeable us -> build_calls (map UAppend us ++ [UEnd RAW])%list <> None -> N.of_nat (List.length us) < 2 ^ 32 - 1 ->
  frame_lit canon (text_for us) (chunk_of us).
Proof.
  intros M NN L. destruct (build_calls_frame (map UAppend us ++ [UEnd RAW])%list canon_writes) as (t & E & F).
  - apply (mergeable_good us); [exact M|intros u I; exact I].
  - rewrite app_length, map_length. cbn [List.length]. lia.
  - unfold text_for. rewrite E. exact F.
Qed.
Lemma lww_mergeable : mergeable (lwwA ++ lwwB)%list.
Proof.
  apply mergeableb_ok; [vm_compute; reflexivity|]. intros a b IA IB. cbn [lwwA lwwB app In] in IA, IB.
  repeat (destruct IA as [<-|IA]; [repeat (destruct IB as [<-|IB]; [cbn [u_id]; intro E; first [reflexivity | discriminate E]|]); destruct IB|]). destruct IA.
Qed.
Example C44_case :
  Forall2 (frame_lit canon) [text_for lwwA; text_for lwwB] [chunk_of lwwA; chunk_of lwwB] /\
  mergeable (map bare (List.concat [chunk_of lwwA; chunk_of lwwB])) /\ Forall sorted_ids [chunk_of lwwA; chunk_of lwwB] /\
  merge_as no_floats 100 LWW_RDT_FORM [text_for lwwA; text_for lwwB] =
    Done (Some (text_for (lwwA ++ [mkUop (A 3) (A 1) [VStr (Some [104; 233]); VInt (-2)]])), StOK).
Proof.
  split; [|split; [|split]].
  - constructor; [|constructor; [|constructor]]; (apply text_for_ok; [|vm_compute; discriminate|vm_compute; reflexivity]);
      (apply (mergeable_incl _ _ lww_mergeable); intros u I; apply in_or_app; tauto).
  - unfold chunk_of. cbn [List.concat]. rewrite app_nil_r, map_app, !bare_denote. exact lww_mergeable.
  - apply (ssb_ok id_le (fun a b => negb (uuid_ltb (r_id b) (r_id a)))); [|vm_compute; reflexivity].
    intros a b E. apply negb_true_iff in E. exact E.
  - vm_compute. reflexivity.
Qed.


(* log merge of a span: every op of the span carries the terminator of the
   chunk, the chunk is ended after each one, and all characters but the first
   come back as something else *)
Theorem C44_log_span_refuted : exists f g, 
  map r_vals (ops_of f ++ ops_of g) = [[]; [VStr (Some [97])]; [VStr (Some [98])]] /\
  exists text, merge_texts [f; g] = Done (Some text, StOK) /\
    map r_vals (ops_of text) = [[]; [VStr (Some [97])]; [VUuid (mkUuid 684547143360315392 0)]].
Proof.
  exists "@1+A :log;", "@2+A :1+A ('ab');". split; [vm_compute; reflexivity|]. exists "@1+A :log;
@2+A 'a';
b;
". split; vm_compute; reflexivity.
Qed.
Print Assumptions C44_log_span_refuted.

(* a plain character written with an escape, followed by the next character:
   'b' comes back as a backspace *)
Theorem C44_escaped_refuted : exists f g,
  map r_vals (ops_of f ++ ops_of g) = [[]; [VStr (Some [47])]; [VStr (Some [98])]] /\
  exists text, merge_texts [f; g] = Done (Some text, StOK) /\ map r_vals (ops_of text) = [[]; [VStr (Some [47])]; [VStr (Some [8])]].
Proof.
  exists "@1+A :lww; @2+A :1+A '\/';", "@2000000001+A :2+A 'b';". split; [vm_compute; reflexivity|].
  exists (text_of (merge_texts ["@1+A :lww; @2+A :1+A '\/';"; "@2000000001+A :2+A 'b';"])). split; vm_compute; reflexivity.
Qed.
Print Assumptions C44_escaped_refuted.
