(* C59: the index over an LWW object. *)
From Coq Require Import Sorted.
From Verif Require Import Prelude UuidModel UuidProofs KeyModel CodecModel TextModel TextSpec TextSafety TextTheorems BuilderSpec BuilderProofs MergeModel MergeSpec MergeTextModel
  TextMergeSpec TextCursors MergeKeeps TextMerge HashModel CompareModel CompareTheorems StoreModel StoreProofs MetaModel ClockModel RocksModel RocksSpec RocksProofs ReplicaModel ReplicaSpec BranchModel BranchSpec BranchProofs DurableSpec DurableProofs DurableTheorems
  NamesModel NamesTheorems LwwObjModel LwwObjSpec.

Section Index.
Variable fbits : bytes -> N.
Variable fuel : nat.
Notation obj_loop := (obj_loop fbits).
Notation obj_new := (obj_new fbits fuel).
Notation obj_update := (obj_update fbits fuel).

Definition patom_of (buf : bytes) (a : atom) : patom :=
  match a with
  | AUuid u => PUuid u
  | AInt b e => PInt (parse_integer (sub buf b e))
  | AStr cp n b e => if cp =? 0 then PStr cp n b e else PStr cp 0 0 0
  | AFloat b e => PFloat (fbits (sub buf b e))
  end.
Definition entry (c : cursor) : list (uuid * patom) :=
  match c_op c with _ :: _ :: AUuid k :: v :: _ => [(k, patom_of (c_buf c) v)] | _ => [] end.
Definition last_id (z : uuid) (cs : list cursor) : uuid := fold_left (fun z c => match entry c with [] => z | _ => op_id (c_op c) end) cs z.
Lemma op_ok o c : Forall (fun a => atom_reads (c_buf c) a = true) (c_op c) -> obj_op fbits o c = Done (mkObj (lo_buf o) (entry c ++ lo_vals o) (last_id (lo_last o) [c])).
Proof.
  intro F. unfold obj_op, entry, last_id, entry. cbn [fold_left]. destruct o as [b vs z]. cbn [lo_buf lo_vals lo_last].
  destruct (c_op c) as [|a0 [|a1 [|[k| | |] [|v r]]]] eqn:E; try reflexivity.
  assert (P : parse_atom fbits (c_buf c) v = Done (patom_of (c_buf c) v)).
  { destruct v as [u|x y|cp n x y|x y]; cbn [parse_atom patom_of]; try reflexivity.
    do 3 (inversion F as [|? ? _ F0]; subst; clear F; rename F0 into F). inversion F as [|? ? K _]; subst. rewrite K. reflexivity. }
  rewrite P. reflexivity.
Qed.
Lemma loop_ok buf l : forall m o c0 c d, reachable buf c0 -> run_to c0 l c -> next c = NEnd d \/ next c = NBad d -> (length l < m)%nat ->
  obj_loop m o c0 = Done (mkObj (lo_buf o) (flat_map entry (rev l) ++ lo_vals o) (last_id (lo_last o) l)).
Proof.
  induction l as [|x l IH]; intros m o c0 c d RE R E L; (destruct m as [|m]; [lia|]); cbn [LwwObjModel.obj_loop].
  - assert (c = c0) by (inversion R as [|l0 ? ? ? ? Q]; [reflexivity|destruct l0; discriminate Q]). subst c. destruct E as [-> | ->]; destruct o; reflexivity.
  - assert (K : next c0 = NOk x /\ run_to x l c).
    { clear -R. remember (x :: l) as xl eqn:Q. revert l Q. induction R as [|l1 c1 c2 R IH N]; intros l Q; [discriminate|]. destruct l1 as [|y l1].
      - cbn [app] in Q. injection Q as <- <-. assert (c1 = c0) by (inversion R as [|l0 ? ? ? ? Q]; [reflexivity|destruct l0; discriminate Q]). subst c1. split; [exact N|constructor].
      - cbn [app] in Q. injection Q as <- <-. destruct (IH _ eq_refl) as [A B]. split; [exact A|]. econstructor; eassumption. }
    destruct K as [N R1]. rewrite N. assert (RE1 : reachable buf x) by (eapply reach_ok; eassumption).
    rewrite (op_ok o x (C14_float_fits _ _ RE1)). cbn [rbind]. rewrite (IH m _ x c d RE1 R1 E) by (cbn [length] in L; lia). cbn [lo_buf lo_vals lo_last].
    cbn [rev]. rewrite flat_map_app, <- app_assoc. cbn [flat_map]. rewrite app_nil_r. reflexivity.
Qed.

Lemma runs_reach f l c : run_to (cursor_of f) l c -> Forall (reachable f) l.
Proof.
  intro R. assert (K : Forall (reachable f) l /\ reachable f c); [|apply K]. induction R as [|l c c' R [IH1 IH2] N]; [split; constructor|].
  assert (reachable f c') by (eapply reach_ok; eassumption). split; [apply Forall_app; split; [exact IH1|repeat constructor; assumption]|assumption].
Qed.
Lemma runs_next f l c x : run_to (cursor_of f) l c -> In x l -> exists y, reachable f y /\ next y = NOk x.
Proof.
  induction 1 as [|l c c' R IH N]; [intros []|]. intro I. apply in_app_iff in I as [I|[<-|[]]]; [exact (IH I)|]. exists c. split; [|exact N].
  clear -R. induction R; [constructor|eapply reach_ok; eassumption].
Qed.
(* the entry of a field is made of the last op that sets it *)
Lemma entry_vals c k : (exists v, entry c = [(k, patom_of (c_buf c) v)] /\ exists r, r_vals (rop_of c) = VUuid k :: value_of (c_buf c) v :: r /\ In v (c_op c)) \/
  find (fun p => uuid_eqb (fst p) k) (entry c) = None /\ forall v r, r_vals (rop_of c) <> VUuid k :: v :: r.
Proof.
  unfold entry, rop_of. cbn [r_vals]. destruct (c_op c) as [|a0 [|a1 [|[k0|x y|cp n x y|x y] [|v r]]]]; cbn [skipn map value_of]; try (right; split; [reflexivity|]; discriminate).
  destruct (uuid_eqb k0 k) eqn:E.
  - apply uuid_eqb_eq in E. subst k0. left. exists v. split; [reflexivity|]. eexists. split; [reflexivity|]. right. right. right. left. reflexivity.
  - right. cbn [find fst]. rewrite E. split; [reflexivity|]. intros v0 r0 Q. injection Q as -> _ _. rewrite (proj2 (uuid_eqb_eq _ _) eq_refl) in E. discriminate.
Qed.
Lemma find_app2 {T} (p : T -> bool) a b : find p (a ++ b) = match find p a with Some x => Some x | None => find p b end.
Proof. induction a as [|x a IH]; [reflexivity|]. cbn [app find]. destruct (p x); [reflexivity|exact IH]. Qed.
Lemma find_never l k : never_set (map rop_of l) k -> find (fun p => uuid_eqb (fst p) k) (flat_map entry (rev l)) = None.
Proof.
  induction l as [|c l IH]; intro N; [reflexivity|]. cbn [rev]. rewrite flat_map_app, find_app2. rewrite IH.
  - cbn [flat_map]. rewrite app_nil_r. destruct (entry_vals c k) as [(v & _ & r & K & _)|[K _]]; [|exact K]. exfalso. eapply N; [left; reflexivity|exact K].
  - intros o v r I. apply N. right. exact I.
Qed.
Lemma find_last l k v : last_sets (map rop_of l) k v ->
  exists c a, In c l /\ In a (c_op c) /\ v = value_of (c_buf c) a /\ find (fun p => uuid_eqb (fst p) k) (flat_map entry (rev l)) = Some (k, patom_of (c_buf c) a).
Proof.
  intros (A & o & B & r & E & V & L). apply map_eq_app in E as (la & lb & -> & <- & E). destruct lb as [|c lb]; [discriminate|]. cbn [map] in E. injection E as <- <-.
  rewrite rev_app_distr. cbn [rev]. rewrite <- app_assoc. rewrite flat_map_app, find_app2, (find_never lb k) by (intros o v' r' I; apply L; exact I).
  cbn [app flat_map]. rewrite find_app2. destruct (entry_vals c k) as [(a & K1 & r2 & K2 & K3)|[_ K]]; [|exfalso; eapply K; exact V].
  rewrite K1. cbn [find fst]. rewrite (proj2 (uuid_eqb_eq _ _) eq_refl). exists c, a. split; [apply in_or_app; right; left; reflexivity|]. split; [exact K3|]. split; [congruence|reflexivity].
Qed.

Lemma silent_ok o k : obj_find o k = None -> silent o k.
Proof. intro H. unfold silent, obj_uuid, obj_number, obj_string. rewrite H. auto. Qed.
Lemma tells_ok o k buf a : obj_find o k = Some (patom_of buf a) -> lo_buf o = buf -> (match a with AStr _ _ _ e => e <= N.of_nat (length buf) | _ => True end) -> tells fbits o k (value_of buf a).
Proof.
  intros F <- W. unfold tells, obj_uuid, obj_number, obj_string. rewrite F. destruct a as [u|b e|cp n b e|b e]; cbn [patom_of value_of].
  - split; [reflexivity|]. split; [reflexivity|]. split; [discriminate|reflexivity].
  - split; [reflexivity|]. split; [reflexivity|]. split; [discriminate|reflexivity].
  - split; [destruct (cp =? 0); reflexivity|]. split; [destruct (cp =? 0); reflexivity|]. split.
    + intros cps Q. pose proof (read_string_ok (lo_buf o) cp n b e cps Q) as RS. destruct (cp =? 0) eqn:Z.
      * rewrite Z. assert (LE : (N.of_nat (length (lo_buf o)) <? e) = false) by (apply N.ltb_ge; exact W). rewrite LE, andb_false_r. rewrite RS. reflexivity.
      * rewrite Z. cbn [andb]. f_equal. rewrite <- RS. unfold read_string. rewrite Z. reflexivity.
    + intro K. exfalso. eapply K. reflexivity.
  - split; [reflexivity|]. split; [reflexivity|]. split; [discriminate|reflexivity].
Qed.

Lemma new_ok f l : ops_of f l -> (length l < fuel)%nat -> obj_new f = Done (mkObj f (flat_map entry (rev l)) (last_id NIL l)).
Proof.
  intros (c & d & R & E) L. unfold LwwObjModel.obj_new, LwwObjModel.obj_update. rewrite (loop_ok f l fuel _ _ _ _ (reach0 f) R E L). cbn [lo_buf lo_vals lo_last]. rewrite app_nil_r. reflexivity.
Qed.
Lemma within f l c a : ops_of f l -> In c l -> In a (c_op c) -> c_buf c = f /\ match a with AStr _ _ _ e => e <= N.of_nat (length f) | _ => True end.
Proof.
  intros (e & d & R & _) I J. destruct (runs_next _ _ _ _ R I) as (y & RY & N). destruct (C14_parser_safety f) as [K _]. destruct (K y RY) as [_ K2].
  destruct (K2 c N) as (B & P & _ & W & _). split; [exact B|]. rewrite Forall_forall in W. specialize (W a J). destruct a; auto. cbn [atom_within] in W. lia.
Qed.
(* The index over any text, as far as it can be read: a field is what the last op
   in the text that sets it says. *)
Theorem C59_last f l : ops_of f l -> (length l < fuel)%nat -> exists o, obj_new f = Done o /\
  (forall k v, last_sets (map rop_of l) k v -> tells fbits o k v) /\ (forall k, never_set (map rop_of l) k -> silent o k).
Proof.
  intros O L. eexists. split; [exact (new_ok f l O L)|]. split.
  - intros k v LS. destruct (find_last l k v LS) as (c & a & I & J & -> & F). destruct (within f l c a O I J) as [B W]. rewrite B in *.
    apply tells_ok; [|reflexivity|exact W]. unfold obj_find. cbn [lo_vals]. rewrite F. reflexivity.
  - intros k N. apply silent_ok. unfold obj_find. cbn [lo_vals]. rewrite (find_never l k N). reflexivity.
Qed.

(* A frame read on top of it: its ops come last, whatever their ids; the other
   fields stay as they were. *)
Theorem C59_update o f l : ops_of f l -> (length l < fuel)%nat -> exists o', obj_update o f = Done o' /\
  (forall k v, last_sets (map rop_of l) k v -> (match v with VUuid u => obj_uuid o' k = u | _ => obj_uuid o' k = NIL end) /\ (match v with VFloat t => obj_number o' k = Some (signed (fbits t)) | _ => obj_number o' k = None end)) /\
  (forall k, never_set (map rop_of l) k -> obj_uuid o' k = obj_uuid o k /\ obj_number o' k = obj_number o k /\ obj_string o' k = obj_string o k).
Proof.
  intros O L. pose proof O as (c & d & R & E). eexists. split; [unfold LwwObjModel.obj_update; exact (loop_ok f l fuel o _ _ _ (reach0 f) R E L)|].
  assert (FE : forall k, obj_find (mkObj (lo_buf o) (flat_map entry (rev l) ++ lo_vals o) (last_id (lo_last o) l)) k =
    match find (fun p => uuid_eqb (fst p) k) (flat_map entry (rev l)) with Some p => Some (snd p) | None => obj_find o k end).
  { intro k. unfold obj_find. cbn [lo_vals]. rewrite find_app2. destruct (find _ (flat_map entry (rev l))); reflexivity. }
  split; intros k K; unfold obj_uuid, obj_number, obj_string; rewrite ?FE.
  - intro LS. destruct (find_last l k K LS) as (x & a & I & J & -> & F). rewrite F. cbn [snd].
    destruct a as [u|b e|cp n b e|b e]; cbn [patom_of value_of]; try (split; reflexivity).
    destruct (cp =? 0); split; reflexivity.
  - rewrite (find_never l k K). auto.
Qed.

(* A string of such a frame is taken of the text the index was made over: there is
   no read beyond that text if it is as long as the frame, and the string is right
   if the text begins with the frame. *)
Theorem C59_update_string o f l : ops_of f l -> (length l < fuel)%nat -> exists o', obj_update o f = Done o' /\
  forall k cps, last_sets (map rop_of l) k (VStr (Some cps)) ->
    ((length f <= length (lo_buf o))%nat -> exists t, obj_string o' k = Done t) /\
    (forall r, lo_buf o = f ++ r -> obj_string o' k = Done (flat_map utf8append cps)).
Proof.
  intros O L. pose proof O as (c & d & R & E). eexists. split; [unfold LwwObjModel.obj_update; exact (loop_ok f l fuel o _ _ _ (reach0 f) R E L)|].
  intros k cps LS. destruct (find_last l k _ LS) as (x & a & I & J & V & F). destruct (within f l x a O I J) as [B W]. rewrite B in *.
  assert (FE : obj_find (mkObj (lo_buf o) (flat_map entry (rev l) ++ lo_vals o) (last_id (lo_last o) l)) k = Some (patom_of f a)).
  { unfold obj_find. cbn [lo_vals]. rewrite find_app2, F. reflexivity. }
  destruct a as [u|b e|cp n b e|b e]; try discriminate V. unfold obj_string. rewrite FE. cbn [patom_of lo_buf]. symmetry in V. pose proof (read_string_ok f cp n b e cps V) as RS.
  split.
  - intro LE. destruct (cp =? 0) eqn:Z; rewrite Z; cbn [andb]; [|eexists; reflexivity].
    assert (K : (N.of_nat (length (lo_buf o)) <? e) = false) by (apply N.ltb_ge; lia). rewrite K, andb_false_r. eexists. reflexivity.
  - intros r Q. rewrite Q. destruct (cp =? 0) eqn:Z; rewrite Z; cbn [andb].
    + assert (K : (N.of_nat (length (f ++ r)) <? e) = false) by (apply N.ltb_ge; rewrite app_length; lia). rewrite K, andb_false_r. rewrite <- RS. unfold read_string. rewrite Z.
      assert (SE : sub (f ++ r) b e = sub f b e).
      { unfold sub. rewrite skipn_app, firstn_app. rewrite skipn_length. match goal with |- _ ++ firstn ?m (skipn ?j r) = _ => destruct (Nat.le_gt_cases (length f) (N.to_nat b)) as [Q1|Q1]; [replace m with 0%nat by lia|replace m with 0%nat by lia] end; cbn [firstn]; rewrite app_nil_r; reflexivity. }
      rewrite SE. reflexivity.
    + rewrite <- RS. unfold read_string. rewrite Z. reflexivity.
Qed.

(* ---- states in id order ---- *)
Lemma visits_run c0 cs : forall l0 c, run_to c0 l0 c -> then_visits c cs -> exists e d, run_to c0 (l0 ++ cs) e /\ (next e = NEnd d \/ next e = NBad d).
Proof.
  induction cs as [|x cs IH]; intros l0 c R (c' & N & V); unfold text_next in N.
  - inversion V as [? D|]; subst. rewrite D in N. rewrite app_nil_r. exists c, c'. split; [exact R|]. destruct (next c); try discriminate; injection N as ->; auto.
  - inversion V as [|? c2 ? D N2 V2]; subst. rewrite D in N. destruct (next c) as [y|y|y|] eqn:E; try discriminate. injection N as ->.
    destruct (IH (l0 ++ [x]) x (run_next _ _ _ _ R E) ltac:(exists c2; auto)) as (e & d & K). exists e, d. rewrite <- app_assoc in K. exact K.
Qed.
Lemma lit_ops f ops (P : bytes -> N -> Prop) : frame_lit P f ops -> N.of_nat (length f) < 2 ^ 32 -> exists l, ops_of f l /\ map rop_of l = ops.
Proof.
  intros F L. destruct (frame_visits f ops F L) as (cs & TV & LC). exists cs. split.
  - destruct (visits_run (cursor_of f) cs [] _ (run_here _) TV) as (e & d & K). exists e, d. exact K.
  - clear -LC. induction LC as [|c o cs ops [E _] F IH]; [reflexivity|]. cbn [map]. rewrite E, IH. reflexivity.
Qed.
Lemma field_last us k v : StronglySorted newer us -> field us k v -> last_sets (chunk_of us) k v.
Proof.
  intros SS (u & I & (r & SV) & K). assert (E : map bare (chunk_of us) = us) by (unfold chunk_of; apply bare_denote).
  apply in_split in I as (A & B & ->). apply map_eq_app in E as (ca & cb & -> & EA & EB). destruct cb as [|o cb]; [discriminate|]. cbn [map] in EB. injection EB as EO EB.
  exists ca, o, cb, r. split; [reflexivity|]. split; [rewrite <- EO in SV; exact SV|]. intros o' v' r' J Q.
  assert (IB : In (bare o') B) by (rewrite <- EB; apply in_map; exact J).
  assert (NW : newer u (bare o')).
  { clear -SS IB. induction A as [|x A IH]; cbn [app] in SS; inversion SS as [|? ? S1 S2]; subst; [rewrite Forall_forall in S2; apply S2; exact IB|apply IH; exact S1]. }
  destruct (K (bare o') v' ltac:(apply in_or_app; right; right; exact IB) ltac:(exists r'; exact Q)) as [Z|Z].
  - rewrite Z in NW. unfold newer in NW. rewrite uuid_ltb_irrefl in NW. discriminate.
  - unfold newer in NW. pose proof (uuid_ltb_trans _ _ _ NW Z) as T. rewrite uuid_ltb_irrefl in T. discriminate.
Qed.
(* The index over a state that is kept in id order: a field is what the newest of
   the ops that set it says. *)
Theorem C59_newest f us (P : bytes -> N -> Prop) : frame_lit P f (chunk_of us) -> N.of_nat (length f) < 2 ^ 32 -> increasing_ids (chunk_of us) -> (length us < fuel)%nat ->
  exists o, obj_new f = Done o /\ (forall k v, field us k v -> tells fbits o k v) /\ (forall k, (forall u v, In u us -> ~ sets u k v) -> silent o k).
Proof.
  intros FL SM I L. destruct (lit_ops f _ P FL SM) as (l & O & E).
  assert (LL : (length l < fuel)%nat) by (rewrite <- (map_length rop_of), E, <- (map_length bare); unfold chunk_of; rewrite bare_denote; exact L).
  destruct (C59_last f l O LL) as (o & N & T & S0). exists o. split; [exact N|]. rewrite E in T, S0. split.
  - intros k v F. apply T. apply field_last; [apply increasing_newer; exact I|exact F].
  - intros k K. apply S0. intros x v r J Q. assert (IB : In (bare x) us).
    { assert (EB : map bare (chunk_of us) = us) by (unfold chunk_of; apply bare_denote). rewrite <- EB. apply in_map. exact J. }
    apply (K (bare x) v IB). exists r. exact Q.
Qed.
End Index.

Section Stored.
Variable sha : bytes -> bytes.
Variable fbits : bytes -> N.
Variable active : N.
Variable fuel : nat.
Lemma field_same U V k v : (forall u, In u U <-> In u V) -> field U k v -> field V k v.
Proof. intros E (u & I & G & K). exists u. split; [apply E; exact I|]. split; [exact G|]. intros u' v' J. apply K. apply E. exact J. Qed.
(* the state a branch has of an LWW object *)
Lemma stored d k W : key_form k = LWW_RDT_FORM -> state_at d k W -> keep_bound fuel W [] -> W <> [] ->
  exists f o, rocks_read fbits fuel d k = Done (f, KOk) /\ obj_new fbits fuel f = Done o /\
    (forall n v, field W n v -> tells fbits o n v) /\ (forall n, (forall u v, In u W -> ~ sets u n v) -> silent o n).
Proof.
  intros KF SA KB NW. assert (NE : k <> KEY_END) by (apply form_key_neq; rewrite KF; discriminate).
  apply union_inv_at in SA as (W0 & LI & EW). subst W. assert (B := union_of_keep fuel W0 KB Logic.I).
  assert (FM2 : In (key_form k) [LWW_RDT_FORM; MX_RDT_FORM; YARN_RAW_FORM; META_META_FORM]) by (left; symmetry; exact KF).
  destruct (union_get_small fbits fuel k FM2 (cell_at d k) W0 LI B) as (text & us & G & FL & I & U & SM & _).
  - intro Z. rewrite Z in NW. apply NW. reflexivity.
  - intro Z. destruct LI as (ds & (F & UU & _) & _). rewrite Z in F. inversion F; subst. destruct (map bare (concat W0)) as [|u us0] eqn:EM; [apply NW; reflexivity|].
    destruct (proj2 (UU u) (or_introl eq_refl)).
  - assert (LEN : (length us < fuel)%nat).
    { destruct KB as (_ & L & _). cbn [length] in L.
      assert ((length us <= length (map bare (concat W0)))%nat) by (apply NoDup_incl_length; [apply newer_nodup, increasing_newer; exact I|intros u J; apply U; exact J]). lia. }
    destruct (C59_newest fbits fuel text us _ FL SM I LEN) as (o & N & T & Q). exists text, o. split; [exact (read_of fbits fuel d k text NE G)|]. split; [exact N|]. split.
    + intros n v F. apply T. eapply field_same; [|exact F]. intro u. symmetry. apply U.
    + intros n K. apply Q. intros u v J. apply K, U, J.
Qed.
(* Whatever has happened to a branch: the index over an object read from it tells
   the newest of what was there and of the events accepted since. *)
Theorem C59_history id b t es b' ss E : version id = TIME -> healthy id b t -> Forall clocks es ->
  (forall now rs f, In (BReceive now rs f) es -> events_only f) ->
  b_run sha fbits active fuel id b es = Done (b', ss) -> received es ss E ->
  exists hs, keeps (br_tip b) t es ss hs /\
    forall k W, key_form k = LWW_RDT_FORM -> state_at (br_main b) k W -> keep_bound fuel W E -> W ++ says_ops (filed k hs) <> [] ->
      exists f o, rocks_read fbits fuel (br_main b') k = Done (f, KOk) /\ obj_new fbits fuel f = Done o /\
        (forall n v, field (W ++ says_ops (filed k hs)) n v -> tells fbits o n v) /\
        (forall n, (forall u v, In u (W ++ says_ops (filed k hs)) -> ~ sets u n v) -> silent o n).
Proof.
  intros VT HT C EO R RV. destruct (run_keeps sha fbits active fuel id VT es b b' ss t HT C R EO) as (hss & KP & ST).
  exists (concat hss). split; [exact KP|]. intros k W KF SA KB NW.
  destruct (state_story sha fbits fuel (br_main b) es ss hss (br_main b') E k W) as [SA2 _]; try assumption; [apply HT|left; symmetry; exact KF|].
  destruct (story_measure sha fbits fuel _ _ _ _ _ k ST E RV) as (I1 & I2 & I3).
  apply stored; try assumption. rewrite <- (app_nil_r (W ++ _)). apply (bound_moves fuel W [] E [] (says_ops (filed k (concat hss)))); try assumption.
  rewrite !app_nil_r. exact KB.
Qed.

(* What is written through the index refers to itself: every replica refuses it. *)
Theorem C59_write {S} jread jprev mwrite mbatch o id k vals o' f (main : S) now rs tip : tip_ok id -> version id = TIME -> payload (uorigin id) <> 0 ->
  Forall value_ok (VUuid k :: vals) -> obj_write o id k vals = (o', Some f) -> N.of_nat (length f) < 2 ^ 32 -> (0 < fuel)%nat ->
  receive_frame sha fbits S jread jprev mwrite mbatch active fuel main now rs tip f = Done (main, now, RCauseBreak).
Proof.
  intros [OK NI] VT PO VO W SM FU. unfold obj_write in W. injection W as _ W. set (u := mkUop id id (VUuid k :: vals)).
  assert (UO : uop_ok u) by (split; [exact OK|]; split; [exact OK|exact VO]).
  destruct (build_calls_frame [UAppend u] canon_writes) as (text & BT & FL).
  { cbn [good_calls]. split; [exact UO|]. split; [intro Q; exfalso; apply NI; exact Q|]. split; [|exact Logic.I].
    unfold continues. intro Q. exfalso. apply andb_true_iff in Q as [Q _]. apply andb_true_iff in Q as [Q _]. apply uuid_eqb_eq in Q. apply NI. exact Q. }
  { reflexivity. }
  assert (EF : text = f).
  { unfold build_calls in BT. unfold one_op in W. cbn [calls_of] in BT. unfold u in BT. cbn [u_id u_ref u_vals] in BT. destruct (wop_of_op id id (VUuid k :: vals)); [|discriminate]. cbn [option_map] in BT. congruence. }
  subst text. destruct (frame_visits f _ FL SM) as (cs & (c & N & V) & LC). cbn [denote] in LC.
  assert (CI : exists E, rop_of c = mkRop id id (VUuid k :: vals) RAW /\ valid c = E /\ E = true).
  { inversion LC as [|c0 o0 cs0 os [E _] LC2]; subst. inversion V; subst. eexists. split; [exact E|]. split; eauto. }
  destruct CI as (vv & E & VC & ->). unfold text_next in N. destruct (next (cursor_of f)) as [x|x|x|] eqn:EN; try discriminate; rewrite VC in N; try discriminate N; injection N as ->.
  assert (EI : text_id c = id) by exact (f_equal r_id E). assert (ER : text_ref c = id) by exact (f_equal r_ref E). assert (ET : c_term c = RAW) by exact (f_equal r_term E).
  unfold receive_frame. rewrite EN. unfold receive. destruct fuel as [|n]; [lia|]. cbn [receive_loop]. rewrite VC. unfold receive_op. cbv zeta. rewrite EI, VT, ET.
  change (TIME =? TIME) with true. change (RAW =? QUERY) with false. cbn iota. rewrite (proj2 (N.eqb_neq _ _) PO). cbn [negb].
  unfold save_chain, check_sanity. rewrite EI, ER, VT, uuid_ltb_irrefl. change (TIME =? TIME) with true. cbn [negb rbind is_ok s_main s_now commit_on]. reflexivity.
Qed.
End Stored.
Print Assumptions C59_last.
Print Assumptions C59_update.
Print Assumptions C59_update_string.
Print Assumptions C59_newest.
Print Assumptions C59_history.
Print Assumptions C59_write.
