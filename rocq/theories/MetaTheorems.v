(* Property C32: op metadata. *)
From Verif Require Import Prelude UuidModel UuidSpec UuidProofs KeyModel CodecModel CodecSpec TextTable TextModel TextSpec TextTheorems
  CodecTheorems BuilderSpec BuilderProofs BuilderTheorems MergeModel MergeTextModel HashModel HashSpec HashProofs HashTheorems MetaModel MetaSpec.

Section Hash.
Variable sha : bytes -> bytes.
Variable fbits : bytes -> N.
Hypothesis sha_len : forall s, length (sha s) = 32%nat.
Hypothesis fbits_ok : forall s, fbits s < 2 ^ 64.
Notation meta_of := (meta_of sha fbits).
Notation hashed := (hashed sha fbits).
Notation hash_of := (hash_of sha fbits).

Lemma image_done c p r : length (hbits p) = 32%nat -> length (hbits r) = 32%nat ->
  exists img, hash_image fbits c p r = Done img.
Proof.
  intros P R. unfold hash_image, write_hash. rewrite P, R. cbn [Nat.eqb rbind]. eexists. reflexivity.
Qed.
Lemma op_hash_done c p r : length (hbits p) = 32%nat -> length (hbits r) = 32%nat ->
  exists img, hash_image fbits c p r = Done img /\ op_hash sha fbits c p r = Done (mkSha2 256 (sha img)).
Proof.
  intros P R. destruct (image_done c p r P R) as [img E]. exists img. split; [exact E|].
  unfold op_hash. rewrite E. reflexivity.
Qed.
Lemma meta_len h m : meta_of h = Done m -> length (hbits (m_hash m)) = 32%nat.
Proof.
  revert m. destruct h as [|c p|c p r]; intro m; cbn [MetaSpec.meta_of].
  - intro E. injection E as <-. reflexivity.
  - destruct (meta_of p) as [mp| |]; cbn [rbind]; try discriminate. unfold meta_root.
    destruct (negb _); [discriminate|]. destruct (negb _); [discriminate|]. unfold op_hash.
    destruct (hash_image _ _ _ _) as [img| |]; cbn [rbind]; try discriminate.
    intro E. injection E as <-. cbn [m_hash hbits]. apply sha_len.
  - destruct (meta_of p) as [mp| |]; cbn [rbind]; try discriminate.
    destruct (meta_of r) as [mr| |]; cbn [rbind]; try discriminate. unfold meta_next.
    destruct (negb _); [discriminate|]. unfold op_hash.
    destruct (hash_image _ _ _ _) as [img| |]; cbn [rbind]; try discriminate.
    intro E. injection E as <-. cbn [m_hash hbits]. apply sha_len.
Qed.

(* the two ways a metadata record is made *)
Lemma root_inv c p m : meta_of (HRoot c p) = Done m -> exists mp img,
  meta_of p = Done mp /\ hash_image fbits c (m_hash mp) (sha_uuid sha (text_ref c)) = Done img /\
  m = mkMeta (text_id c) (text_ref c) (text_id c) (mkSha2 256 (sha img)) (uvalue (m_id mp)) (uvalue (text_id c)).
Proof.
  cbn [MetaSpec.meta_of]. destruct (meta_of p) as [mp| |] eqn:Ep; cbn [rbind]; try discriminate. unfold meta_root.
  destruct (negb _); [discriminate|]. destruct (negb _); [discriminate|].
  destruct (op_hash_done c (m_hash mp) (sha_uuid sha (text_ref c)) (meta_len _ _ Ep) (sha_len _)) as (img & E1 & E2).
  rewrite E2. cbn [rbind]. intro E. injection E as <-. exists mp, img. auto.
Qed.
Lemma step_inv c p r m : meta_of (HStep c p r) = Done m -> exists mp mr img,
  meta_of p = Done mp /\ meta_of r = Done mr /\ hash_image fbits c (m_hash mp) (m_hash mr) = Done img /\
  uorigin (text_id c) = uorigin (m_id mp) /\ uuid_ltb (m_id mp) (text_id c) = true /\
  m = mkMeta (text_id c) (m_rdt mr) (m_obj mr) (mkSha2 256 (sha img)) (uvalue (m_id mp))
        (if negb (uorigin (text_ref c) =? uorigin (text_id c)) || negb (uvalue (m_id mp) =? uvalue (text_ref c))
         then uvalue (text_id c) else m_chain mp).
Proof.
  cbn [MetaSpec.meta_of]. destruct (meta_of p) as [mp| |] eqn:Ep; cbn [rbind]; try discriminate.
  destruct (meta_of r) as [mr| |] eqn:Er; cbn [rbind]; try discriminate. unfold meta_next, uuid_gtb.
  destruct ((uorigin (text_id c) =? uorigin (m_id mp)) && uuid_ltb (m_id mp) (text_id c)) eqn:G; cbn [negb]; [|discriminate].
  apply andb_true_iff in G as [G1 G2]. apply N.eqb_eq in G1.
  destruct (op_hash_done c (m_hash mp) (m_hash mr) (meta_len _ _ Ep) (meta_len _ _ Er)) as (img & E1 & E2).
  rewrite E2. cbn [rbind]. intro E. injection E as <-. exists mp, mr, img. auto 10.
Qed.
Lemma hashed_root c p mp img : meta_of p = Done mp -> hash_image fbits c (m_hash mp) (sha_uuid sha (text_ref c)) = Done img ->
  hashed (HRoot c p) = img :: hashed p.
Proof. intros E1 E2. cbn [MetaSpec.hashed]. unfold MetaSpec.hash_of, image_of. rewrite E1, E2. reflexivity. Qed.
Lemma hashed_step c p r mp mr img : meta_of p = Done mp -> meta_of r = Done mr -> hash_image fbits c (m_hash mp) (m_hash mr) = Done img ->
  hashed (HStep c p r) = img :: hashed p ++ hashed r.
Proof. intros E1 E2 E3. cbn [MetaSpec.hashed]. unfold MetaSpec.hash_of, image_of. rewrite E1, E2, E3. reflexivity. Qed.

Lemma last_meta h m : meta_of h = Done m -> m_id m = last_id h.
Proof.
  destruct h as [|c p|c p r]; intro E.
  - cbn in E. injection E as <-. reflexivity.
  - apply root_inv in E as (mp & img & _ & _ & ->). reflexivity.
  - apply step_inv in E as (mp & mr & img & _ & _ & _ & _ & _ & ->). reflexivity.
Qed.
Lemma last_time h : causal fbits h -> h <> HNil -> version (last_id h) = TIME.
Proof. destruct h as [|c p|c p r]; cbn [causal last_id yarn]; [contradiction| |]; unfold last_id; cbn [yarn]; tauto. Qed.

(* C32, the Merkle property. Two histories whose last events have the same hash
   consist of the same events, in the same yarns, with the same dependencies -
   or two different byte strings hashed on the way have the same SHA-512/256
   (or one hashes to zero). *)
Theorem C32_merkle : forall h1 h2 m1 m2, causal fbits h1 -> causal fbits h2 ->
  meta_of h1 = Done m1 -> meta_of h2 = Done m2 -> hbits (m_hash m1) = hbits (m_hash m2) ->
  tells fbits h1 = tells fbits h2 \/ collision sha (hashed h1) (hashed h2) \/ zero_hash sha (hashed h1 ++ hashed h2).
Proof.
  assert (IMG : forall c p r c' p' r' img, readable fbits c -> readable fbits c' ->
    hash_image fbits c p r = Done img -> hash_image fbits c' p' r' = Done img ->
    tell fbits c = tell fbits c' /\ hbits p = hbits p' /\ hbits r = hbits r').
  { intros c p r c' p' r' img [[b D] K] [[b' D'] K'] E E'.
    destruct (C33_image fbits b c p r b' c' p' r' img fbits_ok D D' K K' E E') as (A1 & A2 & A3 & A4 & A5 & _).
    unfold rop_of in A1, A2. cbn [r_id r_ref] in A1, A2. unfold tell, text_id, text_ref. rewrite A1, A2, A3. auto. }
  assert (MONO : forall a b a' b', incl a a' -> incl b b' ->
    collision sha a b \/ zero_hash sha (a ++ b) -> collision sha a' b' \/ zero_hash sha (a' ++ b')).
  { intros a b a' b' Ia Ib [(x & y & X & Y & Nn & E)|(x & X & E)]; [left|right].
    - exists x, y. auto.
    - exists x. split; [|exact E]. apply in_app_iff in X. apply in_or_app. destruct X as [X|X]; [left; apply Ia|right; apply Ib]; exact X. }
  assert (HIT : forall a b x y, In x a -> In y b -> sha x = sha y -> x = y \/ collision sha a b).
  { intros a b x y X Y E. destruct (list_eq_dec N.eq_dec x y) as [Q|Q]; [left; exact Q|right; exists x, y; auto]. }
  induction h1 as [|c p IHp|c p IHp r IHr]; intros h2 m1 m2 C1 C2 E1 E2 H.
  - cbn in E1. injection E1 as <-. cbn [m_hash meta_nil SHA2_ZERO hbits] in H.
    destruct h2 as [|c' p'|c' p' r']; [left; reflexivity| |]; right; right.
    + apply root_inv in E2 as (mp & img & P1 & P2 & ->). cbn [m_hash hbits] in H. exists img.
      rewrite (hashed_root _ _ _ _ P1 P2). split; [left; reflexivity|symmetry; exact H].
    + apply step_inv in E2 as (mp & mr & img & P1 & P2 & P3 & _ & _ & ->). cbn [m_hash hbits] in H. exists img.
      rewrite (hashed_step _ _ _ _ _ _ P1 P2 P3). split; [left; reflexivity|symmetry; exact H].
  - apply root_inv in E1 as (mp & img & P1 & P2 & ->). cbn [m_hash hbits] in H. rewrite (hashed_root _ _ _ _ P1 P2).
    destruct h2 as [|c' p'|c' p' r'].
    + cbn in E2. injection E2 as <-. right. right. exists img. split; [left; reflexivity|exact H].
    + apply root_inv in E2 as (mp' & img' & P1' & P2' & ->). cbn [m_hash hbits] in H. rewrite (hashed_root _ _ _ _ P1' P2').
      destruct (HIT (img :: hashed p) (img' :: hashed p') img img' (or_introl eq_refl) (or_introl eq_refl) H) as [<-|Q]; [|right; left; exact Q].
      cbn [causal] in C1, C2. destruct C1 as (R1 & T1 & N1 & C1), C2 as (R2 & T2 & N2 & C2).
      destruct (IMG _ _ _ _ _ _ _ R1 R2 P2 P2') as (Q1 & Q2 & _).
      destruct (IHp p' _ _ C1 C2 P1 P1' Q2) as [Q|Q].
      * left. cbn [tells]. rewrite Q1, Q. reflexivity.
      * right. revert Q. apply MONO; intros x X; right; exact X.
    + apply step_inv in E2 as (mp' & mr' & img' & P1' & P2' & P3' & _ & _ & ->). cbn [m_hash hbits] in H. rewrite (hashed_step _ _ _ _ _ _ P1' P2' P3').
      destruct (HIT (img :: hashed p) (img' :: hashed p' ++ hashed r') img img' (or_introl eq_refl) (or_introl eq_refl) H) as [<-|Q]; [|right; left; exact Q].
      exfalso. cbn [causal] in C1, C2. destruct C1 as (R1 & T1 & N1 & C1), C2 as (R2 & T2 & NN & RF & C2 & C3).
      destruct (IMG _ _ _ _ _ _ _ R1 R2 P2 P3') as (Q1 & _). unfold tell in Q1.
      assert (Q : text_ref c = text_ref c') by congruence. rewrite Q, RF, (last_time _ C3 NN) in N1. discriminate N1.
  - apply step_inv in E1 as (mp & mr & img & P1 & P2 & P3 & _ & _ & ->). cbn [m_hash hbits] in H. rewrite (hashed_step _ _ _ _ _ _ P1 P2 P3).
    destruct h2 as [|c' p'|c' p' r'].
    + cbn in E2. injection E2 as <-. right. right. exists img. split; [left; reflexivity|exact H].
    + apply root_inv in E2 as (mp' & img' & P1' & P2' & ->). cbn [m_hash hbits] in H. rewrite (hashed_root _ _ _ _ P1' P2').
      destruct (HIT (img :: hashed p ++ hashed r) (img' :: hashed p') img img' (or_introl eq_refl) (or_introl eq_refl) H) as [<-|Q]; [|right; left; exact Q].
      exfalso. cbn [causal] in C1, C2. destruct C2 as (R2 & T2 & N2 & C2), C1 as (R1 & T1 & NN & RF & C1 & C3).
      destruct (IMG _ _ _ _ _ _ _ R1 R2 P3 P2') as (Q1 & _). unfold tell in Q1.
      assert (Q : text_ref c = text_ref c') by congruence. rewrite <- Q, RF, (last_time _ C3 NN) in N2. discriminate N2.
    + apply step_inv in E2 as (mp' & mr' & img' & P1' & P2' & P3' & _ & _ & ->). cbn [m_hash hbits] in H. rewrite (hashed_step _ _ _ _ _ _ P1' P2' P3').
      destruct (HIT (img :: hashed p ++ hashed r) (img' :: hashed p' ++ hashed r') img img' (or_introl eq_refl) (or_introl eq_refl) H) as [<-|Q]; [|right; left; exact Q].
      cbn [causal] in C1, C2. destruct C1 as (R1 & T1 & NN & RF & C1 & C3), C2 as (R2 & T2 & NN' & RF' & C2 & C3').
      destruct (IMG _ _ _ _ _ _ _ R1 R2 P3 P3') as (Q1 & Q2 & Q3).
      destruct (IHp p' _ _ C1 C2 P1 P1' Q2) as [Q|Q].
      * destruct (IHr r' _ _ C3 C3' P2 P2' Q3) as [Q'|Q'].
        -- left. cbn [tells]. rewrite Q1, Q, Q'. reflexivity.
        -- right. revert Q'. apply MONO; intros x X; right; apply in_or_app; right; exact X.
      * right. revert Q. apply MONO; intros x X; right; apply in_or_app; left; exact X.
Qed.

(* C32, what the metadata says: the id of the last event, the id and form of
   the creation of its object, the timestamp of its predecessor, and the chain:
   the yarn's last events up to the nearest one that does not reference its
   predecessor. Events of a yarn are of one origin and increase. *)
Theorem C32_meta : forall h m, causal fbits h -> h <> HNil -> meta_of h = Done m ->
  m_id m = last_id h /\
  (exists c, creation h = Some c /\ m_obj m = text_id c /\ m_rdt m = text_ref c) /\
  m_prev m = uvalue (match yarn h with _ :: c :: _ => text_id c | _ => NIL end) /\
  exists later head earlier, yarn h = later ++ head :: earlier /\ m_chain m = uvalue (text_id head) /\
    chained later (head :: earlier) /\
    match earlier with [] => True | c :: _ => text_ref head <> text_id c end.
Proof.
  clear fbits_ok.
  induction h as [|c p IHp|c p IHp r IHr]; intros m C NN E; [congruence| |].
  - clear NN. pose proof E as E0. apply root_inv in E as (mp & img & P1 & P2 & ->). cbn [m_id m_obj m_rdt m_prev m_chain].
    cbn [causal] in C. destruct C as (R1 & T1 & N1 & C). pose proof (last_meta _ _ P1) as L. unfold last_id in *. cbn [yarn creation].
    split; [reflexivity|]. split; [exists c; auto|]. split.
    + rewrite L. destruct (yarn p); reflexivity.
    + exists [], c, (yarn p). cbn [app chained]. split; [reflexivity|]. split; [reflexivity|]. split; [exact I|].
      destruct p as [|c' p'|c' p' r']; cbn [yarn]; [exact I| |]; cbn [causal] in C; destruct C as (_ & T2 & _);
        intro Q; rewrite Q, T2 in N1; discriminate N1.
  - clear NN. pose proof E as E0. apply step_inv in E as (mp & mr & img & P1 & P2 & P3 & O & G & ->). cbn [m_id m_obj m_rdt m_prev m_chain].
    cbn [causal] in C. destruct C as (R1 & T1 & NN & RF & C1 & C2). pose proof (last_meta _ _ P1) as L.
    destruct (IHr mr C2 NN P2) as (_ & (cr & Q1 & Q2 & Q3) & _). split; [reflexivity|]. split; [exists cr; cbn [creation]; auto|].
    split; [unfold last_id in L; cbn [yarn]; rewrite L; destruct (yarn p); reflexivity|].
    destruct (uorigin (text_ref c) =? uorigin (text_id c)) eqn:A; [destruct (uvalue (m_id mp) =? uvalue (text_ref c)) eqn:B|]; cbn [negb orb].
    + (* the chain goes on *)
      apply N.eqb_eq in A, B.
      assert (RP : text_ref c = m_id mp).
      { destruct (text_ref c) as [a b], (m_id mp) as [a' b']. cbn [uvalue uorigin] in *. congruence. }
      destruct p as [|c' p'|c' p' r'].
      * cbn in P1. injection P1 as <-. cbn [m_id meta_nil] in RP.
        pose proof (last_time _ C2 NN) as LT. rewrite <- RF, RP in LT. vm_compute in LT. discriminate LT.
      * destruct (IHp mp C1 ltac:(discriminate) P1) as (_ & _ & _ & later & hd & earlier & Y & CH & CHD & HD).
        exists (c :: later), hd, earlier. cbn [yarn app] in *. rewrite Y. split; [reflexivity|]. split; [exact CH|]. split; [|exact HD].
        cbn [chained]. split; [|exact CHD]. rewrite <- Y. unfold last_id in L. cbn [yarn] in L. congruence.
      * destruct (IHp mp C1 ltac:(discriminate) P1) as (_ & _ & _ & later & hd & earlier & Y & CH & CHD & HD).
        exists (c :: later), hd, earlier. cbn [yarn app] in *. rewrite Y. split; [reflexivity|]. split; [exact CH|]. split; [|exact HD].
        cbn [chained]. split; [|exact CHD]. rewrite <- Y. unfold last_id in L. cbn [yarn] in L. congruence.
    + exists [], c, (yarn p). cbn [app chained yarn]. split; [reflexivity|]. split; [reflexivity|]. split; [exact I|].
      unfold last_id in L. apply N.eqb_neq in B. destruct (yarn p) as [|d q]; [exact I|]. intro Q. apply B. rewrite L, Q. reflexivity.
    + exists [], c, (yarn p). cbn [app chained yarn]. split; [reflexivity|]. split; [reflexivity|]. split; [exact I|].
      unfold last_id in L. apply N.eqb_neq in A. destruct (yarn p) as [|d q]; [exact I|]. intro Q. apply A. rewrite Q, <- L, O. reflexivity.
Qed.
(* C32, extending a chain. is_next holds exactly for a later event of the same
   origin that references the last one; Next then succeeds and the result is
   the metadata of the longer history, in the same chain of the same object. *)
Theorem C32_extend : forall h m c, causal fbits h -> h <> HNil -> meta_of h = Done m -> readable fbits c ->
  (meta_is_next m c = true <->
   version (text_id c) = TIME /\ uorigin (text_id c) = uorigin (last_id h) /\
   uuid_ltb (last_id h) (text_id c) = true /\ text_ref c = last_id h) /\
  (meta_is_next m c = true -> exists m',
     meta_next sha fbits m c m = Done m' /\ meta_of (HStep c h h) = Done m' /\ causal fbits (HStep c h h) /\
     m_id m' = text_id c /\ m_obj m' = m_obj m /\ m_rdt m' = m_rdt m /\ m_chain m' = m_chain m /\
     m_prev m' = uvalue (last_id h)).
Proof.
  clear fbits_ok. intros h m c C NN E R. pose proof (last_meta _ _ E) as L.
  assert (IFF : meta_is_next m c = true <->
   version (text_id c) = TIME /\ uorigin (text_id c) = uorigin (last_id h) /\
   uuid_ltb (last_id h) (text_id c) = true /\ text_ref c = last_id h).
  { unfold meta_is_next, uuid_gtb. rewrite L, !andb_true_iff, !N.eqb_eq, uuid_eqb_eq. tauto. }
  split; [exact IFF|]. intro H. apply IFF in H as (T & O & G & RF).
  assert (Q : exists m', meta_next sha fbits m c m = Done m' /\
     m_id m' = text_id c /\ m_obj m' = m_obj m /\ m_rdt m' = m_rdt m /\ m_chain m' = m_chain m /\
     m_prev m' = uvalue (last_id h)).
  { unfold meta_next, uuid_gtb. rewrite L, G, RF. rewrite <- O, N.eqb_refl, N.eqb_refl. cbn [andb negb].
    destruct (op_hash_done c (m_hash m) (m_hash m) (meta_len _ _ E) (meta_len _ _ E)) as (img & _ & E2).
    rewrite E2. cbn [rbind negb orb]. eexists. split; [reflexivity|]. repeat split. }
  destruct Q as (m' & Q & Q'). exists m'. split; [exact Q|]. split; [|split; [|exact Q']].
  - cbn [MetaSpec.meta_of]. rewrite E. cbn [rbind]. exact Q.
  - cbn [causal]. auto 10.
Qed.

(* Metadata read back from its record has no hash. Continuing from it gives
   another hash than continuing from the original, up to collisions. *)
Theorem C32_reload : forall h m m0 c a b, causal fbits h -> h <> HNil -> meta_of h = Done m -> readable fbits c ->
  m_hash m0 = SHA2_ZERO ->
  meta_next sha fbits m c m = Done a -> meta_next sha fbits m0 c m0 = Done b ->
  hbits (m_hash a) = hbits (m_hash b) ->
  collision sha (image_of fbits c (m_hash m) (m_hash m)) (image_of fbits c SHA2_ZERO SHA2_ZERO) \/
  zero_hash sha (hashed h).
Proof.
  intros h m m0 c a b C NN E [[bf D] K] Z EA EB H.
  assert (NX : forall x y, length (hbits (m_hash x)) = 32%nat -> meta_next sha fbits x c x = Done y -> exists img,
            hash_image fbits c (m_hash x) (m_hash x) = Done img /\ hbits (m_hash y) = sha img).
  { intros x y LX. unfold meta_next. destruct (negb _); [discriminate|].
    destruct (op_hash_done c (m_hash x) (m_hash x) LX LX) as (img & E1 & E2). rewrite E2. cbn [rbind].
    intro Q. injection Q as <-. exists img. auto. }
  destruct (NX _ _ (meta_len _ _ E) EA) as (i1 & I1 & H1).
  assert (L0 : length (hbits (m_hash m0)) = 32%nat) by (rewrite Z; reflexivity).
  destruct (NX _ _ L0 EB) as (i2 & I2 & H2).
  rewrite H1, H2 in H. destruct (list_eq_dec N.eq_dec i1 i2) as [Q|Q].
  - right. subst i2. destruct (C33_image fbits bf c _ _ bf c _ _ i1 fbits_ok D D K K I1 I2) as (_ & _ & _ & Q & _).
    rewrite Z in Q. destruct h as [|c' p|c' p r]; [congruence| |].
    + apply root_inv in E as (mp & img & P1 & P2 & ->). exists img. rewrite (hashed_root _ _ _ _ P1 P2). split; [left; reflexivity|exact Q].
    + apply step_inv in E as (mp & mr & img & P1 & P2 & P3 & _ & _ & ->). exists img.
      rewrite (hashed_step _ _ _ _ _ _ P1 P2 P3). split; [left; reflexivity|exact Q].
  - left. exists i1, i2. unfold image_of. rewrite I1. rewrite Z in I2. rewrite I2. repeat split; try (left; reflexivity); assumption.
Qed.
End Hash.

Lemma abc64_char c v : abc64 c = Some v -> c < 128 /\ c <> 0 /\ c <> 12.
Proof.
  intro E. assert (L : c < 256).
  { unfold abc64 in E. destruct (N.ltb_spec c 256) as [L|L]; [exact L|].
    rewrite nth_overflow in E by (change (length ABC64) with 256%nat; lia). discriminate E. }
  assert (Q : (match abc64 c with None => true | Some _ => (c <? 128) && negb (c =? 0) && negb (c =? 12) end) = true).
  { clear E. revert c L.
    apply (forall_below_spec 256 (fun c => match abc64 c with None => true | Some _ => (c <? 128) && negb (c =? 0) && negb (c =? 12) end)).
    vm_compute. reflexivity. }
  rewrite E in Q. apply andb_true_iff in Q as [Q Q3]. apply andb_true_iff in Q as [Q1 Q2].
  apply N.ltb_lt in Q1. apply negb_true_iff in Q2, Q3. apply N.eqb_neq in Q2, Q3. auto.
Qed.
Lemma write_uuid_len u : (length (write_uuid u) <= 30)%nat.
Proof.
  unfold write_uuid.
  assert (W : forall w, (length (write_word w) <= 10)%nat).
  { intro w. destruct (write_word_text w) as (_ & L & _). exact (proj2 L). }
  pose proof (W (uvalue u)). pose proof (W (uorigin u)).
  destruct (variety u =? 0), (negb (version u =? 0) || negb (uorigin u =? 0)); rewrite ?app_length; cbn [length app]; lia.
Qed.

Lemma esc_len s : Forall (fun cp => cp < 128) s -> (length (flat_map utf8esc_append (until_zero s)) <= 6 * length s)%nat.
Proof.
  intro F. induction F as [|c s L F IH]; cbn [until_zero flat_map length]; [lia|]. destruct (c =? 0); [cbn [flat_map length]; lia|].
  cbn [flat_map]. rewrite app_length.
  assert (Q : (length (utf8esc_append c) <=? 6)%nat = true).
  { revert c L. apply (forall_below_spec 128 (fun c => (length (utf8esc_append c) <=? 6)%nat)). vm_compute. reflexivity. }
  apply Nat.leb_le in Q. lia.
Qed.

(* a metadata record, written and read back: id, object and form come back, the
   hash does not *)
Theorem C32_save_load : forall m,
  id_ok (m_id m) -> m_id m <> inc NIL -> value_ok (VUuid (m_obj m)) -> value_ok (VUuid (m_rdt m)) ->
  known_bits (m_hash m) = 256 -> length (hbits (m_hash m)) = 32%nat -> Forall is_byte (hbits (m_hash m)) ->
  exists text c, meta_save m = Some text /\ next (cursor_of text) = NOk c /\
    (forall c', next c <> NOk c') /\
    forall m0, meta_load m0 c =
      (mkMeta (m_id m) (m_rdt m) (m_obj m) (m_hash m0) (N.shiftl 63 54) (uvalue (m_id m)), LOk).
Proof.
  intros m I NI VO VR KB L B. destruct C41_hash_text as [H _]. destruct (H (m_hash m) KB L B) as (s & ES & LS & V & _). clear H.
  assert (SC : Forall (fun c => c < 128 /\ c <> 0 /\ c <> 12) s).
  { unfold sha2_valid in V. apply andb_true_iff in V as [V _]. apply andb_true_iff in V as [_ V].
    rewrite forallb_forall in V. apply Forall_forall. intros c J. specialize (V c J).
    destruct (abc64 c) as [v|] eqn:A; [exact (abc64_char c v A)|discriminate V]. }
  set (o := mkUop (m_id m) META_FORM_UUID [VUuid (m_obj m); VUuid (m_rdt m); VStr (Some s)]).
  assert (OK : uop_ok o).
  { split; [exact I|]. split; [split; [split|]; reflexivity|]. cbn [o u_vals].
    apply Forall_cons; [exact VO|]. apply Forall_cons; [exact VR|]. apply Forall_cons; [|apply Forall_nil].
    cbn [value_ok]. revert SC. apply Forall_impl. intros c (A & A1 & A2). change (2 ^ 21) with 2097152. repeat split; [lia|exact A1|exact A2]. }
  destruct (C16_roundtrip [UAppend o]) as (text & BT & RT).
  { cbn [good_calls]. split; [exact OK|]. split; [intro Q; contradiction|]. split; [|exact Logic.I].
    unfold continues. intro Q. exfalso. apply andb_true_iff in Q as [Q _]. apply andb_true_iff in Q as [Q _]. apply uuid_eqb_eq in Q. contradiction. }
  { reflexivity. }
  assert (MS : meta_save m = Some text).
  { unfold meta_save. rewrite ES. unfold build_calls in BT. cbn [calls_of o u_id u_ref u_vals] in BT. unfold o in BT. cbn [u_id u_ref u_vals] in BT.
    destruct (wop_of_op (m_id m) META_FORM_UUID [VUuid (m_obj m); VUuid (m_rdt m); VStr (Some s)]) as [w|]; [|discriminate BT].
    cbn [option_map] in BT. exact BT. }
  assert (LT : N.of_nat (length text) < 2 ^ 32).
  { unfold meta_save in MS. rewrite ES in MS. unfold wop_of_op in MS. cbn [wvals_of wval_of_value option_map] in MS.
    unfold build, build_from in MS. cbn [fold_left bstep] in MS. unfold append_op in MS. cbn [w_ref w_id] in MS.
    assert (NS : is_same_span {| w_id := m_id m; w_ref := META_FORM_UUID;
          w_vals := [WUuid (m_obj m); WUuid (m_rdt m); WStr (flat_map utf8esc_append (until_zero s)) (str_size s) (str_first s)] |} builder0 = false).
    { unfold is_same_span. cbn [w_ref w_id b_prev builder0]. destruct (uuid_eqb (m_id m) (inc NIL)) eqn:Q; [apply uuid_eqb_eq in Q; contradiction|].
      rewrite andb_false_r. reflexivity. }
    rewrite NS in MS. cbn [option_map] in MS. injection MS as <-.
    unfold release, write_values, write_spec. cbn [write_term b_span builder0 N.eqb b_prev b_data b_prev2 fst].
    pose proof (write_uuid_len (m_id m)). pose proof (write_uuid_len META_FORM_UUID).
    pose proof (write_uuid_len (m_obj m)). pose proof (write_uuid_len (m_rdt m)).
    assert (E6 : (length (flat_map utf8esc_append (until_zero s)) <= 6 * length s)%nat).
    { apply esc_len. revert SC. apply Forall_impl. tauto. }
    rewrite LS in E6. change (2 ^ 32) with 4294967296. unfold write_term. cbn [b_span b_data b_prev b_prev2 N.eqb N.ltb N.compare Pos.compare Pos.compare_cont].
    cbn [flat_map w_vals value_text].
    destruct (uuid_eqb (m_id m) (inc NIL)), (uuid_eqb META_FORM_UUID NIL), (is_ambiguous (m_obj m)), (is_ambiguous (m_rdt m));
      repeat (rewrite app_length || cbn [length app]); lia. }
  specialize (RT LT 2%nat). cbn [denote term_after] in RT. specialize (RT ltac:(cbn; lia)).
  cbn [scan] in RT. destruct (next (cursor_of text)) as [c|c|c|] eqn:NX; try discriminate RT.
  assert (NC : forall c', next c <> NOk c').
  { intros c' Q. rewrite Q in RT. discriminate RT. }
  exists text, c. split; [exact MS|]. split; [exact NX|]. split; [exact NC|].
  assert (RC : rop_of c = mkRop (m_id m) META_FORM_UUID [VUuid (m_obj m); VUuid (m_rdt m); VStr (Some s)] RAW).
  { destruct (next c) as [c'|c'|c'|]; [exfalso; exact (NC c' eq_refl)| | |]; cbn [o u_id u_ref u_vals] in RT; congruence. }
  clear -RC. unfold rop_of in RC. intro m0. unfold meta_load, text_id, text_ref, uuid_at.
  assert (R1 : op_id (c_op c) = m_id m) by congruence. assert (R2 : op_ref (c_op c) = META_FORM_UUID) by congruence.
  assert (R3 : map (value_of (c_buf c)) (skipn 2 (c_op c)) = [VUuid (m_obj m); VUuid (m_rdt m); VStr (Some s)]) by congruence.
  clear RC. rewrite R1, R2. change (negb (uuid_eqb META_FORM_UUID META_FORM_UUID)) with false. cbn [m_id m_rdt m_obj m_hash m_prev m_chain].
  clear R1 R2. destruct (c_op c) as [|a0 [|a1 [|a2 [|a3 l]]]]; try discriminate R3. cbn [skipn map] in R3. cbn [nth_error].
  assert (Q2 : value_of (c_buf c) a2 = VUuid (m_obj m)) by congruence. assert (Q3 : value_of (c_buf c) a3 = VUuid (m_rdt m)) by congruence.
  destruct a2; cbn [value_of] in Q2; try discriminate Q2. destruct a3; cbn [value_of] in Q3; try discriminate Q3.
  injection Q2 as ->. injection Q3 as ->. reflexivity.
Qed.
Print Assumptions C32_merkle.
Print Assumptions C32_meta.
Print Assumptions C32_extend.
Print Assumptions C32_reload.
Print Assumptions C32_save_load.
