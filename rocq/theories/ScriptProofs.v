(* The parts of a test script. *)
From Verif Require Import Prelude UuidModel UuidSpec UuidProofs CodecModel CodecSpec TextTable TextModel TextSpec TextSafety FrameProofs
  BuilderSpec BuilderProofs MergeModel MergeSpec MergeTextModel TextMergeSpec TextCursors MergeKeeps TextMerge ReplicaModel
  DurableSpec AnswerModel AnswerSpec AnswerTheorems HostModel CompareModel SizeProofs ScriptModel ScriptSpec.

Notation closed := (BuilderProofs.closed canon).
Notation opened := (BuilderProofs.opened canon).

(* ---- the loop over a list of cursors ---- *)
Definition put (c : cursor) (b : builder) : option builder :=
  match append_op (wop_of_cursor c) b with
  | None => None
  | Some b1 => if c_term c =? REDUCED then Some b1 else end_chunk (c_term c) b1
  end.
Fixpoint split_list (cs : list cursor) (b : builder) : option (list bytes) :=
  match cs with
  | [] => Some (if b_empty b then [] else [fst (release b)])
  | c :: r =>
      let cut := heads c && negb (b_empty b) in
      match put c (if cut then snd (release b) else b) with
      | None => None
      | Some b2 => match split_list r b2 with
                   | None => None
                   | Some l => Some (if cut then fst (release b) :: l else l)
                   end
      end
  end.
Lemma loop_list cs : forall c b n l, then_visits c cs -> (length cs < n)%nat -> split_list cs b = Some l -> split_loop n c b = Done l.
Proof.
  induction cs as [|d cs IH]; intros c b [|n] l (c' & NX & VI) L E; cbn [length] in L; try lia; cbn [split_list] in E; cbn [split_loop].
  - inversion VI as [? V|]; subst. unfold text_next in NX. injection E as <-. destruct (next c) as [c1|c1|c1|]; try discriminate; try reflexivity.
    injection NX as NX ->. congruence.
  - inversion VI as [|? c1 ? V NX2 VI2]; subst. unfold text_next in NX. rewrite V in NX.
    destruct (next c) as [c2|c2|c2|]; try discriminate. injection NX as ->. cbv zeta in E |- *. unfold put in E.
    destruct (append_op (wop_of_cursor d) _) as [b1|]; [|discriminate].
    destruct (if c_term d =? REDUCED then Some b1 else end_chunk (c_term d) b1) as [b2|]; [|discriminate].
    destruct (split_list cs b2) as [l2|] eqn:EL; [|discriminate].
    rewrite (IH d b2 n l2); [|exists c1; auto|lia|exact EL]. cbn [rbind]. injection E as <-. reflexivity.
Qed.
Lemma put_is c b : put c b = build_from b (bcalls (replay_cs [c])).
Proof.
  unfold put, build_from, replay_cs, bcalls. cbn [flat_map app map fold_left bstep]. rewrite app_nil_r.
  destruct (c_term c =? REDUCED); cbn [map fold_left bstep]; destruct (append_op _ b); reflexivity.
Qed.
Lemma build_app b x y : build_from b (x ++ y) = match build_from b x with Some b1 => build_from b1 y | None => None end.
Proof.
  unfold build_from. rewrite fold_left_app. destruct (fold_left bstep x (Some b)) as [b1|]; [reflexivity|].
  induction y as [|c y IH]; [reflexivity|exact IH].
Qed.
(* ops that begin no part are appended *)
Lemma tail_list rs : forall b b' rest, forallb (fun c => negb (heads c)) rs = true -> build_from b (bcalls (replay_cs rs)) = Some b' ->
  split_list (rs ++ rest) b = split_list rest b'.
Proof.
  induction rs as [|c rs IH]; intros b b' rest NH B; [cbn in B; injection B as ->; reflexivity|].
  cbn [forallb] in NH. apply andb_prop in NH as [N1 N2]. cbn [app split_list]. replace (heads c) with false by (destruct (heads c); [discriminate|reflexivity]).
  cbn [andb]. cbv zeta. rewrite put_is.
  replace (replay_cs (c :: rs)) with (replay_cs [c] ++ replay_cs rs) in B by (unfold replay_cs; cbn [flat_map]; rewrite app_nil_r; reflexivity).
  unfold bcalls in B at 1. rewrite map_app in B. rewrite build_app in B. unfold bcalls at 1. destruct (build_from b (map _ (replay_cs [c]))) as [b1|]; [|discriminate].
  rewrite (IH b1 b' rest N2 B). destruct (split_list rest b'); reflexivity.
Qed.

(* ---- a builder that has released what it had ---- *)
Definition spent (b : builder) (last : uop) : Prop :=
  b_span b = 0 /\ b_data b = [] /\ b_prev b = u_id last /\ b_prev2 b = sig_of (u_vals last).
Lemma spent0 : spent builder0 origin_op.
Proof. repeat split. Qed.
Lemma spent_release b done ms pend pm lo last opn ext k : inv canon b done ms pend pm lo last opn ext k -> spent (snd (release b)) last.
Proof.
  intro I. assert (E : b_prev b = u_id last /\ b_prev2 b = sig_of (u_vals last)).
  { destruct I as [? ? ? ? ? (_ & A & B & _)|? ? ? ? ? ? ? ? (_ & A & B & _)]; auto. }
  destruct E as [A B]. unfold release. cbn [snd]. destruct (b_span b =? 0) eqn:Z.
  - split; [apply N.eqb_eq; exact Z|]. split; [reflexivity|]. split; assumption.
  - destruct (write_term_keeps RAW b) as (K1 & K2 & K3). split; [exact K3|]. split; [reflexivity|]. cbn [b_prev b_prev2]. rewrite K1, K2. auto.
Qed.
Definition ref_in (p ref : uuid) : uuid := if uuid_eqb ref p then NIL else ref.

(* the first op of a part *)
Lemma first_op b last o u : spent b last -> rep canon o u -> u_id u <> inc (u_id last) ->
  exists b1, append_op o b = Some b1 /\ opened b1 [] [] (u_id u) (ref_in (u_id last) (u_ref u)) [u_vals u] o u false /\ b_data b1 <> [].
Proof.
  intros (BS & DA & BP & P2) R NI. pose proof R as (E1 & E2 & I1 & I2 & F). unfold append_op.
  rewrite (spans_agree o u b last E1 E2 F BP P2). assert (NC : continues last u = false).
  { unfold continues. replace (uuid_eqb (u_id u) (inc (u_id last))) with false; [reflexivity|].
    symmetry. destruct (uuid_eqb _ _) eqn:E; [|reflexivity]. apply uuid_eqb_eq in E. contradiction. }
  rewrite NC. eexists. split; [reflexivity|]. rewrite (write_term_closed REDUCED b BS). unfold write_spec. rewrite (write_term_closed REDUCED b BS). unfold write_values. cbn [b_prev b_prev2 b_span b_data].
  replace (uuid_eqb (w_id o) (inc (b_prev b))) with false.
  2:{ symmetry. rewrite E1, BP. destruct (uuid_eqb _ _) eqn:E; [|reflexivity]. apply uuid_eqb_eq in E. contradiction. }
  rewrite DA. cbn [app]. split; [|discriminate].
  split; [reflexivity|]. split; [exact E1|]. split; [apply (signature_ok (CW := canon)); exact F|]. split; [exact R|]. split; [reflexivity|].
  exists [], [], (64 :: write_uuid (w_id o) ++ if uuid_eqb (w_ref o) (b_prev b) then [] else 32 :: 58 :: write_uuid (w_ref o)), (flat_map (fun v => 32 :: value_text v) (w_vals o)).
  split; [reflexivity|]. split; [constructor|]. split; [constructor|]. split; [|constructor].
  rewrite E1, E2, BP. unfold ref_in. destruct (uuid_eqb (u_ref u) (u_id last)) eqn:S2.
  - rewrite app_nil_r. apply sl_id. apply write_uuid_lit. exact I1.
  - apply (sl_both _ _ _ [32]); try (apply write_uuid_lit; assumption); [|discriminate]. constructor; [unfold ws_char; tauto|constructor].
Qed.

Lemma append_grows o b b' : append_op o b = Some b' -> b_data b <> [] -> b_data b' <> [].
Proof.
  unfold append_op. destruct (is_same_span o b).
  - unfold extend_span. destruct (b_prev2 b); [intro H; injection H as <-; auto|]. destruct (b_span b =? 1).
    + destruct (rev (b_data b)); [discriminate|]. destruct (strip_char 8 l) as [[x y]|]; [|discriminate]. intro H. injection H as <-. intros _. cbn [b_data]. destruct (rev y); discriminate.
    + intro H. injection H as <-. cbn [b_data]. intros D E. apply app_eq_nil in E as [E _]. contradiction.
  - intro H. injection H as <-. intros D E. unfold write_values, write_spec in E. cbn [b_data] in E.
    do 2 (apply app_eq_nil in E as [E _]). unfold write_term in E. destruct (b_span b =? 0) eqn:Z; [rewrite Z in E; contradiction|].
    cbn [b_span b_data] in E. change (0 =? 0) with true in E. cbn [b_data] in E. apply app_eq_nil in E as [E _]. contradiction.
Qed.
Lemma end_grows t b b' : end_chunk t b = Some b' -> b_data b <> [] -> b_data b' <> [].
Proof.
  unfold end_chunk. destruct (t =? REDUCED); [discriminate|]. intro H. injection H as <-. unfold write_term. destruct (b_span b =? 0); [auto|].
  cbn [b_data]. intros D E. apply app_eq_nil in E as [E _]. contradiction.
Qed.
Lemma build_grows cs : forall b b', build_from b cs = Some b' -> b_data b <> [] -> b_data b' <> [].
Proof.
  induction cs as [|c cs IH]; intros b b' H D; [injection H as <-; exact D|]. change (c :: cs) with ([c] ++ cs) in H. rewrite build_app in H.
  unfold build_from at 1 in H. cbn [fold_left] in H. destruct c as [o|t]; cbn [bstep] in H.
  - destruct (append_op o b) as [b1|] eqn:E; [|discriminate]. exact (IH b1 b' H (append_grows o b b1 E D)).
  - destruct (end_chunk t b) as [b1|] eqn:E; [|discriminate]. exact (IH b1 b' H (end_grows t b b1 E D)).
Qed.

(* ---- one part ---- *)
Lemma replay_bare ops : map bare (denote (replay ops)) = map bare ops.
Proof.
  induction ops as [|o ops IH]; [reflexivity|]. unfold replay. cbn [flat_map app]. fold (replay ops).
  destruct (r_term o =? REDUCED); cbn [app denote map bare r_id r_ref r_vals u_id u_ref u_vals]; rewrite IH; reflexivity.
Qed.
Lemma released_len b cs b' : build_from b cs = Some b' -> due b = 0%nat -> (length (fst (release b')) <= cmds_room cs)%nat.
Proof.
  intros E Z. apply build_due in E. rewrite Z in E. unfold release. cbn [fst]. destruct (b_span b' =? 0) eqn:Q; [unfold due in E; lia|].
  destruct (term_due RAW b') as [L _]. lia.
Qed.
Definition as_told (last : uop) (o : rop) (t : list rop) : list rop :=
  mkRop (r_id o) (ref_in (u_id last) (r_ref o)) (r_vals o) (r_term o) :: denote (replay t).

Lemma one_part b last c rs o t : spent b last -> lit_cursor canon c o -> Forall2 (lit_cursor canon) rs t ->
  uop_ok (bare o) -> In (r_term o) [RAW; HEADER; QUERY] -> r_id o <> inc (u_id last) ->
  good_calls (bare o) false false (replay t) -> N.of_nat (length (replay t)) < 2 ^ 32 ->
  exists b', build_from b (bcalls (replay_cs (c :: rs))) = Some b' /\ b_data b' <> [] /\
    frame_lit canon (fst (release b')) (as_told last o t) /\ (length (fst (release b')) <= room (map bare (o :: t)))%nat /\
    spent (snd (release b')) (last_uop (bare o) (replay t)).
Proof.
  intros SP LC F U T NI G L. pose proof (lit_rep c o canon_writes LC U) as R. assert (EO : rop_of c = o) by apply LC.
  assert (ET : c_term c = r_term o) by (rewrite <- EO; reflexivity).
  destruct (first_op b last _ (bare o) SP R NI) as (b1 & A1 & OP & D1).
  assert (NR : (c_term c =? REDUCED) = false) by (rewrite ET; destruct T as [<-|[<-|[<-|[]]]]; reflexivity).
  assert (E2 : end_chunk (c_term c) b1 = Some (write_term (c_term c) b1)) by (unfold end_chunk; rewrite NR; reflexivity).
  assert (CL : closed (write_term (c_term c) b1) [mkRop (r_id o) (ref_in (u_id last) (r_ref o)) (r_vals o) (r_term o)] [single_char (bare o) && false] (bare o)).
  { pose proof (close_ok b1 _ _ _ _ _ _ _ _ (c_term c) OP) as K. cbn [length repeat app] in K. rewrite ET in *. apply K; [reflexivity|].
    destruct T as [<-|[<-|[<-|[]]]]; cbn; auto. }
  assert (GU : good_calls (bare o) false false (ucalls (replay_cs rs))) by (rewrite (replay_ops rs t F); exact G).
  destruct (ucalls_good (replay_cs rs) (replay_canonical rs t F) (wop_of_cursor c) (bare o) false false GU ltac:(discriminate)) as (acs & Q1 & Q2 & G2).
  assert (LA : length acs = length (replay t)).
  { rewrite <- (replay_ops rs t F), <- Q2. rewrite map_length. reflexivity. }
  destruct (inv_step acs canon_writes _ _ _ _ _ _ _ false false 0 (i_closed _ _ _ (wop_of_cursor c) _ false CL) G2)
    as (b' & done' & ms' & pend' & pm' & lo' & opn' & ext' & k' & B & I' & K' & EQ & EM); [rewrite LA; exact L|].
  exists b'. assert (BB : build_from b (bcalls (replay_cs (c :: rs))) = Some b').
  { replace (replay_cs (c :: rs)) with (replay_cs [c] ++ replay_cs rs) by (unfold replay_cs; cbn [flat_map]; rewrite app_nil_r; reflexivity).
    unfold bcalls at 1. rewrite map_app, build_app. change (map _ (replay_cs [c])) with (bcalls (replay_cs [c])).
    rewrite <- put_is. unfold put. rewrite A1, NR, E2. change (map _ (replay_cs rs)) with (bcalls (replay_cs rs)). rewrite Q1. exact B. }
  split; [exact BB|]. split; [|split; [|split]].
  - apply (build_grows _ _ _ B). apply (end_grows _ _ _ E2 D1).
  - specialize (EQ []). cbn [term_after denote app] in EQ. rewrite !app_nil_r in EQ. rewrite Q2, (replay_ops rs t F) in EQ. unfold as_told. rewrite EQ.
    eapply frame_erase. eapply inv_release; [exact I'|exact K'].
  - pose proof (Forall2_cons _ _ LC F) as F2. eapply Nat.le_trans; [|eapply Nat.le_trans; [apply (calls_room _ (replay_canonical (c :: rs) (o :: t) F2))|]].
    + apply released_len with (b := b); [exact BB|]. destruct SP as (Z1 & Z2 & _). unfold due. rewrite Z1, Z2. reflexivity.
    + rewrite (replay_ops _ _ F2), replay_bare. apply Nat.le_refl.
  - rewrite Q2, (replay_ops rs t F) in I'. eapply spent_release. exact I'.
Qed.

(* ---- calls that are good stay good part by part ---- *)
Lemma good_suffix a : forall b last opn ext, good_calls last opn ext (a ++ b) -> exists o e, good_calls (last_uop last a) o e b.
Proof.
  induction a as [|x a IH]; intros b last opn ext G; [exists opn, ext; exact G|]. cbn [app good_calls last_uop] in *. destruct x as [o|t].
  - destruct G as (_ & _ & _ & G). exact (IH _ _ _ _ G).
  - destruct G as (_ & G). exact (IH _ _ _ _ G).
Qed.
Lemma good_closed cs : forall last e e', good_calls last false e cs -> good_calls last false e' cs.
Proof.
  induction cs as [|x cs IH]; intros last e e' G; [exact Logic.I|]. destruct x as [o|t]; cbn [good_calls] in *.
  - destruct G as (A & B & C & G). split; [exact A|]. split; [exact B|]. split; [|exact G]. intro X. destruct (C X). discriminate.
  - destruct G as (A & G). split; [exact A|]. exact (IH _ _ _ G).
Qed.
Lemma replay_app a b : replay (a ++ b) = replay a ++ replay b.
Proof. unfold replay. apply flat_map_app. Qed.
Lemma good_head o t last opn ext : r_term o <> REDUCED -> good_calls last opn ext (replay (o :: t)) ->
  uop_ok (bare o) /\ In (r_term o) [RAW; HEADER; QUERY] /\ good_calls (bare o) false false (replay t).
Proof.
  intros NR G. unfold replay in G. cbn [flat_map app] in G. replace (r_term o =? REDUCED) with false in G by (symmetry; apply N.eqb_neq; exact NR).
  cbn [good_calls app] in G. destruct G as (U & _ & _ & T & G). split; [exact U|]. split; [exact T|]. exact (good_closed _ _ _ _ G).
Qed.
Lemma last_in t : forall o, last_uop (bare o) (replay t) = bare o \/ exists x, In x t /\ last_uop (bare o) (replay t) = bare x.
Proof.
  induction t as [|x t IH]; intro o; [left; reflexivity|]. right. unfold replay. cbn [flat_map app last_uop]. fold (replay t).
  replace (last_uop (bare x) ((if r_term x =? REDUCED then [] else [UEnd (r_term x)]) ++ replay t)) with (last_uop (bare x) (replay t))
    by (destruct (r_term x =? REDUCED); reflexivity).
  destruct (IH x) as [-> |(y & I & ->)]; [exists x; cbn; auto|exists y; cbn; auto].
Qed.

(* ---- all the parts ---- *)
Lemma heads_is P c o : lit_cursor P c o -> heads c = true <-> header o.
Proof.
  intros [E _]. rewrite <- E. unfold heads, header, rop_of. cbn [r_id r_term In]. rewrite andb_true_iff, orb_true_iff, !N.eqb_eq, uuid_eqb_eq. unfold text_id.
  split; intros [A B]; (split; [exact A|]); destruct B as [B|B]; auto. destruct B as [B|[]]; auto.
Qed.
Lemma no_heads P cs ops : Forall2 (lit_cursor P) cs ops -> Forall (fun o => ~ header o) ops -> forallb (fun c => negb (heads c)) cs = true.
Proof.
  induction 1 as [|c o cs ops L F IH]; intro H; [reflexivity|]. inversion H as [|? ? H1 H2]; subst. cbn [forallb]. rewrite (IH H2), andb_true_r.
  destruct (heads c) eqn:E; [|reflexivity]. apply (heads_is P c o L) in E. contradiction.
Qed.
Definition told (f : bytes) (p : rop * list rop) : Prop :=
  (exists last, frame_lit canon f (as_told last (fst p) (snd p))) /\ (length f <= room (map bare (fst p :: snd p)))%nat.
Definition ops_in (parts : list (rop * list rop)) : list rop := concat (map (fun p => fst p :: snd p) parts).

Lemma rest_parts parts : forall cs b last opn ext, b_data b <> [] -> spent (snd (release b)) last -> inc (u_id last) <> COMMENT ->
  Forall2 (lit_cursor canon) cs (ops_in parts) -> Forall (fun p => Forall (fun o => ~ header o) (snd p)) parts -> Forall (fun p => header (fst p)) parts ->
  Forall (fun o => inc (r_id o) <> COMMENT) (ops_in parts) -> good_calls last opn ext (replay (ops_in parts)) -> N.of_nat (length (replay (ops_in parts))) < 2 ^ 32 ->
  exists fs, split_list cs b = Some (fst (release b) :: fs) /\ Forall2 told fs parts.
Proof.
  induction parts as [|[h t] parts IH]; intros cs b last opn ext D SP NI F NH HD NC G L.
  - inversion F; subst. exists []. split; [|constructor]. cbn [split_list]. unfold b_empty. destruct (b_data b); [contradiction|reflexivity].
  - change (ops_in ((h, t) :: parts)) with (h :: t ++ ops_in parts) in *. inversion NH as [|? ? NH1 NH2]; subst. inversion HD as [|? ? HD1 HD2]; subst. cbn [fst snd] in NH1, HD1.
    inversion F as [|c h' cs' l' L1 F1]; subst. apply Forall2_app_inv_r in F1 as (rs & rest & F1 & F2 & ->).
    inversion NC as [|? ? NC1 NC2]; subst. apply Forall_app in NC2 as [NC2 NC3]. destruct HD1 as [HI HT].
    destruct (good_head h (t ++ ops_in parts) last opn ext) as (U & T & G1); [destruct HT as [<-|[<-|[]]]; discriminate|exact G|].
    rewrite replay_app in G1. pose proof (DurableProofs.good_prefix _ _ _ _ _ G1) as G2. destruct (good_suffix _ _ _ _ _ G1) as (o2 & e2 & G3).
    change (h :: t ++ ops_in parts) with ([h] ++ t ++ ops_in parts) in L. rewrite !replay_app, !app_length in L.
    destruct (one_part (snd (release b)) last c rs h t SP L1 F1 U T) as (b' & B & D' & FL & LN & SP').
    { rewrite HI. intro E. apply NI. symmetry. exact E. }
    { exact G2. }
    { lia. }
    destruct (IH rest b' (last_uop (bare h) (replay t)) o2 e2) as (fs & E & K); try assumption; [|lia|].
    { destruct (last_in t h) as [-> |(x & I & ->)]; [exact NC1|]. rewrite Forall_forall in NC2. exact (NC2 x I). }
    exists (fst (release b') :: fs). split; [|constructor; [split; [exists last; exact FL|exact LN]|exact K]].
    cbn [split_list]. cbv zeta. assert (HC : heads c = true) by (apply (heads_is canon c h L1); split; assumption). rewrite HC.
    replace (b_empty b) with false by (unfold b_empty; destruct (b_data b); [contradiction|reflexivity]). cbn [andb negb].
    replace (replay_cs (c :: rs)) with (replay_cs [c] ++ replay_cs rs) in B by (unfold replay_cs; cbn [flat_map]; rewrite app_nil_r; reflexivity).
    unfold bcalls in B at 1. rewrite map_app, build_app in B. change (map _ (replay_cs [c])) with (bcalls (replay_cs [c])) in B. rewrite <- put_is in B.
    destruct (put c (snd (release b))) as [b2|]; [|discriminate].
    rewrite (tail_list rs b2 b' rest (no_heads canon rs t F1 NH1) B), E. reflexivity.
Qed.

Lemma first_parts h t parts cs : Forall2 (lit_cursor canon) cs (ops_in ((h, t) :: parts)) ->
  Forall (fun p => Forall (fun o => ~ header o) (snd p)) ((h, t) :: parts) -> Forall (fun p => header (fst p)) parts ->
  r_id h = COMMENT -> r_term h <> REDUCED -> Forall (fun o => inc (r_id o) <> COMMENT) (ops_in ((h, t) :: parts)) ->
  good_calls origin_op false false (replay (ops_in ((h, t) :: parts))) -> N.of_nat (length (replay (ops_in ((h, t) :: parts)))) < 2 ^ 32 ->
  exists f fs, split_list cs builder0 = Some (f :: fs) /\ frame_lit canon f (h :: denote (replay t)) /\
    (length f <= room (map bare (h :: t)))%nat /\ Forall2 told fs parts.
Proof.
  intros F NH HD HI HT NC G L. change (ops_in ((h, t) :: parts)) with (h :: t ++ ops_in parts) in *. inversion NH as [|? ? NH1 NH2]; subst. cbn [fst snd] in NH1.
  inversion F as [|c h' cs' l' L1 F1]; subst. apply Forall2_app_inv_r in F1 as (rs & rest & F1 & F2 & ->).
  inversion NC as [|? ? NC1 NC2]; subst. apply Forall_app in NC2 as [NC2 NC3].
  destruct (good_head h (t ++ ops_in parts) origin_op false false HT G) as (U & T & G1).
  rewrite replay_app in G1. pose proof (DurableProofs.good_prefix _ _ _ _ _ G1) as G2. destruct (good_suffix _ _ _ _ _ G1) as (o2 & e2 & G3).
  change (h :: t ++ ops_in parts) with ([h] ++ t ++ ops_in parts) in L. rewrite !replay_app, !app_length in L.
  destruct (one_part builder0 origin_op c rs h t spent0 L1 F1 U T) as (b' & B & D' & FL & LN & SP').
  { rewrite HI. vm_compute. discriminate. }
  { exact G2. }
  { lia. }
  destruct (rest_parts parts rest b' (last_uop (bare h) (replay t)) o2 e2) as (fs & E & K); try assumption; [|lia|].
  { destruct (last_in t h) as [-> |(x & I & ->)]; [exact NC1|]. rewrite Forall_forall in NC2. exact (NC2 x I). }
  exists (fst (release b')), fs. split; [|split; [|split; [exact LN|exact K]]].
  - cbn [split_list]. cbv zeta. change (b_empty builder0) with true. cbn [negb]. rewrite andb_false_r.
    replace (replay_cs (c :: rs)) with (replay_cs [c] ++ replay_cs rs) in B by (unfold replay_cs; cbn [flat_map]; rewrite app_nil_r; reflexivity).
    unfold bcalls in B at 1. rewrite map_app, build_app in B. change (map _ (replay_cs [c])) with (bcalls (replay_cs [c])) in B. rewrite <- put_is in B.
    destruct (put c builder0) as [b2|]; [|discriminate].
    rewrite (tail_list rs b2 b' rest (no_heads canon rs t F1 NH1) B), E. reflexivity.
  - replace (h :: denote (replay t)) with (as_told origin_op h t); [exact FL|]. unfold as_told. f_equal. destruct h as [i r v m]. cbn [r_id r_ref r_vals r_term].
    f_equal. unfold ref_in. cbn [origin_op u_id]. destruct (uuid_eqb r NIL) eqn:EN; [apply uuid_eqb_eq in EN; congruence|reflexivity].
Qed.

Lemma denote_retold ops : Forall2 retold_op ops (denote (replay ops)).
Proof.
  induction ops as [|o ops IH]; [constructor|]. unfold replay. cbn [flat_map app]. fold (replay ops). destruct (r_term o =? REDUCED) eqn:E; cbn [app denote]; (constructor; [|exact IH]).
  - split; [destruct o; reflexivity|]. intro N. apply N.eqb_eq in E. contradiction.
  - split; [destruct o; reflexivity|]. intros _. reflexivity.
Qed.
Lemma told_retold f p : told f p -> exists l, frame_lit canon f l /\ retold p l.
Proof.
  intros ((last & FL) & _). eexists. split; [exact FL|]. unfold as_told. eexists _, _. split; [reflexivity|]. split.
  - split; [reflexivity|]. split; [reflexivity|]. split; [reflexivity|]. cbn [r_ref]. unfold ref_in. destruct (uuid_eqb _ _); auto.
  - apply denote_retold.
Qed.
