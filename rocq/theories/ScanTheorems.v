(* C26, C27: the tombstone scan. *)
From Verif Require Import Prelude UuidModel UuidProofs KeyModel TextModel MergeModel MergeSpec MergeTextModel MergeProofs RgaProofs RgaTree MergeTheorems ScanModel ScanSpec ScanProofs ScanAgrees.

(* ScanRGA on a text frame *)
Definition scan_frame (fuel : nat) (f : bytes) : scan_out := scan_rga cursor valid text_next rop_of fuel (cursor_of f).

Section Reader.
Variable C : Type.
Variable cvalid : C -> bool.
Variable cnext : C -> option (bool * C).
Variable cop : C -> rop.
Lemma scan_loop_go rt : forall l fuel c o s, reads cvalid cnext cop c (o :: l) -> (length l < fuel)%nat ->
  scan_loop C cvalid cnext cop fuel rt c s = go rt s l.
Proof.
  induction l as [|p l IH]; intros fuel c o s R L; (destruct fuel as [|fuel]; [lia|]); inversion R as [|? c' ? V N R2]; subst; cbn [scan_loop]; rewrite N.
  - inversion R2 as [? V2|]; subst. rewrite V2. cbn [go]. destruct (scan_op _ _ _ s); reflexivity.
  - inversion R2 as [|? c2 ? V2 N2 R3]; subst. rewrite V2. cbn [go]. destruct (scan_op (r_id (cop c')) (r_ref (cop c')) (entry_type (cop c')) s); [|reflexivity].
    apply (IH fuel c' (cop c')); [exact R2|cbn [length] in L; lia].
Qed.
End Reader.

(* the scan of a frame is the scan of its ops *)
Definition scan_ops (l : list rop) : scan_out :=
  match l with
  | [] => ScanRet StOK []
  | o :: r => if negb (uuid_eqb (r_ref o) RGA_FORM_UUID) || negb (version (r_id o) =? TIME) then ScanRet StBadArgs []
              else go (r_id o) (scan_begin (r_id o)) r
  end.
Lemma scan_frame_ops f l fuel : frame_ops f l -> (length l <= fuel)%nat -> scan_frame fuel f = scan_ops l.
Proof.
  intros H L. pose proof (text_open f l H) as T. unfold scan_frame, scan_rga, scan_ops. destruct l as [|o l].
  - destruct T as (c & T). rewrite T. reflexivity.
  - destruct T as (c & T & V & R). rewrite T.
    assert (E : rop_of c = o) by (inversion R; reflexivity). rewrite E.
    destruct (_ || _); [reflexivity|]. apply (scan_loop_go _ _ _ _ _ l fuel c o); [exact R|]. cbn [length] in L. lia.
Qed.

(* C26: the flags of a frame listing a causal tree *)
Theorem C26_flags : forall f T fuel, frame_ops f (listing T) -> rga_tree T ->
  (length (listing T) <= fuel)%nat -> N.of_nat (length (listing T)) < 2 ^ 30 ->
  (forall p, In p (places [] T) -> ~ stray p) ->
  map (fun p => root (snd p)) (places [] T) = listing T /\
  exists flags, scan_frame fuel f = ScanRet StOK flags /\
    Forall2 (fun p f => f = true <-> hidden p) (places [] T) flags.
Proof.
  intros f T fuel FO RT L B NS. split; [apply places_ops|]. destruct T as [o cs].
  rewrite (scan_frame_ops f _ fuel FO L). cbn [listing scan_ops]. pose proof RT as (_ & RO & VS & _). cbn [root listing] in RO, VS.
  replace (uuid_eqb (r_ref o) RGA_FORM_UUID) with true by (symmetry; apply uuid_eqb_eq; exact RO).
  replace (version (r_id o) =? TIME) with true by (symmetry; apply N.eqb_eq; inversion VS; assumption). cbn [negb orb].
  destruct (scan_decides o cs RT B) as [((p & P1 & P2) & _)|(_ & _ & fl & G & F)]; [exfalso; exact (NS p P1 P2)|].
  exists fl. split; assumption.
Qed.
Print Assumptions C26_flags.

(* C26: success means a flag per op and, with distinct ids, a causal tree *)
Theorem C26_success : forall f l fuel flags, frame_ops f l -> (length l <= fuel)%nat -> N.of_nat (length l) < 2 ^ 30 ->
  scan_frame fuel f = ScanRet StOK flags ->
  length flags = length l /\
  (NoDup (ids l) -> l = [] \/ exists T, listing T = l /\ rga_tree T /\ forall p, In p (places [] T) -> ~ stray p).
Proof.
  intros f l fuel flags FO L B E. rewrite (scan_frame_ops f l fuel FO L) in E. unfold scan_ops in E. destruct l as [|o l].
  - injection E as <-. split; [reflexivity|]. left. reflexivity.
  - destruct (uuid_eqb (r_ref o) RGA_FORM_UUID) eqn:RO; [|discriminate]. apply uuid_eqb_eq in RO.
    destruct (version (r_id o) =? TIME) eqn:V; [|discriminate]. apply N.eqb_eq in V. cbn [negb orb] in E.
    destruct (begin_zip o) as (_ & _ & W). split.
    + pose proof (go_total (r_id o) l (scan_begin (r_id o)) W) as G. rewrite E in G. cbn [scan_begin s_tombs length] in *. rewrite G; lia.
    + intro ND. right. destruct (go_steps (r_id o) l (scan_begin (r_id o))) as [(s' & S1 & G)|(a & x & b & s' & y & EL & S1 & E2 & G)].
      * assert (NV : uuid_ltb (Time WORD_NEVER 0) (r_id o) = false).
        { rewrite G in E. cbn [go] in E. unfold scan_op in E. destruct (uuid_ltb (Time WORD_NEVER 0) (r_id o)); [discriminate|reflexivity]. }
        destruct (steps_tree o l s' V S1) as (t & T1 & T2 & T3 & T4). exists t. split; [exact T2|].
        assert (RT : rga_tree t) by (split; [apply loose_linked; [exact T1|rewrite T2; exact ND]|rewrite T3; repeat split; assumption]).
        split; [exact RT|]. destruct t as [x cs]. cbn [root] in T3. subst x. cbn [listing] in T2. injection T2 as T2.
        destruct (scan_decides o cs RT) as [(ST & _ & G2)|(NS & _)].
        -- cbn [listing length]. rewrite T2. exact B.
        -- rewrite T2 in G2. congruence.
        -- intros p P1 P2. apply NS. exists p. split; assumption.
      * exfalso. rewrite E in G. subst y. subst l.
        assert (BA : N.of_nat (length (s_tombs (scan_begin (r_id o))) + length a) < 2 ^ 32).
        { cbn [scan_begin s_tombs length] in *. rewrite app_length in B. lia. }
        destruct (steps_weak _ _ _ S1 W BA) as [W1 T1].
        pose proof (op_weak s' (r_id x) (r_ref x) (entry_type x) W1) as O. rewrite E2 in O. apply O.
        rewrite T1. cbn [scan_begin s_tombs length] in *. rewrite app_length in B. lia.
Qed.
Print Assumptions C26_success.

(* C27: on a causal tree the scan writes out of bounds exactly when a removal
   or an undo has nothing to work on *)
Theorem C27_bounds : forall f T fuel, frame_ops f (listing T) -> rga_tree T ->
  (length (listing T) <= fuel)%nat -> N.of_nat (length (listing T)) < 2 ^ 30 ->
  (scan_frame fuel f = ScanUB <-> exists p, In p (places [] T) /\ stray p).
Proof.
  intros f T fuel FO RT L B. destruct T as [o cs].
  rewrite (scan_frame_ops f _ fuel FO L). cbn [listing scan_ops]. pose proof RT as (_ & RO & VS & _). cbn [root listing] in RO, VS.
  replace (uuid_eqb (r_ref o) RGA_FORM_UUID) with true by (symmetry; apply uuid_eqb_eq; exact RO).
  replace (version (r_id o) =? TIME) with true by (symmetry; apply N.eqb_eq; inversion VS; assumption). cbn [negb orb].
  destruct (scan_decides o cs RT B) as [(ST & _ & G)|(NS & _ & fl & G & F)]; rewrite G; split; intro H; try assumption; try reflexivity; try discriminate; contradiction.
Qed.
Print Assumptions C27_bounds.

(* C27: on any frame with distinct ids, an out of bounds write needs a causal
   tree with such a removal or undo at the start of the frame; assertions
   never fail *)
Theorem C27_any_frame : forall f l fuel, frame_ops f l -> (length l <= fuel)%nat -> N.of_nat (length l) < 2 ^ 30 ->
  scan_frame fuel f <> ScanAbort /\ scan_frame fuel f <> ScanFuel /\
  (scan_frame fuel f = ScanUB -> NoDup (ids l) -> (forall o r, l = o :: r -> uuid_ltb (Time WORD_NEVER 0) (r_id o) = false) ->
   exists T rest, l = listing T ++ rest /\ rga_tree T /\ exists p, In p (places [] T) /\ stray p).
Proof.
  intros f l fuel FO L B. rewrite (scan_frame_ops f l fuel FO L). unfold scan_ops. destruct l as [|o l].
  - repeat split; try discriminate.
  - destruct (uuid_eqb (r_ref o) RGA_FORM_UUID) eqn:RO; [|repeat split; discriminate]. apply uuid_eqb_eq in RO.
    destruct (version (r_id o) =? TIME) eqn:V; [|repeat split; discriminate]. apply N.eqb_eq in V. cbn [negb orb].
    destruct (begin_zip o) as (_ & _ & W). pose proof (go_total (r_id o) l (scan_begin (r_id o)) W) as G.
    assert (B2 : N.of_nat (length (s_tombs (scan_begin (r_id o))) + length l) + 1 < 2 ^ 32) by (cbn [scan_begin s_tombs length] in *; lia).
    specialize (G B2). split; [intro X; rewrite X in G; exact G|]. split; [intro X; rewrite X in G; exact G|].
    intros U ND NV. exact (ub_prefix o l RO V (NV o l eq_refl) ND B U).
Qed.
Print Assumptions C27_any_frame.
