(* C84: escaping of bytes and back. *)
From Verif Require Import Prelude UuidModel CodecModel CodecSpec CodecProofs StringProofs MergeModel TextModel TextSpec TextTheorems SliceModel EscapeModel.

(* what a backslash and the byte x stand for *)
Definition letters : list (N * N) := [(97, 7); (98, 8); (102, 12); (110, 10); (114, 13); (116, 9); (118, 11)].
Inductive stands : N -> N -> Prop :=
| st_letter x b : In (x, b) letters -> stands x b
| st_self x : ~ In x (map fst letters) -> stands x x.
(* a piece of an escaped text and the byte it stands for *)
Inductive piece : bytes -> N -> Prop :=
| p_plain b : b <> 92 -> piece [b] b
| p_pair x b : stands x b -> piece [92; x] b.

Lemma stands_iff x b : stands x b <-> decode_esc x = b.
Proof.
  split.
  - intros [x0 b0 I|x0 I]; cbn [letters map fst In] in I.
    + repeat (destruct I as [I|I]; [injection I as <- <-; reflexivity|]). contradiction.
    + unfold decode_esc. repeat match goal with |- context [x0 =? ?k] => replace (x0 =? k) with false by lia end. reflexivity.
  - intros <-. unfold decode_esc.
    repeat match goal with |- context [x =? ?k] => destruct (x =? k) eqn:?; [replace x with k by lia; apply st_letter; cbn [letters In]; tauto|] end.
    apply st_self. cbn [letters map fst In]. lia.
Qed.

Lemma load_at pre b post : load (pre ++ b :: post) (N.of_nat (length pre)) = Done b.
Proof. unfold load. rewrite Nnat.Nat2N.id, nth_error_app2, Nat.sub_diag by lia. reflexivity. Qed.
Lemma load_past mem : load mem (N.of_nat (length mem)) = Aborted.
Proof. unfold load. rewrite Nnat.Nat2N.id. rewrite (proj2 (nth_error_None _ _)) by lia. reflexivity. Qed.

(* the pieces of a slice are replaced one by one; tail are the bytes of the slice
   after them *)
Lemma unescape_pieces : forall ps pre tail post n, Forall (fun p => piece (fst p) (snd p)) ps -> (length tail <= n)%nat ->
  unescape_from (pre ++ concat (map fst ps) ++ tail ++ post) (N.of_nat (length pre)) (length (concat (map fst ps)) + length tail) =
  rbind (unescape_from ((pre ++ concat (map fst ps)) ++ tail ++ post) (N.of_nat (length (pre ++ concat (map fst ps)))) (length tail)) (fun r => Done (map snd ps ++ r)).
Proof.
  induction ps as [|[bs b] ps IH]; intros pre tail post n F L.
  - cbn [map concat app length Nat.add]. rewrite app_nil_r. destruct (unescape_from _ _ _); reflexivity.
  - pose proof (Forall_inv F) as P. pose proof (Forall_inv_tail F) as FT. cbn [fst snd] in P.
    assert (R : forall q, pre ++ (bs ++ q) = (pre ++ bs) ++ q) by (intro q; apply app_assoc).
    specialize (IH (pre ++ bs) tail post n FT L).
    cbn [map fst snd concat]. rewrite <- !app_assoc in *.
    destruct P as [b NB|x b ST].
    + cbn [app length Nat.add] in *. cbn [unescape_from]. rewrite load_at. cbn [rbind]. replace (b =? 92) with false by lia.
      replace (N.of_nat (length pre) + 1) with (N.of_nat (length (pre ++ [b]))) by (rewrite app_length; cbn [length]; lia).
      rewrite IH. destruct (unescape_from _ _ (length tail)); reflexivity.
    + cbn [app length Nat.add] in *. cbn [unescape_from]. rewrite load_at. cbn [rbind]. change (92 =? 92) with true. cbn iota.
      assert (E : load (pre ++ 92 :: x :: concat (map fst ps) ++ tail ++ post) (N.of_nat (length pre) + 1) = Done x).
      { replace (N.of_nat (length pre) + 1) with (N.of_nat (length (pre ++ [92]))) by (rewrite app_length; cbn [length]; lia).
        replace (pre ++ 92 :: x :: concat (map fst ps) ++ tail ++ post) with ((pre ++ [92]) ++ x :: concat (map fst ps) ++ tail ++ post) by (rewrite <- app_assoc; reflexivity). apply load_at. }
      rewrite E. cbn [rbind]. rewrite (proj1 (stands_iff x b) ST).
      replace (N.of_nat (length pre) + 2) with (N.of_nat (length (pre ++ [92; x]))) by (rewrite app_length; cbn [length]; lia).
      rewrite IH. destruct (unescape_from _ _ (length tail)); reflexivity.
Qed.

(* every text is made of pieces, with or without a lone backslash at its end *)
Lemma in_pieces : forall n s, (length s <= n)%nat -> exists ps, Forall (fun p => piece (fst p) (snd p)) ps /\ (s = concat (map fst ps) \/ s = concat (map fst ps) ++ [92]).
Proof.
  induction n as [|n IH]; intros s L; [destruct s; [|cbn in L; lia]; exists []; split; [constructor|left; reflexivity]|].
  destruct s as [|b s]; [exists []; split; [constructor|left; reflexivity]|]. destruct (N.eq_dec b 92) as [-> | NB].
  - destruct s as [|x s]; [exists []; split; [constructor|right; reflexivity]|].
    destruct (IH s ltac:(cbn in L; lia)) as (ps & F & E). exists (([92; x], decode_esc x) :: ps). split; [constructor; [apply p_pair, stands_iff; reflexivity|exact F]|].
    cbn [map fst concat app]. destruct E as [<- | ->]; [left|right]; reflexivity.
  - destruct (IH s ltac:(cbn in L; lia)) as (ps & F & E). exists (([b], b) :: ps). split; [constructor; [apply p_plain; exact NB|exact F]|].
    cbn [map fst concat app]. destruct E as [<- | ->]; [left|right]; reflexivity.
Qed.

(* a slice of n bytes at pre *)
Definition at_ (pre s : bytes) : slice := mkSlice (N.of_nat (length pre)) (mkRange 0 (N.of_nat (length s))).
Lemma unescape_at mem pre s : unescape mem (at_ pre s) = unescape_from mem (N.of_nat (length pre)) (length s).
Proof.
  unfold unescape, at_, s_size, r_size, r_valid, s_begin. cbn [s_range s_buf r_lo r_hi].
  rewrite (proj2 (N.leb_le 0 _) (N.le_0_l _)). cbn [rbind]. rewrite N.add_0_r, N.sub_0_r, Nnat.Nat2N.id. reflexivity.
Qed.

(* C84: what unescape makes of any slice of any memory. The slice is made of
   pieces; if it ends with a lone backslash, the byte after the slice is taken
   for one of it, and if there is none, memory out of bounds is read. *)
Theorem C84_unescape : forall pre s post, exists ps,
  Forall (fun p => piece (fst p) (snd p)) ps /\
  ((s = concat (map fst ps) /\ unescape (pre ++ s ++ post) (at_ pre s) = Done (map snd ps)) \/
   (s = concat (map fst ps) ++ [92] /\
    match post with
    | [] => unescape (pre ++ s ++ post) (at_ pre s) = Aborted
    | x :: _ => exists b, stands x b /\ unescape (pre ++ s ++ post) (at_ pre s) = Done (map snd ps ++ [b])
    end)).
Proof.
  intros pre s post. destruct (in_pieces (length s) s ltac:(lia)) as (ps & F & E). exists ps. split; [exact F|]. rewrite unescape_at. destruct E as [E|E].
  - left. split; [exact E|]. pose proof (unescape_pieces ps pre [] post 0 F (le_n _)) as U. cbn [app length] in U. rewrite Nat.add_0_r in U. rewrite <- E in U. rewrite U.
    cbn [unescape_from rbind]. rewrite app_nil_r. reflexivity.
  - right. split; [exact E|]. pose proof (unescape_pieces ps pre [92] post 1 F (le_n _)) as U.
    assert (LS : length s = (length (concat (map fst ps)) + 1)%nat) by (rewrite E, app_length; reflexivity). rewrite LS.
    replace (pre ++ concat (map fst ps) ++ [92] ++ post) with (pre ++ s ++ post) in U by (rewrite E, <- app_assoc; reflexivity).
    set (q := pre ++ concat (map fst ps)) in *. cbn [length unescape_from] in U. cbn [app] in U. rewrite load_at in U. cbn [rbind] in U. change (92 =? 92) with true in U. cbn iota in U.
    replace (N.of_nat (length q) + 1) with (N.of_nat (length (q ++ [92]))) in U by (rewrite app_length; cbn [length]; lia).
    destruct post as [|x post].
    + rewrite load_past in U. cbn [rbind] in U. exact U.
    + replace (q ++ 92 :: x :: post) with ((q ++ [92]) ++ x :: post) in U by (rewrite <- app_assoc; reflexivity). rewrite load_at in U. cbn [rbind] in U.
      exists (decode_esc x). split; [apply stands_iff; reflexivity|exact U].
Qed.
(* on the text of pieces *)
Lemma unescape_text pre post ps : Forall (fun p => piece (fst p) (snd p)) ps ->
  unescape (pre ++ concat (map fst ps) ++ post) (at_ pre (concat (map fst ps))) = Done (map snd ps).
Proof.
  intro F. rewrite unescape_at. pose proof (unescape_pieces ps pre [] post 0 F (le_n _)) as U. cbn [app length] in U. rewrite Nat.add_0_r in U. rewrite U.
  cbn [unescape_from rbind]. rewrite app_nil_r. reflexivity.
Qed.

(* C84: any bytes are had back, wherever the escaped text is *)
Lemma escape_piece b : piece (escape_byte b) b.
Proof.
  unfold escape_byte.
  repeat match goal with |- context [b =? ?k] => destruct (b =? k) eqn:?; [replace b with k by lia; apply p_pair, stands_iff; reflexivity|] end.
  apply p_plain. lia.
Qed.
Theorem C84_back : forall pre s post, unescape (pre ++ escape s ++ post) (at_ pre (escape s)) = Done s.
Proof.
  intros pre s post. pose proof (unescape_text pre post (map (fun b => (escape_byte b, b)) s)) as U. rewrite !map_map in U. cbn [fst snd] in U. rewrite map_id, <- flat_map_concat_map in U.
  apply U. apply Forall_map. cbn [fst snd]. apply Forall_forall. intros b _. apply escape_piece.
Qed.
(* so the bytes can be told from the text, and the text has no line end and no
   quote without a backslash right before it *)
Theorem C84_token : forall s t b r, escape s = t ++ b :: r -> In b [8; 9; 10; 12; 13; 34; 39] ->
  In b [34; 39] /\ exists q, t = q ++ [92].
Proof.
  induction s as [|x s IH]; intros t b r E I; [destruct t; discriminate E|]. cbn [escape flat_map] in E. fold (escape s) in E.
  assert (P : escape_byte x = [x] /\ ~ In x [8; 9; 10; 12; 13; 34; 39] \/ exists c, escape_byte x = [92; c] /\ ~ In c [8; 9; 10; 12; 13]).
  { unfold escape_byte. repeat match goal with |- context [x =? ?k] => destruct (x =? k) eqn:?; [right; eexists; split; [reflexivity|cbn [In]; lia]|] end.
    left. split; [reflexivity|cbn [In]; lia]. }
  destruct P as [[P N]|(c & P & N)]; rewrite P in E; cbn [app] in E.
  - destruct t as [|y t]; [injection E as -> _; contradiction|]. injection E as <- E. destruct (IH _ _ _ E I) as (A & q & ->). split; [exact A|]. exists (x :: q). reflexivity.
  - destruct t as [|y t]; [injection E as <- _; cbn [In] in I; lia|]. injection E as <- E. destruct t as [|z t].
    + injection E as -> _. split; [cbn [In] in *; lia|]. exists []. reflexivity.
    + injection E as <- E. destruct (IH _ _ _ E I) as (A & q & ->). split; [exact A|]. exists (92 :: c :: q). reflexivity.
Qed.

(* C84: WriteString of UTF-8 writes what writing its code points one by one does *)
Lemma escape_high b : 128 <= b -> escape_byte b = [b].
Proof. intro H. unfold escape_byte. repeat match goal with |- context [b =? ?k] => replace (b =? k) with false by lia end. reflexivity. Qed.
Lemma lor_high x k : 128 <= k -> 128 <= N.lor x k.
Proof.
  intro H. assert (L : k <= N.lor x k); [|lia]. 
  apply N.ldiff_le. apply N.bits_inj. intro i. rewrite N.ldiff_spec, N.lor_spec, N.bits_0. destruct (N.testbit k i), (N.testbit x i); reflexivity.
Qed.
Theorem C84_utf8 : forall cps, escape (flat_map utf8append cps) = flat_map utf8esc_append cps.
Proof.
  induction cps as [|cp cps IH]; [reflexivity|]. cbn [flat_map]. unfold escape in *. rewrite flat_map_app, IH. f_equal.
  unfold utf8append, utf8esc_append. destruct (cp <? 128) eqn:Q.
  - cbn [flat_map]. rewrite app_nil_r. unfold escape_byte. reflexivity.
  - assert (H : forall x k, 128 <= k -> escape_byte (N.lor x k) = [N.lor x k]) by (intros; apply escape_high, lor_high; assumption).
    destruct (cp <? 2048); [|destruct (cp <? 65536)]; cbn [flat_map]; rewrite !H by lia; reflexivity.
Qed.
(* so the reader gives the characters back, but for the zero and the form feed *)
Theorem C84_read : forall cps, Forall (fun c => c < 2 ^ 21 /\ c <> 0 /\ c <> 12) cps ->
  read_codepoints (length cps) (escape (flat_map utf8append cps)) = Some cps.
Proof. intros cps F. rewrite C84_utf8. apply escape_roundtrip. exact F. Qed.

(* what unescape makes of one character of the grammar: its UTF-8; but of \u and
   four digits only the backslash is dropped *)
Inductive seen : bytes -> N -> bytes -> Prop :=
| seen_char bs cp out : ~ is_uni bs -> utf8_char out cp -> seen bs cp out
| seen_uni bs cp : seen (92 :: 117 :: bs) cp (117 :: bs).
Lemma high_pieces l : Forall (fun b => b <> 92) l -> exists ps, Forall (fun p => piece (fst p) (snd p)) ps /\ concat (map fst ps) = l /\ map snd ps = l.
Proof.
  induction 1 as [|b l H F (ps & P & A & B)]; [exists []; split; [constructor|split; reflexivity]|].
  exists (([b], b) :: ps). split; [constructor; [apply p_plain; exact H|exact P]|]. cbn [map fst snd concat app]. rewrite A, B. split; reflexivity.
Qed.
Lemma char_pieces bs cp : esc_char bs cp -> exists ps, Forall (fun p => piece (fst p) (snd p)) ps /\ concat (map fst ps) = bs /\ seen bs cp (map snd ps).
Proof.
  intros [bs0 cp0 C P|c cp0 I|a b c d va vb vc vd Ha Hb Hc Hd].
  - assert (F : Forall (fun b => b <> 92) bs0).
    { destruct C as [a A|a b A B|a b c A B D|a b c d A B D E]; repeat (apply Forall_cons; [try lia|]); try apply Forall_nil.
      destruct P as [P|P]; [cbn [In] in P; lia|cbn in P; lia]. }
    destruct (high_pieces bs0 F) as (ps & X & A & B). exists ps. split; [exact X|]. split; [exact A|]. rewrite B. apply seen_char; [|exact C].
    intro U. destruct bs0 as [|x bs0]; [contradiction|]. apply Forall_inv in F. apply F. clear -U. unfold is_uni in U. destruct x as [|p]; [contradiction|]. repeat (destruct p as [p|p|]; try contradiction). reflexivity.
  - exists [([92; c], cp0)]. assert (D : decode_esc c = cp0 /\ cp0 < 128 /\ c <> 117).
    { cbn [In] in I. repeat (destruct I as [I|I]; [injection I as <- <-; split; [reflexivity|lia]|]). contradiction. }
    destruct D as (D & L & NU). split; [constructor; [apply p_pair, stands_iff; exact D|constructor]|]. split; [reflexivity|].
    cbn [map snd]. apply seen_char; [|apply u8_1; exact L]. cbn [is_uni]. intro U. apply NU. clear -U. destruct c as [|p]; [contradiction|]. repeat (destruct p as [p|p|]; try contradiction). reflexivity.
  - assert (NB : forall x v, hex_value x = Some v -> x <> 92).
    { intros x v H ->. vm_compute in H. discriminate H. }
    exists [([92; 117], 117); ([a], a); ([b], b); ([c], c); ([d], d)]. split.
    + apply Forall_cons; [apply p_pair, stands_iff; reflexivity|]. repeat (apply Forall_cons; [apply p_plain; eapply NB; eassumption|]). apply Forall_nil.
    + split; [reflexivity|]. cbn [map snd]. apply seen_uni.
Qed.
Lemma text_pieces cs : esc_text cs -> exists ps outs, Forall (fun p => piece (fst p) (snd p)) ps /\ concat (map fst ps) = concat (map fst cs) /\
  map snd ps = concat outs /\ Forall2 (fun c out => seen (fst c) (snd c) out) cs outs.
Proof.
  induction 1 as [|[bs cp] cs C F (ps & outs & P & A & B & S)]; [exists [], []; repeat split; constructor|].
  destruct (char_pieces bs cp C) as (qs & Q & A1 & S1). exists (qs ++ ps), (map snd qs :: outs). split; [apply Forall_app; split; assumption|].
  rewrite !map_app, concat_app. cbn [map fst concat]. rewrite A1, A, B. split; [reflexivity|]. split; [reflexivity|]. constructor; [exact S1|exact S].
Qed.
(* C84: unescape of a text of the grammar *)
Theorem C84_chars : forall pre cs post, esc_text cs -> exists outs,
  unescape (pre ++ concat (map fst cs) ++ post) (at_ pre (concat (map fst cs))) = Done (concat outs) /\
  Forall2 (fun c out => seen (fst c) (snd c) out) cs outs.
Proof.
  intros pre cs post E. destruct (text_pieces cs E) as (ps & outs & P & A & B & S). exists outs. split; [|exact S]. rewrite <- A, <- B. apply unescape_text. exact P.
Qed.

(* C84: TextFrame::string of a string of a frame that stands at its beginning *)
Theorem C84_frame : forall buf c c' cp n b e cs, reachable buf c -> next c = NOk c' -> In (AStr cp n b e) (c_op c') -> N.of_nat (length buf) < 2 ^ 30 ->
  sub buf b e = concat (map fst cs) -> esc_text cs -> cs <> [] -> exists outs,
  frame_string buf (AStr cp n b e) = Done (concat outs) /\ Forall2 (fun c out => seen (fst c) (snd c) out) cs outs.
Proof.
  intros buf c c' cp n b e cs R N I L SB E NE. destruct (C14_parser_safety buf) as [K _]. destruct (K c R) as [_ K2]. destruct (K2 c' N) as (_ & PO & _ & W & _).
  rewrite Forall_forall in W. specialize (W _ I). cbn [atom_within] in W. destruct W as (BE & EP & _).
  destruct (text_pieces cs E) as (ps & outs & P & A & B & S). exists outs. split; [|exact S].
  assert (LT : b < e).
  { destruct (N.eq_dec b e) as [<-|]; [|lia]. exfalso. unfold sub in SB. rewrite N.sub_diag in SB. cbn [N.to_nat firstn] in SB.
    destruct cs as [|[bs x] cs]; [contradiction|]. apply Forall_inv in E. cbn [fst snd map concat] in *. symmetry in SB. apply app_eq_nil in SB as [-> _].
    inversion E as [? ? U _ EQ| |]; subst. inversion U. }
  change (2 ^ 30) with 1073741824 in L.
  assert (SF : forall x, x <= N.of_nat (length buf) -> N.land x FSIZE_BITS = x).
  { intros x H. change FSIZE_BITS with (N.ones 30). rewrite N.land_ones. apply N.mod_small. change (2 ^ 30) with 1073741824. lia. }
  cbn [frame_string]. unfold s_slice, s_string, s_sized, r_safe, s_size, r_size, r_valid, r_offset. cbn [s_range s_buf r_lo r_hi].
  rewrite !SF by lia. rewrite (N.mod_small (N.of_nat (length buf))) by (unfold W32; lia). rewrite (proj2 (N.leb_le 0 _) (N.le_0_l _)). cbn [rbind]. rewrite N.sub_0_r.
  rewrite (proj2 (N.leb_le e _)) by lia. rewrite N.add_0_l, (N.mod_small b) by (unfold W32; lia). rewrite (proj2 (N.ltb_lt b _)) by lia. cbn [rbind].
  rewrite (proj2 (N.leb_le b e)) by lia. cbn [rbind]. unfold r_at_for. rewrite N.mod_small by (unfold W32; lia).
  unfold unescape, s_size, r_size, r_valid, s_begin. cbn [s_range s_buf r_lo r_hi]. rewrite (proj2 (N.leb_le b _)) by lia. cbn [rbind].
  replace (N.to_nat (b + (e - b) - b)) with (N.to_nat (e - b)) by lia. rewrite N.add_0_l.
  set (pre := firstn (N.to_nat b) buf). set (post := skipn (N.to_nat e) buf ++ [0]).
  assert (LP : N.of_nat (length pre) = b) by (unfold pre; rewrite firstn_length; lia).
  assert (EB : buf ++ [0] = pre ++ concat (map fst ps) ++ post).
  { rewrite A, <- SB. unfold pre, post, sub. rewrite !app_assoc. f_equal. rewrite <- (firstn_skipn (N.to_nat b) buf) at 1. rewrite <- app_assoc. f_equal.
    rewrite <- (firstn_skipn (N.to_nat (e - b)) (skipn (N.to_nat b) buf)) at 1. f_equal. rewrite skipn_skipn || idtac. replace (N.to_nat e) with (N.to_nat b + N.to_nat (e - b))%nat by lia.
    generalize (N.to_nat (e - b)). intro k. clear. generalize (N.to_nat b). intro m. revert buf. induction m as [|m IH]; intro buf; [reflexivity|]. destruct buf; [rewrite !skipn_nil; reflexivity|]. cbn [skipn Nat.add]. apply IH. }
  pose proof (unescape_text pre post ps P) as U. rewrite unescape_at, LP in U. rewrite <- EB in U.
  replace (length (concat (map fst ps))) with (N.to_nat (e - b)) in U; [rewrite U, B; reflexivity|].
  rewrite A, <- SB. unfold sub. rewrite firstn_length, skipn_length. lia.
Qed.
Print Assumptions C84_unescape.
Print Assumptions C84_back.
Print Assumptions C84_token.
Print Assumptions C84_utf8.
Print Assumptions C84_read.
Print Assumptions C84_chars.
Print Assumptions C84_frame.
