(* Cases and counterexamples for C84. *)
From Coq Require Import String.
From Verif Require Import Prelude Txt UuidModel CodecModel CodecSpec StringProofs MergeModel TextModel TextSpec TextTheorems SliceModel EscapeModel EscapeTheorems.
Open Scope string_scope. Open Scope N_scope. Open Scope list_scope.

(* a quote, a backslash, a line end, a tab, a zero byte and an e with an accent *)
Definition C84_bytes : bytes := [97; 39; 92; 10; 9; 0; 195; 169].
Example C84_case :
  escape C84_bytes = [97; 92; 39; 92; 92; 92; 110; 92; 116; 0; 195; 169] /\
  unescape ([64] ++ escape C84_bytes ++ [39; 0]) (at_ [64] (escape C84_bytes)) = Done C84_bytes /\
  escape (flat_map utf8append [97; 39; 233; 8364]) = [97; 92; 39; 195; 169; 226; 130; 172] /\
  read_codepoints 4 (escape (flat_map utf8append [97; 39; 233; 8364])) = Some [97; 39; 233; 8364].
Proof. repeat split; vm_compute; reflexivity. Qed.

(* a frame with the string a, escaped line end, b *)
Definition C84_text : bytes := txt "@3+A :lww 'a\nb';".
Definition C84_chars_of : list (bytes * N) := [([97], 97); ([92; 110], 10); ([98], 98)].
Example C84_frame_case : exists c', next (cursor_of C84_text) = NOk c' /\ nth_error (c_op c') 2 = Some (AStr 0 3 11 15) /\
  sub C84_text 11 15 = List.concat (map fst C84_chars_of) /\ esc_text C84_chars_of /\
  frame_string C84_text (AStr 0 3 11 15) = Done [97; 10; 98].
Proof.
  destruct (next (cursor_of C84_text)) as [c'|c'|c'|] eqn:E; try (vm_compute in E; discriminate E).
  exists c'. split; [reflexivity|]. split; [vm_compute in E; injection E as <-; reflexivity|]. split; [vm_compute; reflexivity|]. split; [|vm_compute; reflexivity].
  unfold esc_text, C84_chars_of. repeat (apply Forall_cons; [cbn [fst snd]; first [apply e_plain; [apply u8_1; reflexivity|left; cbn [In]; lia]|apply e_esc; cbn [In]; tauto]|]). apply Forall_nil.
Qed.

(* that string gives the characters of every string of a frame is false: of the
   escape of four digits for A it makes the letter u and the digits *)
Theorem C84_unicode_refuted : exists buf c' a, next (cursor_of buf) = NOk c' /\ nth_error (c_op c') 2 = Some a /\
  value_of buf a = VStr (Some [65; 98]) /\ frame_string buf a = Done [117; 48; 48; 52; 49; 98].
Proof.
  exists (txt "@3+A :lww '" ++ [92; 117; 48; 48; 52; 49] ++ txt "b';").
  destruct (next (cursor_of (txt "@3+A :lww '" ++ [92; 117; 48; 48; 52; 49] ++ txt "b';"))) as [c'|c'|c'|] eqn:E; try (vm_compute in E; discriminate E).
  exists c', (AStr 0 2 11 18). split; [reflexivity|]. split; [vm_compute in E; injection E as <-; reflexivity|]. split; vm_compute; reflexivity.
Qed.
(* that unescape depends on the bytes of the slice only is false, and that it
   stays within the memory *)
Theorem C84_bounds_refuted : exists s,
  unescape (s ++ [110]) (at_ [] s) = Done [97; 10] /\ unescape (s ++ [120]) (at_ [] s) = Done [97; 120] /\ unescape s (at_ [] s) = Aborted.
Proof. exists [97; 92]. repeat split; vm_compute; reflexivity. Qed.
(* that the reader of strings takes everything escape writes is false: a form
   feed, and a zero byte *)
Theorem C84_feed_refuted : exists s z, unescape (escape s) (at_ [] (escape s)) = Done s /\ read_codepoints 1 (escape s) = None /\
  unescape (escape z) (at_ [] (escape z)) = Done z /\ read_codepoints 1 (escape z) = None.
Proof. exists [12], [0]. repeat split; vm_compute; reflexivity. Qed.
Print Assumptions C84_unicode_refuted.
Print Assumptions C84_bounds_refuted.
Print Assumptions C84_feed_refuted.
