(* C10: strings of parsed operations read as UTF-16. *)
From Coq Require Import String.
From Verif Require Import Prelude UuidModel CodecModel CodecSpec TextTable TextModel HashModel CompareModel Txt Utf16Theorems.
Open Scope string_scope. Open Scope N_scope. Open Scope list_scope.

Definition op1 (s : string) : cursor := match next (cursor_of (txt s)) with NOk c => c | _ => cursor_of [] end.
Definition parts (c : cursor) (i : nat) : N * N * N * N := match nth_error (c_op c) i with Some (AStr cp n b e) => (cp, n, b, e) | _ => (0, 0, 0, 0) end.
(* a string with an escape, a letter of the basic plane and one out of it *)
Definition said : cursor := op1 "@1+A :2 'h\u0451т😀';".
Example C10_read_case :
  parts said 2 = (0, 4, 9, 22) /\ value_of (c_buf said) (AStr 0 4 9 22) = VStr (Some [104; 0x451; 0x442; 0x1F600]) /\
  read_string (c_buf said) 0 4 9 22 = txt "hёт😀" /\
  snd (read_string16 (c_buf said) 0 4 9 22) = true /\ List.length (fst (read_string16 (c_buf said) 0 4 9 22)) = 5%nat /\
  utf16read_all 5 (fst (read_string16 (c_buf said) 0 4 9 22)) = Some [104; 0x451; 0x442; 0x1F600].
Proof. do 5 (split; [vm_compute; reflexivity|]). vm_compute. reflexivity. Qed.
Definition plain : cursor := op1 "@1+A :2 'h\u0451т';".
Example C10_read_standard_case :
  value_of (c_buf plain) (let '(cp, n, b, e) := parts plain 2 in AStr cp n b e) = VStr (Some [104; 0x451; 0x442]) /\
  (let '(cp, n, b, e) := parts plain 2 in read_string16 (c_buf plain) cp n b e) = ([104; 0x451; 0x442], true).
Proof. split; vm_compute; reflexivity. Qed.
(* A character of a span is a string of one character for ReadString and an
   empty one for ReadString16, both being fine with it. *)
Definition typed : cursor := op1 "@1+A :2 ('xy');".
Theorem C10_char_refuted : exists frame c cp n b e, next (cursor_of frame) = NOk c /\ nth_error (c_op c) 2 = Some (AStr cp n b e) /\
  value_of (c_buf c) (AStr cp n b e) = VStr (Some [120]) /\ read_string (c_buf c) cp n b e = [120] /\ read_string16 (c_buf c) cp n b e = ([], true).
Proof.
  exists (txt "@1+A :2 ('xy');"), typed, (fst (fst (fst (parts typed 2)))), (snd (fst (fst (parts typed 2)))), (snd (fst (parts typed 2))), (snd (parts typed 2)).
  do 4 (split; [vm_compute; reflexivity|]). vm_compute. reflexivity.
Qed.
Print Assumptions C10_char_refuted.
