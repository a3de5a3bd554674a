(* Escaping of bytes: Builder::escape and WriteString, ron/text-builder.cc:60-106;
   TextFrame::unescape and TextFrame::string, ron/text.cc:38-50 and
   ron/text.hpp:24-28. The program calls neither pair: it reads and writes
   strings one code point at a time (CodecModel.v). *)
From Verif Require Import Prelude UuidModel CodecModel MergeModel TextModel SliceModel.

(* ron/text-builder.cc:66-106 escape, one byte: the cases in the order of the
   switch *)
Definition escape_byte (b : N) : bytes :=
  if b =? 34 then [92; 34]
  else if b =? 39 then [92; 39]
  else if b =? 92 then [92; 92]
  else if b =? 8 then [92; 98]
  else if b =? 12 then [92; 102]
  else if b =? 10 then [92; 110]
  else if b =? 13 then [92; 114]
  else if b =? 9 then [92; 116]
  else [b].
(* ron/text-builder.cc:66-106; 60-64 WriteString appends it without quotes *)
Definition escape (s : bytes) : bytes := flat_map escape_byte s.

(* ron/text.cc:38-50 unescape: c is the pointer, n the number of bytes before the
   end of the slice. The byte after a backslash is read wherever the slice ends;
   mem is the memory that can be read. *)
Fixpoint unescape_from (mem : bytes) (c : N) (n : nat) : res bytes :=
  match n with
  | O => Done []
  | S k =>
      rbind (load mem c) (fun b =>
      if b =? 92
      then rbind (load mem (c + 1)) (fun x =>
           match k with
           | O => Done [decode_esc x]
           | S j => rbind (unescape_from mem (c + 2) j) (fun r => Done (decode_esc x :: r))
           end)
      else rbind (unescape_from mem (c + 1) k) (fun r => Done (b :: r)))
  end.
Definition unescape (mem : bytes) (s : slice) : res bytes :=
  rbind (s_size s) (fun n => unescape_from mem (s_begin s) (N.to_nat n)).
(* ron/text.hpp:25-28 string, of the text of a frame and a STRING atom. The text
   is a std::string: a zero byte follows it. The range of the atom is made safe,
   ron/uuid.hpp:115. *)
Definition frame_string (buf : bytes) (a : atom) : res bytes :=
  match a with
  | AStr _ _ b e =>
      rbind (s_slice (s_string 0 (N.of_nat (length buf))) (r_safe (mkRange b e))) (fun s => unescape (buf ++ [0]) s)
  | _ => Aborted
  end.
