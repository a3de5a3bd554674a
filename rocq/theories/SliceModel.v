(* Byte ranges and slices: ron/slice.hpp. The memory a slice points into is one
   array, mem; a pointer is an offset in it. A read outside of the array and a
   failed assert are Aborted, so is an exception nobody catches. fsize_t is 32
   bits wide and wraps around. *)
From Verif Require Import Prelude MergeModel.

Definition W32 : N := 4294967296.
(* ron/slice.hpp:49 *)
Definition FSIZE_MAX : N := 1073741824.
(* ron/slice.hpp:50 *)
Definition FSIZE_BITS : N := FSIZE_MAX - 1.

(* ron/slice.hpp:53-129 Range *)
Record range : Set := mkRange { r_lo : N; r_hi : N }.
(* 108 *)
Definition r_valid (r : range) : bool := r_lo r <=? r_hi r.
Definition r_checked (r : range) : res range := if r_valid r then Done r else Aborted.
(* 69-72, of pointers: an offset below zero wraps around *)
Definition ptr_diff (a b : N) : N := (a + (W32 - b mod W32)) mod W32.
Definition r_of_ptrs (base b e : N) : res range := r_checked (mkRange (ptr_diff b base) (ptr_diff e base)).
(* 81-83 *)
Definition r_at_for (a n : N) : range := mkRange a ((a + n) mod W32).
(* 95-97 *)
Definition r_safe (r : range) : range := mkRange (N.land (r_lo r) FSIZE_BITS) (N.land (r_hi r) FSIZE_BITS).
(* 98-101 *)
Definition r_offset (r : range) (i : N) : res N :=
  let o := (r_lo r + i) mod W32 in if o <? r_hi r then Done o else Aborted.
(* 102-105 *)
Definition r_size (r : range) : res N := if r_valid r then Done (r_hi r - r_lo r) else Aborted.
(* 107 *)
Definition r_empty (r : range) : bool := r_lo r =? r_hi r.
(* 109-112 *)
Definition r_consume (n : N) (r : range) : res range := r_checked (mkRange ((r_lo r + n) mod W32) (r_hi r)).
(* 113-116 *)
Definition r_shorten (n : N) (r : range) : res range := r_checked (mkRange (r_lo r) ((r_hi r + (W32 - n mod W32)) mod W32)).
(* 117-120 *)
Definition r_end_at (o : N) (r : range) : res range := r_checked (mkRange (r_lo r) o).
(* 121-123: no assert *)
Definition r_resize (n : N) (r : range) : range := mkRange (r_lo r) ((r_lo r + n) mod W32).
(* 125-127 *)
Definition r_eqb (a b : range) : bool := (r_lo a =? r_lo b) && (r_hi a =? r_hi b).

(* ron/slice.hpp:135-234 Slice: buf_ and range_ *)
Record slice : Set := mkSlice { s_buf : N; s_range : range }.
(* 142 *)
Definition s_sized (buf n : N) : slice := mkSlice buf (mkRange 0 n).
(* 144-148: the size is a size_t *)
Definition s_chars (buf n : N) : res slice := if n <=? FSIZE_MAX then Done (s_sized buf (n mod W32)) else Aborted.
(* 150-154 *)
Definition s_ptrs (from till : N) : res slice :=
  if (from <=? till) && (till - from <=? FSIZE_MAX) then Done (s_sized from (till - from)) else Aborted.
(* 157-158: no assert *)
Definition s_string (buf size : N) : slice := s_sized buf (size mod W32).
(* 160-163 *)
Definition s_part (buf size : N) (r : range) : res slice := if r_hi r <=? size then Done (mkSlice buf r) else Aborted.
(* 167, 168 *)
Definition s_begin (s : slice) : N := s_buf s + r_lo (s_range s).
Definition s_end (s : slice) : N := s_buf s + r_hi (s_range s).
Definition load (mem : bytes) (a : N) : res N :=
  match nth_error mem (N.to_nat a) with Some b => Done b | None => Aborted end.
(* 169-170 *)
Definition s_at (mem : bytes) (s : slice) (i : N) : res N := rbind (r_offset (s_range s) i) (fun o => load mem (s_buf s + o)).
(* 172 *)
Definition s_first (mem : bytes) (s : slice) : res N := load mem (s_begin s).
(* 173, 174 *)
Definition s_size (s : slice) : res N := r_size (s_range s).
Definition s_empty (s : slice) : bool := r_empty (s_range s).
Definition s_with (s : slice) (r : res range) : res slice := rbind r (fun x => Done (mkSlice (s_buf s) x)).
(* 177-180 *)
Definition s_reset (s : slice) : slice := mkSlice (s_buf s) (mkRange 0 (r_hi (s_range s))).
Definition s_consumed (s : slice) : slice := mkSlice (s_buf s) (mkRange 0 (r_lo (s_range s))).
(* 171, 182, 183, 233 *)
Definition s_consume (n : N) (s : slice) : res slice := s_with s (r_consume n (s_range s)).
Definition s_next (s : slice) : res slice := s_consume 1 s.
Definition s_end_at (o : N) (s : slice) : res slice := s_with s (r_end_at o (s_range s)).
Definition s_resize (n : N) (s : slice) : slice := mkSlice (s_buf s) (r_resize n (s_range s)).
(* the n bytes at a, in turn *)
Fixpoint loads (mem : bytes) (a : N) (n : nat) : res bytes :=
  match n with
  | O => Done []
  | S k => rbind (load mem a) (fun b => rbind (loads mem (a + 1) k) (fun r => Done (b :: r)))
  end.
Fixpoint all_eqb (a b : bytes) : bool :=
  match a, b with
  | [], [] => true
  | x :: r, y :: q => (x =? y) && all_eqb r q
  | _, _ => false
  end.
(* 185-187 operator==: memcmp over the size *)
Definition s_eq (mem1 : bytes) (s1 : slice) (mem2 : bytes) (s2 : slice) : res bool :=
  rbind (s_size s1) (fun n1 => rbind (s_size s2) (fun n2 =>
  if negb (n1 =? n2) then Done false
  else rbind (loads mem1 (s_begin s1) (N.to_nat n1)) (fun a => rbind (loads mem2 (s_begin s2) (N.to_nat n1)) (fun b => Done (all_eqb a b))))).
(* 189-191 *)
Definition s_same (a b : slice) : bool := (s_begin a =? s_begin b) && (s_end a =? s_end b).

Section Hash.
(* std::hash of a size_t and of a char *)
Variable hash_word hash_char : N -> N.
(* a size_t of eight bytes, the least significant first *)
Fixpoint le_word (bs : bytes) : N := match bs with [] => 0 | b :: r => b + 256 * le_word r end.
(* 200-202: i is the number of words left *)
Fixpoint hash_words (mem : bytes) (a : N) (i : nat) (acc : N) : res N :=
  match i with
  | O => Done acc
  | S k => rbind (loads mem a 8) (fun w => hash_words mem (a + 8) k (N.lxor acc (hash_word (le_word w))))
  end.
(* 203-205: i is the index, n the number of bytes left *)
Fixpoint hash_chars (mem : bytes) (s : slice) (i : N) (n : nat) (acc : N) : res N :=
  match n with
  | O => Done acc
  | S k => rbind (s_at mem s i) (fun c => hash_chars mem s (i + 1) k (N.lxor acc (hash_char c)))
  end.
(* 193-207 hash, where a size_t is 8 bytes *)
Definition s_hash (mem : bytes) (s : slice) : res N :=
  rbind (s_size s) (fun n =>
  rbind (hash_words mem (s_begin s) (N.to_nat (n / 8)) 0) (fun acc =>
  hash_chars mem s (8 * (n / 8)) (N.to_nat (n - 8 * (n / 8))) acc)).
End Hash.

(* the C string at an address: the bytes before the first zero *)
Fixpoint c_string (bs : bytes) : res bytes :=
  match bs with
  | [] => Aborted
  | b :: r => if b =? 0 then Done [] else rbind (c_string r) (fun q => Done (b :: q))
  end.
(* 209-212 str: std::string{const char*, begin, end} makes a string of the C
   string at buf_, then takes its substring from begin, of up to end bytes; it
   throws if begin is past the string *)
Definition s_str (mem : bytes) (s : slice) : res bytes :=
  rbind (c_string (skipn (N.to_nat (s_buf s)) mem)) (fun c =>
  if r_lo (s_range s) <=? N.of_nat (length c)
  then Done (firstn (N.to_nat (r_hi (s_range s))) (skipn (N.to_nat (r_lo (s_range s))) c))
  else Aborted).
(* 214-219 *)
Definition s_range_of (s sub : slice) : res range :=
  if (s_begin s <=? s_begin sub) && (s_end sub <=? s_end s)
  then rbind (s_size sub) (fun n => Done (r_at_for ((s_begin sub - s_begin s) mod W32) n)) else Aborted.
(* 221-226 *)
Definition s_slice (s : slice) (r : range) : res slice :=
  rbind (s_size s) (fun n =>
  if r_hi r <=? n
  then rbind (r_offset (s_range s) (r_lo r)) (fun o => rbind (r_size r) (fun k => Done (mkSlice (s_buf s) (r_at_for o k))))
  else Aborted).
(* 228-231 *)
Definition s_cut_off (s b : slice) : res slice :=
  if s_buf s =? s_buf b then Done (mkSlice (s_buf s) (mkRange (r_lo (s_range s)) (r_lo (s_range b)))) else Aborted.

(* moves of a slice, one after the other *)
Inductive move : Set := Step | Eat (n : N) | Stop (o : N) | Fit (n : N).
Definition s_move (m : move) (s : slice) : res slice :=
  match m with
  | Step => s_next s
  | Eat n => s_consume n s
  | Stop o => s_end_at o s
  | Fit n => Done (s_resize n s)
  end.
Fixpoint s_moves (ms : list move) (s : slice) : res slice :=
  match ms with [] => Done s | m :: r => rbind (s_move m s) (s_moves r) end.
