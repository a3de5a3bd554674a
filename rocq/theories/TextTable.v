(* GENERATED by tools/gen_text_table.py from /repo/ron/text-parser.cc
   (lines 92-4840, the Ragel -G2 goto code of TextFrame::Cursor::Next).
   state -> list of (first byte, last byte, embedded actions, target);
   bytes not listed go to the error state 0 with no action.
   The utf8-grammar.rl actions (they only update the unused local "cp")
   are omitted. Action names are those of ragel/*-grammar.rl. *)
From Coq Require Import List NArith.
Import ListNotations.
Local Open Scope N_scope.

(* ragel/text-grammar.rl:9-71 and ragel/uuid-grammar.rl:6-20, the actions;
   a_begin_word is both begin_value and begin_origin (same body). *)
Inductive action : Set :=
| a_end_id
| a_end_ref
| a_begin_int
| a_end_int
| a_begin_string
| a_end_string
| a_begin_float
| a_end_float
| a_end_quoted_uuid
| a_end_bare_uuid
| a_end_cp
| a_op_term
| a_newline
| a_string_esc
| a_string_uesc
| a_span_size_digit
| a_end_span_size
| a_end_spread
| a_begin_uuid
| a_variety
| a_begin_word
| a_end_value
| a_version
| a_end_origin.

Definition text_row (s : N) : list (N * N * list action * N) :=
  match s with
  | 1 => [(1, 9, [a_begin_string], 2);
      (11, 12, [a_begin_string], 2);
      (14, 38, [a_begin_string], 2);
      (39, 39, [a_begin_string; a_end_string], 3);
      (40, 91, [a_begin_string], 2);
      (92, 92, [a_begin_string], 51);
      (93, 127, [a_begin_string], 2);
      (192, 223, [a_begin_string], 57);
      (224, 239, [a_begin_string], 58);
      (240, 247, [a_begin_string], 59)]
  | 2 => [(1, 9, [a_end_cp], 2);
      (11, 12, [a_end_cp], 2);
      (14, 38, [a_end_cp], 2);
      (39, 39, [a_end_cp; a_end_string], 3);
      (40, 91, [a_end_cp], 2);
      (92, 92, [a_end_cp], 51);
      (93, 127, [a_end_cp], 2);
      (192, 223, [a_end_cp], 57);
      (224, 239, [a_end_cp], 58);
      (240, 247, [a_end_cp], 59)]
  | 3 => [(9, 10, [a_newline], 4);
      (13, 13, [a_newline], 4);
      (32, 32, [a_newline], 4);
      (33, 33, [a_op_term], 74);
      (39, 39, [], 1);
      (40, 40, [], 5);
      (44, 44, [a_op_term], 74);
      (59, 59, [a_op_term], 74);
      (61, 61, [], 25);
      (62, 62, [], 28);
      (63, 63, [a_op_term], 74);
      (94, 94, [], 32)]
  | 4 => [(9, 10, [a_newline], 4);
      (13, 13, [a_newline], 4);
      (32, 32, [a_newline], 4);
      (33, 33, [a_op_term], 74);
      (39, 39, [], 1);
      (40, 40, [], 5);
      (43, 43, [a_begin_int; a_begin_float], 21);
      (44, 44, [a_op_term], 74);
      (45, 45, [a_begin_int; a_begin_float], 21);
      (48, 57, [a_begin_int; a_begin_float; a_begin_uuid; a_begin_word], 40);
      (59, 59, [a_op_term], 74);
      (61, 61, [], 25);
      (62, 62, [], 28);
      (63, 63, [a_op_term], 74);
      (65, 70, [a_begin_uuid; a_begin_word], 50);
      (71, 90, [a_begin_uuid; a_begin_word], 44);
      (94, 94, [], 32);
      (95, 95, [a_begin_uuid; a_begin_word], 44);
      (97, 122, [a_begin_uuid; a_begin_word], 44);
      (126, 126, [a_begin_uuid; a_begin_word], 44)]
  | 5 => [(9, 10, [a_newline], 5);
      (13, 13, [a_newline], 5);
      (32, 32, [a_newline], 5);
      (39, 39, [], 6);
      (48, 57, [a_span_size_digit], 20)]
  | 6 => [(1, 9, [a_begin_string], 7);
      (11, 12, [a_begin_string], 7);
      (14, 38, [a_begin_string], 7);
      (39, 39, [a_begin_string; a_end_string], 8);
      (40, 91, [a_begin_string], 7);
      (92, 92, [a_begin_string], 11);
      (93, 127, [a_begin_string], 7);
      (192, 223, [a_begin_string], 17);
      (224, 239, [a_begin_string], 18);
      (240, 247, [a_begin_string], 19)]
  | 7 => [(1, 9, [a_end_cp], 7);
      (11, 12, [a_end_cp], 7);
      (14, 38, [a_end_cp], 7);
      (39, 39, [a_end_cp; a_end_string], 8);
      (40, 91, [a_end_cp], 7);
      (92, 92, [a_end_cp], 11);
      (93, 127, [a_end_cp], 7);
      (192, 223, [a_end_cp], 17);
      (224, 239, [a_end_cp], 18);
      (240, 247, [a_end_cp], 19)]
  | 8 => [(9, 10, [a_end_spread; a_newline], 9);
      (13, 13, [a_end_spread; a_newline], 9);
      (32, 32, [a_end_spread; a_newline], 9);
      (41, 41, [a_end_spread], 10)]
  | 9 => [(9, 10, [a_newline], 9);
      (13, 13, [a_newline], 9);
      (32, 32, [a_newline], 9);
      (41, 41, [], 10)]
  | 10 => [(9, 10, [a_newline], 10);
      (13, 13, [a_newline], 10);
      (32, 32, [a_newline], 10);
      (33, 33, [a_op_term], 74);
      (44, 44, [a_op_term], 74);
      (59, 59, [a_op_term], 74);
      (63, 63, [a_op_term], 74)]
  | 11 => [(34, 34, [a_string_esc], 7);
      (39, 39, [a_string_esc], 7);
      (47, 47, [a_string_esc], 7);
      (92, 92, [a_string_esc], 7);
      (98, 98, [a_string_esc], 7);
      (110, 110, [a_string_esc], 7);
      (114, 114, [a_string_esc], 7);
      (116, 116, [a_string_esc], 7);
      (117, 117, [], 12)]
  | 12 => [(48, 57, [], 13);
      (65, 70, [], 13);
      (97, 102, [], 13)]
  | 13 => [(48, 57, [], 14);
      (65, 70, [], 14);
      (97, 102, [], 14)]
  | 14 => [(48, 57, [], 15);
      (65, 70, [], 15);
      (97, 102, [], 15)]
  | 15 => [(48, 57, [], 16);
      (65, 70, [], 16);
      (97, 102, [], 16)]
  | 16 => [(1, 9, [a_string_uesc; a_end_cp], 7);
      (11, 12, [a_string_uesc; a_end_cp], 7);
      (14, 38, [a_string_uesc; a_end_cp], 7);
      (39, 39, [a_string_uesc; a_end_cp; a_end_string], 8);
      (40, 91, [a_string_uesc; a_end_cp], 7);
      (92, 92, [a_string_uesc; a_end_cp], 11);
      (93, 127, [a_string_uesc; a_end_cp], 7);
      (192, 223, [a_string_uesc; a_end_cp], 17);
      (224, 239, [a_string_uesc; a_end_cp], 18);
      (240, 247, [a_string_uesc; a_end_cp], 19)]
  | 17 => [(128, 191, [], 7)]
  | 18 => [(128, 191, [], 17)]
  | 19 => [(128, 191, [], 18)]
  | 20 => [(9, 10, [a_end_span_size; a_newline], 9);
      (13, 13, [a_end_span_size; a_newline], 9);
      (32, 32, [a_end_span_size; a_newline], 9);
      (41, 41, [a_end_span_size], 10);
      (48, 57, [a_span_size_digit], 20)]
  | 21 => [(48, 57, [], 22)]
  | 22 => [(9, 10, [a_end_int; a_newline], 4);
      (13, 13, [a_end_int; a_newline], 4);
      (32, 32, [a_end_int; a_newline], 4);
      (33, 33, [a_end_int; a_op_term], 74);
      (39, 39, [a_end_int], 1);
      (40, 40, [a_end_int], 5);
      (44, 44, [a_end_int; a_op_term], 74);
      (46, 46, [], 23);
      (48, 57, [], 22);
      (59, 59, [a_end_int; a_op_term], 74);
      (61, 61, [a_end_int], 25);
      (62, 62, [a_end_int], 28);
      (63, 63, [a_end_int; a_op_term], 74);
      (69, 69, [], 35);
      (94, 94, [a_end_int], 32);
      (101, 101, [], 35)]
  | 23 => [(48, 57, [], 24)]
  | 24 => [(9, 10, [a_end_float; a_newline], 4);
      (13, 13, [a_end_float; a_newline], 4);
      (32, 32, [a_end_float; a_newline], 4);
      (33, 33, [a_end_float; a_op_term], 74);
      (39, 39, [a_end_float], 1);
      (40, 40, [a_end_float], 5);
      (44, 44, [a_end_float; a_op_term], 74);
      (48, 57, [], 24);
      (59, 59, [a_end_float; a_op_term], 74);
      (61, 61, [a_end_float], 25);
      (62, 62, [a_end_float], 28);
      (63, 63, [a_end_float; a_op_term], 74);
      (69, 69, [], 35);
      (94, 94, [a_end_float], 32);
      (101, 101, [], 35)]
  | 25 => [(9, 10, [a_newline], 25);
      (13, 13, [a_newline], 25);
      (32, 32, [a_newline], 25);
      (43, 43, [a_begin_int], 26);
      (45, 45, [a_begin_int], 26);
      (48, 57, [a_begin_int], 27)]
  | 26 => [(48, 57, [], 27)]
  | 27 => [(9, 10, [a_end_int; a_newline], 4);
      (13, 13, [a_end_int; a_newline], 4);
      (32, 32, [a_end_int; a_newline], 4);
      (33, 33, [a_end_int; a_op_term], 74);
      (39, 39, [a_end_int], 1);
      (40, 40, [a_end_int], 5);
      (44, 44, [a_end_int; a_op_term], 74);
      (48, 57, [], 27);
      (59, 59, [a_end_int; a_op_term], 74);
      (61, 61, [a_end_int], 25);
      (62, 62, [a_end_int], 28);
      (63, 63, [a_end_int; a_op_term], 74);
      (94, 94, [a_end_int], 32)]
  | 28 => [(9, 10, [a_newline], 28);
      (13, 13, [a_newline], 28);
      (32, 32, [a_newline], 28);
      (48, 57, [a_begin_uuid; a_begin_word], 29);
      (65, 70, [a_begin_uuid; a_begin_word], 29);
      (71, 90, [a_begin_uuid; a_begin_word], 39);
      (95, 95, [a_begin_uuid; a_begin_word], 39);
      (97, 122, [a_begin_uuid; a_begin_word], 39);
      (126, 126, [a_begin_uuid; a_begin_word], 39)]
  | 29 => [(9, 10, [a_end_value; a_end_quoted_uuid; a_newline], 4);
      (13, 13, [a_end_value; a_end_quoted_uuid; a_newline], 4);
      (32, 32, [a_end_value; a_end_quoted_uuid; a_newline], 4);
      (33, 33, [a_end_value; a_end_quoted_uuid; a_op_term], 74);
      (36, 37, [a_end_value; a_version], 30);
      (39, 39, [a_end_value; a_end_quoted_uuid], 1);
      (40, 40, [a_end_value; a_end_quoted_uuid], 5);
      (43, 43, [a_end_value; a_version], 30);
      (44, 44, [a_end_value; a_end_quoted_uuid; a_op_term], 74);
      (45, 45, [a_end_value; a_version], 30);
      (47, 47, [a_variety], 38);
      (48, 57, [], 39);
      (59, 59, [a_end_value; a_end_quoted_uuid; a_op_term], 74);
      (61, 61, [a_end_value; a_end_quoted_uuid], 25);
      (62, 62, [a_end_value; a_end_quoted_uuid], 28);
      (63, 63, [a_end_value; a_end_quoted_uuid; a_op_term], 74);
      (65, 90, [], 39);
      (94, 94, [a_end_value; a_end_quoted_uuid], 32);
      (95, 95, [], 39);
      (97, 122, [], 39);
      (126, 126, [], 39)]
  | 30 => [(48, 57, [a_begin_word], 31);
      (65, 90, [a_begin_word], 31);
      (95, 95, [a_begin_word], 31);
      (97, 122, [a_begin_word], 31);
      (126, 126, [a_begin_word], 31)]
  | 31 => [(9, 10, [a_end_origin; a_end_quoted_uuid; a_newline], 4);
      (13, 13, [a_end_origin; a_end_quoted_uuid; a_newline], 4);
      (32, 32, [a_end_origin; a_end_quoted_uuid; a_newline], 4);
      (33, 33, [a_end_origin; a_end_quoted_uuid; a_op_term], 74);
      (39, 39, [a_end_origin; a_end_quoted_uuid], 1);
      (40, 40, [a_end_origin; a_end_quoted_uuid], 5);
      (44, 44, [a_end_origin; a_end_quoted_uuid; a_op_term], 74);
      (48, 57, [], 31);
      (59, 59, [a_end_origin; a_end_quoted_uuid; a_op_term], 74);
      (61, 61, [a_end_origin; a_end_quoted_uuid], 25);
      (62, 62, [a_end_origin; a_end_quoted_uuid], 28);
      (63, 63, [a_end_origin; a_end_quoted_uuid; a_op_term], 74);
      (65, 90, [], 31);
      (94, 94, [a_end_origin; a_end_quoted_uuid], 32);
      (95, 95, [], 31);
      (97, 122, [], 31);
      (126, 126, [], 31)]
  | 32 => [(9, 10, [a_newline], 32);
      (13, 13, [a_newline], 32);
      (32, 32, [a_newline], 32);
      (43, 43, [a_begin_float], 33);
      (45, 45, [a_begin_float], 33);
      (48, 57, [a_begin_float], 34)]
  | 33 => [(48, 57, [], 34)]
  | 34 => [(46, 46, [], 23);
      (48, 57, [], 34);
      (69, 69, [], 35);
      (101, 101, [], 35)]
  | 35 => [(43, 43, [], 36);
      (45, 45, [], 36);
      (48, 57, [], 37)]
  | 36 => [(48, 57, [], 37)]
  | 37 => [(9, 10, [a_end_float; a_newline], 4);
      (13, 13, [a_end_float; a_newline], 4);
      (32, 32, [a_end_float; a_newline], 4);
      (33, 33, [a_end_float; a_op_term], 74);
      (39, 39, [a_end_float], 1);
      (40, 40, [a_end_float], 5);
      (44, 44, [a_end_float; a_op_term], 74);
      (48, 57, [], 37);
      (59, 59, [a_end_float; a_op_term], 74);
      (61, 61, [a_end_float], 25);
      (62, 62, [a_end_float], 28);
      (63, 63, [a_end_float; a_op_term], 74);
      (94, 94, [a_end_float], 32)]
  | 38 => [(48, 57, [a_begin_word], 39);
      (65, 90, [a_begin_word], 39);
      (95, 95, [a_begin_word], 39);
      (97, 122, [a_begin_word], 39);
      (126, 126, [a_begin_word], 39)]
  | 39 => [(9, 10, [a_end_value; a_end_quoted_uuid; a_newline], 4);
      (13, 13, [a_end_value; a_end_quoted_uuid; a_newline], 4);
      (32, 32, [a_end_value; a_end_quoted_uuid; a_newline], 4);
      (33, 33, [a_end_value; a_end_quoted_uuid; a_op_term], 74);
      (36, 37, [a_end_value; a_version], 30);
      (39, 39, [a_end_value; a_end_quoted_uuid], 1);
      (40, 40, [a_end_value; a_end_quoted_uuid], 5);
      (43, 43, [a_end_value; a_version], 30);
      (44, 44, [a_end_value; a_end_quoted_uuid; a_op_term], 74);
      (45, 45, [a_end_value; a_version], 30);
      (48, 57, [], 39);
      (59, 59, [a_end_value; a_end_quoted_uuid; a_op_term], 74);
      (61, 61, [a_end_value; a_end_quoted_uuid], 25);
      (62, 62, [a_end_value; a_end_quoted_uuid], 28);
      (63, 63, [a_end_value; a_end_quoted_uuid; a_op_term], 74);
      (65, 90, [], 39);
      (94, 94, [a_end_value; a_end_quoted_uuid], 32);
      (95, 95, [], 39);
      (97, 122, [], 39);
      (126, 126, [], 39)]
  | 40 => [(9, 10, [a_end_int; a_end_value; a_end_bare_uuid; a_newline], 4);
      (13, 13, [a_end_int; a_end_value; a_end_bare_uuid; a_newline], 4);
      (32, 32, [a_end_int; a_end_value; a_end_bare_uuid; a_newline], 4);
      (33, 33, [a_end_int; a_end_value; a_end_bare_uuid; a_op_term], 74);
      (36, 37, [a_end_value; a_version], 41);
      (39, 39, [a_end_int; a_end_value; a_end_bare_uuid], 1);
      (40, 40, [a_end_int; a_end_value; a_end_bare_uuid], 5);
      (43, 43, [a_end_value; a_version], 41);
      (44, 44, [a_end_int; a_end_value; a_end_bare_uuid; a_op_term], 74);
      (45, 45, [a_end_value; a_version], 41);
      (46, 46, [], 23);
      (47, 47, [a_variety], 43);
      (48, 57, [], 45);
      (59, 59, [a_end_int; a_end_value; a_end_bare_uuid; a_op_term], 74);
      (61, 61, [a_end_int; a_end_value; a_end_bare_uuid], 25);
      (62, 62, [a_end_int; a_end_value; a_end_bare_uuid], 28);
      (63, 63, [a_end_int; a_end_value; a_end_bare_uuid; a_op_term], 74);
      (65, 68, [], 44);
      (69, 69, [], 46);
      (70, 90, [], 44);
      (94, 94, [a_end_int; a_end_value; a_end_bare_uuid], 32);
      (95, 95, [], 44);
      (97, 100, [], 44);
      (101, 101, [], 46);
      (102, 122, [], 44);
      (126, 126, [], 44)]
  | 41 => [(48, 57, [a_begin_word], 42);
      (65, 90, [a_begin_word], 42);
      (95, 95, [a_begin_word], 42);
      (97, 122, [a_begin_word], 42);
      (126, 126, [a_begin_word], 42)]
  | 42 => [(9, 10, [a_end_origin; a_end_bare_uuid; a_newline], 4);
      (13, 13, [a_end_origin; a_end_bare_uuid; a_newline], 4);
      (32, 32, [a_end_origin; a_end_bare_uuid; a_newline], 4);
      (33, 33, [a_end_origin; a_end_bare_uuid; a_op_term], 74);
      (39, 39, [a_end_origin; a_end_bare_uuid], 1);
      (40, 40, [a_end_origin; a_end_bare_uuid], 5);
      (44, 44, [a_end_origin; a_end_bare_uuid; a_op_term], 74);
      (48, 57, [], 42);
      (59, 59, [a_end_origin; a_end_bare_uuid; a_op_term], 74);
      (61, 61, [a_end_origin; a_end_bare_uuid], 25);
      (62, 62, [a_end_origin; a_end_bare_uuid], 28);
      (63, 63, [a_end_origin; a_end_bare_uuid; a_op_term], 74);
      (65, 90, [], 42);
      (94, 94, [a_end_origin; a_end_bare_uuid], 32);
      (95, 95, [], 42);
      (97, 122, [], 42);
      (126, 126, [], 42)]
  | 43 => [(48, 57, [a_begin_word], 44);
      (65, 90, [a_begin_word], 44);
      (95, 95, [a_begin_word], 44);
      (97, 122, [a_begin_word], 44);
      (126, 126, [a_begin_word], 44)]
  | 44 => [(9, 10, [a_end_value; a_end_bare_uuid; a_newline], 4);
      (13, 13, [a_end_value; a_end_bare_uuid; a_newline], 4);
      (32, 32, [a_end_value; a_end_bare_uuid; a_newline], 4);
      (33, 33, [a_end_value; a_end_bare_uuid; a_op_term], 74);
      (36, 37, [a_end_value; a_version], 41);
      (39, 39, [a_end_value; a_end_bare_uuid], 1);
      (40, 40, [a_end_value; a_end_bare_uuid], 5);
      (43, 43, [a_end_value; a_version], 41);
      (44, 44, [a_end_value; a_end_bare_uuid; a_op_term], 74);
      (45, 45, [a_end_value; a_version], 41);
      (48, 57, [], 44);
      (59, 59, [a_end_value; a_end_bare_uuid; a_op_term], 74);
      (61, 61, [a_end_value; a_end_bare_uuid], 25);
      (62, 62, [a_end_value; a_end_bare_uuid], 28);
      (63, 63, [a_end_value; a_end_bare_uuid; a_op_term], 74);
      (65, 90, [], 44);
      (94, 94, [a_end_value; a_end_bare_uuid], 32);
      (95, 95, [], 44);
      (97, 122, [], 44);
      (126, 126, [], 44)]
  | 45 => [(9, 10, [a_end_int; a_end_value; a_end_bare_uuid; a_newline], 4);
      (13, 13, [a_end_int; a_end_value; a_end_bare_uuid; a_newline], 4);
      (32, 32, [a_end_int; a_end_value; a_end_bare_uuid; a_newline], 4);
      (33, 33, [a_end_int; a_end_value; a_end_bare_uuid; a_op_term], 74);
      (36, 37, [a_end_value; a_version], 41);
      (39, 39, [a_end_int; a_end_value; a_end_bare_uuid], 1);
      (40, 40, [a_end_int; a_end_value; a_end_bare_uuid], 5);
      (43, 43, [a_end_value; a_version], 41);
      (44, 44, [a_end_int; a_end_value; a_end_bare_uuid; a_op_term], 74);
      (45, 45, [a_end_value; a_version], 41);
      (46, 46, [], 23);
      (48, 57, [], 45);
      (59, 59, [a_end_int; a_end_value; a_end_bare_uuid; a_op_term], 74);
      (61, 61, [a_end_int; a_end_value; a_end_bare_uuid], 25);
      (62, 62, [a_end_int; a_end_value; a_end_bare_uuid], 28);
      (63, 63, [a_end_int; a_end_value; a_end_bare_uuid; a_op_term], 74);
      (65, 68, [], 44);
      (69, 69, [], 46);
      (70, 90, [], 44);
      (94, 94, [a_end_int; a_end_value; a_end_bare_uuid], 32);
      (95, 95, [], 44);
      (97, 100, [], 44);
      (101, 101, [], 46);
      (102, 122, [], 44);
      (126, 126, [], 44)]
  | 46 => [(9, 10, [a_end_value; a_end_bare_uuid; a_newline], 4);
      (13, 13, [a_end_value; a_end_bare_uuid; a_newline], 4);
      (32, 32, [a_end_value; a_end_bare_uuid; a_newline], 4);
      (33, 33, [a_end_value; a_end_bare_uuid; a_op_term], 74);
      (36, 37, [a_end_value; a_version], 41);
      (39, 39, [a_end_value; a_end_bare_uuid], 1);
      (40, 40, [a_end_value; a_end_bare_uuid], 5);
      (43, 43, [a_end_value; a_version], 47);
      (44, 44, [a_end_value; a_end_bare_uuid; a_op_term], 74);
      (45, 45, [a_end_value; a_version], 47);
      (48, 57, [], 49);
      (59, 59, [a_end_value; a_end_bare_uuid; a_op_term], 74);
      (61, 61, [a_end_value; a_end_bare_uuid], 25);
      (62, 62, [a_end_value; a_end_bare_uuid], 28);
      (63, 63, [a_end_value; a_end_bare_uuid; a_op_term], 74);
      (65, 90, [], 44);
      (94, 94, [a_end_value; a_end_bare_uuid], 32);
      (95, 95, [], 44);
      (97, 122, [], 44);
      (126, 126, [], 44)]
  | 47 => [(48, 57, [a_begin_word], 48);
      (65, 90, [a_begin_word], 42);
      (95, 95, [a_begin_word], 42);
      (97, 122, [a_begin_word], 42);
      (126, 126, [a_begin_word], 42)]
  | 48 => [(9, 10, [a_end_float; a_end_origin; a_end_bare_uuid; a_newline], 4);
      (13, 13, [a_end_float; a_end_origin; a_end_bare_uuid; a_newline], 4);
      (32, 32, [a_end_float; a_end_origin; a_end_bare_uuid; a_newline], 4);
      (33, 33, [a_end_float; a_end_origin; a_end_bare_uuid; a_op_term], 74);
      (39, 39, [a_end_float; a_end_origin; a_end_bare_uuid], 1);
      (40, 40, [a_end_float; a_end_origin; a_end_bare_uuid], 5);
      (44, 44, [a_end_float; a_end_origin; a_end_bare_uuid; a_op_term], 74);
      (48, 57, [], 48);
      (59, 59, [a_end_float; a_end_origin; a_end_bare_uuid; a_op_term], 74);
      (61, 61, [a_end_float; a_end_origin; a_end_bare_uuid], 25);
      (62, 62, [a_end_float; a_end_origin; a_end_bare_uuid], 28);
      (63, 63, [a_end_float; a_end_origin; a_end_bare_uuid; a_op_term], 74);
      (65, 90, [], 42);
      (94, 94, [a_end_float; a_end_origin; a_end_bare_uuid], 32);
      (95, 95, [], 42);
      (97, 122, [], 42);
      (126, 126, [], 42)]
  | 49 => [(9, 10, [a_end_float; a_end_value; a_end_bare_uuid; a_newline], 4);
      (13, 13, [a_end_float; a_end_value; a_end_bare_uuid; a_newline], 4);
      (32, 32, [a_end_float; a_end_value; a_end_bare_uuid; a_newline], 4);
      (33, 33, [a_end_float; a_end_value; a_end_bare_uuid; a_op_term], 74);
      (36, 37, [a_end_value; a_version], 41);
      (39, 39, [a_end_float; a_end_value; a_end_bare_uuid], 1);
      (40, 40, [a_end_float; a_end_value; a_end_bare_uuid], 5);
      (43, 43, [a_end_value; a_version], 41);
      (44, 44, [a_end_float; a_end_value; a_end_bare_uuid; a_op_term], 74);
      (45, 45, [a_end_value; a_version], 41);
      (48, 57, [], 49);
      (59, 59, [a_end_float; a_end_value; a_end_bare_uuid; a_op_term], 74);
      (61, 61, [a_end_float; a_end_value; a_end_bare_uuid], 25);
      (62, 62, [a_end_float; a_end_value; a_end_bare_uuid], 28);
      (63, 63, [a_end_float; a_end_value; a_end_bare_uuid; a_op_term], 74);
      (65, 90, [], 44);
      (94, 94, [a_end_float; a_end_value; a_end_bare_uuid], 32);
      (95, 95, [], 44);
      (97, 122, [], 44);
      (126, 126, [], 44)]
  | 50 => [(9, 10, [a_end_value; a_end_bare_uuid; a_newline], 4);
      (13, 13, [a_end_value; a_end_bare_uuid; a_newline], 4);
      (32, 32, [a_end_value; a_end_bare_uuid; a_newline], 4);
      (33, 33, [a_end_value; a_end_bare_uuid; a_op_term], 74);
      (36, 37, [a_end_value; a_version], 41);
      (39, 39, [a_end_value; a_end_bare_uuid], 1);
      (40, 40, [a_end_value; a_end_bare_uuid], 5);
      (43, 43, [a_end_value; a_version], 41);
      (44, 44, [a_end_value; a_end_bare_uuid; a_op_term], 74);
      (45, 45, [a_end_value; a_version], 41);
      (47, 47, [a_variety], 43);
      (48, 57, [], 44);
      (59, 59, [a_end_value; a_end_bare_uuid; a_op_term], 74);
      (61, 61, [a_end_value; a_end_bare_uuid], 25);
      (62, 62, [a_end_value; a_end_bare_uuid], 28);
      (63, 63, [a_end_value; a_end_bare_uuid; a_op_term], 74);
      (65, 90, [], 44);
      (94, 94, [a_end_value; a_end_bare_uuid], 32);
      (95, 95, [], 44);
      (97, 122, [], 44);
      (126, 126, [], 44)]
  | 51 => [(34, 34, [a_string_esc], 2);
      (39, 39, [a_string_esc], 2);
      (47, 47, [a_string_esc], 2);
      (92, 92, [a_string_esc], 2);
      (98, 98, [a_string_esc], 2);
      (110, 110, [a_string_esc], 2);
      (114, 114, [a_string_esc], 2);
      (116, 116, [a_string_esc], 2);
      (117, 117, [], 52)]
  | 52 => [(48, 57, [], 53);
      (65, 70, [], 53);
      (97, 102, [], 53)]
  | 53 => [(48, 57, [], 54);
      (65, 70, [], 54);
      (97, 102, [], 54)]
  | 54 => [(48, 57, [], 55);
      (65, 70, [], 55);
      (97, 102, [], 55)]
  | 55 => [(48, 57, [], 56);
      (65, 70, [], 56);
      (97, 102, [], 56)]
  | 56 => [(1, 9, [a_string_uesc; a_end_cp], 2);
      (11, 12, [a_string_uesc; a_end_cp], 2);
      (14, 38, [a_string_uesc; a_end_cp], 2);
      (39, 39, [a_string_uesc; a_end_cp; a_end_string], 3);
      (40, 91, [a_string_uesc; a_end_cp], 2);
      (92, 92, [a_string_uesc; a_end_cp], 51);
      (93, 127, [a_string_uesc; a_end_cp], 2);
      (192, 223, [a_string_uesc; a_end_cp], 57);
      (224, 239, [a_string_uesc; a_end_cp], 58);
      (240, 247, [a_string_uesc; a_end_cp], 59)]
  | 57 => [(128, 191, [], 2)]
  | 58 => [(128, 191, [], 57)]
  | 59 => [(128, 191, [], 58)]
  | 60 => [(10, 10, [], 75)]
  | 61 => [(48, 57, [a_begin_uuid; a_begin_word], 62);
      (65, 70, [a_begin_uuid; a_begin_word], 62);
      (71, 90, [a_begin_uuid; a_begin_word], 73);
      (95, 95, [a_begin_uuid; a_begin_word], 73);
      (97, 122, [a_begin_uuid; a_begin_word], 73);
      (126, 126, [a_begin_uuid; a_begin_word], 73)]
  | 62 => [(9, 10, [a_end_value; a_end_id; a_newline], 63);
      (13, 13, [a_end_value; a_end_id; a_newline], 63);
      (32, 32, [a_end_value; a_end_id; a_newline], 63);
      (33, 33, [a_end_value; a_end_id; a_op_term], 74);
      (36, 37, [a_end_value; a_version], 70);
      (39, 39, [a_end_value; a_end_id], 1);
      (40, 40, [a_end_value; a_end_id], 5);
      (43, 43, [a_end_value; a_version], 70);
      (44, 44, [a_end_value; a_end_id; a_op_term], 74);
      (45, 45, [a_end_value; a_version], 70);
      (47, 47, [a_variety], 72);
      (48, 57, [], 73);
      (58, 58, [a_end_value; a_end_id], 64);
      (59, 59, [a_end_value; a_end_id; a_op_term], 74);
      (61, 61, [a_end_value; a_end_id], 25);
      (62, 62, [a_end_value; a_end_id], 28);
      (63, 63, [a_end_value; a_end_id; a_op_term], 74);
      (65, 90, [], 73);
      (94, 94, [a_end_value; a_end_id], 32);
      (95, 95, [], 73);
      (97, 122, [], 73);
      (126, 126, [], 73)]
  | 63 => [(9, 10, [a_newline], 63);
      (13, 13, [a_newline], 63);
      (32, 32, [a_newline], 63);
      (33, 33, [a_op_term], 74);
      (39, 39, [], 1);
      (40, 40, [], 5);
      (43, 43, [a_begin_int; a_begin_float], 21);
      (44, 44, [a_op_term], 74);
      (45, 45, [a_begin_int; a_begin_float], 21);
      (48, 57, [a_begin_int; a_begin_float; a_begin_uuid; a_begin_word], 40);
      (58, 58, [], 64);
      (59, 59, [a_op_term], 74);
      (61, 61, [], 25);
      (62, 62, [], 28);
      (63, 63, [a_op_term], 74);
      (65, 70, [a_begin_uuid; a_begin_word], 50);
      (71, 90, [a_begin_uuid; a_begin_word], 44);
      (94, 94, [], 32);
      (95, 95, [a_begin_uuid; a_begin_word], 44);
      (97, 122, [a_begin_uuid; a_begin_word], 44);
      (126, 126, [a_begin_uuid; a_begin_word], 44)]
  | 64 => [(48, 57, [a_begin_uuid; a_begin_word], 65);
      (65, 70, [a_begin_uuid; a_begin_word], 65);
      (71, 90, [a_begin_uuid; a_begin_word], 69);
      (95, 95, [a_begin_uuid; a_begin_word], 69);
      (97, 122, [a_begin_uuid; a_begin_word], 69);
      (126, 126, [a_begin_uuid; a_begin_word], 69)]
  | 65 => [(9, 10, [a_end_value; a_end_ref; a_newline], 4);
      (13, 13, [a_end_value; a_end_ref; a_newline], 4);
      (32, 32, [a_end_value; a_end_ref; a_newline], 4);
      (33, 33, [a_end_value; a_end_ref; a_op_term], 74);
      (36, 37, [a_end_value; a_version], 66);
      (39, 39, [a_end_value; a_end_ref], 1);
      (40, 40, [a_end_value; a_end_ref], 5);
      (43, 43, [a_end_value; a_version], 66);
      (44, 44, [a_end_value; a_end_ref; a_op_term], 74);
      (45, 45, [a_end_value; a_version], 66);
      (47, 47, [a_variety], 68);
      (48, 57, [], 69);
      (59, 59, [a_end_value; a_end_ref; a_op_term], 74);
      (61, 61, [a_end_value; a_end_ref], 25);
      (62, 62, [a_end_value; a_end_ref], 28);
      (63, 63, [a_end_value; a_end_ref; a_op_term], 74);
      (65, 90, [], 69);
      (94, 94, [a_end_value; a_end_ref], 32);
      (95, 95, [], 69);
      (97, 122, [], 69);
      (126, 126, [], 69)]
  | 66 => [(48, 57, [a_begin_word], 67);
      (65, 90, [a_begin_word], 67);
      (95, 95, [a_begin_word], 67);
      (97, 122, [a_begin_word], 67);
      (126, 126, [a_begin_word], 67)]
  | 67 => [(9, 10, [a_end_origin; a_end_ref; a_newline], 4);
      (13, 13, [a_end_origin; a_end_ref; a_newline], 4);
      (32, 32, [a_end_origin; a_end_ref; a_newline], 4);
      (33, 33, [a_end_origin; a_end_ref; a_op_term], 74);
      (39, 39, [a_end_origin; a_end_ref], 1);
      (40, 40, [a_end_origin; a_end_ref], 5);
      (44, 44, [a_end_origin; a_end_ref; a_op_term], 74);
      (48, 57, [], 67);
      (59, 59, [a_end_origin; a_end_ref; a_op_term], 74);
      (61, 61, [a_end_origin; a_end_ref], 25);
      (62, 62, [a_end_origin; a_end_ref], 28);
      (63, 63, [a_end_origin; a_end_ref; a_op_term], 74);
      (65, 90, [], 67);
      (94, 94, [a_end_origin; a_end_ref], 32);
      (95, 95, [], 67);
      (97, 122, [], 67);
      (126, 126, [], 67)]
  | 68 => [(48, 57, [a_begin_word], 69);
      (65, 90, [a_begin_word], 69);
      (95, 95, [a_begin_word], 69);
      (97, 122, [a_begin_word], 69);
      (126, 126, [a_begin_word], 69)]
  | 69 => [(9, 10, [a_end_value; a_end_ref; a_newline], 4);
      (13, 13, [a_end_value; a_end_ref; a_newline], 4);
      (32, 32, [a_end_value; a_end_ref; a_newline], 4);
      (33, 33, [a_end_value; a_end_ref; a_op_term], 74);
      (36, 37, [a_end_value; a_version], 66);
      (39, 39, [a_end_value; a_end_ref], 1);
      (40, 40, [a_end_value; a_end_ref], 5);
      (43, 43, [a_end_value; a_version], 66);
      (44, 44, [a_end_value; a_end_ref; a_op_term], 74);
      (45, 45, [a_end_value; a_version], 66);
      (48, 57, [], 69);
      (59, 59, [a_end_value; a_end_ref; a_op_term], 74);
      (61, 61, [a_end_value; a_end_ref], 25);
      (62, 62, [a_end_value; a_end_ref], 28);
      (63, 63, [a_end_value; a_end_ref; a_op_term], 74);
      (65, 90, [], 69);
      (94, 94, [a_end_value; a_end_ref], 32);
      (95, 95, [], 69);
      (97, 122, [], 69);
      (126, 126, [], 69)]
  | 70 => [(48, 57, [a_begin_word], 71);
      (65, 90, [a_begin_word], 71);
      (95, 95, [a_begin_word], 71);
      (97, 122, [a_begin_word], 71);
      (126, 126, [a_begin_word], 71)]
  | 71 => [(9, 10, [a_end_origin; a_end_id; a_newline], 63);
      (13, 13, [a_end_origin; a_end_id; a_newline], 63);
      (32, 32, [a_end_origin; a_end_id; a_newline], 63);
      (33, 33, [a_end_origin; a_end_id; a_op_term], 74);
      (39, 39, [a_end_origin; a_end_id], 1);
      (40, 40, [a_end_origin; a_end_id], 5);
      (44, 44, [a_end_origin; a_end_id; a_op_term], 74);
      (48, 57, [], 71);
      (58, 58, [a_end_origin; a_end_id], 64);
      (59, 59, [a_end_origin; a_end_id; a_op_term], 74);
      (61, 61, [a_end_origin; a_end_id], 25);
      (62, 62, [a_end_origin; a_end_id], 28);
      (63, 63, [a_end_origin; a_end_id; a_op_term], 74);
      (65, 90, [], 71);
      (94, 94, [a_end_origin; a_end_id], 32);
      (95, 95, [], 71);
      (97, 122, [], 71);
      (126, 126, [], 71)]
  | 72 => [(48, 57, [a_begin_word], 73);
      (65, 90, [a_begin_word], 73);
      (95, 95, [a_begin_word], 73);
      (97, 122, [a_begin_word], 73);
      (126, 126, [a_begin_word], 73)]
  | 73 => [(9, 10, [a_end_value; a_end_id; a_newline], 63);
      (13, 13, [a_end_value; a_end_id; a_newline], 63);
      (32, 32, [a_end_value; a_end_id; a_newline], 63);
      (33, 33, [a_end_value; a_end_id; a_op_term], 74);
      (36, 37, [a_end_value; a_version], 70);
      (39, 39, [a_end_value; a_end_id], 1);
      (40, 40, [a_end_value; a_end_id], 5);
      (43, 43, [a_end_value; a_version], 70);
      (44, 44, [a_end_value; a_end_id; a_op_term], 74);
      (45, 45, [a_end_value; a_version], 70);
      (48, 57, [], 73);
      (58, 58, [a_end_value; a_end_id], 64);
      (59, 59, [a_end_value; a_end_id; a_op_term], 74);
      (61, 61, [a_end_value; a_end_id], 25);
      (62, 62, [a_end_value; a_end_id], 28);
      (63, 63, [a_end_value; a_end_id; a_op_term], 74);
      (65, 90, [], 73);
      (94, 94, [a_end_value; a_end_id], 32);
      (95, 95, [], 73);
      (97, 122, [], 73);
      (126, 126, [], 73)]
  | 74 => [(9, 10, [a_newline], 74);
      (13, 13, [a_newline], 74);
      (32, 32, [a_newline], 74);
      (33, 33, [a_op_term], 74);
      (39, 39, [], 1);
      (40, 40, [], 5);
      (43, 43, [a_begin_int; a_begin_float], 21);
      (44, 44, [a_op_term], 74);
      (45, 45, [a_begin_int; a_begin_float], 21);
      (46, 46, [], 60);
      (48, 57, [a_begin_int; a_begin_float; a_begin_uuid; a_begin_word], 40);
      (59, 59, [a_op_term], 74);
      (61, 61, [], 25);
      (62, 62, [], 28);
      (63, 63, [a_op_term], 74);
      (64, 64, [], 61);
      (65, 70, [a_begin_uuid; a_begin_word], 50);
      (71, 90, [a_begin_uuid; a_begin_word], 44);
      (94, 94, [], 32);
      (95, 95, [a_begin_uuid; a_begin_word], 44);
      (97, 122, [a_begin_uuid; a_begin_word], 44);
      (126, 126, [a_begin_uuid; a_begin_word], 44)]
  | 75 => []
  | _ => []
  end.
