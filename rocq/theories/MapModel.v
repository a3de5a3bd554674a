(* The codes of mappers: db/const.hpp:9-81. *)
From Verif Require Import Prelude UuidModel.

(* db/const.hpp:9-22 enum MAP; 24-45 the ids, 47-50 MAP_IDS but for the last *)
Definition MAP_NAMES : list N :=
  [715112314629521408; 894494834235015168; 933371022772535296; 1109533813702131712; 1003339682156642304; 952132676872044544;
   804339484962324480; 929632683238096896; 718297752286527488; 1025941105738252288; 844371191501160448].
Definition CHAIN_MAP : N := 0.
Definition META_MAP : N := 1.
Definition OP_MAP : N := 2.
Definition YARN_MAP : N := 3.
Definition SHA2_MAP : N := 4.
Definition PREV_MAP : N := 5.
Definition HEAD_MAP : N := 6.
Definition OBJ_MAP : N := 7.
Definition CSV_MAP : N := 8.
Definition TXT_MAP : N := 9.
Definition JSON_MAP : N := 10.
Definition MAP_COUNT : N := 11.
(* ron/uuid.hpp Uuid::FATAL, the last of MAP_IDS *)
Definition map_fatal : uuid := FATAL.
(* db/const.hpp:52 map2uuid; None: an index past the array *)
Definition map2uuid (e : N) : option uuid := nth_error (map (fun n => mkUuid n 0) MAP_NAMES ++ [map_fatal]) (N.to_nat e).
(* uint8_t(w >> 52) *)
Definition map_byte (w : N) : N := N.shiftr w 52 mod 2 ^ 8.
(* db/const.hpp:54-81 uuid2map: the cases of the switch *)
Fixpoint map_switch (u : uuid) (code : N) (names : list N) : N :=
  match names with
  | [] => MAP_COUNT
  | n :: r => if map_byte (uvalue u) =? map_byte n then if uuid_eqb u (mkUuid n 0) then code else MAP_COUNT
              else map_switch u (code + 1) r
  end.
Definition uuid2map (u : uuid) : N := map_switch u 0 MAP_NAMES.
