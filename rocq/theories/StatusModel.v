(* Status codes: ron/status.hpp, ron/status.cc. *)
From Verif Require Import Prelude UuidModel.

(* ron/status.hpp:10-12 Status: a UUID and a comment *)
Record stat : Set := mkStat { st_code : uuid; st_note : bytes }.
(* 15 Status() *)
Definition st_default : stat := mkStat (mkUuid 0 0) [].
(* 16 Status(err_code); a Word of the number, not checked *)
Definition st_error (n : N) : stat := mkStat (mkUuid n MAX_VALUE) [].
(* 17-18 Status(code, comment) *)
Definition st_of (u : uuid) (c : bytes) : stat := mkStat u c.
(* 25-27 comment *)
Definition st_comment (s : stat) (c : bytes) : stat := st_of (st_code s) c.
(* 29-31 operator bool *)
Definition st_bool (s : stat) : bool := negb (uorigin (st_code s) =? MAX_VALUE).
(* 33, 34 ==, != *)
Definition st_eqb (a b : stat) : bool := uuid_eqb (st_code a) (st_code b).
Definition st_neqb (a b : stat) : bool := negb (uuid_eqb (st_code a) (st_code b)).
(* 36 str; 9: the tab *)
Definition st_str (s : stat) : bytes := write_word (uvalue (st_code s)) ++ [9] ++ st_note s.
(* 63-71 IFOK over some calls: the first status that is an error, else what comes
   after; the calls are given by their results *)
Fixpoint if_ok (l : list stat) (after : stat) : stat :=
  match l with [] => after | s :: r => if st_bool s then if_ok r after else s end.

(* ron/status.cc:5-33 *)
Definition OK := st_default.
Definition ENDOFFRAME := st_error 258734343834084750.
Definition ENDOFINPUT := st_error 258734343883429789.
Definition NOT_IMPLEMENTED := st_error 421215369505919885.
Definition NOT_FOUND := st_error 428933766657507328.
Definition BAD_STATE := st_error 201032812431266688.
Definition BADARGS := st_error 201031024437624832.
Definition BADSYNTAX := st_error 201032269022144576.
Definition DB_FAIL := st_error 237442776878546944.
Definition IOFAIL := st_error 331081250183839744.
Definition BADFRAME := st_error 201031367932829696.
Definition BADID := st_error 201031558885277696.
Definition BADREF := st_error 201032178685968384.
Definition BADVALUE := st_error 201032449377492992.
Definition NOTYPE := st_error 421216472048599040.
Definition NOTOPEN := st_error 421215784859860992.
Definition CHAINBREAK := st_error 221003099021304468.
Definition HASHBREAK := st_error 309183850229572864.
Definition TREEBREAK := st_error 530079928137852160.
Definition CAUSEBREAK := st_error 219121412645642900.
Definition REPEAT := st_error 490440333889372160.
Definition REORDER := st_error 490436832172703744.
Definition CONFLICT := st_error 223030390270578688.
Definition TREEGAP := st_error 530079933224189952.
Definition YARNGAP := st_error 615424644247453696.
