(* What status codes are supposed to say. *)
From Coq Require Import String.
From Verif Require Import Prelude UuidModel UuidSpec Txt StatusModel.
Open Scope string_scope.

(* the constants and the words they are printed as; OK is the zero, 0 *)
Definition errors : list (stat * string) :=
  [ (ENDOFFRAME, "ENDOFFRAME"); (ENDOFINPUT, "ENDOFINPUT"); (NOT_IMPLEMENTED, "NOTIMPLTED"); (NOT_FOUND, "NotFound");
    (BAD_STATE, "BAD_STATE"); (BADARGS, "BADARGS"); (BADSYNTAX, "BADSYNTAX"); (DB_FAIL, "DB_FAIL"); (IOFAIL, "IOFAIL");
    (BADFRAME, "BADFRAME"); (BADID, "BADID"); (BADREF, "BADREF"); (BADVALUE, "BADVALUE"); (NOTYPE, "NOTYPE"); (NOTOPEN, "NOTOPEN");
    (CHAINBREAK, "CHAINBREAK"); (HASHBREAK, "HASHBREAK"); (TREEBREAK, "TREEBREAK"); (CAUSEBREAK, "CAUSEBREAK");
    (REPEAT, "REPEAT"); (REORDER, "REORDER"); (CONFLICT, "CONFLICT"); (TREEGAP, "TREEGAP"); (YARNGAP, "YARNGAP") ].
