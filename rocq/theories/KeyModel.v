(* Model of the form registry (ron/form.hpp) and of database keys (db/key.hpp). *)
From Verif Require Import Prelude UuidModel.

(* ron/form.hpp:19-41 FORMS *)
Definition FORMS : list N :=
  [1128674180837933056; 1109533813702131712; 879235468267356160; 1019422101297168384;
   947412314540212224; 1005594780505210880; 715112314629521408; 789985133028442112;
   894494834235015168; 952132676872044544; 929632683238096896; 1003339750876119040;
   1061160662199173120; 881557636825219072; 985043671231496192; 899594025567256576;
   844371191501160448; 718297752286527488; 1025941105738252288; 893383983893577728].

(* ron/form.hpp:44-68 enum FORM *)
Definition ZERO_RAW_FORM : N := 0.
Definition YARN_RAW_FORM : N := 1.
Definition LOG_RAW_FORM : N := 2.
Definition TAIL_RAW_FORM : N := 3.
Definition PATCH_RAW_FORM : N := 4.
Definition SPAN_RAW_FORM : N := 5.
Definition CHAIN_RAW_FORM : N := 6.
Definition GRAPH_RAW_FORM : N := 7.
Definition META_META_FORM : N := 8.
Definition PREV_META_FORM : N := 9.
Definition OBJ_META_FORM : N := 10.
Definition SHA3_META_FORM : N := 11.
Definition VV_META_FORM : N := 12.
Definition LWW_RDT_FORM : N := 13.
Definition RGA_RDT_FORM : N := 14.
Definition MX_RDT_FORM : N := 15.
Definition JSON_MAP_FORM : N := 16.
Definition CSV_MAP_FORM : N := 17.
Definition TXT_MAP_FORM : N := 18.
Definition MAX_RDT_FORM : N := 19.
Definition ERROR_NO_FORM : N := 255.

(* ron/form.hpp:69-88, the *_FORM_UUID constants *)
Definition form_uuid (i : N) : uuid := mkUuid (nth (N.to_nat i) FORMS 0) 0.
Definition RGA_FORM_UUID : uuid := form_uuid RGA_RDT_FORM.
Definition LWW_FORM_UUID : uuid := form_uuid LWW_RDT_FORM.
Definition LOG_FORM_UUID : uuid := form_uuid LOG_RAW_FORM.
Definition META_FORM_UUID : uuid := form_uuid META_META_FORM.
Definition MAX_FORM_UUID : uuid := form_uuid MAX_RDT_FORM.
Definition ZERO_FORM_UUID : uuid := form_uuid ZERO_RAW_FORM.
Definition YARN_FORM_UUID : uuid := form_uuid YARN_RAW_FORM.

(* ron/form.hpp:90-103 UUID2FORM, 105-108 uuid2form. The unordered_map has
   distinct keys, so a scan of the table gives the same answer. *)
Fixpoint find_form (l : list N) (i : N) (u : uuid) : option N :=
  match l with
  | [] => None
  | f :: t => if uuid_eqb u (mkUuid f 0) then Some i else find_form t (i + 1) u
  end.
Definition uuid2form (u : uuid) : N :=
  match find_form FORMS 0 u with
  | Some i => i
  | None => if uuid_eqb u FATAL then ERROR_NO_FORM else ZERO_RAW_FORM
  end.

(* ron/form.hpp:110-116 form2uuid. The guard compares the index with
   sizeof(FORMS) = 160 bytes, not with the 20 elements: an index in 20..159
   reads outside the array (None). *)
Definition form2uuid (form : N) : option uuid :=
  if form <? 8 * N.of_nat (length FORMS) then
    match nth_error FORMS (N.to_nat form) with
    | Some f => Some (mkUuid f 0)
    | None => None                       (* out-of-bounds read *)
    end
  else Some FATAL.

(* db/key.hpp:19-20 *)
Record key : Set := mkKey { kfirst : N; ksecond : N }.

(* db/key.hpp:30-36 Key(Uuid, FORM); uint64_t arithmetic *)
Definition key_of (id : uuid) (form : N) : key :=
  let first := N.land (uorigin id) MAX_VALUE in
  let second := N.land (uvalue id) MAX_VALUE in
  let second := N.lor second (N.shiftl first 60 mod two64) in
  let first := N.shiftr first 4 in
  let first := N.lor first (N.shiftl form 56 mod two64) in
  mkKey first second.

(* db/key.hpp:55 Key::form (cast to uint8_t) *)
Definition key_form (k : key) : N := N.shiftr (kfirst k) 56 mod 256.

(* db/key.hpp:57-61 Key::id *)
Definition key_id (k : key) (flags : N) : uuid :=
  mkUuid (N.land (ksecond k) MAX_VALUE)
         (N.lor (N.lor (N.land (N.shiftl (kfirst k) 4 mod two64) MAX_VALUE)
                       (N.shiftr (ksecond k) 60))
                (N.shiftl flags 60)).

(* db/key.hpp:50-53 comparisons of the std::pair *)
Definition key_ltb (a b : key) : bool :=
  (kfirst a <? kfirst b) || ((kfirst a =? kfirst b) && (ksecond a <? ksecond b)).
Definition key_eqb (a b : key) : bool := (kfirst a =? kfirst b) && (ksecond a =? ksecond b).

(* htobe64: the 8 bytes of a word, most significant first *)
Definition be64 (w : N) : bytes :=
  [w / 2^56 mod 256; w / 2^48 mod 256; w / 2^40 mod 256; w / 2^32 mod 256;
   w / 2^24 mod 256; w / 2^16 mod 256; w / 2^8 mod 256; w mod 256].
(* be64toh *)
Definition of_be (l : bytes) : N := fold_left (fun a b => a * 256 + b) l 0.

(* db/key.hpp:40-42 Key::be as the 16 bytes handed to the database *)
Definition key_be (k : key) : bytes := be64 (kfirst k) ++ be64 (ksecond k).
(* db/key.hpp:44-48 Key::be(Slice); the assert on the size is the None case *)
Definition key_of_be (d : bytes) : option key :=
  if Nat.eqb (length d) 16 then Some (mkKey (of_be (firstn 8 d)) (of_be (skipn 8 d))) else None.

(* db/key.cc:5-6 Key::ZERO, Key::END *)
Definition KEY_ZERO : key := key_of (mkUuid 0 0) ZERO_RAW_FORM.
Definition KEY_END : key := key_of (mkUuid MAX_VALUE MAX_VALUE) ERROR_NO_FORM.
