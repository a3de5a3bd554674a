(* Properties C01-C06: UUID texts, UUID order, calendar timestamps. *)
From Verif Require Import Prelude UuidModel UuidSpec UuidProofs.

(* C01. Printing then parsing is the identity. uuid_wf: both halves are 64-bit;
   origin < 2^62 excludes the two atom-type bits, which a UUID never sets. *)
Theorem C01_uuid_text_roundtrip : forall u,
  uuid_wf u -> uorigin u < 2 ^ 62 -> parse_uuid (write_uuid u) = u.
Proof. exact uuid_roundtrip. Qed.
Print Assumptions C01_uuid_text_roundtrip.

(* "A/1abc+gritzko" has variety, version and origin *)
Example C01_case :
  let u := parse_uuid [65;47;49;97;98;99;43;103;114;105;116;122;107;111] in
  uuid_wf u /\ uorigin u < 2 ^ 62 /\ variety u = 10 /\ version u = TIME /\
  write_uuid u = [65;47;49;97;98;99;43;103;114;105;116;122;107;111].
Proof. vm_compute. repeat split; reflexivity. Qed.

(* Outside the stated domain the origin's top bits are lost. *)
Theorem C01_origin_top_bits_refuted :
  exists u, uuid_wf u /\ parse_uuid (write_uuid u) <> u.
Proof.
  exists (mkUuid 0 (2 ^ 62)). split; [split; vm_compute; reflexivity|].
  vm_compute. discriminate.
Qed.
Print Assumptions C01_origin_top_bits_refuted.

(* C02. The parser accepts exactly the texts of the specification and reads
   their parts positionally; everything else is FATAL. *)
Theorem C02_uuid_parser_exact : forall s,
  (forall vrt value vsn origin, uuid_text s vrt value vsn origin ->
     parse_uuid s = mkUuid (vrt * 2 ^ 60 + left_aligned 10 value)
                           (vsn * 2 ^ 60 + left_aligned 10 origin)) /\
  ((~ exists vrt value vsn origin, uuid_text s vrt value vsn origin) -> parse_uuid s = FATAL).
Proof.
  exact (fun s => conj (parse_uuid_accepts s) (parse_uuid_rejects s)).
Qed.
Print Assumptions C02_uuid_parser_exact.

(* both cases occur: "lww" is a text, "a b" is not *)
Example C02_case_accept : uuid_text [108;119;119] 0 [108;119;119] 0 [].
Proof.
  exists [], []. repeat split; auto; try (cbn; lia).
  repeat constructor; vm_compute; discriminate.
Qed.
Example C02_case_values : parse_uuid [108;119;119] = mkUuid 881557636825219072 0.
Proof. vm_compute. reflexivity. Qed.
Example C02_case_reject : parse_uuid [97;32;98] = FATAL /\
  parse_uuid [49;50;51;52;53;54;55;56;57;48;49] = FATAL.
Proof. vm_compute. split; reflexivity. Qed.

(* C03. The printed form is canonical. *)
Theorem C03_uuid_text_canonical :
  (forall s, parse_uuid (write_uuid (parse_uuid s)) = parse_uuid s) /\
  (forall u v, uuid_wf u -> uuid_wf v -> uorigin u < 2 ^ 62 -> uorigin v < 2 ^ 62 ->
     write_uuid u = write_uuid v -> u = v).
Proof. exact (conj parse_canonical write_uuid_inj). Qed.
Print Assumptions C03_uuid_text_canonical.

(* "0/lww$00" is accepted and reprinted as "lww" *)
Example C03_case : write_uuid (parse_uuid [48;47;108;119;119;36;48;48]) = [108;119;119].
Proof. vm_compute. reflexivity. Qed.

(* C04. Byte order of word texts is numeric order. *)
Theorem C04_word_text_order : forall a b, a < 2 ^ 60 -> b < 2 ^ 60 ->
  lex_ltb (write_word a) (write_word b) = (a <? b).
Proof. exact write_word_order. Qed.
Print Assumptions C04_word_text_order.

Example C04_case : write_word (2 ^ 54) = [49] /\ write_word (2 ^ 54 + 1) = [49;48;48;48;48;48;48;48;48;49]
  /\ lex_ltb (write_word (2 ^ 54)) (write_word (2 ^ 54 + 1)) = true.
Proof. vm_compute. repeat split; reflexivity. Qed.

(* C05. Strict total order, and inc is the successor within an origin. *)
Theorem C05_uuid_order :
  (forall a, uuid_ltb a a = false) /\
  (forall a b c, uuid_ltb a b = true -> uuid_ltb b c = true -> uuid_ltb a c = true) /\
  (forall a b, uuid_ltb a b = true \/ a = b \/ uuid_ltb b a = true) /\
  (forall a b, uvalue a < uvalue b -> uuid_ltb a b = true) /\
  (forall u, uvalue u < 2 ^ 64 - 1 ->
     uuid_ltb u (inc u) = true /\
     (forall v, uorigin v = uorigin u -> uuid_ltb u v = true -> uuid_leb (inc u) v = true)) /\
  (forall o, inc (mkUuid (2 ^ 64 - 1) o) = mkUuid 0 o).
Proof.
  exact (conj uuid_ltb_irrefl (conj uuid_ltb_trans (conj uuid_total (conj
    (fun a b H => proj2 (orb_true_iff _ _) (or_introl (proj2 (N.ltb_lt _ _) H)))
    (conj (fun u H => conj (inc_gt u H) (fun v => inc_least u v H)) inc_wrap))))).
Qed.
Print Assumptions C05_uuid_order.

Example C05_case : uuid_ltb (mkUuid 7 100) (mkUuid 8 3) = true /\ inc (mkUuid 7 100) = mkUuid 8 100.
Proof. vm_compute. split; reflexivity. Qed.

(* C06. Timestamps: monotone and injective in the calendar fields, 60-bit. *)
Theorem C06_hybrid_time : forall a b,
  calendar_ok (tm_year2010 a) (tm_mon a) (tm_mday a) (tm_hour a) (tm_min a) (tm_sec a) (tm_nanos a) ->
  calendar_ok (tm_year2010 b) (tm_mon b) (tm_mday b) (tm_hour b) (tm_min b) (tm_sec b) (tm_nanos b) ->
  (hybrid_time a < hybrid_time b <->
   fields_lt [tm_year2010 a; tm_mon a; tm_mday a; tm_hour a; tm_min a; tm_sec a; tm_nanos a / 100]
             [tm_year2010 b; tm_mon b; tm_mday b; tm_hour b; tm_min b; tm_sec b; tm_nanos b / 100])
  /\ (hybrid_time a = hybrid_time b ->
      [tm_year2010 a; tm_mon a; tm_mday a; tm_hour a; tm_min a; tm_sec a; tm_nanos a / 100] =
      [tm_year2010 b; tm_mon b; tm_mday b; tm_hour b; tm_min b; tm_sec b; tm_nanos b / 100])
  /\ hybrid_time a < 2 ^ 60.
Proof.
  exact (fun a b Ha Hb => conj (hybrid_time_mono a b Ha Hb)
           (conj (hybrid_time_inj a b Ha Hb) (proj2 (hybrid_time_eq a Ha)))).
Qed.
Print Assumptions C06_hybrid_time.

(* 2019-02-03 04:05:06.0000071 *)
Example C06_case : calendar_ok 9 1 3 4 5 6 7100 /\
  write_word (hybrid_time (mkTm 9 1 3 4 5 6 7100)) = [49;105;50;52;53;54;48;48;49;55].
Proof. split; [unfold calendar_ok; lia|vm_compute; reflexivity]. Qed.
