(* C61, C62, C115-C117: MPC 80-column observations (observations/obs80.py). *)
From Coq Require Import Ascii String QArith Qround Lia ZArith.
From Verif Require Import Base TimeModel TimeSpec MpcModel MpcSpec ObsModel ObsSpec ObsProofs.
Open Scope string_scope.
Open Scope Z_scope.
Open Scope list_scope.

(* an example line *)
Definition pad (n : nat) (s : string) : str := firstn n (s_ s ++ repeat " "%char n).
Definition line_of (date ra dec mag : string) : str :=
  columns (mklayout (pad 12 "     K20A00A") "*" " " "C" (pad 17 date) (pad 12 ra) (pad 12 dec) (pad 9 "") (pad 5 mag) "V" " " (pad 5 "") (s_ "F51")).

(* ---- C61 ---- *)
(* a date written with digits denotes the MJD day of that calendar date ([cal] is any count of calendar days from 1858 November 17) and the
   nearest nanosecond of the fraction (at most 13 decimals: the date has 17 columns) *)
Theorem C61_dates : forall cal, mjd_count cal -> forall raw ys ms w ds fs, three_fields raw ys ms w ->
  Forall sdigit ys -> ys <> [] -> Forall sdigit ms -> ms <> [] -> decimal_text w ds fs -> (List.length fs <= 13)%nat ->
  valid_date (svalue 0 ys) (svalue 0 ms) (svalue 0 ds) ->
  exists n, parse_obstime raw = Ok (mkrow (cal (svalue 0 ys, svalue 0 ms, svalue 0 ds)) n) /\ 0 <= n < DAY /\
    (inject_Z n - (1 # 2) <= inject_Z (svalue 0 fs) / inject_Z (10 ^ Z.of_nat (List.length fs)) * inject_Z DAY)%Q /\
    (inject_Z (svalue 0 fs) / inject_Z (10 ^ Z.of_nat (List.length fs)) * inject_Z DAY <= inject_Z n + (1 # 2))%Q.
Proof. exact dates_ok. Qed.
Theorem C61_rejected : forall raw ys ms w ds fs, three_fields raw ys ms w ->
  Forall sdigit ys -> ys <> [] -> Forall sdigit ms -> ms <> [] -> decimal_text w ds fs ->
  svalue 0 ys < 2 ^ 31 -> svalue 0 ms < 2 ^ 31 -> svalue 0 ds < 2 ^ 31 ->
  ~ valid_date (svalue 0 ys) (svalue 0 ms) (svalue 0 ds) -> parse_obstime raw = Err ParseError.
Proof. exact date_text_bad. Qed.
(* whatever the text, an accepted date is a normalised time on a valid calendar day, or the midnight that ends one *)
Theorem C61_sound : forall cal, mjd_count cal -> forall raw r, parse_obstime raw = Ok r ->
  exists y m d, valid_date y m d /\ normal r /\ (days r = cal (y, m, d) \/ days r = cal (y, m, d) + 1 /\ nanos r = 0).
Proof. exact dates_sound. Qed.
Example C61_case : parse_obstime (s_ "2020 02 29.123456") = Ok (mkrow 58908 10666598400000) /\ parse_obstime (s_ "2021 02 29.123456") = Err ParseError /\
  parse_obstime (s_ "1900 02 28.999999") = Ok (mkrow 15078 86399913600000) /\ parse_obstime (s_ "2000 2 29.5") = Ok (mkrow 51603 43200000000000) /\
  parse_obstime (s_ " 1858 11 17.0") = Ok (mkrow 0 0).
Proof. vm_compute. auto. Qed.
Example C61_hyps : mjd_count ord3 /\ valid_date 2020 2 29 /\ ~ valid_date 2021 2 29 /\ three_fields (s_ "2020 02 29.123456") (s_ "2020") (s_ "02") (s_ "29.123456") /\
  decimal_text (s_ "29.123456") (s_ "29") (s_ "123456").
Proof.
  split; [exact ord3_count|]. split; [apply valid_iff; vm_compute; repeat split; discriminate|]. split; [rewrite valid_iff; vm_compute; intros H; intuition congruence|].
  split.
  - exists [], (s_ " "), (s_ " "), []. cbn. repeat split; repeat constructor; discriminate.
  - unfold decimal_text. cbn. repeat split; try discriminate; [| |right; reflexivity]; repeat constructor; cbn; lia.
Qed.

(* ---- C62 ---- *)
(* lines of 80 columns raise other errors: a NaN day, an infinite day or a number beyond C int, a signalling NaN, a right ascension over 360 degrees;
   any of them stops the file parser with strict=False as well *)
Theorem C62_errors_refuted :
  parse_optical (line_of "2020 01 NaN" "10 00 00.00" "+10 00 00.0" "20.1") = Err ValueError /\
  parse_optical (line_of "2020 01 Infinity" "10 00 00.00" "+10 00 00.0" "20.1") = Err OverflowError /\
  parse_optical (line_of "2020 1 3000000000" "10 00 00.00" "+10 00 00.0" "20.1") = Err OverflowError /\
  parse_optical (line_of "2020 01 snan" "10 00 00.00" "+10 00 00.0" "20.1") = Err InvalidOperation /\
  parse_optical (line_of "2020 01 10.5" "23 59.9 59.9" "+10 00 00.0" "20.1") = Err RuntimeError /\
  parse_file false (line_of "2020 01 10.5" "10 00 00.00" "+10 00 00.0" "20.1" ++ ["010"%char] ++ line_of "2020 01 NaN" "10 00 00.00" "+10 00 00.0" "20.1") = Err ValueError /\
  parse_file false (line_of "2020 01 10.5" "10 00 00.00" "+10 00 00.0" "20.1" ++ ["010"%char] ++ line_of "2020 01 10.5" "23 59.9 59.9" "+10 00 00.0" "20.1") = Err RuntimeError.
Proof. repeat apply conj; vm_compute; reflexivity. Qed.
(* the errors that can occur at all *)
Theorem C62_kinds_partial : forall raw e, parse_optical raw = Err e -> In e [ParseError; ValueError; OverflowError; InvalidOperation; RuntimeError].
Proof. exact optical_err. Qed.
(* when the words of the date columns are at most nine digits and points, and hours and minutes of the right ascension are digits, only the documented error occurs *)
Theorem C62_errors_partial : forall raw e,
  (forall w, In w (words (slice (firstn 80 raw) 15 32)) -> ordinary w /\ (List.length w <= 9)%nat) ->
  (forall a b c, words (slice (firstn 80 raw) 32 44) = [a; b; c] -> Forall sdigit a /\ Forall sdigit b) ->
  parse_optical raw = Err e -> e = ParseError.
Proof. exact optical_ordinary. Qed.
(* ... and then the lenient parser keeps exactly the good lines, in order, and the strict one fails exactly when a line is bad *)
Theorem C62_file_partial : forall raw, let lines := filter (fun l => negb (blank l)) (splitlines raw) in
  (forall l e, In l lines -> parse_optical l = Err e -> e = ParseError) ->
  exists os, parse_file false raw = Ok os /\
    os = flat_map (fun l => match parse_optical l with Ok o => [o] | Err _ => [] end) lines /\
    (parse_file true raw = Ok os /\ (forall l, In l lines -> exists o, parse_optical l = Ok o) \/
     parse_file true raw = Err ParseError /\ exists l, In l lines /\ parse_optical l = Err ParseError).
Proof. exact file_ok. Qed.
Example C62_case : exists o, parse_optical (line_of "2020 01 10.5" "10 00 00.00" "+10 00 00.0" "20.1") = Ok o /\
  parse_file false (line_of "2020 01 10.5" "10 00 00.00" "+10 00 00.0" "20.1" ++ ["010"%char] ++ line_of "2020 13 10.5" "10 00 00.00" "+10 00 00.0" "20.1" ++ ["010"%char]) = Ok [o] /\
  parse_file true (line_of "2020 01 10.5" "10 00 00.00" "+10 00 00.0" "20.1" ++ ["010"%char] ++ line_of "2020 13 10.5" "10 00 00.00" "+10 00 00.0" "20.1" ++ ["010"%char]) = Err ParseError.
Proof. eexists. split; [vm_compute; reflexivity|]. split; vm_compute; reflexivity. Qed.

(* ---- C115 ---- *)
Theorem C115_ra : forall a b c ia fa ib fb ic fc, decimal_text a ia fa -> decimal_text b ib fb -> decimal_text c ic fc ->
  forall raw, three_fields raw a b c ->
  (decimal_value ia fa < 24)%Q -> (decimal_value ib fb < 60)%Q -> (decimal_value ic fc < 60)%Q ->
  exists v, parse_ra raw = Ok v /\ (v == 15 * (decimal_value ia fa + decimal_value ib fb / 60 + decimal_value ic fc / 3600))%Q.
Proof. exact ra_ok. Qed.
Theorem C115_ra_rejected : forall a b c ia fa ib fb ic fc, decimal_text a ia fa -> decimal_text b ib fb -> decimal_text c ic fc ->
  forall raw, three_fields raw a b c ->
  ~ ((decimal_value ia fa < 24)%Q /\ (decimal_value ib fb < 60)%Q /\ (decimal_value ic fc < 60)%Q) -> parse_ra raw = Err ParseError.
Proof. exact ra_bad. Qed.
Theorem C115_dec : forall a b c ia fa ib fb ic fc, decimal_text a ia fa -> decimal_text b ib fb -> decimal_text c ic fc ->
  forall sg, sg = "+"%char \/ sg = "-"%char -> forall raw, three_fields raw (sg :: a) b c ->
  (decimal_value ib fb < 60)%Q -> (decimal_value ic fc < 60)%Q -> (decimal_value ia fa + decimal_value ib fb / 60 + decimal_value ic fc / 3600 <= 90)%Q ->
  exists v, parse_dec raw = Ok v /\ (v == (if Ascii.eqb sg "-" then -1 else 1) * (decimal_value ia fa + decimal_value ib fb / 60 + decimal_value ic fc / 3600))%Q.
Proof. exact dec_ok. Qed.
Theorem C115_dec_rejected : forall a b c ia fa ib fb ic fc, decimal_text a ia fa -> decimal_text b ib fb -> decimal_text c ic fc ->
  forall sg, sg = "+"%char \/ sg = "-"%char -> forall raw, three_fields raw (sg :: a) b c ->
  ~ ((decimal_value ib fb < 60)%Q /\ (decimal_value ic fc < 60)%Q /\ (decimal_value ia fa + decimal_value ib fb / 60 + decimal_value ic fc / 3600 <= 90)%Q) ->
  parse_dec raw = Err ParseError.
Proof. exact dec_bad. Qed.
Example C115_case : (exists v, parse_dec (s_ "-00 30 00.0 ") = Ok v /\ (v == -1 # 2)%Q) /\ (exists v, parse_ra (s_ "10 30 36.00 ") = Ok v /\ (v == 15765 # 100)%Q) /\
  parse_dec (s_ "+90 00 00.1 ") = Err ParseError /\ three_fields (s_ "-00 30 00.0 ") (s_ "-00") (s_ "30") (s_ "00.0").
Proof.
  split; [eexists; split; vm_compute; reflexivity|]. split; [eexists; split; vm_compute; reflexivity|]. split; [reflexivity|].
  exists [], (s_ " "), (s_ " "), (s_ " "). cbn. repeat split; repeat constructor; discriminate.
Qed.

(* ---- C116 ---- *)
Theorem C116_finite_refuted :
  (exists o, parse_optical (line_of "2020 01 10.5" "10 00 00.00" "+10 00 00.0" "nan") = Ok o /\ o_mag o = Some FNan) /\
  (exists o, parse_optical (line_of "2020 01 10.5" "10 00 00.00" "+10 00 00.0" "1e999") = Ok o /\ o_mag o = Some (FInf false)).
Proof. split; eexists; split; vm_compute; reflexivity. Qed.
Theorem C116_finite_partial : forall l tail o ip fp, fits l -> parse_optical (columns l ++ tail) = Ok o -> decimal_text (strip (l_mag l)) ip fp ->
  exists q, o_mag o = Some (FNum q) /\ (q == decimal_value ip fp)%Q.
Proof. exact mag_text. Qed.
Example C116_case : exists o, parse_optical (line_of "2020 01 10.5" "10 00 00.00" "+10 00 00.0" "20.1") = Ok o /\ exists q, o_mag o = Some (FNum q) /\ (q == 201 # 10)%Q.
Proof. eexists. split; [vm_compute; reflexivity|]. eexists. split; vm_compute; reflexivity. Qed.

(* ---- C117 ---- *)
(* every field comes from its columns of the format; anything after column 80 is ignored *)
Theorem C117_columns : forall l tail o, fits l -> parse_optical (columns l ++ tail) = Ok o ->
  o_line o = columns l /\ o_designation o = strip (l_designation l) /\ o_designation o <> [] /\
  (o_discovery o = true <-> l_discovery l = "*"%char) /\
  o_note1 o = or_none (strip [l_note1 l]) /\ o_note2 o = or_none (strip [l_note2 l]) /\ ~ In (l_note2 l) (list_ascii_of_string "RSVrsv") /\
  o_code o = l_code l /\
  parse_obstime (l_date l) = Ok (o_time o) /\ parse_ra (l_ra l) = Ok (o_ra o) /\ parse_dec (l_dec l) = Ok (o_dec o) /\
  (strip (l_mag l) = [] /\ o_mag o = None \/ exists x, py_float (strip (l_mag l)) = Ok x /\ o_mag o = Some x) /\
  o_band o = or_none (strip [l_band l]) /\ o_catalog o = or_none (strip [l_catalog l]) /\ o_reference o = or_none (strip (l_reference l)).
Proof. exact layout_fields. Qed.
(* conversely a line with a designation, a three-character station, one-line type and readable values is accepted *)
Theorem C117_accepts : forall l tail t ra dec, fits l -> strip (l_designation l) <> [] -> strip (l_code l) = l_code l -> ~ In (l_note2 l) (list_ascii_of_string "RSVrsv") ->
  parse_obstime (l_date l) = Ok t -> parse_ra (l_ra l) = Ok ra -> parse_dec (l_dec l) = Ok dec -> (0 <= ra <= 360)%Q ->
  (strip (l_mag l) = [] \/ exists x, py_float (strip (l_mag l)) = Ok x) ->
  exists o, parse_optical (columns l ++ tail) = Ok o.
Proof. exact layout_accepts. Qed.
Example C117_case : exists o, parse_optical (line_of "2020 01 10.5" "10 00 00.00" "+10 00 00.0" "20.1" ++ s_ "junk") = Ok o /\
  o_designation o = s_ "K20A00A" /\ o_discovery o = true /\ o_note1 o = None /\ o_note2 o = Some (s_ "C") /\ o_code o = s_ "F51" /\ o_band o = Some (s_ "V").
Proof. eexists. split; [vm_compute; reflexivity|]. vm_compute. repeat split. Qed.

Print Assumptions C61_dates.
Print Assumptions C61_rejected.
Print Assumptions C61_sound.
Print Assumptions C62_errors_refuted.
Print Assumptions C62_kinds_partial.
Print Assumptions C62_errors_partial.
Print Assumptions C62_file_partial.
Print Assumptions C115_ra.
Print Assumptions C115_ra_rejected.
Print Assumptions C115_dec.
Print Assumptions C115_dec_rejected.
Print Assumptions C116_finite_refuted.
Print Assumptions C116_finite_partial.
Print Assumptions C117_columns.
Print Assumptions C117_accepts.
