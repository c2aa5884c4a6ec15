(* Model of src/adam_core/observations/obs80.py (definitions only).

   Text is ASCII.  Decimal and float values are exact rationals: the date columns hold at most 13
   significant characters, so the 28-digit decimal context never rounds a date accepted by
   datetime.date; binary64 rounding of right ascension, declination and magnitude is not modelled.
   quivr's ValidationError is shown as RuntimeError. *)
From Coq Require Import Ascii String QArith Qround.
From Verif Require Import Base TimeModel MpcModel.
Open Scope Z_scope.
Open Scope list_scope.

(* str.split() *)
(* helper of [parse_obstime], obs80.py:73-101 *)
Fixpoint words_aux (s cur : str) : list str :=
  match s with
  | [] => match cur with [] => [] | _ => [rev cur] end
  | c :: r => if is_space c then match cur with [] => words_aux r [] | _ => rev cur :: words_aux r [] end
              else words_aux r (c :: cur)
  end.
(* helper of [parse_obstime], obs80.py:73-101 *)
Definition words (s : str) : list str := words_aux s [].
(* helper of [parse_obstime], obs80.py:73-101 *)
Definition lower_char (c : ascii) : ascii :=
  let n := nat_of_ascii c in if ((65 <=? n) && (n <=? 90))%nat then ascii_of_nat (n + 32) else c.
(* helper of [parse_obstime], obs80.py:73-101 *)
Definition lower (s : str) : str := map lower_char s.

(* value of a digit string *)
(* helper of [parse_obstime], obs80.py:73-101 *)
Definition dig (s : str) : Z := fold_left (fun a c => a * 10 + digit_val c) s 0.
(* helper of [parse_obstime], obs80.py:73-101 *)
Fixpoint span (s : str) : str * str :=
  match s with
  | c :: r => if is_digit c then let '(a, b) := span r in (c :: a, b) else ([], s)
  | [] => ([], [])
  end.
(* helper of [parse_obstime], obs80.py:73-101 *)
Definition pow10 (e : Z) : Q := Qpower (10 # 1) e.
(* [digits][.digits][e[sign]digits] with at least one digit before the exponent *)
(* helper of [parse_obstime], obs80.py:73-101 *)
Definition exponent (s : str) : option Z :=
  match s with
  | [] => Some 0
  | c :: r =>
      if Ascii.eqb c "e" || Ascii.eqb c "E" then
        match r with
        | [] => None
        | d :: r' => let '(neg, ds) := if Ascii.eqb d "-" then (true, r') else if Ascii.eqb d "+" then (false, r') else (false, r) in
                     if isdecimal ds then Some (if neg then - dig ds else dig ds) else None
        end
      else None
  end.
(* helper of [parse_obstime], obs80.py:73-101 *)
Definition unsigned (s : str) : option Q :=
  let '(ip, r) := span s in
  let '(fp, r') := match r with c :: q => if Ascii.eqb c "." then span q else ([], r) | [] => ([], r) end in
  match ip ++ fp with
  | [] => None
  | ds => match exponent r' with
          | Some e => Some (inject_Z (dig ds) * pow10 (e - Z.of_nat (List.length fp)))%Q
          | None => None
          end
  end.
(* helper of [parse_obstime], obs80.py:73-101 *)
Definition signed (s : str) : bool * str :=
  match s with
  | c :: r => if Ascii.eqb c "-" then (true, r) else if Ascii.eqb c "+" then (false, r) else (false, s)
  | [] => (false, [])
  end.
(* helper of [parse_dec], obs80.py:117-133 *)
Definition neg_if (b : bool) (q : Q) : Q := if b then (- q)%Q else q.

(* decimal.Decimal(str): surrounding whitespace and all underscores are dropped; InvalidOperation *)
(* helper of [parse_obstime], obs80.py:73-101 *)
Inductive decimal := DNum (q : Q) | DInf | DNan | DSNan.
(* helper of [parse_obstime], obs80.py:73-101 *)
Definition starts (p s : str) : option str :=
  if str_eqb (firstn (List.length p) s) p then Some (skipn (List.length p) s) else None.
(* helper of [parse_obstime], obs80.py:73-101 *)
Definition py_decimal (s : str) : result decimal :=
  let '(neg, body) := signed (filter (fun c => negb (Ascii.eqb c "_")) (strip s)) in
  let b := lower body in
  if str_eqb b (s_ "inf") || str_eqb b (s_ "infinity") then Ok DInf else
  match starts (s_ "snan") b with
  | Some d => if forallb is_digit d then Ok DSNan else Err InvalidOperation
  | None =>
  match starts (s_ "nan") b with
  | Some d => if forallb is_digit d then Ok DNan else Err InvalidOperation
  | None => match unsigned body with Some q => Ok (DNum (neg_if neg q)) | None => Err InvalidOperation end
  end end.

(* float(str): underscores only between digits; values from 2^1024 - 2^970 on overflow to infinity *)
(* helper of [parse_ra], obs80.py:104-114 *)
Inductive fval := FNum (q : Q) | FInf (neg : bool) | FNan.
(* helper of [parse_ra], obs80.py:104-114 *)
Fixpoint underscores (prev : bool) (s : str) : bool :=
  match s with
  | [] => true
  | c :: r => if Ascii.eqb c "_" then prev && match r with d :: _ => is_digit d | [] => false end && underscores false r
              else underscores (is_digit c) r
  end.
(* helper of [parse_ra], obs80.py:104-114 *)
Definition MAXF : Q := inject_Z (2 ^ 1024 - 2 ^ 970).
(* helper of [parse_ra], obs80.py:104-114 *)
Definition py_float (s : str) : result fval :=
  let t := strip s in
  if negb (underscores false t) then Err ValueError else
  let '(neg, body) := signed (filter (fun c => negb (Ascii.eqb c "_")) t) in
  let b := lower body in
  if str_eqb b (s_ "inf") || str_eqb b (s_ "infinity") then Ok (FInf neg)
  else if str_eqb b (s_ "nan") then Ok FNan
  else match unsigned body with
       | Some q => Ok (if Qle_bool MAXF q then FInf neg else FNum (neg_if neg q))
       | None => Err ValueError
       end.
(* helper of [parse_obstime], obs80.py:73-101 *)
Definition as_parse {A} (r : result A) : result A := match r with Err _ => Err ParseError | x => x end.

(* datetime.date(year, month, day): OverflowError when an argument does not fit a C int *)
(* helper of [parse_obstime], obs80.py:73-101 *)
Definition leap (y : Z) : bool := (y mod 4 =? 0) && (negb (y mod 100 =? 0) || (y mod 400 =? 0)).
(* helper of [parse_obstime], obs80.py:73-101 *)
Definition days_in_month (y m : Z) : Z :=
  if m =? 2 then (if leap y then 29 else 28) else if (m =? 4) || (m =? 6) || (m =? 9) || (m =? 11) then 30 else 31.
(* helper of [parse_obstime], obs80.py:73-101 *)
Definition days_before_month (y m : Z) : Z :=
  nth (Z.to_nat m) [0; 0; 31; 59; 90; 120; 151; 181; 212; 243; 273; 304; 334] 0 + (if (2 <? m) && leap y then 1 else 0).
(* helper of [parse_obstime], obs80.py:73-101 *)
Definition days_before_year (y : Z) : Z := let p := y - 1 in p * 365 + p / 4 - p / 100 + p / 400.
(* helper of [parse_obstime], obs80.py:73-101 *)
Definition toordinal (y m d : Z) : Z := days_before_year y + days_before_month y m + d.
(* helper of [parse_obstime], obs80.py:73-101 *)
Definition c_int (z : Z) : bool := (- 2 ^ 31 <=? z) && (z <? 2 ^ 31).
(* helper of [parse_obstime], obs80.py:73-101 *)
Definition py_date (y m d : Z) : result (Z * Z * Z) :=
  if negb (c_int y && c_int m && c_int d) then Err OverflowError
  else if (1 <=? y) && (y <=? 9999) && (1 <=? m) && (m <=? 12) && (1 <=? d) && (d <=? days_in_month y m) then Ok (y, m, d)
  else Err ValueError.
(* helper of [parse_obstime], obs80.py:73-101 *)
Definition MJD_EPOCH : Z := toordinal 1858 11 17.
(* helper of [parse_obstime], obs80.py:73-101 *)
Definition MAX_ORDINAL : Z := toordinal 9999 12 31.

(* obs80.py:73-101 *)
Definition parse_obstime (raw : str) : result row :=
  match words (strip raw) with
  | [a; b; c] =>
      bind (as_parse (bind (py_int a) (fun y => bind (py_int b) (fun m => Ok (y, m))))) (fun ym =>
      bind (as_parse (py_decimal (strip c))) (fun dd =>
      match dd with
      | DNan => Err ValueError            (* int(Decimal("NaN")) *)
      | DSNan => Err InvalidOperation     (* to_integral_value of a signalling NaN *)
      | DInf => Err OverflowError         (* int(Decimal("Infinity")) *)
      | DNum q =>
          let day := Qfloor q in
          let fraction := (q - inject_Z day)%Q in
          if negb (Qle_bool 0 fraction) || Qle_bool 1 fraction then Err ParseError else
          match py_date (fst ym) (snd ym) day with
          | Err ValueError => Err ParseError
          | Err e => Err e
          | Ok (y, m, d) =>
              let nanos := round_he (fraction * inject_Z DAY)%Q in
              if nanos =? DAY then
                (if toordinal y m d + 1 <=? MAX_ORDINAL then Ok (mkrow (toordinal y m d + 1 - MJD_EPOCH) 0) else Err OverflowError)
              else Ok (mkrow (toordinal y m d - MJD_EPOCH) nanos)
          end
      end))
  | _ => Err ParseError
  end.

(* lo <= x < hi (or <= hi) with Python's float comparisons *)
(* helper of [parse_ra], obs80.py:104-114 *)
Definition within (x : fval) (hi : Q) (closed : bool) : option Q :=
  match x with
  | FNum q => if Qle_bool 0 q && (if closed then Qle_bool q hi else negb (Qle_bool hi q)) then Some q else None
  | _ => None
  end.
(* obs80.py:104-114 *)
Definition parse_ra (raw : str) : result Q :=
  match words (strip raw) with
  | [a; b; c] =>
      bind (as_parse (py_float a)) (fun h => bind (as_parse (py_float b)) (fun m => bind (as_parse (py_float c)) (fun s =>
      match within h 24 false, within m 60 false, within s 60 false with
      | Some h, Some m, Some s => Ok (15 * (h + m / 60 + s / 3600))%Q
      | _, _, _ => Err ParseError
      end)))
  | _ => Err ParseError
  end.
(* obs80.py:117-133 *)
Definition parse_dec (raw : str) : result Q :=
  match words (strip raw) with
  | [sg :: a; b; c] =>
      if negb (Ascii.eqb sg "+" || Ascii.eqb sg "-") then Err ParseError else
      bind (as_parse (py_float a)) (fun d => bind (as_parse (py_float b)) (fun m => bind (as_parse (py_float c)) (fun s =>
      match within d 90 true, within m 60 false, within s 60 false with
      | Some d, Some m, Some s =>
          let v := neg_if (Ascii.eqb sg "-") (d + m / 60 + s / 3600)%Q in
          if Qle_bool (-90 # 1) v && Qle_bool v 90 then Ok v else Err ParseError
      | _, _, _ => Err ParseError
      end)))
  | _ => Err ParseError
  end.

(* helper of [parse_optical], obs80.py:136-175 *)
Record obs80 := mkobs80 {
  o_line : str; o_designation : str; o_discovery : bool; o_note1 : option str; o_note2 : option str; o_code : str;
  o_time : row; o_ra : Q; o_dec : Q; o_mag : option fval; o_band : option str; o_catalog : option str; o_reference : option str }.
(* helper of [parse_optical], obs80.py:136-175 *)
Definition or_none (s : str) : option str := match s with [] => None | _ => Some s end.

(* helper of [parse_optical], obs80.py:136-175 *)
Definition cols (line : str) (i j : nat) : str := strip (slice line i j).
(* obs80.py:136-175 *)
Definition parse_optical (raw : str) : result obs80 :=
  if (List.length raw <? 80)%nat then Err ParseError else
  let line := firstn 80 raw in
  let note2 := or_none (cols line 14 15) in
  if match note2 with Some [c] => existsb (Ascii.eqb c) (s_ "RSVrsv") | _ => false end then Err ParseError else
  match cols line 0 12 with
  | [] => Err ParseError
  | designation =>
  if negb (List.length (cols line 77 80) =? 3)%nat then Err ParseError else
  bind (match cols line 65 70 with [] => Ok None | m => bind (as_parse (py_float m)) (fun x => Ok (Some x)) end) (fun mag =>
  bind (parse_obstime (slice line 15 32)) (fun t =>
  bind (parse_ra (slice line 32 44)) (fun ra =>
  bind (parse_dec (slice line 44 56)) (fun dec =>
  if negb (Qle_bool 0 ra && Qle_bool ra 360 && Qle_bool (-90 # 1) dec && Qle_bool dec 90) then Err RuntimeError else
  Ok (mkobs80 line designation (str_eqb (slice line 12 13) (s_ "*")) (or_none (cols line 13 14)) note2 (cols line 77 80) t ra dec mag
        (or_none (cols line 70 71)) (or_none (cols line 71 72)) (or_none (cols line 72 77)))))))
  end.

(* str.splitlines(): \n \v \f \r \r\n \x1c \x1d \x1e; no final empty line *)
(* str.splitlines in obs80.py:178-201 *)
Definition is_break (c : ascii) : bool :=
  let n := nat_of_ascii c in ((10 <=? n) && (n <=? 13) || (28 <=? n) && (n <=? 30))%nat.
(* str.splitlines in obs80.py:178-201 *)
Fixpoint splitlines_aux (s cur : str) : list str :=
  match s with
  | [] => match cur with [] => [] | _ => [rev cur] end
  | c :: r =>
      if is_break c then
        match r with
        | d :: r' => if Ascii.eqb c "013" && Ascii.eqb d "010" then rev cur :: splitlines_aux r' [] else rev cur :: splitlines_aux r []
        | [] => rev cur :: splitlines_aux r []
        end
      else splitlines_aux r (c :: cur)
  end.
(* str.splitlines in obs80.py:178-201 *)
Definition splitlines (s : str) : list str := splitlines_aux s [].
(* obs80.py:178-201; [lines] are the nonblank lines *)
Fixpoint parse_lines (strict : bool) (lines : list str) : result (list obs80) :=
  match lines with
  | [] => Ok []
  | l :: r => match parse_optical l with
              | Ok o => bind (parse_lines strict r) (fun os => Ok (o :: os))
              | Err ParseError => if strict then Err ParseError else parse_lines strict r
              | Err e => Err e
              end
  end.
(* obs80.py:178-201: not line.strip() *)
Definition blank (s : str) : bool := match strip s with [] => true | _ => false end.
(* obs80.py:178-201 parse_optical_obs80_file *)
Definition parse_file (strict : bool) (raw : str) : result (list obs80) :=
  parse_lines strict (filter (fun l => negb (blank l)) (splitlines raw)).
