(* Model of src/adam_core/utils/mpc.py (definitions only).
   Strings are lists of ASCII characters; Python's non-ASCII decimal digits and the
   4300-digit limit of int() are not modelled. *)
From Verif Require Import Base.
From Coq Require Import Ascii String.
Open Scope Z_scope.
Open Scope list_scope.

(* helper of [BASE62], mpc.py:4 *)
Definition str := list ascii.
(* helper of [BASE62], mpc.py:4 *)
Definition s_ (s : string) : str := list_ascii_of_string s.

(* mpc.py:4 BASE62 *)
Definition BASE62 : str := s_ "0123456789ABCDEFGHIJKLMNOPQRSTUVWXYZabcdefghijklmnopqrstuvwxyz".

(* position of a character; mpc.py:5 BASE62_MAP, a missing key raises KeyError *)
Fixpoint index_of (c : ascii) (l : str) : option Z :=
  match l with
  | [] => None
  | x :: xs => if Ascii.eqb c x then Some 0
               else match index_of c xs with Some i => Some (1 + i) | None => None end
  end.
(* helper of [sum62], mpc.py:311-313 *)
Definition base62_map (c : ascii) : result Z :=
  match index_of c BASE62 with Some i => Ok i | None => Err KeyError end.
(* BASE62[i]: negative indices count from the end *)
(* helper of [pack_numbered], mpc.py:54-104 *)
Definition base62_at (i : Z) : result ascii :=
  let j := if i <? 0 then i + 62 else i in
  if j <? 0 then Err IndexError
  else match nth_error BASE62 (Z.to_nat j) with Some c => Ok c | None => Err IndexError end.

(* s[i] for a non-negative constant index *)
(* helper of [pack_provisional], mpc.py:107-176 *)
Definition at_ (s : str) (i : nat) : result ascii :=
  match nth_error s i with Some c => Ok c | None => Err IndexError end.
(* s[i:j], s[i:] *)
(* helper of [pack_provisional], mpc.py:107-176 *)
Definition slice (s : str) (i j : nat) : str := firstn (j - i) (skipn i s).

(* helper of [pack_provisional], mpc.py:107-176 *)
Definition is_digit (c : ascii) : bool :=
  let n := Z.of_nat (nat_of_ascii c) in (48 <=? n) && (n <=? 57).
(* helper of [unpack_date], mpc.py:15-26 *)
Definition digit_val (c : ascii) : Z := Z.of_nat (nat_of_ascii c) - 48.
(* str.isdecimal *)
(* helper of [pack_provisional], mpc.py:107-176 *)
Definition isdecimal (s : str) : bool :=
  match s with [] => false | _ => forallb is_digit s end.

(* characters stripped by int(): str.strip() on ASCII *)
(* helper of [pack_numbered], mpc.py:54-104 *)
Definition is_space (c : ascii) : bool :=
  let n := Z.of_nat (nat_of_ascii c) in
  (n =? 32) || ((9 <=? n) && (n <=? 13)) || ((28 <=? n) && (n <=? 31)).
(* helper of [pack_numbered], mpc.py:54-104 *)
Fixpoint lstrip (s : str) : str :=
  match s with c :: r => if is_space c then lstrip r else s | [] => [] end.
(* helper of [pack_numbered], mpc.py:54-104 *)
Definition strip (s : str) : str := rev (lstrip (rev (lstrip s))).

(* digits with single underscores between digits; [prev] = previous char is a digit *)
(* helper of [pack_numbered], mpc.py:54-104 *)
Fixpoint int_digits (s : str) (acc : Z) (prev : bool) : option Z :=
  match s with
  | [] => if prev then Some acc else None
  | c :: r => if is_digit c then int_digits r (acc * 10 + digit_val c) true
              else if Ascii.eqb c "_"%char && prev then
                match r with
                | [] => None
                | _ => int_digits r acc false
                end
              else None
  end.
(* Python int(str) in base 10: ValueError when malformed *)
(* helper of [pack_numbered], mpc.py:54-104 *)
Definition py_int (s : str) : result Z :=
  let ok o := match o with Some z => Ok z | None => Err ValueError end in
  match strip s with
  | c :: r =>
      if Ascii.eqb c "-"%char then ok (match int_digits r 0 false with Some z => Some (- z) | None => None end)
      else if Ascii.eqb c "+"%char then ok (int_digits r 0 false)
      else ok (int_digits (c :: r) 0 false)
  | [] => Err ValueError
  end.

(* digits of a non-negative number in base b, most significant first, empty for 0;
   fuel: one more than log2 always suffices *)
(* helper of [pack_numbered], mpc.py:54-104 *)
Fixpoint digits_aux (b : Z) (fuel : nat) (n : Z) (acc : list Z) : list Z :=
  match fuel with
  | O => acc
  | S f => if n =? 0 then acc else digits_aux b f (n / b) ((n mod b) :: acc)
  end.
(* helper of [pack_numbered], mpc.py:54-104 *)
Definition digits (b n : Z) : list Z := digits_aux b (S (Z.to_nat (Z.log2 n))) n [].

(* helper of [pack_numbered], mpc.py:54-104 *)
Definition digit_char (d : Z) : ascii := ascii_of_nat (Z.to_nat (48 + d)).
(* str(n) *)
(* helper of [pack_numbered], mpc.py:54-104 *)
Definition str_of (n : Z) : str :=
  let ds := digits 10 (Z.abs n) in
  (if n <? 0 then ["-"%char] else []) ++
  (match ds with [] => ["0"%char] | _ => map digit_char ds end).

(* str.zfill(w), sign aware; also what "{:0w}".format(int) and f"{n:0w}" do *)
(* helper of [pack_numbered], mpc.py:54-104 *)
Definition zfill (w : nat) (s : str) : str :=
  let pad := repeat "0"%char (w - List.length s) in
  match s with
  | c :: r => if Ascii.eqb c "-"%char || Ascii.eqb c "+"%char then c :: pad ++ r else pad ++ s
  | [] => pad
  end.

(* mpc.py:54-104 pack_numbered_designation *)
Definition pack_numbered (d : str) : result str :=
  bind (py_int d) (fun number =>
  if 15396335 <? number then Err ValueError
  else if number <=? 99999 then Ok (zfill 5 (str_of number))
  else if (100000 <=? number) && (number <=? 619999) then
    bind (base62_at (number / 10000)) (fun c =>
    Ok (c :: zfill 4 (str_of (number mod 10000))))
  else
    bind (mapM base62_at (digits 62 (number - 620000))) (fun cs =>
    Ok ("~"%char :: zfill 4 cs))).

(* mpc.py:166-173: the two cycle characters of a packed provisional designation *)
Definition cycle_pack (cyc : str) : result str :=
  match cyc with
  | [] => Ok ["0"%char; "0"%char]
  | _ => bind (py_int cyc) (fun n =>
         if n <=? 99 then Ok (zfill 2 (str_of n))
         else bind (base62_at (n / 10)) (fun c => Ok (c :: str_of (n mod 10))))
  end.

(* mpc.py:107-176 pack_provisional_designation *)
Definition pack_provisional (d : str) : result str :=
  if (List.length d <? 6)%nat then Err ValueError
  else if negb (isdecimal (slice d 0 3)) then Err ValueError
  else bind (at_ d 4) (fun c4 =>
  if negb (Ascii.eqb c4 " "%char) then Err ValueError
  else if existsb (Ascii.eqb "-"%char) d then Err ValueError
  else
    bind (py_int (slice d 0 2)) (fun yy =>
    bind (base62_at yy) (fun y =>
    let year := y :: slice d 2 4 in
    bind (at_ d 5) (fun letter1 =>
    bind (at_ d 6) (fun letter2 =>
    let cycle := skipn 7 d in
    if Ascii.eqb letter1 "I"%char || Ascii.eqb letter1 "Z"%char then Err ValueError
    else if is_digit letter1 || is_digit letter2 then Err ValueError
    else
      bind (cycle_pack cycle) (fun cycle_pf =>
      Ok (year ++ [letter1] ++ cycle_pf ++ [letter2]))))))).

(* helper of [pack_survey], mpc.py:179-218 *)
Definition str_eqb (a b : str) : bool := String.eqb (string_of_list_ascii a) (string_of_list_ascii b).

(* mpc.py:179-218 pack_survey_designation *)
Definition pack_survey (d : str) : result str :=
  let number := slice d 0 4 in
  let survey := skipn 5 d in
  if str_eqb survey (s_ "P-L") then Ok (s_ "PLS" ++ zfill 4 number)
  else if str_eqb (slice survey 0 2) (s_ "T-") then
    bind (at_ survey 2) (fun c =>
    if Ascii.eqb c "1"%char || Ascii.eqb c "2"%char || Ascii.eqb c "3"%char
    then Ok (["T"%char; c; "S"%char] ++ zfill 4 number)
    else Err ValueError)
  else Err ValueError.

(* try: return x except ValueError: pass *)
(* helper of [pack_mpc], mpc.py:221-268 *)
Definition or_else {A} (x : result A) (k : result A) : result A :=
  match x with Err ValueError => k | _ => x end.

(* mpc.py:221-268 pack_mpc_designation *)
Definition pack_mpc (d : str) : result str :=
  or_else (pack_numbered d) (or_else (pack_provisional d) (or_else (pack_survey d) (Err ValueError))).

(* mpc.py:311-313: sum of BASE62_MAP[c] * 62**power *)
Fixpoint sum62 (s : str) : result Z :=
  match s with
  | [] => Ok 0
  | c :: r => bind (base62_map c) (fun v => bind (sum62 r) (fun w =>
              Ok (v * 62 ^ Z.of_nat (List.length r) + w)))
  end.

(* mpc.py:271-324 unpack_numbered_designation *)
Definition unpack_numbered (p : str) : result str :=
  if isdecimal p then bind (py_int p) (fun n => Ok (str_of n))
  else bind (at_ p 0) (fun c0 =>
  if Ascii.eqb c0 "~"%char then bind (sum62 (skipn 1 p)) (fun n => Ok (str_of (620000 + n)))
  else bind (base62_map c0) (fun v => bind (py_int (skipn 1 p)) (fun n =>
       Ok (str_of (v * 10000 + n))))).

(* mpc.py:327-379 unpack_provisional_designation *)
Definition unpack_provisional (p : str) : result str :=
  match p with
  | [c0; c1; c2; l1; y1; y2; l2] =>
      if negb (is_digit c1) || negb (is_digit c2) then Err ValueError
      else
        bind (base62_map c0) (fun v =>
        bind (py_int [c1; c2]) (fun yy =>
        let year := str_of (v * 100 + yy) in
        if is_digit l1 || is_digit l2 then Err ValueError
        else
          bind (base62_map y1) (fun a => bind (base62_map y2) (fun b =>
          let number := a * 10 + b in
          let number_str := if number =? 0 then [] else str_of number in
          Ok (year ++ [" "%char; l1; l2] ++ number_str)))))
  | _ => Err ValueError
  end.

(* mpc.py:382-422 unpack_survey_designation *)
Definition unpack_survey (p : str) : result str :=
  bind (py_int (slice p 3 8)) (fun number =>
  let s := slice p 0 3 in
  if str_eqb s (s_ "PLS") then Ok (str_of number ++ s_ " P-L")
  else if str_eqb s (s_ "T1S") || str_eqb s (s_ "T2S") || str_eqb s (s_ "T3S") then
    bind (at_ s 1) (fun c => Ok (str_of number ++ s_ " T-" ++ [c]))
  else Err ValueError).

(* mpc.py:425-473 unpack_mpc_designation *)
Definition unpack_mpc (p : str) : result str :=
  or_else (unpack_numbered p) (or_else (unpack_provisional p) (or_else (unpack_survey p) (Err ValueError))).

(* ---- packed dates, mpc.py:8-28 ---- *)
From Coq Require Import QArith Qround.
Open Scope Z_scope.
(* Python int(x) of a float truncates toward zero *)
Definition qtrunc (q : Q) : Z := if Qle_bool 0 q then Qfloor q else - Qfloor (- q).
(* mpc.py:23-25 hours, minutes, seconds of a day fraction; floats are exact rationals here *)
Definition hms (f : Q) : Z * Z * Q :=
  let h := qtrunc (24 * f)%Q in
  let m := qtrunc (60 * (24 * f - inject_Z h))%Q in
  let s := (3600 * (24 * f - inject_Z h - inject_Z m / 60))%Q in
  (h, m, s).
(* int(c, base=32) for one character: 0-9, a-v, A-V *)
(* helper of [unpack_date], mpc.py:15-26 *)
Definition int32 (c : ascii) : result Z :=
  let n := Z.of_nat (nat_of_ascii c) in
  if is_digit c then Ok (n - 48)
  else if (65 <=? n) && (n <=? 86) then Ok (n - 55)
  else if (97 <=? n) && (n <=? 118) then Ok (n - 87)
  else Err ValueError.
(* float("." + s) for a non-empty digit string, exactly; other spellings of a float raise
   ValueError here although Python also accepts exponents, underscores and blanks *)
(* helper of [unpack_date], mpc.py:15-26 *)
Definition frac_of (s : str) : result Q :=
  if isdecimal s then
    Ok (fold_right (fun c acc => (inject_Z (digit_val c) + acc) / 10)%Q 0%Q s)
  else Err ValueError.
(* mpc.py:15-26; the result is (year, month, day) and the optional (h, m, s) before formatting *)
Definition unpack_date (p : str) : result (Z * Z * Z * option (Z * Z * Q)) :=
  bind (at_ p 0) (fun c0 => bind (int32 c0) (fun cent =>
  bind (py_int (slice p 1 3)) (fun yy =>
  bind (at_ p 3) (fun c3 => bind (int32 c3) (fun month =>
  bind (at_ p 4) (fun c4 => bind (int32 c4) (fun day =>
  let ymd := (cent * 100 + yy, month, day) in
  if (5 <? List.length p)%nat then
    bind (frac_of (skipn 5 p)) (fun f => Ok (ymd, Some (hms f)))
  else Ok (ymd, None)))))))).
(* "{:09.6f}".format(seconds): microseconds, round half even on the exact value *)
(* rounding of printed seconds (specification side) *)
Definition round_half_even (q : Q) : Z :=
  let f := Qfloor q in let r := (q - inject_Z f)%Q in
  match Qcompare r (1#2) with
  | Lt => f | Gt => f + 1 | Eq => if Z.even f then f else f + 1
  end.
(* rounding of printed seconds (specification side) *)
Definition shown_micros (s : Q) : Z := round_half_even (s * 1000000)%Q.
