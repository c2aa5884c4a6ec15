(* Model of src/adam_core/coordinates/origin.py and of the derived columns of
   coordinates/keplerian.py:75-200, coordinates/cometary.py:79-202 and dynamics/kepler.py:12-135
   (definitions only).  Simplifications: exact rational and real arithmetic in place of binary64,
   extended by the two infinities and NaN where the code produces them; -0.0 is 0; the columns read
   from a table are finite; comparison of origins (origin.py:117-132) is not modelled. *)
From Coq Require Import String Reals QArith.
From Verif Require Import Base SphModel.
Open Scope string_scope.
Open Scope list_scope.

(* ---- origins ---- *)
(* origin.py:14-33: the names and the numbers of the members *)
Definition origin_codes : list (string * Z) :=
  [("SOLAR_SYSTEM_BARYCENTER", 0%Z); ("MERCURY_BARYCENTER", 1%Z); ("VENUS_BARYCENTER", 2%Z);
   ("EARTH_MOON_BARYCENTER", 3%Z); ("MARS_BARYCENTER", 4%Z); ("JUPITER_BARYCENTER", 5%Z);
   ("SATURN_BARYCENTER", 6%Z); ("URANUS_BARYCENTER", 7%Z); ("NEPTUNE_BARYCENTER", 8%Z);
   ("SUN", 10%Z); ("MERCURY", 199%Z); ("VENUS", 299%Z); ("EARTH", 399%Z); ("MOON", 301%Z);
   ("MARS", 499%Z); ("JUPITER", 599%Z); ("SATURN", 699%Z); ("URANUS", 799%Z); ("NEPTUNE", 899%Z)].
(* constants.py:11 *)
Definition km_p_au : Q := 149597870700 # 1000.
(* constants.py:13 *)
Definition s_p_day : Q := 86400 # 1.
(* origin.py:36-40 _convert_mu_units *)
Definition convert_mu_units (mu : Q) : Q := (mu / km_p_au ^ 3 * s_p_day ^ 2)%Q.
(* origin.py:43-57: the members in km^3 / s^2; VENUS is an alias with the same value *)
Definition parameters : list (string * Q) :=
  [("MERCURY_BARYCENTER", 22032080486418 # 1000000000); ("VENUS_BARYCENTER", 324858592 # 1000);
   ("MARS_BARYCENTER", 42828375816 # 1000000); ("JUPITER_BARYCENTER", 1267127641 # 10);
   ("SATURN_BARYCENTER", 379405848418 # 10000); ("URANUS_BARYCENTER", 57945564 # 10);
   ("NEPTUNE_BARYCENTER", 683652710058 # 100000); ("PLUTO_BARYCENTER", 9755 # 10);
   ("SUN", 132712440041279419 # 1000000); ("MERCURY", 22031868551 # 1000000); ("VENUS", 324858592 # 1000);
   ("EARTH", 398600435507 # 1000000); ("MOON", 4902800118 # 1000000)].
(* dictionary access for OriginCodes[...] and OriginGravitationalParameters[...], origin.py:115, 154-155 *)
Fixpoint lookup {A} (k : string) (d : list (string * A)) : option A :=
  match d with [] => None | (x, v) :: r => if String.eqb k x then Some v else lookup k r end.
(* the value of a member in au^3 / day^2, origin.py:43-57 *)
Definition member (k : string) : option Q := option_map convert_mu_units (lookup k parameters).
(* origin.py:77-89: a member of the sum; every name is one of the class *)
Definition member0 (k : string) : Q := match member k with Some v => v | None => 0%Q end.
(* origin.py:59-89 *)
Definition ssb_mu : Q :=
  (member0 "SUN" + member0 "MERCURY_BARYCENTER" + member0 "VENUS_BARYCENTER" + member0 "EARTH" + member0 "MOON"
   + member0 "MARS_BARYCENTER" + member0 "JUPITER_BARYCENTER" + member0 "SATURN_BARYCENTER"
   + member0 "URANUS_BARYCENTER" + member0 "NEPTUNE_BARYCENTER" + member0 "PLUTO_BARYCENTER")%Q.
(* origin.py:151-157: mu[mask] = v *)
Fixpoint masked_write (code : string) (v : Q) (codes : list string) (mu : list Q) : list Q :=
  match codes, mu with
  | c :: cs, m :: ms => (if String.eqb c code then v else m) :: masked_write code v cs ms
  | _, _ => mu
  end.
(* origin.py:149-157: the loop over the unique codes *)
Fixpoint mu_loop (todo codes : list string) (mu : list Q) : result (list Q) :=
  match todo with
  | [] => Ok mu
  | code :: r =>
      if String.eqb code "SOLAR_SYSTEM_BARYCENTER" then mu_loop r codes (masked_write code ssb_mu codes mu)
      else match member code with
           | Some v => mu_loop r codes (masked_write code v codes mu)
           | None => Err ValueError
           end
  end.
(* origin.py:134-159 Origin.mu; [memory] is the content of np.empty, one cell per code *)
Definition origin_mu (memory : list Q) (codes : list string) : result (list Q) :=
  mu_loop (uniq String.eqb codes) codes memory.
(* origin.py:97-101 from_OriginCodes: the table as its code column *)
Definition from_codes (code : string * Z) (size : nat) : list string := repeat (fst code) size.
(* origin.py:103-115 as_OriginCodes *)
Definition as_codes (codes : list string) : result (string * Z) :=
  match uniq String.eqb codes with
  | [c] => match lookup c origin_codes with Some n => Ok (c, n) | None => Err KeyError end
  | _ => Err AssertionError
  end.

(* ---- derived columns ---- *)
Open Scope R_scope.
(* a float64 value: finite, infinite or NaN; for kepler.py:12-135 *)
Inductive ext := Num (x : R) | PInf | NInf | NaN.
(* product of a float with a finite one, for kepler.py:72, 114 *)
Definition x_scale (x : ext) (y : R) : ext :=
  match x with
  | Num x => Num (x * y)
  | PInf => if Rlt_dec 0 y then PInf else if Rlt_dec y 0 then NInf else NaN
  | NInf => if Rlt_dec 0 y then NInf else if Rlt_dec y 0 then PInf else NaN
  | NaN => NaN
  end.
(* kepler.py:13-30 *)
Definition calc_period (a : ext) (mu : R) : ext :=
  match a with
  | Num a => if Rlt_dec a 0 then PInf else Num (2 * PI * sqrt (a ^ 3 / mu))
  | PInf => PInf
  | NInf => PInf
  | NaN => NaN
  end.
(* kepler.py:34-51; the semi-major axis is a column of the table *)
Definition calc_periapsis_distance (a e : R) : ext := Num (a * (1 - e)).
(* kepler.py:55-72 *)
Definition calc_apoapsis_distance (a : ext) (e : R) : ext := if Rle_dec 1 e then PInf else x_scale a (1 + e).
(* kepler.py:76-93 *)
Definition calc_semi_major_axis (q e : R) : ext :=
  if Req_EM_T e 1 then (if Rlt_dec 0 q then PInf else if Rlt_dec q 0 then NInf else NaN) else Num (q / (1 - e)).
(* kepler.py:97-114 *)
Definition calc_semi_latus_rectum (a : ext) (e : R) : ext := x_scale a (1 - e ^ 2).
(* kepler.py:118-135 *)
Definition calc_mean_motion (a : ext) (mu : R) : ext :=
  match a with
  | Num a => if Req_EM_T a 0 then PInf else Num (sqrt (mu / Rabs a ^ 3))
  | PInf => Num 0
  | NInf => Num 0
  | NaN => NaN
  end.
(* np.degrees, for keplerian.py:182-184 and cometary.py:186 *)
Definition x_degrees (x : ext) : ext := match x with Num x => Num (degrees x) | y => y end.
(* keplerian.py:75-82 *)
Definition kep_q (a e : R) : ext := calc_periapsis_distance a e.
(* keplerian.py:100-107 *)
Definition kep_Q (a e : R) : ext := calc_apoapsis_distance (Num a) e.
(* keplerian.py:125-132 *)
Definition kep_p (a e : R) : ext := calc_semi_latus_rectum (Num a) e.
(* keplerian.py:150-157 *)
Definition kep_P (a mu : R) : ext := calc_period (Num a) mu.
(* keplerian.py:175-184 *)
Definition kep_n (a mu : R) : ext := x_degrees (calc_mean_motion (Num a) mu).
(* cometary.py:79-86 *)
Definition com_a (q e : R) : ext := calc_semi_major_axis q e.
(* cometary.py:104-111 *)
Definition com_Q (q e : R) : ext := calc_apoapsis_distance (com_a q e) e.
(* cometary.py:129-136 *)
Definition com_p (q e : R) : ext := calc_semi_latus_rectum (com_a q e) e.
(* cometary.py:154-161 *)
Definition com_P (q e mu : R) : ext := calc_period (com_a q e) mu.
(* cometary.py:179-186 *)
Definition com_n (q e mu : R) : ext := x_degrees (calc_mean_motion (com_a q e) mu).
