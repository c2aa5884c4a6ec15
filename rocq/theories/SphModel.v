(* Model of src/adam_core/coordinates/transform.py:97-226 (Cartesian to geodetic), 297-376
   (Cartesian to spherical) and 434-502 (spherical to Cartesian) (definitions only).
   Simplification: exact real arithmetic in place of binary64; an undefined division is [None]
   (NaN or infinity in the library). *)
From Coq Require Import Reals String List.
From Verif Require Import Base.
Open Scope string_scope.
Open Scope R_scope.

(* numpy arctan2 for finite arguments without signed zeros *)
(* helper of [longitude], transform.py:338-339 *)
Definition atan2 (y x : R) : R :=
  if Rlt_dec 0 x then atan (y / x)
  else if Rlt_dec x 0 then (if Rle_dec 0 y then atan (y / x) + PI else atan (y / x) - PI)
  else if Rlt_dec 0 y then PI / 2 else if Rlt_dec y 0 then - (PI / 2) else 0.
(* numpy degrees and radians *)
(* helper of [cartesian_to_spherical], transform.py:337-376 *)
Definition degrees (x : R) : R := x * (180 / PI).
(* helper of [spherical_to_cartesian], transform.py:466-502 *)
Definition radians (x : R) : R := x * (PI / 180).

(* one row of six values *)
(* helper of [cartesian_to_spherical], transform.py:337-376 *)
Record row6 := mk6 { c_0 : R; c_1 : R; c_2 : R; c_3 : R; c_4 : R; c_5 : R }.

(* transform.py:338-339 and 203-204 *)
Definition longitude (x y : R) : R :=
  let lon := atan2 y x in if Rlt_dec lon 0 then 2 * PI + lon else lon.
(* transform.py:337-376 *)
Definition cartesian_to_spherical (s : row6) : row6 :=
  let '(mk6 x y z vx vy vz) := s in
  let rho := sqrt (x ^ 2 + y ^ 2 + z ^ 2) in
  let lon := longitude x y in
  let lat := if Req_EM_T rho 0 then 0 else asin (z / rho) in
  let lat := if Rle_dec (3 * PI / 2) lat then (if Rle_dec lat (2 * PI) then lat - 2 * PI else lat) else lat in
  let vrho := if Req_EM_T rho 0 then 0 else (x * vx + y * vy + z * vz) / rho in
  let axis := if Req_EM_T x 0 then (if Req_EM_T y 0 then true else false) else false in
  let vlon := if axis then 0 else (vy * x - vx * y) / (x ^ 2 + y ^ 2) in
  let vlat := if axis then 0 else if Req_EM_T rho 0 then 0
              else (vz - vrho * z / rho) / sqrt (x ^ 2 + y ^ 2) in
  mk6 rho (degrees lon) (degrees lat) vrho (degrees vlon) (degrees vlat).
(* transform.py:466-502 *)
Definition spherical_to_cartesian (s : row6) : row6 :=
  let rho := c_0 s in
  let lon := radians (c_1 s) in
  let lat := radians (c_2 s) in
  let vrho := c_3 s in
  let vlon := radians (c_4 s) in
  let vlat := radians (c_5 s) in
  mk6 (rho * cos lat * cos lon)
      (rho * cos lat * sin lon)
      (rho * sin lat)
      (cos lat * cos lon * vrho - rho * cos lat * sin lon * vlon - rho * sin lat * cos lon * vlat)
      (cos lat * sin lon * vrho + rho * cos lat * cos lon * vlon - rho * sin lat * sin lon * vlat)
      (sin lat * vrho + rho * cos lat * vlat).

Section Geodetic.
(* transform.py:98-104 the semi-major axis and the flattening of the ellipsoid *)
Variables a f : R.
(* transform.py:155-158 *)
Definition semi_minor : R := a * (1 - f).
(* helper of [curvature], transform.py:180 *)
Definition ecc2 : R := (a ^ 2 - semi_minor ^ 2) / a ^ 2.
(* transform.py:180 and 211: radius of curvature in the prime vertical *)
Definition curvature (lat : R) : R := a / sqrt (1 - ecc2 * sin lat ^ 2).
(* transform.py:172-195: the loop body reads the latitude of the enclosing function (the first
   guess), not the one it updates *)
Definition geodetic_body (xy z lat0 : R) : R :=
  let n := curvature lat0 in
  let alt := xy / cos lat0 - n in
  atan2 z (xy * (1 - ecc2 * n / (n + alt))).
(* transform.py:197-202: while (|diff| > tol) & (iterations <= max_iter) *)
Fixpoint geodetic_loop (xy z lat0 tol : R) (fuel : nat) (lat_i diff : R) : R :=
  match fuel with
  | O => lat_i
  | S k => if Rlt_dec tol (Rabs diff)
           then let l := geodetic_body xy z lat0 in geodetic_loop xy z lat0 tol k l (l - lat0)
           else lat_i
  end.
(* helper of [cartesian_to_geodetic], transform.py:147-226 *)
Definition geodetic_latitude (max_iter : nat) (tol xy z : R) : R :=
  let lat := atan2 z (xy * (1 - ecc2)) in
  geodetic_loop xy z lat tol (S max_iter) lat (10 ^ 15).
(* transform.py:147-226: columns 0-5 of the result; [None] where the cosine of the latitude
   vanishes (a division by zero) *)
Definition cartesian_to_geodetic (max_iter : nat) (tol : R) (s : row6) : option row6 :=
  let '(mk6 x y z vx vy vz) := s in
  let xy := sqrt (x ^ 2 + y ^ 2) in
  let lat0 := atan2 z (xy * (1 - ecc2)) in
  if Req_EM_T (cos lat0) 0 then None else
  let lat := geodetic_latitude max_iter tol xy z in
  let lon := longitude x y in
  if Req_EM_T (cos lat) 0 then None else
  let alt := xy / cos lat - curvature lat in
  let v_east := - sin lon * vx + cos lon * vy in
  let v_north := - sin lat * cos lon * vx - sin lat * sin lon * vy + cos lat * vz in
  let v_up := cos lat * cos lon * vx + cos lat * sin lon * vy + sin lat * vz in
  Some (mk6 alt (degrees lon) (degrees lat) (degrees v_east) (degrees v_north) v_up).
End Geodetic.

(* geodetics.py:145-155: the table columns named after the six columns of the array *)
Record geodetic := mkgeo { g_alt : R; g_lon : R; g_lat : R; g_vup : R; g_veast : R; g_vnorth : R }.
(* helper of [from_cartesian_table], geodetics.py:121-161 *)
Definition from_cartesian (a f : R) (s : row6) : option geodetic :=
  match cartesian_to_geodetic a f 100 (/ 10 ^ 15) s with
  | Some r => Some (mkgeo (c_0 r) (c_1 r) (c_2 r) (c_3 r) (c_4 r) (c_5 r))
  | None => None
  end.
(* geodetics.py:121-161: the frame and origin checks, the rows, and the covariances: when any
   covariance element is present [transform_covariances_jacobian] calls [_cartesian_to_geodetic]
   with the coordinates alone (geodetics.py:137-139; covariances.py:476; jacobian.py:61), without
   its required arguments a and f: a TypeError *)
Definition from_cartesian_table (a f : R) (frame : string) (origins : list string) (rows : list row6)
  (has_covariance : bool) : result (list (option geodetic)) :=
  if negb (String.eqb frame "itrf93") then Err AssertionError
  else if negb (forallb (String.eqb "EARTH") origins) then Err AssertionError
  else if has_covariance then Err TypeError
  else Ok (map (from_cartesian a f) rows).
