(* Model of src/adam_core/dynamics/kepler.py:117-331, dynamics/barker.py and of the Keplerian and
   cometary conversions of coordinates/transform.py:562-796, 863-1153, 1267-1303, 1354-1448
   (definitions only).  Simplifications: exact real arithmetic in place of binary64; NaN is [None];
   the apoapsis distance (transform.py:701) is not modelled. *)
From Coq Require Import Reals.
From Verif Require Import SphModel.
Open Scope R_scope.

(* jnp x % m for m > 0 *)
(* helper of [wrap_nu], kepler.py:171,180,189 *)
Definition pymod (x m : R) : R := x - m * IZR (Int_part (x / m)).
(* helper of [wrap_nu], kepler.py:171,180,189 *)
Definition turn : R := 2 * PI.
(* kepler.py:171,180,189 *)
Definition wrap_nu (nu : R) : R := if Rle_dec turn nu then pymod nu turn else nu.
(* kepler.py:174,183,192 *)
Definition wrap_M (M : R) : R := if Rlt_dec M 0 then M + turn else M.

(* kepler.py:169-175 *)
Definition elliptical_E (nu e : R) : R :=
  let nu := wrap_nu nu in atan2 (sqrt (1 - e ^ 2) * sin nu) (e + cos nu).
(* helper of [calc_mean_anomaly], kepler.py:156-166 *)
Definition elliptical_M (nu e : R) : R :=
  let E := elliptical_E nu e in wrap_M (E - e * sin E).
(* jnp.arctanh *)
(* helper of [hyperbolic_H], kepler.py:178-184 *)
Definition arctanh (x : R) : option R :=
  if Rlt_dec (Rabs x) 1 then Some (/ 2 * ln ((1 + x) / (1 - x))) else None.
(* kepler.py:178-184; the tangent is infinite at nu = pi, arctanh is then NaN *)
Definition hyperbolic_H (nu e : R) : option R :=
  let nu := wrap_nu nu in
  if Req_EM_T (cos (nu / 2)) 0 then None
  else option_map (fun x => 2 * x) (arctanh (sqrt ((e - 1) / (e + 1)) * tan (nu / 2))).
(* helper of [calc_mean_anomaly], kepler.py:156-166 *)
Definition hyperbolic_M (nu e : R) : option R :=
  option_map (fun H => wrap_M (e * sinh H - H)) (hyperbolic_H nu e).
(* kepler.py:187-193 *)
Definition parabolic_M (nu : R) : R :=
  let nu := wrap_nu nu in
  let D := atan (nu / 2) in wrap_M (D + D ^ 3 / 3).
(* kepler.py:156-166 *)
Definition calc_mean_anomaly (nu e : R) : option R :=
  if Rlt_dec e 1 then Some (elliptical_M nu e)
  else if Rlt_dec 1 e then hyperbolic_M nu e
  else Some (parabolic_M nu).

(* barker.py:28-33; the base of the powers is positive *)
Definition solve_barker (M : R) : R :=
  let b := 3 * M + sqrt ((3 * M) ^ 2 + 1) in
  2 * atan (Rpower b (1 / 3) - Rpower b (- 1 / 3)).

(* kepler.py:227-304: while (|ratio| > tol) & (iterations <= max_iter); the body runs at most
   max_iter + 1 times; the result is the anomaly and the last ratio *)
Fixpoint newton (ratio : R -> R) (tol : R) (fuel : nat) (E q : R) : R * R :=
  match fuel with
  | O => (E, q)
  | S k => if Rlt_dec tol (Rabs q) then let q := ratio E in newton ratio tol k (E - q) q else (E, q)
  end.
(* kepler.py:242-246 *)
Definition elliptical_ratio (e M E : R) : R := (E - e * sin E - M) / (1 - e * cos E).
(* kepler.py:265-269 *)
Definition hyperbolic_ratio (e M F : R) : R := (e * sinh F - F - M) / (e * cosh F - 1).
(* kepler.py:227-304 *)
Definition kepler_loop (e M : R) (max_iter : nat) (tol : R) : R * R :=
  newton (if Rlt_dec e 1 then elliptical_ratio e M else hyperbolic_ratio e M) tol (S max_iter) M (10 ^ 15).
(* kepler.py:306-311 *)
Definition elliptical_nu (e E : R) : R := 2 * atan2 (sqrt (1 + e) * sin (E / 2)) (sqrt (1 - e) * cos (E / 2)).
(* kepler.py:314-317 *)
Definition hyperbolic_nu (e H : R) : R := 2 * atan (sqrt (e + 1) * sinh (H / 2) / (sqrt (e - 1) * cosh (H / 2))).
(* kepler.py:329-331 *)
Definition normalise (nu : R) : R :=
  let nu := if Rlt_dec nu 0 then nu + turn else nu in
  if Rle_dec turn nu then pymod nu turn else nu.
(* kepler.py:197-331 *)
Definition solve_kepler (e M : R) (max_iter : nat) (tol : R) : R :=
  normalise (if Rlt_dec e 1 then elliptical_nu e (fst (kepler_loop e M max_iter tol))
             else if Rlt_dec 1 e then hyperbolic_nu e (fst (kepler_loop e M max_iter tol))
             else solve_barker M).

(* transform.py:94 *)
Definition float_tol : R := / 10 ^ 15.
(* (e > 1 - FLOAT_TOLERANCE) & (e < 1 + FLOAT_TOLERANCE) *)
(* helper of [true_anomaly], transform.py:922-928 *)
Definition parabolic (e : R) : bool :=
  if Rlt_dec (1 - float_tol) e then (if Rlt_dec e (1 + float_tol) then true else false) else false.

Section Vectors.
(* helper of [perifocal], transform.py:921-987 *)
Definition vec := (R * R * R)%type.
(* vector algebra for transform.py:562-747 *)
Definition dot (u v : vec) : R := let '(a, b, c) := u in let '(x, y, z) := v in a * x + b * y + c * z.
(* vector algebra for transform.py:562-747 *)
Definition cross (u v : vec) : vec :=
  let '(a, b, c) := u in let '(x, y, z) := v in (b * z - c * y, c * x - a * z, a * y - b * x).
(* vector algebra for transform.py:562-747 *)
Definition norm (u : vec) : R := sqrt (dot u u).
(* helper of [perifocal], transform.py:921-987 *)
Definition scale (k : R) (u : vec) : vec := let '(a, b, c) := u in (k * a, k * b, k * c).
(* helper of [perifocal], transform.py:921-987 *)
Definition vplus (u v : vec) : vec := let '(a, b, c) := u in let '(x, y, z) := v in (a + x, b + y, c + z).
(* helper of [perifocal], transform.py:921-987 *)
Definition vx (u : vec) : R := fst (fst u).
(* helper of [perifocal], transform.py:921-987 *)
Definition vy (u : vec) : R := snd (fst u).
(* helper of [perifocal], transform.py:921-987 *)
Definition vz (u : vec) : R := snd u.
(* position columns of a state *)
Definition pos (s : row6) : vec := (c_0 s, c_1 s, c_2 s).
(* velocity columns of a state *)
Definition vel (s : row6) : vec := (c_3 s, c_4 s, c_5 s).
(* helper of [perifocal], transform.py:921-987 *)
Definition row_of (r v : vec) : row6 := mk6 (vx r) (vy r) (vz r) (vx v) (vy v) (vz v).
End Vectors.

(* transform.py:921-987 for a given true anomaly *)
Definition perifocal (p e i raan ap nu mu : R) : row6 :=
  let r1 := p * cos nu / (1 + e * cos nu) in
  let r2 := p * sin nu / (1 + e * cos nu) in
  let v1 := - sqrt (mu / p) * sin nu in
  let v2 := sqrt (mu / p) * (e + cos nu) in
  (* the first two columns of P3  P2  P1 *)
  let col1 := (cos raan * cos ap - sin raan * cos i * sin ap,
               sin raan * cos ap + cos raan * cos i * sin ap, sin i * sin ap) in
  let col2 := (- cos raan * sin ap - sin raan * cos i * cos ap,
               - sin raan * sin ap + cos raan * cos i * cos ap, sin i * cos ap) in
  row_of (vplus (scale r1 col1) (scale r2 col2)) (vplus (scale v1 col1) (scale v2 col2)).
(* transform.py:922-928 *)
Definition true_anomaly (e M : R) (max_iter : nat) (tol : R) : R :=
  if parabolic e then solve_barker M else solve_kepler e M max_iter tol.
(* transform.py:864-987 _keplerian_to_cartesian_p; angles in degrees *)
Definition keplerian_to_cartesian_p (p e i raan ap M mu : R) (max_iter : nat) (tol : R) : row6 :=
  perifocal p e (radians i) (radians raan) (radians ap) (true_anomaly e (radians M) max_iter tol) mu.
(* transform.py:1000-1070 _keplerian_to_cartesian_a; NaN for parabolic orbits *)
Definition keplerian_to_cartesian_a (a e i raan ap M mu : R) (max_iter : nat) (tol : R) : option row6 :=
  if parabolic e then None else Some (keplerian_to_cartesian_p (a * (1 - e ^ 2)) e i raan ap M mu max_iter tol).
(* transform.py:1083-1153 _keplerian_to_cartesian_q *)
Definition keplerian_to_cartesian_q (q e i raan ap M mu : R) (max_iter : nat) (tol : R) : row6 :=
  keplerian_to_cartesian_p (if parabolic e then 2 * q else q / (1 - e) * (1 - e ^ 2)) e i raan ap M mu max_iter tol.
(* transform.py:1354-1448 _cometary_to_cartesian *)
Definition cometary_n (q e mu : R) : R :=
  if parabolic e then sqrt (mu / (2 * q ^ 3)) else sqrt (mu / Rabs (q / (1 - e)) ^ 3).
(* transform.py:1354-1448: mean anomaly from the time of periapsis *)
Definition cometary_M (q e tp t0 mu : R) : R :=
  let n := cometary_n q e mu in
  let dtp := tp - t0 in
  if Rlt_dec 0 dtp then 2 * PI - dtp * n else - dtp * n.
(* transform.py:1354-1448 *)
Definition cometary_to_cartesian (q e i raan ap tp t0 mu : R) (max_iter : nat) (tol : R) : row6 :=
  keplerian_to_cartesian_q q e i raan ap (degrees (cometary_M q e tp t0 mu)) mu max_iter tol.

(* x / y and arccos with NaN *)
(* division with NaN as None, for transform.py:562-747 *)
Definition odiv (x y : R) : option R := if Req_EM_T y 0 then None else Some (x / y).
(* arccos with NaN as None, for transform.py:562-747 *)
Definition oacos (x : R) : option R :=
  if Rle_dec (-1) x then (if Rle_dec x 1 then Some (acos x) else None) else None.
(* NaN propagation, for transform.py:562-747 *)
Definition obind {A B} (x : option A) (f : A -> option B) : option B := match x with Some y => f y | None => None end.
(* transform.py:562-747 _cartesian_to_keplerian: the thirteen columns except the apoapsis distance
   and the period, the angles in degrees *)
Record kep := mkkep { k_a : option R; k_p : R; k_q : option R; k_e : R; k_i : option R; k_raan : option R;
                      k_ap : option R; k_M : option R; k_nu : option R; k_n : option R; k_tp : option R }.
(* transform.py:562-747 *)
Definition cartesian_to_keplerian (s : row6) (t0 mu : R) : option kep :=
  let r := pos s in
  let v := vel s in
  let r_mag := norm r in
  let v_mag := norm v in
  if Req_EM_T r_mag 0 then None else
  let sme := v_mag ^ 2 / 2 - mu / r_mag in
  let h := cross r v in
  let h_mag := norm h in
  let n := cross (0, 0, 1) h in
  let n_mag := norm n in
  let e_vec := scale (/ mu) (vplus (scale (v_mag ^ 2 - mu / r_mag) r) (scale (- dot r v) v)) in
  let e := norm e_vec in
  let p := h_mag ^ 2 / mu in
  let i := obind (odiv (vz h) h_mag) oacos in
  let raan := option_map (fun x => if Rlt_dec (vy n) 0 then 2 * PI - x else x) (obind (odiv (vx n) n_mag) oacos) in
  let raan := match i with
              | Some j => if Rlt_dec j float_tol then Some 0
                          else if Rlt_dec (Rabs (j - 2 * PI)) float_tol then Some 0 else raan
              | None => raan end in
  let ap := option_map (fun x => if Rlt_dec (vz e_vec) 0 then 2 * PI - x else x) (obind (odiv (dot n e_vec) (n_mag * e)) oacos) in
  let ap := if Rlt_dec (Rabs e) float_tol then Some 0 else ap in
  let nu := option_map (fun x => if Rlt_dec (dot r v) 0 then 2 * PI - x else x) (obind (odiv (dot e_vec r) (e * r_mag)) oacos) in
  let a := if parabolic e then None else odiv mu (-2 * sme) in
  let q := if parabolic e then Some (p / 2) else option_map (fun a => a * (1 - e)) a in
  let M := obind nu (fun nu => calc_mean_anomaly nu e) in
  let mm := if parabolic e then obind q (fun q => obind (odiv mu (2 * q ^ 3)) (fun x => Some (sqrt x)))
            else obind a (fun a => obind (odiv mu (Rabs a ^ 3)) (fun x => Some (sqrt x))) in
  let dtp := obind M (fun M => obind mm (fun n =>
               if Rlt_dec PI M then
                 if Rlt_dec e (1 - float_tol) then obind (odiv (2 * PI) n) (fun P => option_map (fun x => P - x) (odiv M n))
                 else option_map (fun x => - x) (odiv M n)
               else option_map (fun x => - x) (odiv M n))) in
  let tp := option_map (fun d => t0 + d) dtp in
  Some (mkkep a p q e (option_map degrees i) (option_map degrees raan) (option_map degrees ap)
              (option_map degrees M) (option_map degrees nu) (option_map degrees mm) tp).
