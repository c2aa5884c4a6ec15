(* Model of src/adam_core/dynamics/lambert.py (definitions only).
   Simplifications: exact real arithmetic in place of binary64; NaN and infinities are [None];
   the number of revolutions M is a natural number; a division by exactly zero inside the search
   for the shortest multi-revolution time (lambert.py:269-292) is treated as NaN. *)
From Coq Require Import Reals List ZArith.
From Verif Require Import Base SphModel KepModel.
Import ListNotations.
Open Scope R_scope.

(* helper of [semi], lambert.py:382-414 *)
Definition vminus (u v : vec) : vec := vplus u (scale (-1) v).
(* helper of [find_x], lambert.py:295-333 *)
Definition guard {A} (b : bool) (x : option A) : option A := if b then x else None.
(* helper of [M_max], lambert.py:299-314 *)
Definition rlt (x y : R) : bool := if Rlt_dec x y then true else false.
(* comparison as a boolean *)
Definition rle (x y : R) : bool := if Rle_dec x y then true else false.

(* lambert.py:24-53: the partial sum of the series of 2F1(3, 1, 5/2, x); infinite for x >= 1 *)
Fixpoint hyp_loop (k : nat) (i x term res : R) : R :=
  match k with
  | O => res
  | S k => let term := term * (3 + i) * (1 + i) / (5 / 2 + i) * x / (i + 1) in
           hyp_loop k (i + 1) x term (res + term)
  end.
(* lambert.py:24-53 *)
Definition hyp2f1b (x : R) : option R := if Rle_dec 1 x then None else Some (hyp_loop 100 0 x 1 1).
(* lambert.py:56-59; the argument is not negative because |ll| <= 1 *)
Definition compute_y (x ll : R) : R := sqrt (1 - ll ^ 2 * (1 - x ^ 2)).
(* jnp.clip *)
(* helper of [compute_psi], lambert.py:62-80 *)
Definition clip (x lo hi : R) : R := Rmin (Rmax x lo) hi.
(* lambert.py:62-80 *)
Definition compute_psi (x y ll : R) : R :=
  if Rlt_dec x 1 then acos (clip (x * y + ll * (1 - x ^ 2)) (-1) 1)
  else if Rlt_dec 1 x then arcsinh ((y - x * ll) * sqrt (x ^ 2 - 1))
  else 0.
(* lambert.py:83-106: the branch near the parabola, the general branch, the choice *)
Definition tof_series (x y ll : R) : option R :=
  let eta := y - ll * x in
  let S_1 := (1 - ll - x * eta) / 2 in
  option_map (fun F => (eta ^ 3 * (4 / 3 * F) + 4 * ll * eta) / 2) (hyp2f1b S_1).
(* helper of [tof_equation], lambert.py:109-113 *)
Definition tof_general (x y ll : R) (M : nat) : option R :=
  if Req_EM_T (x ^ 2) 1 then None
  else Some (((compute_psi x y ll + INR M * PI) / sqrt (Rabs (1 - x ^ 2)) - x + ll * y) / (1 - x ^ 2)).
(* helper of [tof_equation], lambert.py:109-113 *)
Definition near_parabola (x : R) (M : nat) : bool :=
  match M with O => rlt (sqrt (6 / 10)) x && rlt x (sqrt (14 / 10)) | S _ => false end.
(* lambert.py:83-106 *)
Definition tof_equation_y (x y T0 ll : R) (M : nat) : option R :=
  option_map (fun T => T - T0) (if near_parabola x M then tof_series x y ll else tof_general x y ll M).
(* lambert.py:109-113 *)
Definition tof_equation (x T0 ll : R) (M : nat) : option R := tof_equation_y x (compute_y x ll) T0 ll M.
(* lambert.py:116-131 *)
Definition tof_p (x y T ll : R) : R := (3 * T * x - 2 + 2 * ll ^ 3 * x / y) / (1 - x ^ 2).
(* helper of [house_step], lambert.py:179-209 *)
Definition tof_p2 (x y T dT ll : R) : R := (3 * T + 5 * x * dT + 2 * (1 - ll ^ 2) * ll ^ 3 / y ^ 3) / (1 - x ^ 2).
(* helper of [house_step], lambert.py:179-209 *)
Definition tof_p3 (x y dT ddT ll : R) : R := (7 * x * ddT + 8 * dT - 6 * (1 - ll ^ 2) * ll ^ 5 * x / y ^ 5) / (1 - x ^ 2).

(* lambert.py:134-172 *)
Definition T_zero (ll : R) (M : nat) : R := acos ll + ll * sqrt (1 - ll ^ 2) + INR M * PI.
(* helper of [find_x], lambert.py:295-333 *)
Definition T_one (ll : R) : R := 2 * (1 - ll ^ 3) / 3.
(* helper of [find_x], lambert.py:295-333 *)
Definition guess_single (T ll : R) : option R :=
  let T_0 := T_zero ll 0 in
  let T_1 := T_one ll in
  if Rle_dec T_0 T then guard (rlt 0 T) (Some (Rpower (T_0 / T) (2 / 3) - 1))
  else if Rlt_dec T T_1 then
    if Req_EM_T T 0 then None else if Req_EM_T (1 - ll ^ 5) 0 then None
    else Some (5 / 2 * T_1 / T * (T_1 - T) / (1 - ll ^ 5) + 1)
  else guard (rlt 0 T) (Some (exp (ln 2 * ln (T / T_0) / ln (T_1 / T_0)) - 1)).
(* helper of [find_x], lambert.py:295-333 *)
Definition guess_multi (T : R) (M : nat) (low_path : bool) : option R :=
  let a := Rpower ((INR M * PI + PI) / (8 * T)) (2 / 3) in
  let b := Rpower (8 * T / (INR M * PI)) (2 / 3) in
  let x_0l := (a - 1) / (a + 1) in
  let x_0r := (b - 1) / (b + 1) in
  guard (rlt 0 T) (Some (if low_path then Rmax x_0l x_0r else Rmin x_0l x_0r)).
(* lambert.py:134-172 *)
Definition initial_guess (T ll : R) (M : nat) (low_path : bool) : option R :=
  match M with O => guess_single T ll | S _ => guess_multi T M low_path end.

(* jnp.sign *)
(* helper of [house_step], lambert.py:179-209 *)
Definition rsign (x : R) : R := if Rlt_dec 0 x then 1 else if Rlt_dec x 0 then -1 else 0.
(* lambert.py:179-209: one step.  A zero denominator makes the quotient infinite (clipped to the
   largest step) or NaN. *)
Definition house_step (T0 ll : R) (M : nat) (p : R) : option R :=
  let y := compute_y p ll in
  obind (tof_equation_y p y T0 ll M) (fun fval =>
  if Req_EM_T (p ^ 2) 1 then None else
  let T := fval + T0 in
  let fder := tof_p p y T ll in
  let fder2 := tof_p2 p y T fder ll in
  let fder3 := tof_p3 p y fder fder2 ll in
  let num := fder ^ 2 - fval * fder2 / 2 in
  let den := fder * (fder ^ 2 - fval * fder2) + fder3 * fval ^ 2 / 6 in
  let den := if Rlt_dec (Rabs den) (/ 10 ^ 15) then rsign den * / 10 ^ 15 else den in
  let max_step := Rmax (1 / 10) (Rabs p) in
  obind (if Req_EM_T den 0 then if Req_EM_T (fval * num) 0 then None else Some (rsign (fval * num) * max_step)
         else Some (clip (fval * (num / den)) (- max_step) max_step)) (fun delta =>
  Some (p - delta))).
(* lambert.py:211-231: the loop; the state is the previous and the current value *)
Fixpoint house_loop (T0 ll : R) (M : nat) (atol rtol : R) (fuel : nat) (p0 p : R) : option R :=
  if Rlt_dec (Rabs (p - p0)) (rtol * Rabs p0 + atol) then Some p
  else match fuel with
       | O => Some p
       | S k => obind (house_step T0 ll M p) (fun q => house_loop T0 ll M atol rtol k p q)
       end.
(* lambert.py:175-231 *)
Definition householder (p0 T0 ll : R) (M : nat) (atol rtol : R) (maxiter : nat) : option R :=
  house_loop T0 ll M atol rtol maxiter p0 (p0 * (11 / 10) + 1 / 100).

(* lambert.py:268-292 *)
Definition halley_step (T0 ll p : R) : option R :=
  if Req_EM_T (p ^ 2) 1 then None else
  let y := compute_y p ll in
  let fder := tof_p p y T0 ll in
  let fder2 := tof_p2 p y T0 fder ll in
  let fder3 := tof_p3 p y fder fder2 ll in
  obind (odiv (2 * fder * fder2) (2 * fder2 ^ 2 - fder * fder3)) (fun q => Some (p - q)).
(* lambert.py:268-292 *)
Fixpoint halley (T0 ll atol rtol : R) (fuel : nat) (p : R) : R :=
  match fuel with
  | O => p
  | S k => match halley_step T0 ll p with
           | Some q => if Rle_dec (rtol * Rabs p + atol) (Rabs (q - p)) then halley T0 ll atol rtol k q else p
           | None => p
           end
  end.
(* lambert.py:234-265: the shortest time with M revolutions *)
Definition compute_T_min (ll : R) (M : nat) (maxiter : nat) (atol rtol : R) : option R :=
  if Rlt_dec (Rabs (ll - 1)) (/ 10 ^ 10) then tof_equation 0 0 ll M
  else match M with
       | O => Some 0
       | S _ => obind (tof_equation (1 / 10) 0 ll M) (fun T_i =>
                tof_equation (halley T_i ll atol rtol maxiter (1 / 10)) 0 ll M)
       end.
(* lambert.py:299-314: the largest number of revolutions *)
Definition M_max (ll T : R) (maxiter : nat) (atol rtol : R) : Z :=
  let m := Int_part (T / PI) in
  let T_00 := acos (Rabs ll) + Rabs ll * sqrt (1 - ll ^ 2) in
  if rlt T (T_00 + IZR m * PI) && (0 <? m)%Z then
    match compute_T_min ll (Z.to_nat m) maxiter atol rtol with
    | Some T_min => if Rlt_dec T T_min then (m - 1)%Z else m
    | None => m
    end
  else m.
(* lambert.py:295-333: x; y follows from x *)
Definition find_x (ll T : R) (M : nat) (maxiter : nat) (atol rtol : R) (low_path : bool) : option R :=
  if Rlt_dec (Rabs ll) 1 then
    guard (Z.of_nat M <=? M_max ll T maxiter atol rtol)%Z
      (obind (initial_guess T ll M low_path) (fun x_0 => householder x_0 T ll M atol rtol maxiter))
  else None.

(* lambert.py:382-414: the triangle of the centre and the two positions *)
Definition semi (r1 r2 : vec) : R := (norm r1 + norm r2 + norm (vminus r2 r1)) / 2.
(* helper of [track], lambert.py:408-409, 413-414 *)
Definition unit_of (u : vec) : vec := scale (/ norm u) u.
(* helper of [sense], lambert.py:404, 412 *)
Definition pole_of (r1 r2 : vec) : vec :=
  let h := cross (unit_of r1) (unit_of r2) in
  if Rlt_dec 0 (norm h) then scale (/ norm h) h else h.
(* +1 along, -1 against the pole: lambert.py:404, 412 *)
Definition sense (r1 r2 : vec) (prograde : bool) : R :=
  let up := if Rlt_dec (vz (pole_of r1 r2)) 0 then -1 else 1 in
  if prograde then up else - up.
(* helper of [velocities], lambert.py:428-440 *)
Definition ll_of (r1 r2 : vec) (prograde : bool) : R :=
  sense r1 r2 prograde * sqrt (1 - Rmin 1 (norm (vminus r2 r1) / semi r1 r2)).
(* lambert.py:408-409, 413-414: cross(i_r, i_h) is the opposite of cross(i_h, i_r) *)
Definition track (r1 r2 : vec) (prograde : bool) (r : vec) : vec :=
  scale (sense r1 r2 prograde) (cross (pole_of r1 r2) (unit_of r)).
(* lambert.py:417 *)
Definition T_of (r1 r2 : vec) (tof mu : R) : R := sqrt (2 * mu / semi r1 r2 ^ 3) * tof.
(* lambert.py:428-440: the velocities for the solution x *)
Definition velocities (r1 r2 : vec) (mu : R) (prograde : bool) (x : R) : vec * vec :=
  let n1 := norm r1 in
  let n2 := norm r2 in
  let ll := ll_of r1 r2 prograde in
  let y := compute_y x ll in
  let gamma := sqrt (mu * semi r1 r2 / 2) in
  let rho := (n1 - n2) / norm (vminus r2 r1) in
  let sigma := sqrt (1 - rho ^ 2) in
  let V_r1 := gamma * ((ll * y - x) - rho * (ll * y + x)) / n1 in
  let V_r2 := - gamma * ((ll * y - x) + rho * (ll * y + x)) / n2 in
  let V_t1 := gamma * sigma * (y + ll * x) / n1 in
  let V_t2 := gamma * sigma * (y + ll * x) / n2 in
  (vplus (scale V_r1 (unit_of r1)) (scale V_t1 (track r1 r2 prograde r1)),
   vplus (scale V_r2 (unit_of r2)) (scale V_t2 (track r1 r2 prograde r2))).
(* lambert.py:336-450: None is NaN in every component.  A zero position or equal positions divide
   zero by zero; a negative mu has no square root. *)
Record options := mkopt { o_M : nat; o_prograde : bool; o_low_path : bool; o_maxiter : nat; o_atol : R; o_rtol : R }.
(* helper of [solve_lambert], lambert.py:463-523 *)
Definition solution_x (r1 r2 : vec) (tof mu : R) (o : options) : option R :=
  find_x (ll_of r1 r2 (o_prograde o)) (T_of r1 r2 tof mu) (o_M o) (o_maxiter o) (o_atol o) (o_rtol o) (o_low_path o).
(* lambert.py:336-450 *)
Definition izzo_lambert (r1 r2 : vec) (tof mu : R) (o : options) : option (vec * vec) :=
  if Req_EM_T (norm r1) 0 then None
  else if Req_EM_T (norm r2) 0 then None
  else if Req_EM_T (norm (vminus r2 r1)) 0 then None
  else if Rlt_dec mu 0 then None
  else option_map (velocities r1 r2 mu (o_prograde o)) (solution_x r1 r2 tof mu o).
(* lambert.py:463-523: row by row, no complete revolution, low path; vmap refuses different lengths.
   A single time of flight is repeated. *)
Definition solve_lambert (r1 r2 : list vec) (tof : R + list R) (mu : R) (prograde : bool) (max_iter : nat) (tol : R)
  : result (list (option (vec * vec))) :=
  let tofs := match tof with inl t => repeat t (List.length r1) | inr l => l end in
  if (List.length r1 =? List.length r2)%nat && (List.length r1 =? List.length tofs)%nat then
    Ok (map (fun '(a, b, t) => izzo_lambert a b t mu (mkopt 0 prograde true max_iter tol tol)) (combine (combine r1 r2) tofs))
  else Err ValueError.
(* lambert.py:526-559 *)
Definition calculate_c3 (v1 body_v : vec) : R := norm (vminus v1 body_v) ^ 2.
