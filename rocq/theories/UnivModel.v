(* Model of two-body propagation by universal variables: src/adam_core/dynamics/stumpff.py:13-89,
   dynamics/chi.py:27-146, dynamics/lagrange.py:17-128 and dynamics/propagation.py:29-74
   (definitions only).  Simplifications: exact real arithmetic in place of binary64, except that a
   hyperbolic cosine of 2^1024 or more is not finite; a state with a component that is not finite
   is [None] (the callers, propagation.py:83-263, turn it into DynamicsNumericalError). *)
From Coq Require Import Reals.
From Verif Require Import SphModel KepModel.
Open Scope R_scope.

(* c0, c1, c2, c3, c4, c5 *)
(* helper of [from_c01], stumpff.py:23-28, 41-46 *)
Record stumpff6 := mkc { s_0 : R; s_1 : R; s_2 : R; s_3 : R; s_4 : R; s_5 : R }.
(* stumpff.py:23-28, 41-46: the recursion from c0 and c1 *)
Definition from_c01 (psi c0 c1 : R) : stumpff6 :=
  let c2 := (1 - c0) / psi in
  let c3 := (1 - c1) / psi in
  mkc c0 c1 c2 c3 ((1 / 2 - c2) / psi) ((1 / 6 - c3) / psi).
(* the smallest power of two that is not a binary64 number *)
(* helper of [calc_stumpff], stumpff.py:13-89 *)
Definition overflow : R := 2 ^ 1024.
(* stumpff.py:13-89.  Past overflow c0 and c1 are infinite: every c is infinite, the Newton
   correction of chi.py:115 is inf / inf *)
Definition calc_stumpff (psi : R) : option stumpff6 :=
  if Rlt_dec 0 psi then
    let q := sqrt psi in Some (from_c01 psi (cos q) (sin q / q))
  else if Rlt_dec psi 0 then
    let q := sqrt (- psi) in
    if Rlt_dec (cosh q) overflow then Some (from_c01 psi (cosh q) (sinh q / q)) else None
  else Some (mkc 1 1 (1 / 2) (1 / 6) (1 / 24) (1 / 120)).

(* chi.py:77, lagrange.py:78: alpha, the reciprocal of the semi-major axis *)
Definition alpha (r v : vec) (mu : R) : R := - norm v ^ 2 / mu + 2 / norm r.
(* chi.py:97-113: the function whose root is sought and its derivative, from the Stumpff values *)
Definition chi_f (r v : vec) (dt mu chi : R) (c : stumpff6) : R :=
  norm r * (dot r v / norm r) / sqrt mu * chi ^ 2 * s_2 c
  + (1 - alpha r v mu * norm r) * chi ^ 3 * s_3 c + norm r * chi - sqrt mu * dt.
(* helper of [chi_loop], chi.py:87-144 *)
Definition chi_fp (r v : vec) (mu chi : R) (c : stumpff6) : R :=
  norm r * (dot r v / norm r) / sqrt mu * chi * (1 - alpha r v mu * chi ^ 2 * s_3 c)
  + (1 - alpha r v mu * norm r) * chi ^ 2 * s_2 c + norm r.
(* chi.py:87-144: the loop; [fuel] counts the iterations left, the result is chi, the Stumpff
   values of the last iteration (those of chi before its last correction) and the last correction.
   A derivative of zero makes the correction infinite or NaN. *)
Fixpoint chi_loop (r v : vec) (dt mu tol : R) (fuel : nat) (chi : R) (c : stumpff6) (q : R) : option (R * stumpff6 * R) :=
  match fuel with
  | O => Some (chi, c, q)
  | S k =>
    if Rlt_dec tol (Rabs q) then
      obind (calc_stumpff (alpha r v mu * chi ^ 2)) (fun c =>
      obind (odiv (chi_f r v dt mu chi c) (chi_fp r v mu chi c)) (fun q =>
      chi_loop r v dt mu tol k (chi - q) c q))
    else Some (chi, c, q)
  end.
(* chi.py:80, 87: the starting values; iterations <= max_iter lets the body run max_iter + 1 times *)
Definition calc_chi (r v : vec) (dt mu : R) (max_iter : nat) (tol : R) : option (R * stumpff6 * R) :=
  if Req_EM_T (norm r) 0 then None
  else chi_loop r v dt mu tol (S max_iter) (sqrt mu * Rabs (alpha r v mu) * dt) (mkc 0 0 0 0 0 0) (10 ^ 15).

(* lagrange.py:80-91: f, g, f_dot, g_dot from chi and the Stumpff values *)
Definition lagrange (r v : vec) (dt mu chi : R) (c : stumpff6) : option (R * R * R * R) :=
  let f := 1 - chi ^ 2 / norm r * s_2 c in
  let g := dt - 1 / sqrt mu * chi ^ 3 * s_3 c in
  let r_new := norm (vplus (scale f r) (scale g v)) in
  if Req_EM_T r_new 0 then None
  else Some (f, g, sqrt mu / (norm r * r_new) * (alpha r v mu * chi ^ 3 * s_3 c - chi), 1 - chi ^ 2 / r_new * s_2 c).
(* lagrange.py:17-93 *)
Definition calc_lagrange (r v : vec) (dt mu : R) (max_iter : nat) (tol : R) : option (R * R * R * R) :=
  obind (calc_chi r v dt mu max_iter tol) (fun '(chi, c, _) => lagrange r v dt mu chi c).
(* lagrange.py:96-128 *)
Definition apply_lagrange (r v : vec) (k : R * R * R * R) : vec * vec :=
  let '(f, g, fd, gd) := k in
  (vplus (scale f r) (scale g v), vplus (scale fd r) (scale gd v)).
(* propagation.py:29-74 *)
Definition propagate (s : row6) (t0 t1 mu : R) (max_iter : nat) (tol : R) : option row6 :=
  option_map (fun k => let '(r, v) := apply_lagrange (pos s) (vel s) k in row_of r v)
             (calc_lagrange (pos s) (vel s) (t1 - t0) mu max_iter tol).
