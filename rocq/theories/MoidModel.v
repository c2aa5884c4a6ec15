(* Model of src/adam_core/dynamics/moid.py (definitions only).
   Simplifications: exact real arithmetic; NaN is [None]. scipy's minimize_scalar (bounded) is an
   oracle: it picks a place between the bounds and reports success; the minimum it returns is the
   value of the function there. *)
From Coq Require Import Reals List ZArith.
From Verif Require Import Base SphModel KepModel LambertModel.
Open Scope R_scope.

(* moid.py:54-64: NaN when position and velocity are parallel *)
Definition project_point_on_plane (P0 : vec) (s : row6) : option vec :=
  let h := cross (pos s) (vel s) in
  if Req_EM_T (norm h) 0 then None
  else let n := scale (/ norm h) h in Some (vminus P0 (scale (dot P0 n) n)).
(* moid.py:73-81: the point of the curve at the angle u; the tangent is infinite at odd multiples of pi *)
Definition curve_point (a e u : R) : option vec :=
  if Rle_dec 1 e then None
  else if Req_EM_T (cos (u / 2)) 0 then None
  else let E := 2 * atan (sqrt ((1 - e) / (1 + e)) * tan (u / 2)) in
       let v := 2 * atan (sqrt ((1 + e) / (1 - e)) * tan (u / 2)) in
       let r := a * (1 - e * cos E) in
       Some (r * cos v, r * sin v, 0).
(* moid.py:67-84 *)
Definition coplanar_distance_to_ellipse (P : vec) (a e u : R) : option R :=
  option_map (fun X => norm (vminus P X)) (curve_point a e u).
(* moid.py:105-113 *)
Definition distance_from_point_to_ellipse (P0 P : vec) (d_parallel : R) : R :=
  sqrt (norm (vminus P P0) ^ 2 + d_parallel ^ 2).
Section Search.
Variable minimize : (R -> option R) -> R -> R -> R * bool. (* scipy.optimize.minimize_scalar *)
(* moid.py:87-102: success is not looked at *)
Definition minimize_distance (P : vec) (a e : R) : option R :=
  let f := coplanar_distance_to_ellipse P a e in f (fst (minimize f 0 (2 * PI))).
(* moid.py:116-128; the conversion to elements is KepModel.cartesian_to_keplerian *)
Definition calculate_distance (P0 : vec) (s : row6) (t0 mu : R) : option R :=
  obind (project_point_on_plane P0 s) (fun P =>
  obind (cartesian_to_keplerian s t0 mu) (fun k =>
  obind (k_a k) (fun a =>
  obind (minimize_distance P a (k_e k)) (fun d => Some (distance_from_point_to_ellipse P0 P d))))).
(* moid.py:131-178: [propagate] is the position the primary reaches after dt; bounds are one period
   for an ellipse, 10000 days otherwise *)
Variable propagate : R -> vec.
Definition calculate_moid (e period : R) (s2 : row6) (t0 mu : R) : result (option R * R) :=
  let hi := if Rlt_dec e 1 then period else 10000 in
  let f := fun dt => calculate_distance (propagate dt) s2 t0 mu in
  let '(dt, ok) := minimize f 0 hi in
  if ok then Ok (f dt, t0 + dt) else Err ValueError.
End Search.
