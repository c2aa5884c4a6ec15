(* Specifications for two-body propagation. *)
From Coq Require Import Reals.
From Verif Require Import SphModel KepModel KepSpec UnivModel.
Open Scope R_scope.

(* the vector function X has derivative d at t *)
Definition vderiv (X : R -> vec) (t : R) (d : vec) : Prop :=
  derivable_pt_lim (fun t => vx (X t)) t (vx d) /\
  derivable_pt_lim (fun t => vy (X t)) t (vy d) /\
  derivable_pt_lim (fun t => vz (X t)) t (vz d).
(* Newton: a trajectory under the attraction of a point mass at the origin *)
Definition two_body (mu : R) (X V : R -> vec) : Prop :=
  forall t, X t <> (0, 0, 0) /\ vderiv X t (V t) /\ vderiv V t (scale (- mu / norm (X t) ^ 3) (X t)).
(* not moving along the line through the centre *)
Definition not_radial (s : row6) : Prop := cross (pos s) (vel s) <> (0, 0, 0).
(* what the motion conserves *)
Definition energy (mu : R) (s : row6) : R := norm (vel s) ^ 2 / 2 - mu / norm (pos s).
Definition momentum (s : row6) : vec := cross (pos s) (vel s).
(* mu times the vector towards periapsis whose length is the eccentricity *)
Definition eccentricity (mu : R) (s : row6) : vec :=
  vplus (cross (vel s) (momentum s)) (scale (- mu / norm (pos s)) (pos s)).
(* the last correction the iteration made *)
Definition last_step (s : row6) (dt mu : R) (max_iter : nat) (tol : R) (q : R) : Prop :=
  exists chi c, calc_chi (pos s) (vel s) dt mu max_iter tol = Some (chi, c, q).
