(* Specifications for the distance between orbits. *)
From Coq Require Import Reals.
From Verif Require Import SphModel KepModel LambertModel.
Open Scope R_scope.
(* an ellipse by its two foci: the origin and (-2 a e, 0, 0) *)
Definition on_ellipse (a e : R) (X : vec) : Prop :=
  vz X = 0 /\ norm X + norm (vminus X (- (2 * a * e), 0, 0)) = 2 * a.
(* a position on the orbit of the given elements *)
Definition on_orbit (p e i raan ap : R) (X : vec) : Prop :=
  exists nu, 0 < 1 + e * cos nu /\ X = pos (perifocal p e i raan ap nu 1).
(* a position in the plane through the origin of position and velocity of s *)
Definition in_plane (s : row6) (X : vec) : Prop := dot (cross (pos s) (vel s)) X = 0.
