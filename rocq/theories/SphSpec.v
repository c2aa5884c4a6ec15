(* Specifications for the spherical and geodetic conversions. *)
From Coq Require Import Reals.
From Verif Require Import SphModel.
Open Scope R_scope.

(* the row is not on the polar axis *)
Definition off_axis (s : row6) : Prop := c_0 s <> 0 \/ c_1 s <> 0.
(* documented ranges of rho, lon and lat *)
Definition spherical_ranges (s : row6) : Prop :=
  0 <= c_0 s /\ 0 <= c_1 s < 360 /\ -90 <= c_2 s <= 90.
(* a point at height h above the ellipsoid with axes a and a(1-f), geodetic longitude lon and
   latitude lat (radians), in Cartesian coordinates *)
Definition ellipsoid_point (a f lon lat h : R) : R * R * R :=
  let e2 := 1 - (1 - f) ^ 2 in
  let n := a / sqrt (1 - e2 * sin lat ^ 2) in
  ((n + h) * cos lat * cos lon, (n + h) * cos lat * sin lon, (n * (1 - f) ^ 2 + h) * sin lat).
Definition on_ellipsoid (a f x y z : R) : Prop := (x ^ 2 + y ^ 2) / a ^ 2 + z ^ 2 / (a * (1 - f)) ^ 2 = 1.
(* the local directions at geodetic longitude lon and latitude lat (radians) *)
Definition up (lon lat : R) : R * R * R := (cos lat * cos lon, cos lat * sin lon, sin lat).
Definition east (lon lat : R) : R * R * R := (- sin lon, cos lon, 0).
Definition north (lon lat : R) : R * R * R := (- sin lat * cos lon, - sin lat * sin lon, cos lat).
Definition along (v d : R * R * R) : R :=
  let '(a, b, c) := v in let '(x, y, z) := d in a * x + b * y + c * z.
Definition velocity (s : row6) : R * R * R := (c_3 s, c_4 s, c_5 s).
(* the geodetic coordinates describe the position of the row *)
Definition describes (a f : R) (g : geodetic) (s : row6) : Prop :=
  ellipsoid_point a f (radians (g_lon g)) (radians (g_lat g)) (g_alt g) = (c_0 s, c_1 s, c_2 s).
(* distance from the centre in units of the ellipsoid: 1 on its surface, more above it *)
Definition scaled_radius (a f : R) (s : row6) : R :=
  sqrt ((c_0 s ^ 2 + c_1 s ^ 2) / a ^ 2 + c_2 s ^ 2 / (a * (1 - f)) ^ 2).
