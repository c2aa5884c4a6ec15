(* What an ephemeris should say, independent of how the library computes it. *)
From Coq Require Import Reals String.
From Verif Require Import SphModel KepModel.
Open Scope string_scope.
Open Scope R_scope.

(* the IAU 1976 obliquity of the ecliptic, 84381.448 arc seconds *)
Definition obliquity_j2000 : R := 84381448 / 1000 / 3600 * (PI / 180).
(* equatorial components of a vector given in the ecliptic, and back *)
Definition equatorial (v : vec) : vec :=
  let '(x, y, z) := v in
  (x, cos obliquity_j2000 * y - sin obliquity_j2000 * z, sin obliquity_j2000 * y + cos obliquity_j2000 * z).
Definition ecliptic (v : vec) : vec :=
  let '(x, y, z) := v in
  (x, cos obliquity_j2000 * y + sin obliquity_j2000 * z, cos obliquity_j2000 * z - sin obliquity_j2000 * y).
(* the point at distance rho, longitude lon and latitude lat in degrees *)
Definition sky (rho lon lat : R) : vec :=
  (rho * (cos (lat * (PI / 180)) * cos (lon * (PI / 180))),
   rho * (cos (lat * (PI / 180)) * sin (lon * (PI / 180))),
   rho * sin (lat * (PI / 180))).
(* a vector from one place to another *)
Definition towards (a b : vec) : vec := vplus b (scale (-1) a).
(* a barycentric ecliptic state r, v belongs to a row with the given frame, origin and epoch *)
Definition barycentric_state (rel : string -> string -> R -> string -> option row6)
    (frame origin : string) (t : R) (s : row6) (b : row6) : Prop :=
  exists w, rel origin "SOLAR_SYSTEM_BARYCENTER" t frame = Some w /\
    ((frame = "ecliptic" /\ pos b = vplus (pos s) (pos w) /\ vel b = vplus (vel s) (vel w)) \/
     (frame = "equatorial" /\ pos b = ecliptic (vplus (pos s) (pos w)) /\ vel b = ecliptic (vplus (vel s) (vel w)))).
(* the barycentre is at rest at its own origin *)
Definition rest (rel : string -> string -> R -> string -> option row6) : Prop :=
  forall o t f, rel o o t f = Some (mk6 0 0 0 0 0 0).

(* component i of a row, and a row with component j moved by h *)
Definition comp (i : nat) (s : row6) : R :=
  match i with 0%nat => c_0 s | 1%nat => c_1 s | 2%nat => c_2 s | 3%nat => c_3 s | 4%nat => c_4 s | _ => c_5 s end.
Definition bump (s : row6) (j : nat) (h : R) : row6 :=
  match j with
  | 0%nat => mk6 (c_0 s + h) (c_1 s) (c_2 s) (c_3 s) (c_4 s) (c_5 s)
  | 1%nat => mk6 (c_0 s) (c_1 s + h) (c_2 s) (c_3 s) (c_4 s) (c_5 s)
  | 2%nat => mk6 (c_0 s) (c_1 s) (c_2 s + h) (c_3 s) (c_4 s) (c_5 s)
  | 3%nat => mk6 (c_0 s) (c_1 s) (c_2 s) (c_3 s + h) (c_4 s) (c_5 s)
  | 4%nat => mk6 (c_0 s) (c_1 s) (c_2 s) (c_3 s) (c_4 s + h) (c_5 s)
  | _ => mk6 (c_0 s) (c_1 s) (c_2 s) (c_3 s) (c_4 s) (c_5 s + h)
  end.
(* d is the derivative of component i of f(x) with respect to component j of x *)
Definition partial_derivative (f : row6 -> option row6) (x : row6) (i j : nat) (d : R) : Prop :=
  exists g delta, 0 < delta /\ (forall h, Rabs h < delta -> exists y, f (bump x j h) = Some y /\ comp i y = g h) /\
    derivable_pt_lim g 0 d.
(* automatic differentiation finds every derivative there is *)
Definition differentiates (jac : (row6 -> option row6) -> row6 -> nat -> nat -> option R) : Prop :=
  forall f x i j d, partial_derivative f x i j d -> jac f x i j = Some d.
Definition total6 (f : nat -> R) : R := f 0%nat + f 1%nat + f 2%nat + f 3%nat + f 4%nat + f 5%nat.
(* element i, j of D C D' *)
Definition propagated (D C : nat -> nat -> R) (i j : nat) : R := total6 (fun k => total6 (fun l => D i k * C k l * D j l)).
(* the angle at p between the directions to a and to b *)
Definition angle_from (p a b : vec) : R := acos (dot (towards p a) (towards p b) / (norm (towards p a) * norm (towards p b))).
(* the heliocentric ecliptic position q belongs to a row with the given frame, origin and epoch *)
Definition heliocentric_position (rel : string -> string -> R -> string -> option row6)
    (frame origin : string) (t : R) (s : row6) (q : vec) : Prop :=
  exists w, rel origin "SUN" t frame = Some w /\
    ((frame = "ecliptic" /\ q = vplus (pos s) (pos w)) \/ (frame = "equatorial" /\ q = ecliptic (vplus (pos s) (pos w)))).
