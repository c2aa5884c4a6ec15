(* Specifications for anomalies and orbital elements. *)
From Coq Require Import Reals.
From Verif Require Import SphModel KepModel.
Open Scope R_scope.

(* two angles of the same direction *)
Definition same_angle (a b : R) : Prop := exists k : Z, a = b + IZR k * (2 * PI).
(* the last Newton correction of the Kepler solver was within the tolerance *)
Definition converged (e M : R) (max_iter : nat) (tol : R) : Prop :=
  Rabs (snd (kepler_loop e M max_iter tol)) <= tol.
(* the angle nu lies strictly inside the asymptotes of the hyperbola *)
Definition on_hyperbola (e nu : R) : Prop := 0 < 1 + e * cos nu.
(* Barker: the parabolic mean anomaly sqrt(mu / (2 q^3)) (t - tp) of a true anomaly *)
Definition barker (nu : R) : R := tan (nu / 2) + tan (nu / 2) ^ 3 / 3.
(* Euclidean distance *)
Definition distance (u w : vec) : R := sqrt ((vx u - vx w) ^ 2 + (vy u - vy w) ^ 2 + (vz u - vz w) ^ 2).
(* receding from or approaching the centre *)
Definition outbound (s : row6) : Prop := 0 < c_0 s * c_3 s + c_1 s * c_4 s + c_2 s * c_5 s.
Definition inbound (s : row6) : Prop := c_0 s * c_3 s + c_1 s * c_4 s + c_2 s * c_5 s < 0.
(* the state s' agrees with s up to the square of the solver's tolerance; a is the semi-major axis *)
Definition near (kk : kep) (mu a tol : R) (s s' : row6) : Prop :=
  let e := k_e kk in
  distance (pos s) (pos s') <= a * (e / (1 - e) * (tol ^ 2 / 2)) /\
  distance (vel s) (vel s') <= sqrt (mu / k_p kk) * (sqrt ((1 + e) / (1 - e)) * (e / (1 - e) * (tol ^ 2 / 2))).
