(* Specifications for origins and derived orbital elements. *)
From Coq Require Import Reals QArith String.
From Verif Require Import Base SphModel KepModel.
Open Scope R_scope.

(* distance from the centre, speed and angular momentum of a state *)
Definition range (s : row6) : R := sqrt (c_0 s ^ 2 + c_1 s ^ 2 + c_2 s ^ 2).
Definition speed2 (s : row6) : R := c_3 s ^ 2 + c_4 s ^ 2 + c_5 s ^ 2.
Definition momentum2 (s : row6) : R :=
  (c_1 s * c_5 s - c_2 s * c_4 s) ^ 2 + (c_2 s * c_3 s - c_0 s * c_5 s) ^ 2 + (c_0 s * c_4 s - c_1 s * c_3 s) ^ 2.
(* the conics, away from the tolerance within which the code treats an orbit as a parabola *)
Definition ellipse (a e : R) : Prop := 0 < a /\ 0 <= e <= 1 - / 10 ^ 15.
Definition hyperbola (a e : R) : Prop := a < 0 /\ 1 + / 10 ^ 15 <= e.
(* relative difference of two positive rationals *)
Definition within (eps x y : Q) : Prop := (- eps * y <= x - y <= eps * y)%Q.
(* the gravitational parameter of the Sun in au^3 / day^2, constants.py:49 *)
Definition DE440_sun : Q := (29591220828411956 # 100000000000000000000)%Q.
(* the value of Horizons for the barycenter in km^3 / s^2, origin.py:68 *)
Definition horizons_ssb : Q := (13289051882019876 # 100000)%Q.
