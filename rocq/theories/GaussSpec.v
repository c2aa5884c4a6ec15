(* Specifications for preliminary orbit determination. *)
From Coq Require Import Reals List.
From Verif Require Import SphModel KepModel.
Import ListNotations.
Open Scope R_scope.

(* the value of the polynomial with these coefficients, leading one first *)
Definition peval (c : list R) (x : R) : R := fold_left (fun a k => a * x + k) c 0.
(* a root finder that returns non-negative roots only *)
Definition finds_roots (roots : list R -> list R) : Prop := forall c x, In x (roots c) -> 0 <= x /\ peval c x = 0.
(* u is a unit vector *)
Definition unit_vec (u : vec) : Prop := dot u u = 1.
(* the point at distance k from q along u *)
Definition along (q u : vec) (k : R) : vec := vplus q (scale k u).
(* the point of the conic with semi-latus rectum p, eccentricity e and orientation i, raan, ap at true
   anomaly nu, and the velocity there (the two-body orbit about mu) *)
Definition conic_state (p e i raan ap nu mu : R) : row6 := perifocal p e i raan ap nu mu.
