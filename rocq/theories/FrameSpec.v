(* What the unit, frame and RIC theorems speak of. *)
From Coq Require Import Reals List.
From Verif Require Import SphModel KepModel.
Import ListNotations.
Open Scope R_scope.

(* weighted samples of a vector, their mean and covariance *)
Fixpoint mean_of (ws : list (R * (nat -> R))) (i : nat) : R :=
  match ws with [] => 0 | (w, x) :: t => w * x i + mean_of t i end.
Fixpoint spread_of (m : nat -> R) (ws : list (R * (nat -> R))) (i j : nat) : R :=
  match ws with [] => 0 | (w, x) :: t => w * (x i - m i) * (x j - m j) + spread_of m t i j end.
Definition covariance_of (ws : list (R * (nat -> R))) (i j : nat) : R := spread_of (mean_of ws) ws i j.

(* squared lengths of the position and the velocity of six numbers *)
Definition position2 (v : nat -> R) : R := v 0%nat ^ 2 + v 1%nat ^ 2 + v 2%nat ^ 2.
Definition velocity2 (v : nat -> R) : R := v 3%nat ^ 2 + v 4%nat ^ 2 + v 5%nat ^ 2.

(* the unit vector triads *)
Definition orthonormal (a b c : vec) : Prop :=
  dot a a = 1 /\ dot b b = 1 /\ dot c c = 1 /\ dot a b = 0 /\ dot b c = 0 /\ dot c a = 0.
(* a rotation of space: it keeps scalar products and linear combinations *)
Definition isometry (q : vec -> vec) : Prop :=
  (forall u w, dot (q u) (q w) = dot u w) /\ (forall a b u w, q (vplus (scale a u) (scale b w)) = vplus (scale a (q u)) (scale b (q w))).
Definition turn (q : vec -> vec) (s : row6) : row6 := row_of (q (pos s)) (q (vel s)).
