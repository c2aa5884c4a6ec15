(* What a differential correction should do, independent of how the library does it. *)
From Coq Require Import Reals ZArith String List Bool Sorted.
From Verif Require Import Base SphModel FitModel DcModel.
Import ListNotations.
Open Scope string_scope.
Open Scope list_scope.
Open Scope R_scope.

Fixpoint total (l : list R) : R := match l with [] => 0 | x :: r => x + total r end.
Definition sum_of_squares (l : list R) : R := total (map (fun x => x * x) l).
(* a solver that never ends with a larger sum of squares than it started with *)
Definition never_increases (solve : (row6 -> list R) -> row6 -> list (string * kwvalue) -> result solution) : Prop :=
  forall f x kw sol, solve f x kw = Ok sol -> sum_of_squares (f (so_x sol)) <= sum_of_squares (f x).
(* chi2 of an orbit: every observation that is not ignored against the prediction for its own epoch and observatory *)
Definition orbit_chi2 {V P Rr} (predict : phys -> Z * Z -> string -> P) (resid : V -> P -> Rr) (chi2 : Rr -> R)
    (ph : phys) (obs : list (observation (V := V))) (ignore : list string) : R :=
  total (map (fun b => chi2 (resid (ob_value b) (predict ph (ob_time b) (ob_code b))))
             (filter (fun b => negb (existsb (String.eqb (ob_id b)) ignore)) obs)).
(* observations in order of epoch and observatory *)
Definition in_order {V} (obs : list (observation (V := V))) : Prop := StronglySorted (fun a b => oleb_obs a b = true) obs.
(* the labels the residual function puts on every state *)
Definition heliocentric_tdb (ph : phys) : Prop := ph_scale ph = "tdb" /\ ph_origin ph = "SUN" /\ ph_frame ph = "ecliptic".

(* a vector of six numbers, and a matrix times it *)
Definition dot_n (n : nat) (a b : nat -> R) : R := total (map (fun k => a k * b k) (seq 0 n)).
Definition singular (m : nat -> nat -> R) : Prop :=
  exists v, (exists k, (k < 6)%nat /\ v k <> 0) /\ forall a, (a < 6)%nat -> dot_n 6 (m a) v = 0.
Definition identity_product (m n : nat -> nat -> R) : Prop :=
  forall a b, (a < 6)%nat -> (b < 6)%nat -> total (map (fun k => m a k * n k b) (seq 0 6)) = (if Nat.eqb a b then 1 else 0).
(* an inverse is found where there is one, and only there *)
Definition inverts (inv : (nat -> nat -> R) -> option (nat -> nat -> R)) : Prop :=
  (forall m n, inv m = Some n -> identity_product m n /\ identity_product n m) /\
  (forall m, ~ singular m -> inv m <> None).
(* a state moved along a direction *)
Definition along (s : row6) (x : nat -> R) (t : R) : row6 :=
  mk6 (c_0 s + t * x 0%nat) (c_1 s + t * x 1%nat) (c_2 s + t * x 2%nat) (c_3 s + t * x 3%nat) (c_4 s + t * x 4%nat) (c_5 s + t * x 5%nat).
