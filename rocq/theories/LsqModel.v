(* Model of one iteration of orbit_determination/least_squares.py. *)
From Coq Require Import Reals List Bool Lia Lra.
Import ListNotations.
Open Scope R_scope.

(* vectors over the six parameters of a state, least_squares.py:136 *)
Definition vec := nat -> R.
(* helper of numpy's sums over the parameters, least_squares.py:291-300 *)
Definition sum6 (f : nat -> R) : R := f 0%nat + f 1%nat + f 2%nat + f 3%nat + f 4%nat + f 5%nat.
(* helper of sums over observations, least_squares.py:185, 289-295 *)
Definition rsum {A} (f : A -> R) (l : list A) : R := fold_right (fun x s => f x + s) 0 l.

(* least_squares.py:37-81 _update_orbit: the state; the covariance is the matrix given; ids, epoch, origin and frame are not modelled *)
Definition update_orbit (base delta : vec) : vec := fun i => base i + delta i.

(* least_squares.py:141-146: the perturbation of parameter i *)
Definition step_size (delta : R) (base : vec) (i : nat) : R :=
  let d := base i * delta in
  if Rlt_dec (Rabs d) (/ 10 ^ 20) then (if Nat.ltb i 3 then 1 else / 100) * delta else d.
(* least_squares.py:141-142: d = zeros, d[0, i] = value *)
Definition unit_step (i : nat) (d : R) : vec := fun j => if Nat.eqb j i then d else 0.

Section Lsq.
  (* [ephem x o]: the on-sky position of the orbit with state x for observation o (prop.generate_ephemeris, one row per observation, in order);
     [resid a b]: the RA and Dec columns of Residuals.calculate(a, b), least_squares.py:83-100; [observed o], [weight o]: the position observed and
     1 / sigma^2 of RA and Dec (least_squares.py:233-234) *)
  Context {Obs Sky : Type} (ephem : vec -> Obs -> Sky) (resid : Sky -> Sky -> R * R) (observed : Obs -> Sky) (weight : Obs -> R * R).
  (* np.linalg.inv *)
  Variable inv : (nat -> nat -> R) -> nat -> nat -> R.

  (* helper of [partials], least_squares.py:157-165 *)
  Definition scale2 (p : R * R) (d : R) : R * R := (fst p / d, snd p / d).

  (* least_squares.py:102-168 _compute_partials: column i of the partial derivatives of RA and Dec of observation o *)
  Definition partials (central : bool) (delta : R) (base : vec) (o : Obs) (i : nat) : R * R :=
    let d := step_size delta base i in
    let plus := update_orbit base (unit_step i d) in
    if central then
      let minus := update_orbit base (fun j => - unit_step i d j) in
      scale2 (resid (ephem plus o) (ephem minus o)) (2 * d)
    else scale2 (resid (ephem plus o) (ephem base o)) d.

  (* least_squares.py:246, 312-314: residuals of a state *)
  Definition residuals (x : vec) (o : Obs) : R * R := resid (observed o) (ephem x o).

  (* least_squares.py:170-185 _rms *)
  Definition rms (l : list Obs) (b : Obs -> R * R) : R :=
    sqrt (rsum (fun o => fst (b o) ^ 2 * fst (weight o) + snd (b o) ^ 2 * snd (weight o)) l / (INR (length l) * 2)).

  (* least_squares.py:287-294: ATWA += AtW @ Ai *)
  Definition atwa (A : Obs -> nat -> R * R) (l : list Obs) (i j : nat) : R :=
    rsum (fun o => fst (A o i) * fst (weight o) * fst (A o j) + snd (A o i) * snd (weight o) * snd (A o j)) l.
  (* least_squares.py:288-295: ATWb += AtW @ b *)
  Definition atwb (A : Obs -> nat -> R * R) (b : Obs -> R * R) (l : list Obs) (i : nat) : R :=
    rsum (fun o => fst (A o i) * fst (weight o) * fst (b o) + snd (A o i) * snd (weight o) * snd (b o)) l.

  (* least_squares.py:299-300: AtWA1 @ ATWb *)
  Definition corrections (P : nat -> nat -> R) (v : vec) : vec := fun i => sum6 (fun j => P i j * v j).

  (* least_squares.py:277-308: one iteration from [base]: the updated state and its covariance *)
  Definition iterate (central : bool) (delta : R) (l : list Obs) (base : vec) : vec * (nat -> nat -> R) :=
    let A := fun o i => partials central delta base o i in
    let P := inv (atwa A l) in
    (update_orbit base (corrections P (atwb A (residuals base) l)), P).
End Lsq.
