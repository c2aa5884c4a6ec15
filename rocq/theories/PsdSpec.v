(* Vocabulary of the claims about covariances; independent of the functions of PsdModel.v. *)
From Coq Require Import Reals List.
Import ListNotations.
Open Scope R_scope.

Fixpoint sumn (n : nat) (f : nat -> R) : R := match n with O => 0 | S k => sumn k f + f k end.
(* products of vectors, and the value of a quadratic form: the variance in direction x *)
Definition dotn (n : nat) (x y : nat -> R) : R := sumn n (fun i => x i * y i).
Definition form (n : nat) (M : nat -> nat -> R) (x : nat -> R) : R := sumn n (fun i => sumn n (fun j => x i * M i j * x j)).
Definition psd (n : nat) (M : nat -> nat -> R) : Prop := forall x, 0 <= form n M x.

(* what np.linalg.eigh promises: an orthonormal basis of eigenvectors (so that lengths are sums of squares of components), from which
   the matrix is recovered *)
Definition decomposition (n : nat) (M : nat -> nat -> R) (e : list (R * (nat -> R))) : Prop :=
  (forall i j, (i < n)%nat -> (j < n)%nat -> M i j = fold_right (fun p s => fst p * (snd p i * snd p j) + s) 0 e)
  /\ (forall p, In p e -> dotn n (snd p) (snd p) = 1 /\ form n M (snd p) = fst p)
  /\ (forall x, dotn n x x = fold_right (fun p s => dotn n (snd p) x ^ 2 + s) 0 e).

(* the factor of a component: the cosine of the latitude for the longitude and its rate *)
Definition factor (lat : R) (i : nat) : R := match i with 1%nat | 4%nat => cos (lat * PI / 180) | _ => 1 end.

(* product of six numbers with six numbers; P the inverse of M; chi2 of residuals with the inverse of their covariance *)
Definition along6 (a h : nat -> R) : R := a 0%nat * h 0%nat + a 1%nat * h 1%nat + a 2%nat * h 2%nat + a 3%nat * h 3%nat + a 4%nat * h 4%nat + a 5%nat * h 5%nat.
Definition inverse_of (M P : nat -> nat -> R) : Prop :=
  forall i j, (i < 6)%nat -> (j < 6)%nat -> along6 (M i) (fun k => P k j) = (if Nat.eqb i j then 1 else 0)
                                         /\ along6 (P i) (fun k => M k j) = (if Nat.eqb i j then 1 else 0).
Definition chi2_of (P : nat -> nat -> R) (r : nat -> R) : R := along6 r (fun i => along6 (P i) r).

(* the same for the dimensions of a list: those in which a row has values *)
Definition along_dims (ds : list nat) (a h : nat -> R) : R := fold_right (fun k s => a k * h k + s) 0 ds.
Definition inverse_dims (ds : list nat) (M P : nat -> nat -> R) : Prop :=
  forall i j, In i ds -> In j ds -> along_dims ds (M i) (fun k => P k j) = (if Nat.eqb i j then 1 else 0)
                                 /\ along_dims ds (P i) (fun k => M k j) = (if Nat.eqb i j then 1 else 0).
Definition chi2_dims (ds : list nat) (P : nat -> nat -> R) (r : nat -> R) : R := along_dims ds r (fun i => along_dims ds (P i) r).
