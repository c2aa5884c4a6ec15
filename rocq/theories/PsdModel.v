(* Model of make_positive_semidefinite and apply_cosine_latitude_correction. *)
From Coq Require Import Reals List Bool.
From Verif Require Import Base.
Import ListNotations.
Open Scope R_scope.

(* ---- coordinates/covariances.py:183-213 make_positive_semidefinite ---- *)
(* np.linalg.eigh (coordinates/covariances.py:205): eigenvalues with their eigenvectors; [n] is the dimension *)
Definition eig := list (R * (nat -> R)).

(* coordinates/covariances.py:210-211: the sign of small negative eigenvalues is flipped *)
Definition flip (tol w : R) : R :=
  if Rlt_dec w 0 then (if Rlt_dec (Rabs w) tol then - w else w) else w.

(* coordinates/covariances.py:212: eigenvectors @ diag(eigenvalues) @ eigenvectors.T *)
Definition rebuild (e : eig) (i j : nat) : R := fold_right (fun p s => fst p * snd p i * snd p j + s) 0 e.

(* coordinates/covariances.py:183-213 *)
Definition make_psd (eigh : (nat -> nat -> R) -> eig) (tol : R) (cov : nat -> nat -> R) : result (nat -> nat -> R) :=
  let e := eigh cov in
  if existsb (fun p => if Rlt_dec (fst p) (- tol) then true else false) e then Err ValueError
  else Ok (rebuild (map (fun p => (flip tol (fst p), snd p)) e)).

(* ---- coordinates/residuals.py:35-96 apply_cosine_latitude_correction, one row ---- *)
(* coordinates/residuals.py:61-62 *)
Definition cos_lat (lat : R) : R := cos (lat * (PI / 180)).
(* coordinates/residuals.py:68-70: diagonal of the factors *)
Definition diag (lat : R) (i : nat) : R := if Nat.eqb i 1 then cos_lat lat else if Nat.eqb i 4 then cos_lat lat else 1.
(* coordinates/residuals.py:64, 73: einsum("kj,ji->kij", diag, identity) *)
Definition cos_lat_cov (lat : R) (i j : nat) : R := diag lat j * (if Nat.eqb j i then 1 else 0).
(* coordinates/residuals.py:77-78 *)
Definition correct_residual (lat : R) (r : nat -> option R) (i : nat) : option R :=
  if Nat.eqb i 1 then option_map (fun x => x * cos_lat lat) (r i)
  else if Nat.eqb i 4 then option_map (fun x => x * cos_lat lat) (r i) else r i.
(* coordinates/residuals.py:82-83: np.where(nan_cov, 0.0, covariances) *)
Definition masked (c : nat -> nat -> option R) (i j : nat) : R := match c i j with Some x => x | None => 0 end.
(* product of 6 by 6 matrices, coordinates/residuals.py:86-88 *)
Definition matmul (a b : nat -> nat -> R) (i j : nat) : R :=
  a i 0%nat * b 0%nat j + a i 1%nat * b 1%nat j + a i 2%nat * b 2%nat j + a i 3%nat * b 3%nat j + a i 4%nat * b 4%nat j + a i 5%nat * b 5%nat j.
(* coordinates/residuals.py:82-95: the factor applied from both sides, then NaN where it was NaN *)
Definition correct_covariance (lat : R) (c : nat -> nat -> option R) (i j : nat) : option R :=
  match c i j with
  | None => None
  | Some _ => Some (matmul (matmul (cos_lat_cov lat) (masked c)) (fun i j => cos_lat_cov lat j i) i j)
  end.
