(* What the statements about the JAX backend mean: matrices as lists of rows, positive definite systems, a solver
   that solves them, and the ridge fit of a design without any padding. *)
From Coq Require Import Reals Lra.
From Coq Require Import List String Bool ZArith.
From Verif Require Import Base StrOrder PhotModel RotModel JaxModel.
Import ListNotations.
Open Scope list_scope.
Open Scope R_scope.

Definition matvec (a : list (list R)) (x : list R) : list R := map (fun r => dotp r x) a.
Definition square (a : list (list R)) : Prop := forall r, In r a -> List.length r = List.length a.
Definition nonzero (x : list R) : Prop := exists v, In v x /\ v <> 0.
Definition posdef (a : list (list R)) : Prop :=
  forall x, List.length x = List.length a -> nonzero x -> 0 < dotp x (matvec a x).
(* the linear solver solves every positive definite system *)
Definition solves (solver : list (list R) -> list R -> list R) : Prop :=
  forall a b, square a -> List.length b = List.length a -> posdef a ->
  List.length (solver a b) = List.length a /\ matvec a (solver a b) = b.

(* the least-squares problem of a design without padding, with the ridge of the JAX backend *)
Definition ridge_lstsq (solver : list (list R) -> list R -> list R) (design : list (list R)) (target : list R) : list R :=
  let n := List.length (hd [] design) in solver (normal_matrix n design) (normal_rhs n design target).

(* sum of squares of a candidate, and the norm of the coefficients *)
Definition ssq (design : list (list R)) (target c : list R) : R :=
  rsum (map (fun p => (snd p - dotp (fst p) c) * (snd p - dotp (fst p) c)) (combine design target)).
Definition norm2 (c : list R) : R := rsum (map (fun v => v * v) c).
(* no coefficients give a smaller sum of squares: what a least-squares program promises *)
Definition least_squares (design : list (list R)) (target c : list R) : Prop :=
  List.length c = List.length (hd [] design) /\
  forall d, List.length d = List.length (hd [] design) -> ssq design target c <= ssq design target d.

(* the least-squares problem of all rows at one frequency, as a scaled design and target: observations, then the two
   prior rows on the phase coefficients *)
Definition problem (hgfit : R -> R -> R * R) (weighted : bool) (all : list datum) (nf order : nat) (freq : R) : list (list R) * list R :=
  let pr := prior hgfit (fmin (map (fun d => nth (nf - 2) (d_fix d) 0) all)) in
  let n_par := (nf + 2 * order)%nat in
  let w d := sqrt (if weighted : bool then d_w d else 1) in
  (map (fun d => map (fun x => x * w d) (d_fix d ++ fourier (d_t d) freq order)) all
   ++ [map (fun x => x * sqrt (fst (snd pr))) (unit_row n_par (nf - 2)); map (fun x => x * sqrt (snd (snd pr))) (unit_row n_par (nf - 1))],
   map (fun d => d_y d * w d) all ++ [fst (fst pr) * sqrt (fst (snd pr)); snd (fst pr) * sqrt (snd (snd pr))]).
(* zero columns put in after the first [nf] *)
Definition widen (nf pad : nat) (r : list R) : list R := firstn nf r ++ repeat 0 pad ++ skipn nf r.
