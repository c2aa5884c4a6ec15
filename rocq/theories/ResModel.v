(* Model of src/adam_core/coordinates/residuals.py: Residuals.calculate and its batching
   (definitions only).

   A floating point number is [option Q]: None is NaN, Some q an exact rational.  Rounding is not
   modelled here (the longitude wrapping, where it matters, is in ResRModel.v in binary64).
   Infinities are not modelled. *)
From Coq Require Import String QArith.
From Verif Require Import Base.
Open Scope string_scope.
Open Scope Z_scope.
Open Scope list_scope.

(* helper of [fill0], residuals.py:264-266, 401 *)
Definition num := option Q.
(* helper of [nan_mask], residuals.py:465 *)
Definition isnan (x : num) : bool := match x with None => true | Some _ => false end.
(* numpy arithmetic: NaN is contagious *)
(* helper of [nsum], residuals.py:408-426 *)
Definition nadd (a b : num) : num := match a, b with Some x, Some y => Some (x + y)%Q | _, _ => None end.
(* helper of [residual_row], residuals.py:278-300 *)
Definition nsub (a b : num) : num := match a, b with Some x, Some y => Some (x - y)%Q | _, _ => None end.
(* residuals.py:264-266, 401 np.where(np.isnan(c), 0.0, c) *)
Definition fill0 (x : num) : num := match x with None => Some (0 # 1)%Q | _ => x end.
(* helper of [residual_row], residuals.py:278-300 *)
Definition zip_with {A B C} (f : A -> B -> C) (l : list A) (m : list B) : list C :=
  map (fun p => f (fst p) (snd p)) (combine l m).

(* one row of a coordinates table: its values and its covariance matrix *)
(* helper of [residual_row], residuals.py:278-300 *)
Record crow := mkcrow { values : list num; cov : list (list num) }.
(* a coordinates table: the class, the frame, the origin code of every row, the rows *)
(* helper of [calculate], residuals.py:162-348 *)
Record coords := mkcoords { kind : string; frame : string; origins : list string; rows : list crow }.
(* one row of the Residuals table *)
(* helper of [calculate], residuals.py:162-348 *)
Record rrow := mkrrow { r_values : list num; r_chi2 : num; r_dof : Z; r_p : num }.

(* residuals.py:20-25 SUPPORTED_COORDINATES *)
Definition supported (k : string) : bool :=
  existsb (String.eqb k) ["Cartesian"; "Cometary"; "Keplerian"; "Spherical"].

(* numpy broadcasting of two columns of lengths n and m where one of them may be 1;
   origin.py:117-132 Origin.__ne__ is the negated elementwise comparison of the two code columns *)
Definition broadcast {A} (l : list A) (n : nat) : list A :=
  match l with [x] => repeat x n | _ => l end.
(* helper of [calculate], residuals.py:162-348 *)
Definition origins_differ (a b : list string) : result (list bool) :=
  if (List.length a =? List.length b)%nat then Ok (zip_with (fun x y => negb (String.eqb x y)) a b)
  else match a, b with
       | [_], _ => Ok (zip_with (fun x y => negb (String.eqb x y)) (broadcast a (List.length b)) b)
       | _, [_] => Ok (zip_with (fun x y => negb (String.eqb x y)) a (broadcast b (List.length a)))
       | _, _ => Err ValueError
       end.

(* residuals.py:465 np.isnan(coords); 481 np.where(~batch); selection of dimensions *)
Definition nan_mask (v : list num) : list bool := map isnan v.
(* helper of [calculate], residuals.py:162-348 *)
Fixpoint keep {A} (mask : list bool) (l : list A) : list A :=
  match mask, l with
  | m :: mask', x :: l' => if m then keep mask' l' else x :: keep mask' l'
  | _, _ => []
  end.
(* helper of [calculate], residuals.py:162-348 *)
Definition keep2 {A} (mask : list bool) (m : list (list A)) : list (list A) := map (keep mask) (keep mask m).

(* np.unique(nans, axis=0): the different masks in lexicographic order *)
(* helper of [calculate], residuals.py:162-348 *)
Fixpoint mask_eqb (a b : list bool) : bool :=
  match a, b with
  | [], [] => true
  | x :: a', y :: b' => Bool.eqb x y && mask_eqb a' b'
  | _, _ => false
  end.
(* helper of [calculate], residuals.py:162-348 *)
Fixpoint mask_leb (a b : list bool) : bool :=
  match a, b with
  | [], _ => true
  | _ :: _, [] => false
  | x :: a', y :: b' => if Bool.eqb x y then mask_leb a' b' else negb x
  end.
(* helper of [calculate], residuals.py:162-348 *)
Definition unique_masks (l : list (list bool)) : list (list bool) := sort mask_leb (uniq mask_eqb l).

(* np.diagonal *)
(* helper of [calculate_chi2], residuals.py:362-405 *)
Fixpoint diagonal_from {A} (k : nat) (m : list (list A)) : list A :=
  match m with
  | [] => []
  | r :: m' => match nth_error r k with Some x => x :: diagonal_from (S k) m' | None => [] end
  end.
(* helper of [calculate_chi2], residuals.py:362-405 *)
Definition diagonal {A} (m : list (list A)) : list A := diagonal_from 0 m.

Section Calculate.
(* np.cos(np.radians(lat)) etc. for spherical rows: residuals.py:285-297, the residual vector and
   the two rescaled covariance matrices of one row, as a function of that row alone.  For the
   other classes the residual is the plain difference and the matrices are unchanged. *)
Variable sph_residual : list num -> list num -> list num.
Variable sph_cov : list num -> list (list num) -> list (list num).
(* np.linalg.inv raises for singular matrices; r @ inv(S) @ r; 1 - chi2.cdf *)
Variable invertible : list (list num) -> bool.
Variable mahalanobis : list num -> list (list num) -> num.
Variable tail : num -> Z -> num.

(* residuals.py:278-300 for one row *)
Definition residual_row (k : string) (o p : crow) : list num :=
  if String.eqb k "Spherical" then sph_residual (values o) (values p)
  else zip_with nsub (values o) (values p).
(* helper of [calculate], residuals.py:162-348 *)
Definition total_cov (k : string) (use_pred : bool) (o p : crow) : list (list num) :=
  let pc := if use_pred then map (map fill0) (cov p) else map (map (fun _ => Some (0 # 1)%Q)) (cov o) in
  let oc := cov o in
  if String.eqb k "Spherical"
  then zip_with (zip_with nadd) (sph_cov (values o) oc) (sph_cov (values o) pc)
  else zip_with (zip_with nadd) oc pc.
(* residuals.py:275 *)
Definition dof_row (o : crow) : Z :=
  Z.of_nat (List.length (values o)) - Z.of_nat (List.length (filter isnan (values o))).

(* residuals.py:362-405 calculate_chi2 for the rows of one batch.  LinAlgError is a subclass of
   ValueError. *)
Definition calculate_chi2 (batch : list (list num * list (list num))) : result (list num) :=
  if existsb (fun b => existsb isnan (diagonal (snd b))) batch then Err ValueError
  else
    let filled := map (fun b => (fst b, map (map fill0) (snd b))) batch in
    if forallb (fun b => invertible (snd b)) filled
    then Ok (map (fun b => mahalanobis (fst b) (snd b)) filled)
    else Err ValueError.

(* residuals.py:311-341: one batch; [work] holds index, observed row, residual and total
   covariance of every row.  The result lists the writes into chi2s and p. *)
Definition work := (nat * (crow * (list num * list (list num))))%type.
(* helper of [calculate], residuals.py:162-348 *)
Definition run_batch (all : list work) (mask : list bool) : result (list (nat * (num * num))) :=
  let sel := filter (fun w : work => mask_eqb (nan_mask (values (fst (snd w)))) mask) all in
  let covs := map (fun w : work => keep2 mask (snd (snd (snd w)))) sel in
  if forallb (fun c => forallb (forallb isnan) c) covs
  then Ok (map (fun w : work => (fst w, (None, None))) sel)
  else
    let res := map (fun w : work => keep mask (fst (snd (snd w)))) sel in
    bind (calculate_chi2 (combine res covs)) (fun chis =>
    Ok (zip_with (fun (w : work) c => (fst w, (c, tail c (dof_row (fst (snd w)))))) sel chis)).

(* chi2s[indices] = ..., p[indices] = ...: the last write to a position stands; a position never
   written would hold whatever np.empty left there (None) *)
(* helper of [calculate], residuals.py:162-348 *)
Definition read (writes : list (nat * (num * num))) (i : nat) : option (num * num) :=
  option_map snd (find (fun w => (fst w =? i)%nat) (rev writes)).

(* residuals.py:162-348 Residuals.calculate.  The outer option of a row is None when its chi2 was
   never written. *)
Definition calculate (custom use_pred : bool) (obs pred : coords) : result (list (option rrow)) :=
  if negb custom && negb (supported (kind obs)) then Err TypeError else
  if negb custom && negb (supported (kind pred)) then Err TypeError else
  if negb (String.eqb (kind obs) (kind pred)) then Err TypeError else
  bind (origins_differ (origins obs) (origins pred)) (fun ne =>
  if forallb (fun b => b) ne then Err ValueError else
  if negb (String.eqb (frame obs) (frame pred)) then Err ValueError else
  let n := List.length (rows obs) in
  if negb (List.length (rows pred) =? 1)%nat && negb (List.length (rows pred) =? n)%nat then Err ValueError else
  let ps := broadcast (rows pred) n in
  let all := zip_with (fun i op => (i, (fst op, (residual_row (kind obs) (fst op) (snd op),
                                                 total_cov (kind obs) use_pred (fst op) (snd op)))))
                      (seq 0 n) (combine (rows obs) ps) in
  bind (mapM (run_batch all) (unique_masks (map (fun o => nan_mask (values o)) (rows obs)))) (fun ws =>
  let writes := concat ws in
  Ok (map (fun w : work =>
             option_map (fun cp => mkrrow (fst (snd (snd w))) (fst cp) (dof_row (fst (snd w))) (snd cp))
                        (read writes (fst w))) all))).
End Calculate.

(* residuals.py:408-426 calculate_reduced_chi2; division by zero gives inf or NaN (None) *)
Fixpoint nsum (l : list num) : num :=
  match l with [] => Some (0 # 1)%Q | x :: l' => nadd x (nsum l') end.
(* residuals.py:408-426 *)
Definition reduced_chi2 (rs : list rrow) (parameters : Z) : num :=
  let d := fold_right Z.add 0 (map r_dof rs) - parameters in
  match nsum (map r_chi2 rs) with
  | Some c => if d =? 0 then None else Some (c / inject_Z d)%Q
  | None => None
  end.
