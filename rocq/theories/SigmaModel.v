(* Real-number model of src/adam_core/coordinates/covariances.py:278-410 (sigma points, weighted
   mean and covariance), coordinates/variants.py:42-186 (create_coordinate_variants) and
   orbits/variants.py (create, link, collapse) (definitions only).
   Rounding is not modelled.  Vectors are functions of the dimension index. *)
From Coq Require Import Reals String.
From Verif Require Import Base TimeModel.
Open Scope R_scope.
Open Scope list_scope.
Delimit Scope string_scope with string.

(* helper of [sigma_points], covariances.py:331, 349-352 *)
Definition vec := nat -> R.
(* helper of [sigma_points], covariances.py:331, 349-352 *)
Definition mat := nat -> nat -> R.
(* helper of [weighted_mean], covariances.py:362-379 *)
Fixpoint rsum (l : list R) : R := match l with [] => 0 | x :: l' => x + rsum l' end.

(* covariances.py:328, 339-340, 356-357 *)
Definition lambda_ (D : nat) (alpha kappa : R) : R := alpha * alpha * (INR D + kappa) - INR D.
(* helper of [create_variants], variants.py:98-101, 121-186 *)
Definition weights (D : nat) (alpha kappa : R) : list R :=
  let l := lambda_ D alpha kappa in
  l / (INR D + l) :: repeat (1 / (2 * (INR D + l))) (2 * D).
(* helper of [create_variants], variants.py:98-101, 121-186 *)
Definition weights_cov (D : nat) (alpha beta kappa : R) : list R :=
  let l := lambda_ D alpha kappa in
  (l / (INR D + l) + (1 - alpha * alpha + beta)) :: repeat (1 / (2 * (INR D + l))) (2 * D).
(* covariances.py:331, 349-352; [L] is scipy's sqrtm((D + lambda) * cov) *)
Definition sigma_points (D : nat) (mean : vec) (L : mat) : list vec :=
  mean :: map (fun i => fun j => mean j + L i j) (seq 0 D) ++ map (fun i => fun j => mean j - L i j) (seq 0 D).

(* covariances.py:362-379 np.dot(W, samples) *)
Definition weighted_mean (samples : list vec) (W : list R) : vec :=
  fun j => rsum (map (fun ws => fst ws * snd ws j) (combine W samples)).
(* covariances.py:382-410 (W_cov * residual.T) @ residual *)
Definition weighted_covariance (mean : vec) (samples : list vec) (W : list R) : mat :=
  fun i j => rsum (map (fun ws => fst ws * (snd ws i - mean i) * (snd ws j - mean j)) (combine W samples)).

(* ---- coordinates/variants.py:42-186 ---- *)
Section Create.
(* scipy: the matrix square root; the seeded and the unseeded generator.  [draws (Some s) n] are
   the samples a generator seeded with s produces; [draws None] is what fresh entropy produces in
   this run of the program.  The result of rvs(1) is squeezed to a single vector of length D. *)
Variable sqrtm : mat -> mat.
Variable draws : option Z -> Z -> vec -> mat -> list vec.
(* np.any(diff_mean >= 1e-12) or np.any(diff_cov >= 1e-12) on the recovered moments *)
Variable poor : vec -> vec -> mat -> mat -> bool.

Record variant := mkvariant { index : nat; sample : vec; weight : R; weight_cov : R }.
(* helper of [random_samples], covariances.py:216-275 *)
Record cin := mkcin { c_mean : vec; c_cov : mat; c_mean_nan : bool; c_cov_nan : bool; c_cov_all_nan : bool }.

(* covariances.py:216-275: with the covariance positive semidefinite.  rvs(num_samples) is squeezed
   by scipy: for num_samples = 1 the caller's samples[:, i] raises IndexError. *)
Definition random_samples (seed : option Z) (n : Z) (c : cin) : result (list (vec * (R * R))) :=
  if (n <? 0)%Z then Err ValueError
  else if (n =? 0)%Z then Err ZeroDivisionError
  else if (n =? 1)%Z then Err IndexError
  else Ok (map (fun s => (s, (1 / IZR n, 1 / IZR n))) (draws seed n (c_mean c) (c_cov c))).
(* helper of [create_variants], variants.py:98-101, 121-186 *)
Definition sigma_samples (D : nat) (alpha beta kappa : R) (c : cin) : list (vec * (R * R)) :=
  let L := sqrtm (fun i j => (INR D + lambda_ D alpha kappa) * c_cov c i j) in
  combine (sigma_points D (c_mean c) L) (combine (weights D alpha kappa) (weights_cov D alpha beta kappa)).
(* helper of [create_variants], variants.py:98-101, 121-186 *)
Definition sample_one (D : nat) (method : string) (n : Z) (alpha beta kappa : R) (seed : option Z) (c : cin)
  : result (list (vec * (R * R))) :=
  if c_cov_nan c then Err ValueError else if c_mean_nan c then Err ValueError else
  if String.eqb method "sigma-point" then Ok (sigma_samples D alpha beta kappa c) else
  if String.eqb method "monte-carlo" then random_samples seed n c else
  if String.eqb method "auto" then
    let s := sigma_samples D alpha beta kappa c in
    let m := weighted_mean (map fst s) (map (fun x => fst (snd x)) s) in
    let v := weighted_covariance m (map fst s) (map (fun x => snd (snd x)) s) in
    (* variants.py:161-163: the seed is not passed on *)
    if poor m (c_mean c) v (c_cov c) then random_samples None n c else Ok s
  else Err ValueError.
(* variants.py:98-101, 121-186; qv.concatenate of an empty list raises ValueError, which an empty
   table never reaches because np.all of nothing is True *)
Definition create_variants (D : nat) (method : string) (n : Z) (alpha beta kappa : R) (seed : option Z) (cs : list cin)
  : result (list variant) :=
  if forallb c_cov_all_nan cs then Err ValueError else
  bind (mapM (fun ic => bind (sample_one D method n alpha beta kappa seed (snd ic)) (fun ss =>
                        Ok (map (fun x => mkvariant (fst ic) (fst x) (fst (snd x)) (snd (snd x))) ss)))
             (combine (seq 0 (List.length cs)) cs))
       (fun l => Ok (concat l)).
End Create.

(* ---- orbits/variants.py ---- *)
(* an orbit or ephemeris row: identifiers, epoch, observatory code (ephemerides: the origin of the
   coordinates), values, covariance *)
(* helper of [same_key], variants.py:124-137, 273-286 *)
Record orow := mkorow { o_id : string; o_time : row; o_code : string; o_vals : vec; o_cov : option mat }.
(* helper of [same_key], variants.py:124-137, 273-286 *)
Record vrow := mkvrow { v_id : string; v_time : row; v_code : string; v_vals : vec; v_wcov : R }.
(* the coordinates create_coordinate_variants sees; a row without covariance has only NaNs *)
(* orbits/variants.py:139-182: an orbit as input of the sampling *)
Definition cin_of (o : orow) : cin :=
  match o_cov o with
  | Some C => mkcin (o_vals o) C false false false
  | None => mkcin (o_vals o) (fun _ _ => 0) false true true
  end.
(* variants.py:124-137, 273-286: rows are linked by orbit id, day and millisecond of the day *)
Definition same_key (o : orow) (v : vrow) : bool :=
  String.eqb (o_id o) (v_id v) && (days (o_time o) =? days (v_time v))%Z && (millis (o_time o) =? millis (v_time v))%Z.
(* variants.py:160-182 and 310-350 (both collapse methods; the aberrated coordinates are collapsed
   in the same way and are left out) *)
Definition collapse_row (vs : list vrow) (o : orow) : orow :=
  let sel := filter (same_key o) vs in
  mkorow (o_id o) (o_time o) (o_code o) (o_vals o)
         (Some (weighted_covariance (o_vals o) (map v_vals sel) (map v_wcov sel))).
(* orbits/variants.py:139-182 *)
Definition collapse (oscale vscale : string) (os : list orow) (vs : list vrow) : result (list orow) :=
  if negb (String.eqb oscale vscale) then Err AssertionError else
  match os with [] => Err ValueError | _ => Ok (map (collapse_row vs) os) end.
(* variants.py:80-102 VariantOrbits.create: the variants of row i get its orbit id and epoch *)
Definition to_vrows (os : list orow) (vs : list variant) : list vrow :=
  flat_map (fun v => match nth_error os (index v) with
                     | Some o => [mkvrow (o_id o) (o_time o) (o_code o) (sample v) (weight_cov v)]
                     | None => []
                     end) vs.

(* orbits/variants.py:515-551: collapse_by_object_id for the rows of one (object, time, observatory) group
   with finite weights; the path for groups of equal size (440-492) differs only when the
   covariance weights sum to zero (equal weights instead of the mean weights).  The longitude handling is left out:
   this is what happens to the other five columns. *)
Definition normalised (W : list R) : list R :=
  let s := rsum W in if Req_EM_T s 0 then map (fun _ => 1 / INR (List.length W)) W else map (fun w => w / s) W.
(* orbits/variants.py:526-530 *)
Definition normalised_or (fallback W : list R) : list R :=
  let s := rsum W in if Req_EM_T s 0 then fallback else map (fun w => w / s) W.
(* orbits/variants.py:515-530, 548, 551 *)
Definition collapse_group (samples : list vec) (W Wcov : list R) : vec * mat :=
  let wm := normalised W in
  let wc := normalised_or wm Wcov in
  let m := weighted_mean samples wm in
  (m, weighted_covariance m samples wc).
