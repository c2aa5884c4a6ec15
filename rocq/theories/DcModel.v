(* Model of src/adam_core/orbit_determination/differential_correction.py and of
   orbit_determination/evaluate.py for one orbit (definitions only).  Simplifications: exact real
   arithmetic, so an epoch as MJD and back is the same epoch (C86 is about its rounding); the arc
   length is in nanoseconds as in FitModel; the ephemeris has one row per observer, in the order of
   epoch and code (C22, C90); residuals have a finite chi2.  The propagator with the residuals, the
   solver of scipy and the inverse of numpy are parameters.  [ignore = None] is the empty list. *)
From Coq Require Import Reals ZArith String List Bool.
From Verif Require Import Base StrOrder SphModel FitModel.
Import ListNotations.
Open Scope string_scope.
Open Scope list_scope.
Open Scope R_scope.

(* differential_correction.py:49-59: what the propagator sees of an orbit *)
Record phys := mkphys { ph_state : row6; ph_mjd : R; ph_scale : string; ph_origin : string; ph_frame : string }.
(* differential_correction.py:168-185; a covariance of NaN is [None] *)
Record dorbit := mkdo { do_id : string; do_object : option string; do_phys : phys; do_cov : option (nat -> nat -> R) }.
(* differential_correction.py:151-157, 197-201: the fields of the solution that are used *)
Record solution := mksol { so_x : row6; so_jac : list (nat -> R); so_nfev : Z; so_success : bool; so_status : Z }.
(* differential_correction.py:128-148: a keyword argument of the solver *)
Inductive kwvalue := KNum (x : R) | KText (s : string) | KFree | KOther (n : nat).
(* evaluate.py:119-127 and differential_correction.py:197-201 *)
Record dfit := mkdf { df_orbit : dorbit; df_arc : Z; df_nobs : nat; df_chi2 : R; df_reduced : option R;
                      df_iterations : option Z; df_success : option bool; df_status : option Z }.
(* evaluate.py:128-133 and differential_correction.py:202-204 *)
Record dmember {Rr : Type} := mkdm { dm_orbit : string; dm_obs : string; dm_resid : Rr; dm_outlier : bool; dm_solution : option bool }.
Arguments dmember : clear implicits.
Arguments mkdm {Rr}.

(* differential_correction.py:128-142: the defaults, [KFree] standing for infinite bounds *)
Definition kw_defaults : list (string * kwvalue) :=
  [("xtol", KNum (/ 10 ^ 12)); ("ftol", KNum (/ 10 ^ 12)); ("gtol", KNum (/ 10 ^ 12));
   ("jac", KText "2-point"); ("x_scale", KText "jac"); ("bounds", KFree)].
(* differential_correction.py:128-148: a dictionary, so the first entry of a key counts *)
Definition kw_get (k : string) (kw : list (string * kwvalue)) : option kwvalue :=
  option_map snd (find (fun p => String.eqb (fst p) k) kw).
(* differential_correction.py:128-142 *)
Definition add_default (kw : list (string * kwvalue)) (d : string * kwvalue) : list (string * kwvalue) :=
  match kw_get (fst d) kw with Some _ => kw | None => kw ++ [d] end.
(* differential_correction.py:128-148 *)
Definition solver_kwargs (kw : list (string * kwvalue)) : list (string * kwvalue) :=
  filter (fun p => negb (String.eqb (fst p) "args")) (fold_left add_default kw_defaults kw).

Section Dc.
  Context {V P Rr : Type}.
  Variable predict : phys -> Z * Z -> string -> P.
  Variable resid : V -> P -> Rr.
  Variable chi2 : Rr -> R.
  Variable dof : Rr -> Z.
  Variable solve : (row6 -> list R) -> row6 -> list (string * kwvalue) -> result solution.
  Variable inv : (nat -> nat -> R) -> option (nat -> nat -> R).

  (* differential_correction.py:61-64, evaluate.py:75-89: row i of the observations is compared with row i of the ephemeris *)
  Definition residuals (ph : phys) (obs : list (observation (V := V))) : list Rr :=
    map (fun q => resid (ob_value (fst q)) (snd q))
        (combine obs (map (fun b => predict ph (ob_time b) (ob_code b)) (sort oleb_obs obs))).
  (* differential_correction.py:21-70 *)
  Definition residual_function (mjd : R) (obs : list observation) (s : row6) : list R :=
    map (fun r => sqrt (chi2 r)) (residuals (mkphys s mjd "tdb" "SUN" "ecliptic") obs).

  (* helper of [evaluate_one], evaluate.py:93-98: is in the list of ignored observations *)
  Definition ignored (ignore : list string) (b : observation (V := V)) : bool := existsb (String.eqb (ob_id b)) ignore.
  (* helper of [evaluate_one], evaluate.py:109, 110 *)
  Definition rsum_ (l : list R) : R := fold_right Rplus 0 l.
  (* evaluate.py:30-135 with one orbit *)
  Definition evaluate_one (o : dorbit) (obs : list observation) (parameters : Z) (ignore : list string) : result (dfit * list (dmember Rr)) :=
    let rs := residuals (do_phys o) obs in
    let used := filter (fun b => negb (ignored ignore b)) obs in
    match used with
    | [] => Err IndexError
    | u :: us =>
        let inc := map snd (filter (fun q => negb (ignored ignore (fst q))) (combine obs rs)) in
        let c := rsum_ (map chi2 inc) in
        let d := (zsum (map dof inc) - parameters)%Z in
        let arc := (fold_left Z.max (map ons us) (ons u) - fold_left Z.min (map ons us) (ons u))%Z in
        Ok (mkdf o arc (List.length used) c (if Z.eqb d 0 then None else Some (c / IZR d)) None None None,
            map (fun q => mkdm (do_id o) (ob_id (fst q)) (snd q) (ignored ignore (fst q)) None) (combine obs rs))
    end.

  (* differential_correction.py:157: the transpose of the Jacobian times the Jacobian *)
  Definition normal_matrix (j : list (nat -> R)) (a b : nat) : R := rsum_ (map (fun r => r a * r b) j).
  (* differential_correction.py:73-206 *)
  Definition fit_least_squares (os : list dorbit) (obs : list observation) (ignore : list string) (kw : list (string * kwvalue))
    : result (dfit * list (dmember Rr)) :=
    match os with
    | [o] =>
        let included := filter (fun b => negb (ignored ignore b)) obs in
        let p := do_phys o in
        bind (solve (residual_function (ph_mjd p) included) (ph_state p) (solver_kwargs kw)) (fun sol =>
        let o' := mkdo (do_id o) (do_object o) (mkphys (so_x sol) (ph_mjd p) "tdb" (ph_origin p) (ph_frame p)) (inv (normal_matrix (so_jac sol))) in
        bind (evaluate_one o' obs 6 ignore) (fun r =>
        Ok (mkdf (df_orbit (fst r)) (df_arc (fst r)) (df_nobs (fst r)) (df_chi2 (fst r)) (df_reduced (fst r))
              (Some (so_nfev sol)) (Some (so_success sol)) (Some (so_status sol)),
            map (fun m => mkdm (dm_orbit m) (dm_obs m) (dm_resid m) (dm_outlier m) (Some (negb (dm_outlier m)))) (snd r))))
    | _ => Err AssertionError
    end.
End Dc.
