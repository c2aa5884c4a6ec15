(* Model of src/adam_core/dynamics/ephemeris.py (definitions only).  Simplifications: exact real
   arithmetic; NaN is [None]; epochs are TDB days, so the comparison of rescaled days and nanos
   (lines 374-382) is equality; rows are not padded or chunked (C32) and one process is used (C21);
   of DynamicsNumericalError only the fact is kept, as RuntimeError (C88 is about its content).
   States of origins relative to each other, the rotation from itrf93 and the Jacobian computed by
   jax are parameters. *)
From Coq Require Import Reals String List Bool.
From Verif Require Import Base SphModel KepModel KepSpec UnivModel LightModel FrameModel PhotModel.
Import ListNotations.
Open Scope string_scope.
Open Scope list_scope.
Open Scope R_scope.

(* ephemeris.py:392-397, cartesian.py:344-390: all six components of a row without missing values *)
Definition add6 (s w : row6) : row6 :=
  mk6 (c_0 s + c_0 w) (c_1 s + c_1 w) (c_2 s + c_2 w) (c_3 s + c_3 w) (c_4 s + c_4 w) (c_5 s + c_5 w).
(* ephemeris.py:122 *)
Definition sub6 (s w : row6) : row6 :=
  mk6 (c_0 s - c_0 w) (c_1 s - c_1 w) (c_2 s - c_2 w) (c_3 s - c_3 w) (c_4 s - c_4 w) (c_5 s - c_5 w).
(* ephemeris.py:43-44: a 3x3 matrix times a vector *)
Definition mat3 (m : nat -> nat -> R) (v : vec) : vec :=
  let '(x, y, z) := v in
  (m 0%nat 0%nat * x + m 0%nat 1%nat * y + m 0%nat 2%nat * z,
   m 1%nat 0%nat * x + m 1%nat 1%nat * y + m 1%nat 2%nat * z,
   m 2%nat 0%nat * x + m 2%nat 1%nat * y + m 2%nat 2%nat * z).
(* helper of [rotate_ec2eq], ephemeris.py:38-45: the upper left block of the rotation by a matrix *)
Definition rotate6 (m : nat -> nat -> R) (s : row6) : row6 := row_of (mat3 m (pos s)) (mat3 m (vel s)).
(* ephemeris.py:38-45; TRANSFORM_EC2EQ is the transpose of [rot3], constants.py:30-41 *)
Definition rotate_ec2eq (s : row6) : row6 := rotate6 (fun i j => rot3 j i) s.

(* ephemeris.py:54-57, 248-251 and aberrations.py:23 *)
Record settings := mkset { lt_tol : R; max_iter : nat; kep_tol : R; stellar : bool }.
(* aberrations.py:23: max_lt_iter is not passed on by ephemeris.py:111-119 *)
Definition max_lt_iter : nat := 10.

(* ephemeris.py:121-146: spherical coordinates of an emission state seen by an observer *)
Definition on_sky (stl : bool) (ab obs : row6) : option row6 :=
  let topo := sub6 ab obs in
  if stl then option_map (fun w => cartesian_to_spherical (rotate_ec2eq (row_of w (vel topo)))) (aberrate ab obs)
  else Some (cartesian_to_spherical (rotate_ec2eq topo)).
(* ephemeris.py:49-146: spherical coordinates, light time, emission state *)
Definition kernel (c : settings) (s : row6) (t : R) (obs : row6) (mu : R) : option row6 * option R * option row6 :=
  let '(st, l) := add_light_time s t (pos obs) (lt_tol c) mu (max_iter c) (kep_tol c) max_lt_iter in
  (match st with Some ab => on_sky (stellar c) ab obs | None => None end, l, st).

(* rows of the tables; frames are attributes of the tables *)
(* helper of [generate_ephemeris_2body], ephemeris.py:351-706 *)
Record orbit := mkorbit { or_id : string; or_object : option string; or_epoch : R; or_origin : string;
                          or_state : row6; or_cov : covariance; or_H : option R; or_G : option R }.
(* helper of [generate_ephemeris_2body], ephemeris.py:351-706 *)
Record observer := mkobserver { ob_code : string; ob_epoch : R; ob_origin : string; ob_state : row6 }.
(* helper of [generate_ephemeris_2body], ephemeris.py:351-706: origin, epoch and state of a row *)
Definition place : Type := (string * R * row6)%type.
(* helper of [generate_ephemeris_2body], ephemeris.py:351-706 *)
Definition place_of_orbit (o : orbit) : place := (or_origin o, or_epoch o, or_state o).
(* helper of [generate_ephemeris_2body], ephemeris.py:351-706 *)
Definition place_of_observer (b : observer) : place := (ob_origin b, ob_epoch b, ob_state b).

(* ephemeris.py:569-626: one row of the result *)
Record eph := mkeph { e_id : string; e_object : option string; e_epoch : R; e_code : string; e_frame : string;
                      e_coord : row6; e_cov : nat -> nat -> option R; e_light : R;
                      e_emit : row6; e_emit_epoch : R; e_emit_origin : string; e_emit_frame : string;
                      e_mag : option R; e_alpha : option R }.

Section Ephemeris.
(* get_perturber_state and get_observer_state: state of an origin relative to another at an epoch in
   a frame (utils/spice.py, observers/state.py); None: unknown origin *)
Variable rel : string -> string -> R -> string -> option row6.
(* apply_time_varying_rotation from itrf93 (transform.py:1617-1719) *)
Variable itrf : string -> place -> result row6.
(* Origin.mu of the barycentre *)
Variable mu_ssb : R.
(* jax.jacfwd: the Jacobian of a function at a point *)
Variable jac : (row6 -> option row6) -> row6 -> nat -> nat -> option R.

(* transform.py:1551-1614, one row (C27) *)
Definition to_origin (frame out : string) (p : place) : result place :=
  let '(o, t, s) := p in
  match rel o out t frame with Some w => Ok (out, t, add6 s w) | None => Err ValueError end.
(* transform.py:1740-1752, one row without missing values *)
Definition to_frame (frame out : string) (p : place) : result place :=
  let '(o, t, s) := p in
  if String.eqb out "ecliptic" && String.eqb frame "equatorial" then Ok (o, t, rotate6 rot3 s)
  else if String.eqb out "equatorial" && String.eqb frame "ecliptic" then Ok (o, t, rotate6 (fun i j => rot3 j i) s)
  else if xorb (String.eqb out "itrf93") (String.eqb frame "itrf93") then bind (itrf out p) (fun s' => Ok (o, t, s'))
  else Err ValueError.
(* transform.py:1801-1855 for Cartesian coordinates and a given output frame and origin *)
Definition transform (frame out_frame out : string) (l : list place) : result (list place) :=
  let there := forallb (fun p : place => String.eqb (fst (fst p)) out) l in
  if String.eqb frame out_frame && there then Ok l
  else bind (if there then Ok l else mapM (to_origin frame out) l)
            (fun l => if String.eqb frame out_frame then Ok l else mapM (to_frame frame out_frame) l).

(* ephemeris.py:361-404: the shortcut; None: not taken, or an exception inside it *)
Definition shortcut (fo fb : string) (os bs : list place) : option (list place * list place) :=
  if String.eqb fo "ecliptic" && String.eqb fb "ecliptic"
     && forallb (fun p : place => String.eqb (fst (fst p)) "SUN") os && forallb (fun p : place => String.eqb (fst (fst p)) "SUN") bs
     && forallb (fun q : place * place => if Req_EM_T (snd (fst (fst q))) (snd (fst (snd q))) then true else false) (combine os bs)
  then
    match mapM (fun p : place => match rel "SUN" "SOLAR_SYSTEM_BARYCENTER" (snd (fst p)) "ecliptic" with Some w => Ok w | None => Err ValueError end) os with
    | Ok ws =>
        let move l := map (fun q : place * row6 => ("SOLAR_SYSTEM_BARYCENTER", snd (fst (fst q)), add6 (snd (fst q)) (snd q))) (combine l ws) in
        Some (move os, move bs)
    | Err _ => None
    end
  else None.
(* ephemeris.py:356-424 *)
Definition barycentric (fo fb : string) (os bs : list place) : result (list place * list place) :=
  match shortcut fo fb os bs with
  | Some r => Ok r
  | None =>
      bind (transform fo "ecliptic" "SOLAR_SYSTEM_BARYCENTER" os) (fun os' =>
      bind (transform fb "ecliptic" "SOLAR_SYSTEM_BARYCENTER" bs) (fun bs' => Ok (os', bs')))
  end.

(* covariances.py:476-478, one row; a missing element makes the sums it enters missing *)
Definition osum6 (f : nat -> option R) : option R :=
  fold_right (fun i acc => match f i, acc with Some x, Some y => Some (x + y) | _, _ => None end) (Some 0) [0; 1; 2; 3; 4; 5]%nat.
(* helper of [sandwich], covariances.py:477 *)
Definition omul (a b : option R) : option R := match a, b with Some x, Some y => Some (x * y) | _, _ => None end.
(* covariances.py:477 *)
Definition sandwich (J : nat -> nat -> option R) (c : covariance) : covariance := fun i j =>
  osum6 (fun l => omul (osum6 (fun k => omul (J i k) (c k l))) (J j l)).
(* ephemeris.py:583-605: base point, covariance and observer of a row; the function differentiated is
   the first output of [kernel] *)
Definition covariance_row (c : settings) (o : orbit) (obs : row6) : covariance :=
  sandwich (jac (fun x => fst (fst (kernel c x (or_epoch o) obs mu_ssb))) (or_state o)) (or_cov o).
(* ephemeris.py:583 is_all_nan *)
Definition all_missing (c : covariance) : bool :=
  forallb (fun i => forallb (fun j => missing (c i j)) [0; 1; 2; 3; 4; 5]%nat) [0; 1; 2; 3; 4; 5]%nat.

(* ephemeris.py:437-626: one row *)
Definition row (c : settings) (with_cov : bool) (q : (orbit * place) * (observer * place)) : result eph :=
  let '((o, (_, _, s)), (b, (_, _, w))) := q in
  match kernel c s (or_epoch o) w mu_ssb with
  | (Some sph, Some l, Some ab) =>
      Ok (mkeph (or_id o) (or_object o) (or_epoch o) (ob_code b) "equatorial" sph
                (if with_cov then covariance_row c o w else fun _ _ => None)
                l ab (or_epoch o - l) "SOLAR_SYSTEM_BARYCENTER" "ecliptic" None None)
  | _ => Err RuntimeError
  end.

(* ephemeris.py:648-667: heliocentric positions of object and observer *)
Definition helio (fb : string) (es : list eph) (bs : list observer) : result (list (vec * vec)) :=
  bind (transform "ecliptic" "ecliptic" "SUN" (map (fun e => (e_emit_origin e, e_emit_epoch e, e_emit e) : place) es)) (fun os' =>
  bind (transform fb "ecliptic" "SUN" (map place_of_observer bs)) (fun bs' =>
  Ok (combine (map (fun p : place => pos (snd p)) os') (map (fun p : place => pos (snd p)) bs')))).
(* ephemeris.py:639-641 *)
Definition has_params (o : orbit) : bool := negb (missing (or_H o)) && negb (missing (or_G o)).
(* magnitude.py:251-283, one row with parameters that may be missing *)
Definition magnitude_row (o : orbit) (g : vec * vec) : option R :=
  match or_H o, or_G o with Some h, Some k => apparent_v h (fst g) (snd g) k | _, _ => None end.
(* ephemeris.py:628-706; magnitude.py:35-63 refuses the table if one row has a bad geometry *)
Definition photometry (fb : string) (want_mag want_alpha : bool) (os : list orbit) (bs : list observer) (es : list eph) : result (list eph) :=
  let want_mag := want_mag && existsb has_params os in
  if negb want_mag && negb want_alpha then Ok es
  else bind (helio fb es bs) (fun gs =>
    if negb (forallb (fun g => geometry_ok (fst g) (snd g)) gs) then Err ValueError
    else Ok (map (fun q => let '(e, (o, g)) := q in
           mkeph (e_id e) (e_object e) (e_epoch e) (e_code e) (e_frame e) (e_coord e) (e_cov e) (e_light e)
                 (e_emit e) (e_emit_epoch e) (e_emit_origin e) (e_emit_frame e)
                 (if want_mag then magnitude_row o g else e_mag e)
                 (if want_alpha then Some (phase_angle (fst g) (snd g)) else e_alpha e))
         (combine es (combine os gs)))).

(* ephemeris.py:351-706 *)
Definition generate_ephemeris_2body (c : settings) (fo fb : string) (os : list orbit) (bs : list observer)
    (want_mag want_alpha : bool) : result (list eph) :=
  if negb (Nat.eqb (List.length os) (List.length bs)) then Err AssertionError
  else bind (barycentric fo fb (map place_of_orbit os) (map place_of_observer bs)) (fun pb =>
       let with_cov := negb (forallb (fun o => all_missing (or_cov o)) os) in
       bind (mapM (row c with_cov) (combine (combine os (fst pb)) (combine bs (snd pb)))) (fun es =>
       photometry fb want_mag want_alpha os bs es)).
End Ephemeris.
