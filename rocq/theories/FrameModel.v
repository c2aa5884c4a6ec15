(* Model of coordinates/units.py, of CartesianCoordinates.rotate, translate, ric3_matrix
   (coordinates/cartesian.py), of cartesian_to_frame (coordinates/transform.py) and of the frame
   label of propagate_2body (definitions only).  Simplifications: exact real arithmetic; a missing
   (null or NaN) number is [None]; a row of six numbers is a function of the index 0..5. *)
From Coq Require Import Reals String.
From Verif Require Import Base SphModel KepModel LightModel UnivModel.
Open Scope R_scope.

(* helper of [translate_values], cartesian.py:344-390 *)
Definition values := nat -> option R.
(* helper of [cartesian_to_frame], transform.py:1740-1752 *)
Definition matrix := nat -> nat -> R.
(* helper of [cartesian_to_frame], transform.py:1740-1752 *)
Definition covariance := nat -> nat -> option R.
(* helper of [cartesian_to_frame], transform.py:1740-1752 *)
Definition sum6 (f : nat -> R) : R := f 0%nat + f 1%nat + f 2%nat + f 3%nat + f 4%nat + f 5%nat.

(* units.py:26-40; km_p_au and s_p_day are constants.py:11,13 *)
Definition au_to_km (x : R) : R := x * km_p_au.
(* units.py:43-57 *)
Definition km_to_au (x : R) : R := x / km_p_au.
(* units.py:60-76 *)
Definition au_per_day_to_km_per_s (x : R) : R := x * km_p_au / s_p_day.
(* units.py:79-95 *)
Definition km_per_s_to_au_per_day (x : R) : R := x / km_p_au * s_p_day.
(* units.py:98-117 *)
Definition values_au_to_km (v : nat -> R) (i : nat) : R := if Nat.ltb i 3 then au_to_km (v i) else au_per_day_to_km_per_s (v i).
(* units.py:120-139 *)
Definition values_km_to_au (v : nat -> R) (i : nat) : R := if Nat.ltb i 3 then km_to_au (v i) else km_per_s_to_au_per_day (v i).
(* units.py:142-178: element-wise product with the outer product of the unit vector *)
Definition unit_au_to_km (i : nat) : R := if Nat.ltb i 3 then km_p_au else km_p_au / s_p_day.
(* units.py:181-217, diagonal of the Jacobian *)
Definition unit_km_to_au (i : nat) : R := if Nat.ltb i 3 then 1 / km_p_au else s_p_day / km_p_au.
(* units.py:142-178 *)
Definition covariance_au_to_km (c : covariance) : covariance := fun i j => option_map (fun x => x * (unit_au_to_km i * unit_au_to_km j)) (c i j).
(* units.py:181-217 *)
Definition covariance_km_to_au (c : covariance) : covariance := fun i j => option_map (fun x => x * (unit_km_to_au i * unit_km_to_au j)) (c i j).

(* ---- cartesian.py:272-342 ---- *)
Definition fill0 (x : option R) : R := match x with Some y => y | None => 0 end.
(* helper of [cartesian_to_frame], transform.py:1740-1752 *)
Definition missing (x : option R) : bool := match x with Some _ => false | None => true end.
(* 293-297: np.ma.dot with strict=False takes masked factors as 0; the product is masked only where
   every factor is *)
(* helper of [cartesian_to_frame], transform.py:1740-1752 *)
Definition rotate_values (m : matrix) (v : values) : values := fun i =>
  if andb (andb (andb (missing (v 0%nat)) (missing (v 1%nat))) (andb (missing (v 2%nat)) (missing (v 3%nat)))) (andb (missing (v 4%nat)) (missing (v 5%nat)))
  then None else Some (sum6 (fun j => fill0 (v j) * m i j)).
(* 299-330: covariances with missing elements as 0, the mask put back, then elements below 1e-25 to 0 *)
(* helper of [cartesian_to_frame], transform.py:1740-1752 *)
Definition cov_tol : R := / 10 ^ 25.
(* helper of [cartesian_to_frame], transform.py:1740-1752 *)
Definition near_zero (x : R) : R := if Rlt_dec (Rabs x) cov_tol then 0 else x.
(* helper of [cartesian_to_frame], transform.py:1740-1752 *)
Definition rotate_covariance (m : matrix) (c : covariance) : covariance := fun i j =>
  match c i j with
  | None => None
  | Some _ => Some (near_zero (sum6 (fun l => sum6 (fun k => m i k * fill0 (c k l)) * m j l)))
  end.
(* cartesian.py:344-390: translation by one vector *)
Definition translate_values (w : nat -> R) (v : values) : values := fun i => option_map (fun x => x + w i) (v i).

(* helper of [cartesian_to_frame], transform.py:1740-1752 *)
Record coords := mkcoords { c_values : values; c_cov : covariance; c_frame : string }.
(* helper of [cartesian_to_frame], transform.py:1740-1752 *)
Definition rotate (m : matrix) (frame_out : string) (c : coords) : coords :=
  mkcoords (rotate_values m (c_values c)) (rotate_covariance m (c_cov c)) frame_out.

(* constants.py:30-41, 55; transform.py:29-32 *)
Definition obliquity : R := 84381448 / 1000 * PI / (180 * 3600).
(* helper of [cartesian_to_frame], transform.py:1740-1752 *)
Definition rot3 (i j : nat) : R :=
  match i, j with
  | 0%nat, 0%nat => 1
  | 1%nat, 1%nat => cos obliquity | 1%nat, 2%nat => sin obliquity
  | 2%nat, 1%nat => - sin obliquity | 2%nat, 2%nat => cos obliquity
  | _, _ => 0
  end.
(* helper of [cartesian_to_frame], transform.py:1740-1752 *)
Definition eq2ec : matrix := fun i j =>
  if andb (Nat.ltb i 3) (Nat.ltb j 3) then rot3 i j
  else if andb (Nat.leb 3 i) (Nat.leb 3 j) then rot3 (i - 3) (j - 3) else 0.
(* helper of [cartesian_to_frame], transform.py:1740-1752 *)
Definition ec2eq : matrix := fun i j => eq2ec j i.

(* transform.py:1740-1752; the time-varying rotations to and from itrf93 are the parameter [itrf] *)
Definition cartesian_to_frame (itrf : coords -> string -> result coords) (c : coords) (frame : string) : result coords :=
  if (String.eqb frame "ecliptic" && String.eqb (c_frame c) "equatorial")%bool then Ok (rotate eq2ec "ecliptic" c)
  else if (String.eqb frame "equatorial" && String.eqb (c_frame c) "ecliptic")%bool then Ok (rotate ec2eq "equatorial" c)
  else if (String.eqb frame "itrf93" && negb (String.eqb (c_frame c) "itrf93"))%bool then itrf c frame
  else if (negb (String.eqb frame "itrf93") && String.eqb (c_frame c) "itrf93")%bool then itrf c frame
  else if String.eqb frame (c_frame c) then Ok c
  else Err ValueError.

(* ---- cartesian.py:224-245 ---- *)
Definition h_tol : R := / 10 ^ 20.
(* cartesian.py:224-245 *)
Definition ric3 (s : row6) : vec * vec * vec :=
  let h := cross (pos s) (vel s) in
  let degenerate := if Rlt_dec (norm h) h_tol then true else false in
  let radial := if degenerate then scale (/ 1) (1, 0, 0) else scale (/ norm (pos s)) (pos s) in
  let cross_track := if degenerate then scale (/ 1) (0, 0, 1) else scale (/ norm h) h in
  (radial, cross cross_track radial, cross_track).

(* ---- propagation.py:229-263: one row of the propagated table; the frame label is a literal ---- *)
Definition propagate_row (frame : string) (s : row6) (t0 t1 mu : R) (max_iter : nat) (tol : R) : option (string * row6) :=
  option_map (fun s' => ("ecliptic"%string, s')) (propagate s t0 t1 mu max_iter tol).
