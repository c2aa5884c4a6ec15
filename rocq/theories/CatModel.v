(* Model of src/adam_core/observations/source_catalog.py (definitions only).
   Simplifications: exact arithmetic; a null is None, NaN in a catalogue is outside the model except as the value of a null
   read by to_numpy; the class of the error of quivr for a null or a value out of range is written ValueError;
   times are rows of days and nanoseconds in one scale; the state of an observatory is the parameter of TableModel. *)
From Coq Require Import QArith ZArith String List Bool.
From Verif Require Import Base ResModel TimeModel TableModel FitModel MpcModel.
Import ListNotations.
Open Scope string_scope.
Open Scope list_scope.
Open Scope nat_scope.

(* source_catalog.py:20-83: the columns used below *)
Record source := mksrc { s_id : string; s_exposure : option string; s_time : row; s_ra : Q; s_dec : Q; s_ra_sigma : num; s_dec_sigma : num; s_corr : num;
                         s_code : string; s_filter : option string; s_start : option row; s_duration : num; s_seeing : num; s_depth : num }.
(* exposures.py:16-27 *)
Record exposure := mkexp { x_id : string; x_start : row; x_duration : Q; x_filter : string; x_code : string; x_seeing : num; x_depth : num }.
(* source_catalog.py:174-179: division by 3600, and products, of floats that may be NaN *)
Definition degrees (s : num) : num := option_map (fun x => x / inject_Z 3600)%Q s.
(* source_catalog.py:179-181 *)
Definition times (a b : num) : num := match a, b with Some x, Some y => Some (x * y)%Q | _, _ => None end.
(* source_catalog.py:168-184: one matrix *)
Definition catalog_covariance (s : source) (i j : nat) : num :=
  let ra := degrees (s_ra_sigma s) in
  let dec := degrees (s_dec_sigma s) in
  match i, j with
  | 1, 1 => times ra ra
  | 2, 2 => times dec dec
  | 1, 2 | 2, 1 => times (times (s_corr s) ra) dec
  | _, _ => None
  end.
(* coordinates/spherical.py, the columns set in source_catalog.py:186-197 *)
Record sph := mksph { p_rho : num; p_lon : num; p_lat : num; p_time : row; p_cov : nat -> nat -> num; p_origin : string; p_frame : string }.
(* source_catalog.py:159-197 *)
Definition coordinates (l : list source) : list sph :=
  map (fun s => mksph None (Some (s_ra s)) (Some (s_dec s)) (s_time s) (catalog_covariance s) (s_code s) "equatorial") l.

(* exposures.py:21-27: one row, with the columns that may not be null and the range of the duration *)
Definition exposure_row (s : source) : result exposure :=
  match s_exposure s, s_start s, s_duration s, s_filter s with
  | Some i, Some t, Some d, Some f => if Qle_bool 0 d && Qle_bool d 3600 then Ok (mkexp i t d f (s_code s) (s_seeing s) (s_depth s)) else Err ValueError
  | _, _, _, _ => Err ValueError
  end.
(* source_catalog.py:106-125; quivr drop_duplicates keeps the first *)
Definition exposures (l : list source) : result (list exposure) :=
  bind (mapM exposure_row l) (fun xs => Ok (drop_duplicates (fun a b => String.eqb (x_id a) (x_id b)) true xs)).

(* source_catalog.py:215-220, exposures.py:80 with time.py:443 *)
Definition half_nanos (duration : Q) : Z := round_half_even (duration / 2 * inject_Z 1000000000)%Q.
(* exposures.py:76-80: one midpoint; time.py:402-424 *)
Definition midpoint (x : exposure) : row := carry (days (x_start x)) (nanos (x_start x) + half_nanos (x_duration x)).

Section Observers.
  Context {S : Type}.
  Variable state : string -> list row -> result (list S).
  (* exposures.py:38-74 *)
  Definition observers_of_exposures (xs : list exposure) : result (list (string * S)) := exposure_observers state x_code midpoint xs.
  (* source_catalog.py:214-224: one time; a row without start or duration gives an error, time.py:389-400 *)
  Definition source_midpoint (s : source) : result row :=
    match s_start s, s_duration s with
    | Some t, Some d => if nanos_in_range (half_nanos d) then add_nanos_row t (half_nanos d) else Err ValueError
    | _, _ => Err ValueError
    end.
  (* source_catalog.py:199-229 *)
  Definition catalog_observers (exposure_midpoint : bool) (l : list source) : result (list (string * S)) :=
    if exposure_midpoint then bind (mapM source_midpoint l) (fun ts => from_codes state (map (fun s => Some (s_code s)) l) ts)
    else from_codes state (map (fun s => Some (s_code s)) l) (map s_time l).
End Observers.
