(* Model of src/adam_core/dynamics/aberrations.py: light time (lines 15-112) and stellar aberration
   (lines 175-223), and of constants.py (definitions only).  Simplifications: exact real arithmetic;
   a NaN state or light time is [None]. *)
From Coq Require Import Reals.
From Verif Require Import SphModel KepModel KepSpec UnivModel.
Open Scope R_scope.

(* constants.py:10-13, 47: the speed of light in au per day *)
Definition km_p_au : R := 1495978707 / 10.
(* helper of [lt_loop], aberrations.py:59-104 *)
Definition s_p_day : R := 86400.
(* helper of [lt_loop], aberrations.py:59-104 *)
Definition light : R := 299792458 / 1000 / km_p_au * s_p_day.

(* aberrations.py:59-104.  [fuel] is max_lt_iter minus the iterations made; a NaN state makes the next
   light time and its change NaN, which ends the loop. *)
Fixpoint lt_loop (prop : R -> R -> option row6) (obs : vec) (lt_tol : R) (fuel : nat)
                 (st : option row6) (t lt dlt : R) : option row6 * option R :=
  match fuel with
  | O => (st, None)
  | S k =>
    if Rlt_dec lt_tol dlt then
      match st with
      | None => (None, None)
      | Some s =>
        let lt' := distance (pos s) obs / light in
        let t1 := t - lt' in
        lt_loop prop obs lt_tol k (prop t t1) t1 lt' (Rabs (lt' - lt))
      end
    else (st, Some lt)
  end.
(* aberrations.py:15-112 *)
Definition add_light_time (s : row6) (t0 : R) (obs : vec) (lt_tol mu : R) (max_iter : nat) (tol : R) (max_lt_iter : nat) :=
  lt_loop (fun t t1 => propagate s t t1 mu max_iter tol) obs lt_tol max_lt_iter (Some s) t0 (10 ^ 30) (10 ^ 30).

(* aberrations.py:195-222: the topocentric position with stellar aberration *)
Definition aberrate (s obs : row6) : option vec :=
  let topo := vplus (pos s) (scale (-1) (pos obs)) in
  let gamma := scale (/ light) (vel obs) in
  let delta := norm topo in
  if Rlt_dec 1 (norm gamma) then None else
  let beta_inv := sqrt (1 - norm gamma ^ 2) in
  if Req_EM_T delta 0 then None else
  let rho := scale (/ delta) topo in
  let d := dot rho gamma in
  if Req_EM_T (1 + d) 0 then None else
  Some (scale delta (scale (/ (1 + d)) (vplus (vplus (scale beta_inv rho) gamma) (scale (d / (1 + beta_inv)) gamma)))).
