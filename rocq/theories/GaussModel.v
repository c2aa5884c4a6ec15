(* Model of src/adam_core/orbit_determination/{gauss,gibbs,herrick_gibbs}.py and of the selection of the
   three observations in iod.py:385-447 (definitions only).  Simplifications: exact real arithmetic in
   place of binary64; an infinite or NaN velocity is [None] (such a row is skipped by the speed check or
   dropped with the NaN rows, gauss.py:303-318); a division by zero between Python floats or inside a
   numba function raises ZeroDivisionError, one between numpy floats gives an infinite or NaN value;
   numpy.roots restricted to the real non-negative roots is the parameter [roots]. *)
From Coq Require Import Reals String ZArith List.
From Verif Require Import Base StrOrder SphModel KepModel LightModel FrameModel OdModel.
Import ListNotations.
Open Scope R_scope.

(* constants.py:49 *)
Definition MU : R := 29591220828411956 / 10 ^ 20.
(* helper of [calc_A], gauss.py:42-47 *)
Definition vminus (u v : vec) : vec := vplus u (scale (-1) v).

(* gauss.py:33-39 *)
Definition calc_V (u1 u2 u3 : vec) : R := dot (cross u1 u2) u3.
(* gauss.py:42-47 *)
Definition calc_A (q1 q2 q3 u1 u3 : vec) (t31 t32 t21 : R) : R :=
  norm q2 ^ 3 * dot (cross u1 u3) (vplus (vminus (scale t32 q1) (scale t31 q2)) (scale t21 q3)).
(* gauss.py:50-59 *)
Definition calc_B (q1 q3 u1 u3 : vec) (t31 t32 t21 mu : R) : R :=
  mu / 6 * t32 * t21 * dot (cross u1 u3) (vplus (scale (t31 + t32) q1) (scale (t31 + t21) q3)).
(* gauss.py:62-67; numba divides as Python does *)
Definition calc_lambdas (r t31 t32 t21 mu : R) : result (R * R) :=
  if Req_EM_T t31 0 then Err ZeroDivisionError else
  if Req_EM_T (6 * r ^ 3) 0 then Err ZeroDivisionError else
  Ok (t32 / t31 * (1 + mu / (6 * r ^ 3) * (t31 ^ 2 - t32 ^ 2)),
      t21 / t31 * (1 + mu / (6 * r ^ 3) * (t31 ^ 2 - t21 ^ 2))).
(* gauss.py:70-86 *)
Definition calc_rhos (l1 l3 : R) (q1 q2 q3 u1 u2 u3 : vec) (V : R) : result (vec * vec * vec) :=
  let num := vminus (vplus (scale (- l1) q1) q2) (scale l3 q3) in
  if Req_EM_T (l1 * V) 0 then Err ZeroDivisionError else
  if Req_EM_T V 0 then Err ZeroDivisionError else
  if Req_EM_T (l3 * V) 0 then Err ZeroDivisionError else
  Ok (scale (dot num (cross u2 u3) / (l1 * V)) u1,
      scale (dot num (cross u1 u3) / V) u2,
      scale (dot num (cross u1 u2) / (l3 * V)) u3).
(* gauss.py:89-94 *)
Definition lagrange_f (r dt mu : R) : R := 1 - 1 / 2 * mu / r ^ 3 * dt ^ 2.
(* helper of [calc_gauss], gauss.py:143-149 *)
Definition lagrange_g (r dt mu : R) : R := dt - 1 / 6 * mu / r ^ 3 * dt ^ 2.
(* gauss.py:143-149 *)
Definition calc_gauss (r1 r2 r3 : vec) (t1 t2 t3 : R) : result vec :=
  let t12 := t1 - t2 in
  let t32 := t3 - t2 in
  let r := norm r2 in
  if Req_EM_T (r ^ 3) 0 then Err ZeroDivisionError else
  let f1 := lagrange_f r t12 MU in let g1 := lagrange_g r t12 MU in
  let f3 := lagrange_f r t32 MU in let g3 := lagrange_g r t32 MU in
  if Req_EM_T (f1 * g3 - f3 * g1) 0 then Err ZeroDivisionError else
  Ok (scale (1 / (f1 * g3 - f3 * g1)) (vplus (scale (- f3) r1) (scale f1 r3))).
(* gibbs.py:46-64 *)
Definition calc_gibbs (r1 r2 r3 : vec) : option vec :=
  let m1 := norm r1 in let m2 := norm r2 in let m3 := norm r3 in
  let z12 := cross r1 r2 in let z23 := cross r2 r3 in let z31 := cross r3 r1 in
  let N := vplus (vplus (scale m1 z23) (scale m2 z31)) (scale m3 z12) in
  let D := vplus (vplus z12 z23) z31 in
  let S := vplus (vplus (scale (m2 - m3) r1) (scale (m3 - m1) r2)) (scale (m1 - m2) r3) in
  let B := cross D r2 in
  if Req_EM_T (norm N) 0 then None else
  if Req_EM_T (norm D) 0 then None else
  if Req_EM_T m2 0 then None else
  let Lg := sqrt (MU / norm N / norm D) in
  Some (vplus (scale (Lg / m2) B) (scale Lg S)).
(* herrick_gibbs.py:53-62 *)
Definition calc_herrick_gibbs (r1 r2 r3 : vec) (t1 t2 t3 : R) : option vec :=
  let t31 := t3 - t1 in let t32 := t3 - t2 in let t21 := t2 - t1 in
  if Req_EM_T (t21 * t31) 0 then None else if Req_EM_T (t21 * t32) 0 then None else
  if Req_EM_T (t32 * t31) 0 then None else
  if Req_EM_T (norm r1) 0 then None else if Req_EM_T (norm r2) 0 then None else if Req_EM_T (norm r3) 0 then None else
  Some (vplus (vplus (scale (- t32 * (1 / (t21 * t31) + MU / (12 * norm r1 ^ 3))) r1)
                     (scale ((t32 - t21) * (1 / (t21 * t32) + MU / (12 * norm r2 ^ 3))) r2))
              (scale (t21 * (1 / (t32 * t31) + MU / (12 * norm r3 ^ 3))) r3)).

(* helper of [velocity], gauss.py:284-293 *)
Inductive vmethod := Gauss | Gibbs | HerrickGibbs | OtherVelocity.
(* gauss.py:284-293 *)
Definition velocity (m : vmethod) (r1 r2 r3 : vec) (t1 t2 t3 : R) : result (option vec) :=
  match m with
  | Gauss => bind (calc_gauss r1 r2 r3 t1 t2 t3) (fun v => Ok (Some v))
  | Gibbs => Ok (calc_gibbs r1 r2 r3)
  | HerrickGibbs => Ok (calc_herrick_gibbs r1 r2 r3 t1 t2 t3)
  | OtherVelocity => Err ValueError
  end.

(* helper of [gauss_root], gauss.py:267-312 *)
Record orbit := mkorb { o_epoch : R; o_r : vec; o_v : vec }.
(* gauss.py:200-225: lon, lat in degrees, equatorial, on the unit sphere, turned to the ecliptic
   (constants.py:31-38) and normalised *)
Definition sight (lonlat : R * R) : vec :=
  let s := spherical_to_cartesian (mk6 1 (fst lonlat) (snd lonlat) 0 0 0) in
  let u := (c_0 s, cos obliquity * c_1 s + sin obliquity * c_2 s, - sin obliquity * c_1 s + cos obliquity * c_2 s) in
  scale (/ norm u) u.
(* gauss.py:267-312: one root *)
Definition gauss_root (m : vmethod) (light_time : bool) (mu : R) (q1 q2 q3 u1 u2 u3 : vec) (t1 t2 t3 r : R) : result (option orbit) :=
  let t31 := t3 - t1 in let t21 := t2 - t1 in let t32 := t3 - t2 in
  let V := calc_V u1 u2 u3 in
  bind (calc_lambdas r t31 t32 t21 mu) (fun l =>
  bind (calc_rhos (fst l) (snd l) q1 q2 q3 u1 u2 u3 V) (fun p =>
  let rho1 := fst (fst p) in let rho2 := snd (fst p) in let rho3 := snd p in
  if Rlt_dec (dot rho2 u2) 0 then Ok None else
  let r1 := vplus q1 rho1 in let r2 := vplus q2 rho2 in let r3 := vplus q3 rho3 in
  bind (velocity m r1 r2 r3 t1 t2 t3) (fun v =>
  match v with
  | None => Ok None
  | Some v2 =>
    let epoch := if light_time then t2 - norm (vminus r2 q2) / light else t2 in
    if Rle_dec light (norm v2) then Ok None else
    if Rlt_dec 300 (norm r2) then Ok None else if Rlt_dec 1 (norm v2) then Ok None else
    Ok (Some (mkorb epoch r2 v2))
  end))).
(* helper of [gauss_iod], gauss.py:152-337 *)
Fixpoint each {A B} (f : A -> result (option B)) (l : list A) : result (list B) :=
  match l with
  | [] => Ok []
  | x :: xs => bind (f x) (fun y => bind (each f xs) (fun ys => Ok (match y with Some b => b :: ys | None => ys end)))
  end.
(* gauss.py:237-257: the eighth-order polynomial, leading coefficient first *)
Definition gauss_C0 (q1 q2 q3 u1 u2 u3 : vec) (t1 t2 t3 mu : R) : R :=
  calc_V u1 u2 u3 * (t3 - t1) * norm q2 ^ 4 / calc_B q1 q3 u1 u3 (t3 - t1) (t3 - t2) (t2 - t1) mu.
(* helper of [gauss_iod], gauss.py:152-337 *)
Definition gauss_h0 (q1 q2 q3 u1 u2 u3 : vec) (t1 t2 t3 mu : R) : R :=
  - calc_A q1 q2 q3 u1 u3 (t3 - t1) (t3 - t2) (t2 - t1) / calc_B q1 q3 u1 u3 (t3 - t1) (t3 - t2) (t2 - t1) mu.
(* helper of [gauss_iod], gauss.py:152-337 *)
Definition gauss_poly (q1 q2 q3 u1 u2 u3 : vec) (t1 t2 t3 mu : R) : list R :=
  let C0 := gauss_C0 q1 q2 q3 u1 u2 u3 t1 t2 t3 mu in
  let h0 := gauss_h0 q1 q2 q3 u1 u2 u3 t1 t2 t3 mu in
  let q := norm q2 in
  let coseps := dot q2 u2 / q in
  [C0 ^ 2; 0; - q ^ 2 * (h0 ^ 2 + 2 * C0 * h0 * coseps + C0 ^ 2); 0; 0; 2 * q ^ 5 * (h0 + C0 * coseps); 0; 0; - q ^ 8].
(* gauss.py:152-337.  -A / B is a division of Python floats; an observer at the origin makes the
   coefficients NaN and numpy.roots raises (LinAlgError is a ValueError) *)
Definition gauss_iod (roots : list R -> list R) (m : vmethod) (light_time : bool) (mu : R)
    (s1 s2 s3 : R * R) (t1 t2 t3 : R) (q1 q2 q3 : vec) : result (list orbit) :=
  let u1 := sight s1 in let u2 := sight s2 in let u3 := sight s3 in
  if Req_EM_T (calc_B q1 q3 u1 u3 (t3 - t1) (t3 - t2) (t2 - t1) mu) 0 then Err ZeroDivisionError else
  if Req_EM_T (norm q2) 0 then Err ValueError else
  each (gauss_root m light_time mu q1 q2 q3 u1 u2 u3 t1 t2 t3) (roots (gauss_poly q1 q2 q3 u1 u2 u3 t1 t2 t3 mu)).
(* gauss.py:328-332: the labels put on every row *)
Definition gauss_scale : string := "utc".

(* ---- iod.py: an observation with its observer ---- *)
(* helper of [w_mjd], time.py:133-134 *)
Record obsrow := mkobs { w_id : string; w_days : Z; w_nanos : Z; w_code : string; w_lonlat : R * R;
                         w_odays : Z; w_onanos : Z; w_ocode : string; w_opos : vec }.
(* time.py:133-134: days plus the fraction of the day *)
Definition w_mjd (w : obsrow) : R := IZR (w_days w) + IZR (w_nanos w) / 86400000000000.
(* iod.py:400-402: the key the observers are sorted by *)
Definition okey_leb (a b : obsrow) : bool :=
  if (w_odays a <? w_odays b)%Z then true else if (w_odays b <? w_odays a)%Z then false
  else if (w_onanos a <? w_onanos b)%Z then true else if (w_onanos b <? w_onanos a)%Z then false
  else str_leb (w_ocode a) (w_ocode b).
(* iod.py:389-391, 404-405, 431-441: the sky positions, times and observer positions handed to gaussIOD *)
Definition iod_inputs (rows : list obsrow) (ids : list string) : list ((R * R) * R * vec) :=
  let mask := map (fun w => mem (w_id w) ids) rows in
  combine (combine (masked mask (map w_lonlat rows)) (masked mask (map w_mjd rows)))
          (masked mask (map w_opos (sort okey_leb rows))).
