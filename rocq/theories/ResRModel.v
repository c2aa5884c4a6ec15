(* Binary64 model of src/adam_core/coordinates/residuals.py:99-152 bound_longitude_residuals for
   one row (definitions only).  [fl] is round-to-nearest-even (TimeRModel.v). *)
From Coq Require Import Reals.
From Flocq Require Import Core.
From Verif Require Import Base TimeRModel.
Open Scope R_scope.

(* residuals.py:278 observed_values - predicted_values *)
Definition lon_difference (obs pred : R) : R := fl (obs - pred).
(* residuals.py:122-151: the two flags are taken before wrapping; negation is exact *)
Definition bound_longitude (obs r : R) : R :=
  let g180 := Rlt_bool 180 r in
  let l180 := Rlt_bool r (-180) in
  let r1 := if g180 then fl (r - 360) else r in
  let r2 := if l180 then fl (r1 + 360) else r1 in
  let r3 := if g180 && Rlt_bool 180 obs then - r2 else r2 in
  if l180 && Rlt_bool obs 180 then - r3 else r3.
(* residuals.py:122-151 applied to residuals.py:278 *)
Definition longitude_residual (obs pred : R) : R := bound_longitude obs (lon_difference obs pred).
