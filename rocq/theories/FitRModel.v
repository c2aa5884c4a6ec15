(* Model of orbit_determination/outliers.py calculate_max_outliers in binary64 (definitions only). *)
From Coq Require Import Reals.
From Flocq Require Import Core.
From Verif Require Import Base TimeRModel.
Open Scope R_scope.

(* outliers.py:10-43: [pct] is a binary64 percentage; / and * round ([fl]), the int is converted to
   binary64, np.min picks the smaller and astype(int) truncates.  NaN percentages (rejected by the
   second assert) and ints beyond the binary64 range are not represented. *)
Definition calculate_max_outliers (n min_obs : Z) (pct : R) : result Z :=
  if (n <? min_obs)%Z then Err AssertionError
  else if negb (Rle_bool 0 pct && Rle_bool pct 100) then Err AssertionError
  else Ok (Ztrunc (Rmin (fl (fl (IZR n) * fl (pct / 100))) (fl (IZR (n - min_obs))))).
