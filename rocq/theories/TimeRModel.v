(* Parts of src/adam_core/time/time.py that need real or binary64 arithmetic
   (definitions only). *)
From Verif Require Import Base TimeModel.
From Coq Require Import Reals String.
From Flocq Require Import Core.
Open Scope Z_scope.

(* binary64 round-to-nearest-even on reals; overflow is not modelled (all values
   used here are far below 2^1023) *)
(* helper of [add_fractional_days_row], time.py:496-516 *)
Definition fl (x : R) : R := round radix2 (FLT_exp (-1074) 53) ZnearestE x.
(* binary64 numbers (Flocq) *)
Definition is_f64 (x : R) : Prop := generic_format radix2 (FLT_exp (-1074) 53) x.

(* time.py:496-516 Timestamp.add_fractional_days for one row and one binary64
   offset [x].  pc.floor is exact; pc.subtract and pc.multiply round; the casts to
   int64 raise ArrowInvalid when out of range, the second truncates. *)
Definition add_fractional_days_row (r : row) (x : R) : result row :=
  let day_part := Zfloor x in
  let nano_part := fl (x - IZR day_part) in
  if in_int64b day_part then
    let n := Ztrunc (fl (nano_part * IZR DAY)) in
    let r1 := mkrow (wrap64 (days r + day_part)) (nanos r) in
    if nanos_in_range n then add_nanos_row r1 n else Err ValueError
  else Err ArrowInvalid.

(* time.py:648-655 _tt_tdb_correction(True, correction) at (days, nanos+correction),
   in real arithmetic; astype(int64) truncates toward zero *)
Definition tdb_formula (d n : Z) : Z :=
  let c := ((IZR (d - 51545) + (IZR n / IZR DAY + 1 / 2)) / 36525)%R in
  let g := ((35999.050 * c + 357.528) * PI / 180)%R in
  Ztrunc (sin (g + 0.0167 * sin g) * 1658000)%R.
