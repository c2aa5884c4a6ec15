(* Specification vocabulary for timestamps, independent of the model's helpers:
   an instant is a number of nanoseconds since MJD 0. *)
From Verif Require Import Base TimeModel.
Open Scope Z_scope.

Definition instant (r : row) : Z := days r * 86400000000000 + nanos r.
Definition normal (r : row) : Prop := 0 <= nanos r < 86400000000000.
(* the day count is not the extreme int64 value, so that a carry cannot wrap *)
Definition interior (r : row) : Prop := - 2 ^ 63 < days r < 2 ^ 63 - 1.
(* dates for which day differences cannot wrap: |days| < 2^62 *)
Definition sane (r : row) : Prop := - 2 ^ 62 < days r < 2 ^ 62.
(* value of a broadcast argument for row [i] *)
Definition arg_at (a : arg) (i : nat) : option Z :=
  match a with Scalar n => Some n | Array l => nth_error l i end.
(* the argument has a value for each of [k] rows *)
Definition fits (a : arg) (k : nat) : Prop :=
  match a with Scalar _ => True | Array l => length l = k end.
Definition arg_forall (P : Z -> Prop) (a : arg) : Prop :=
  match a with Scalar n => P n | Array l => Forall P l end.

(* unit of a precision in nanoseconds *)
Definition unit_ns (p : precision) : Z :=
  match p with NS => 1 | US => 1000 | MS => 1000000 | S => 1000000000 | OtherPrecision => 0 end.
