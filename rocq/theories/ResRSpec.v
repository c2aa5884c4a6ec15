(* Specification of longitude residuals, independent of the model. *)
From Coq Require Import Reals.
Open Scope R_scope.
(* [d] is the angle between the directions [a] and [b] (degrees) *)
Definition is_separation (a b d : R) : Prop :=
  (exists k : Z, Rabs (a - b + 360 * IZR k) = d) /\ forall k : Z, d <= Rabs (a - b + 360 * IZR k).
(* [a] and [b] are the same direction *)
Definition same_direction (a b : R) : Prop := exists k : Z, a = b + 360 * IZR k.
