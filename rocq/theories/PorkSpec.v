(* What the transfer grid theorems speak of. *)
From Coq Require Import List String ZArith Reals.
From Verif Require Import TimeModel KepModel PorkModel.
Import ListNotations.
Open Scope Z_scope.

(* nanoseconds since MJD zero in the scale of the table *)
Definition instant (t : row) : Z := days t * 86400000000000 + nanos t.
(* nanoseconds of the day *)
Definition proper (t : row) : Prop := 0 <= nanos t < 86400000000000.
(* departure strictly before arrival, as read in the tables *)
Definition before (p : orb * orb) : bool := instant (b_time (fst p)) <? instant (b_time (snd p)).
(* by arrival, then by departure *)
Definition in_order (x y : transfer) : Prop :=
  instant (b_time (x_arr x)) < instant (b_time (x_arr y)) \/
  instant (b_time (x_arr x)) = instant (b_time (x_arr y)) /\ instant (b_time (x_dep x)) <= instant (b_time (x_dep y)).
(* every row of the table has this origin *)
Definition all_from (o : string) (l : list orb) : Prop := l <> [] /\ Forall (fun b => b_origin b = o) l.

Open Scope R_scope.
(* bounds of the plot: without an option the lower bound is zero and there is no upper bound *)
Definition at_least (v : R) (lo : option R) : Prop := match lo with Some x => x <= v | None => 0 <= v end.
Definition at_most (v : R) (hi : option R) : Prop := match hi with Some x => v <= x | None => True end.
(* the transfers the options ask for *)
Definition chosen (o : limits) (l : list point) (p : point) : Prop :=
  In p l /\ exists c v, g_c3 p = Some c /\ g_vinf p = Some v /\
  at_least c (l_c3_min o) /\ at_most c (l_c3_max o) /\ at_least v (l_vinf_min o) /\ at_most v (l_vinf_max o) /\
  at_least (g_arr p - g_dep p) (l_tof_min o) /\ at_most (g_arr p - g_dep p) (l_tof_max o).
Definition shown_in (w : option (R * R)) (v : R) : Prop := match w with Some (a, b) => a <= v <= b | None => True end.
(* no option given *)
Definition plain : limits := mklimits None None None None None None None None true.
(* an equatorial vector in the ecliptic frame *)
Definition in_ecliptic (ob : R) (u : vec) : vec := let '(x, y, z) := u in (x, cos ob * y + sin ob * z, - sin ob * y + cos ob * z).
