(* What C235-C237 speak about, apart from the model. *)
From Coq Require Import QArith ZArith String List Bool.
From Verif Require Import Base ResModel TimeModel TimeSpec CatModel.
Import ListNotations.

(* the range of the correlation in the schema of the catalogue *)
Definition accepted (s : source) : Prop := forall c, s_corr s = Some c -> (-(1) <= c <= 1)%Q.
(* the exposure of a source, with the values a table of exposures takes *)
Definition describes (s : source) (x : exposure) : Prop :=
  s_exposure s = Some (x_id x) /\ s_start s = Some (x_start x) /\ s_duration s = Some (x_duration x) /\ s_filter s = Some (x_filter x) /\
  s_code s = x_code x /\ s_seeing s = x_seeing x /\ s_depth s = x_depth x /\ (0 <= x_duration x <= 3600)%Q.
(* the nanosecond next to the middle of an exposure, half a nanosecond away at most *)
Definition middle_of (x : exposure) (t : row) : Prop :=
  (inject_Z (2 * (instant t - instant (x_start x))) - x_duration x * inject_Z 1000000000 <= 1)%Q /\ (-(1) <= inject_Z (2 * (instant t - instant (x_start x))) - x_duration x * inject_Z 1000000000)%Q.
