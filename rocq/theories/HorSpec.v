(* What C232-C234 speak about, apart from the model. *)
From Coq Require Import QArith ZArith String List Bool.
From Verif Require Import Base StrOrder ResModel TimeModel SbdbModel HorModel.
Import ListNotations.
Open Scope string_scope.
Open Scope list_scope.
Open Scope nat_scope.

(* Horizons answers with one row for every epoch asked for: named by [name], with the values [cells] at that Julian date *)
Definition answers (ask : string -> list Q -> list hrow) (name : string -> string) (cells : string -> Q -> string -> num) : Prop :=
  forall id qs, ask id qs = map (fun q => mkh q (name id) (cells id q)) qs.
(* the same for epochs asked for as modified Julian dates *)
Definition answers_mjd (ask : string -> list Q -> list hrow) (name : string -> string) (cells : string -> Q -> string -> num) : Prop :=
  forall id qs, ask id qs = map (fun q => mkh (q + (24000005 # 10))%Q (name id) (cells id (q + (24000005 # 10))%Q)) qs.
(* the coordinates of each type *)
Inductive coordinates_of (c : string -> num) : string -> list num -> Prop :=
| cart : coordinates_of c "cartesian" [c "x"; c "y"; c "z"; c "vx"; c "vy"; c "vz"]
| kep : coordinates_of c "keplerian" [c "a"; c "e"; c "incl"; c "Omega"; c "w"; c "M"]
| com q : c "Tp_jd" = Some q -> coordinates_of c "cometary" [c "q"; c "e"; c "incl"; c "Omega"; c "w"; Some (mjd (from_jd q))].
(* the object of a number at an epoch *)
Definition row_for (kind : string) (name : string -> string) (cells : string -> Q -> string -> num) (k : nat) (id : string) (t : row) (o : horb) : Prop :=
  ho_id o = pad5 k /\ ho_object o = name id /\ ho_time o = t /\ ho_scale o = "tdb" /\ ho_frame o = "ecliptic" /\ coordinates_of (cells id (jd t)) kind (ho_coords o).
(* the objects with their numbers *)
Definition numbered_ids (ids : list string) : list (nat * string) := combine (seq 0 (List.length ids)) ids.
(* the ephemeris of the object of a number for an observer (code and time, here already in UTC) *)
Definition seen_from (name : string -> string) (cells : string -> string -> Q -> string -> num) (k : nat) (id code : string) (t : row) (e : heph) : Prop :=
  he_id e = pad5 k /\ he_object e = name id /\ he_time e = t /\ he_scale e = "utc" /\ he_origin e = code /\
  he_lon e = cells code id (jd t) "RA" /\ he_lat e = cells code id (jd t) "DEC" /\ he_alpha e = cells code id (jd t) "alpha" /\
  (forall minutes, cells code id (jd t) "lighttime" = Some minutes -> exists d, he_light e = Some d /\ (d * inject_Z 1440 == minutes)%Q) /\
  (cells code id (jd t) "lighttime" = None -> he_light e = None).
(* the order of orbit id, then time, then observatory *)
Definition eph_order (a b : heph) : Prop :=
  he_id a <> he_id b /\ str_leb (he_id a) (he_id b) = true \/
  he_id a = he_id b /\ (he_time a <> he_time b /\ row_leb (he_time a) (he_time b) = true \/
                        he_time a = he_time b /\ str_leb (he_origin a) (he_origin b) = true).
