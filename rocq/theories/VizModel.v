(* Model of src/adam_core/dynamics/plots.py:31-32 and 43-273: the data behind the impact visualisation
   (definitions only).  The figures drawn from the data are not modelled.  Simplifications: the object
   identifiers and the covariances are not represented; the values of mjd() are exact rationals (a
   binary64 number is one), given by the parameter [mjd] on which nothing is assumed here. *)
From Coq Require Import Reals QArith Qround String.
From Verif Require Import Base TimeModel SphModel FrameModel.
Open Scope string_scope.
Open Scope Z_scope.
Open Scope list_scope.

(* one row of the propagated variants: identifier, epoch, point; the time scale is an attribute of the table *)
(* helper of [prepare], dynamics/plots.py:71-163 *)
Record vrow (P : Type) := mkv { v_id : string; v_time : row; v_point : P }.
Arguments mkv {P}. Arguments v_id {P}. Arguments v_time {P}. Arguments v_point {P}.
(* one row of CollisionEvent (dynamics/impacts.py:85-102): the columns read by this code *)
(* helper of [prepare], dynamics/plots.py:71-163 *)
Record event (C : Type) := mke { ev_orbit : string; ev_variant : option string; ev_time : row; ev_body : string; ev_coll : C }.
Arguments mke {C}. Arguments ev_orbit {C}. Arguments ev_variant {C}. Arguments ev_time {C}. Arguments ev_body {C}. Arguments ev_coll {C}.

(* dynamics/plots.py:31 with constants.py:11 and 51: the radius in kilometres *)
Definition earth_radius_km : Q := ((63781363 # 10000) * (999 # 1000))%Q.
(* dynamics/plots.py:32 *)
Definition moon_radius_km : Q := (17381 # 10)%Q.
(* dynamics/plots.py:87-94 *)
Definition body_radius (b : string) : result Q :=
  if String.eqb b "EARTH" then Ok earth_radius_km
  else if String.eqb b "MOON" then Ok moon_radius_km
  else Err ValueError.

Section Prepare.
Context {P C : Type}.
(* Timestamp.mjd and Timestamp.rescale, from one scale to another *)
Variable mjd : row -> Q.
Variable rescale : string -> string -> row -> row.
(* dynamics/plots.py:122-149: the collision coordinates with rho set to the radius (in kilometres here) and the time set to
   that of the row, transformed to geocentric ecliptic Cartesian coordinates *)
Variable place : C -> Q -> row -> P.

(* pc.is_in(orbit_id, variant_id): the identifiers of the rows are not null, a null in the other set matches nothing *)
(* dynamics/plots.py:77-82, 99-101 *)
Definition names (e : event C) (v : vrow P) : bool :=
  match ev_variant e with Some i => String.eqb (v_id v) i | None => false end.
(* dynamics/plots.py:77-82, 99-101 *)
Definition is_in (evs : list (event C)) (v : vrow P) : bool := existsb (fun e => names e v) evs.
(* dynamics/plots.py:105-113; [scale] is that of the variants, [escale] that of the impacts *)
Definition post_impact (scale escale : string) (e : event C) (v : vrow P) : bool :=
  (names e v && Qle_bool (mjd (rescale escale scale (ev_time e))) (mjd (v_time v)))%bool.
(* dynamics/plots.py:122-155 *)
Definition freeze (radius : Q) (e : event C) (v : vrow P) : vrow P := mkv (v_id v) (v_time v) (place (ev_coll e) radius (v_time v)).
(* dynamics/plots.py:103-159: one turn of the loop over the impacts *)
Definition one_impact (scale escale : string) (radius : Q) (rows : list (vrow P)) (e : event C) : list (vrow P) :=
  filter (fun v => negb (post_impact scale escale e v)) rows
  ++ map (freeze radius e) (filter (post_impact scale escale e) rows).
(* dynamics/plots.py:85-161: one turn of the loop over the bodies *)
Definition one_body (scale escale : string) (evs : list (event C)) (impacting : list (vrow P)) (b : string) : result (string * list (vrow P)) :=
  bind (body_radius b) (fun radius =>
    let here := filter (fun e => String.eqb (ev_body e) b) evs in
    Ok (b, fold_left (one_impact scale escale radius) here (filter (is_in here) impacting))).
(* dynamics/plots.py:71-163 [prepare_propagated_variants]; the dictionary as a list of keys and tables *)
Definition prepare (frame scale escale : string) (rows : list (vrow P)) (evs : list (event C)) : result (list (string * list (vrow P))) :=
  if String.eqb frame "ecliptic" then
    bind (mapM (one_body scale escale evs (filter (is_in evs) rows)) (uniq String.eqb (map ev_body evs)))
         (fun groups => Ok (("Non-Impacting", filter (fun v => negb (is_in evs v)) rows) :: groups))
  else Err AssertionError.

(* ---- dynamics/plots.py:166-273 generate_impact_visualization_data ---- *)
(* numpy.arange(start, stop, step) for step <> 0 in exact arithmetic *)
(* helper of [grid], dynamics/plots.py:222-226 *)
Definition arange (start stop step : Q) : list Q :=
  map (fun k => start + inject_Z (Z.of_nat k) * step)%Q (seq 0 (Z.to_nat (Qceiling ((stop - start) / step)))).
(* x - numpy.mod(x, step) in exact arithmetic *)
(* helper of [grid], dynamics/plots.py:227 *)
Definition floor_to (step x : Q) : Q := (inject_Z (Qfloor (x / step)) * step)%Q.
(* numpy.min and numpy.max of a non-empty array *)
(* helper of [generate], dynamics/plots.py:218-219 *)
Definition qmin (a b : Q) : Q := if Qle_bool a b then a else b.
(* helper of [generate], dynamics/plots.py:218-219 *)
Definition qmax (a b : Q) : Q := if Qle_bool a b then b else a.
(* dynamics/plots.py:221-227; the minutes are converted to days *)
Definition grid (first last time_step time_range : Q) : result (list Q) :=
  let step := (time_step / 60 / 24)%Q in
  let margin := (time_range / 60 / 24)%Q in
  if Qeq_bool step 0 then Err ZeroDivisionError
  else Ok (map (floor_to step) (arange (first - margin)%Q (last + margin + step)%Q step)).

(* one row of the variant orbits; the state is opaque *)
(* helper of [generate], dynamics/plots.py:231-239 *)
Record variant (S : Type) := mkvar { va_orbit : string; va_variant : string; va_state : S }.

Context {S : Type}.
(* Propagator.propagate_orbits followed by the transformation to the Earth, dynamics/plots.py:231-249: orbits with their
   identifiers, and epochs, to rows *)
Variable propagate : list (string * S) -> list row -> list (vrow P).
(* Timestamp.from_mjd *)
Variable from_mjd : Q -> row.

(* sort_by(["coordinates.time.days", "coordinates.time.nanos"]) *)
(* helper of [generate], dynamics/plots.py:268-271 *)
Definition time_leb (a b : row) : bool := ((days a <? days b) || ((days a =? days b) && (nanos a <=? nanos b)))%bool.
(* helper of [generate], dynamics/plots.py:268-271 *)
Definition row_leb (a b : vrow P) : bool := time_leb (v_time a) (v_time b).

(* dynamics/plots.py:204-273 without the nominal orbit; [pscale] is the scale of the propagated rows.  The times are those of
   the impacts in their own scale. *)
Definition generate (vs : list (variant S)) (pscale escale : string) (evs : list (event C)) (time_step time_range : Q)
  : result (list row * list (string * list (vrow P))) :=
  if existsb (fun e => negb (String.eqb (ev_body e) "EARTH" || String.eqb (ev_body e) "MOON")) evs then Err ValueError
  else match map (fun e => mjd (ev_time e)) evs with
  | [] => Err ValueError
  | t :: ts =>
      bind (grid (fold_left qmin ts t) (fold_left qmax ts t) time_step time_range) (fun mjds =>
        let times := map from_mjd mjds in
        let rows := propagate (map (fun v => (va_variant S v, va_state S v)) vs) times in
        bind (prepare "ecliptic" pscale escale rows evs) (fun groups =>
          Ok (times, map (fun g => (fst g, sort row_leb (snd g))) groups)))
  end.
End Prepare.
Arguments mkvar {S}. Arguments va_orbit {S}. Arguments va_variant {S}. Arguments va_state {S}.

(* ---- the placement on real vectors, dynamics/plots.py:122-149 with transform.py:1840-1857 ---- *)
Open Scope R_scope.
(* helper of [place_at], dynamics/plots.py:122-149 *)
Record collision := mkcoll { k_lon : R; k_lat : R; k_frame : string; k_origin : string }.
(* helper of [place_at], dynamics/plots.py:122-149 *)
Definition point := (R * R * R)%type.
(* helper of [place_at], transform.py:1845-1847 *)
Definition padd (a b : point) : point := let '(a1, a2, a3) := a in let '(b1, b2, b3) := b in (a1 + b1, a2 + b2, a3 + b3).
(* transform.py:1740-1752, the position part of the turn from equatorial to ecliptic *)
Definition to_ecliptic (p : point) : point := let '(x, y, z) := p in
  (x, cos obliquity * y + sin obliquity * z, - sin obliquity * y + cos obliquity * z).
(* dynamics/plots.py:122-149.  [state frame origin t] is the position of an origin relative to the Earth, [turn t] the rotation
   from itrf93 to ecliptic; the velocities are left out; the three frames that can be converted are covered (any other
   one raises ValueError in the library and is left in place here) *)
Definition place_at (state : string -> string -> row -> point) (turn : row -> point -> point) (c : collision) (radius : Q) (t : row) : point :=
  let s := spherical_to_cartesian (mk6 (Q2R radius / LightModel.km_p_au) (k_lon c) (k_lat c) 0 0 0) in
  let p := (c_0 s, c_1 s, c_2 s) in
  let p := if String.eqb (k_origin c) "EARTH" then p else padd p (state (k_frame c) (k_origin c) t) in
  if String.eqb (k_frame c) "ecliptic" then p
  else if String.eqb (k_frame c) "equatorial" then to_ecliptic p
  else if String.eqb (k_frame c) "itrf93" then turn t p
  else p.
