(* Model of src/adam_core/orbits/query/horizons.py (definitions only).
   Simplifications: exact arithmetic, NaN is None; what Horizons answers to one query is a parameter: a table for a location,
   an id and a list of epochs; the reference plane and the other options are part of that parameter; times are given with
   their conversion to TDB or UTC as a parameter; pandas sorts by several columns and Arrow sort are stable;
   the model ends at the coordinates of the type asked for, their conversion to Cartesian is that of KepModel. *)
From Coq Require Import QArith ZArith String List Bool.
From Verif Require Import Base StrOrder ResModel TimeModel SchedModel TableModel SbdbModel.
Import ListNotations.
Open Scope string_scope.
Open Scope list_scope.
Open Scope nat_scope.

(* horizons.py:65-67, 121-123, 173-178: a row of a table from Horizons *)
Record hrow := mkh { h_jd : Q; h_target : string; h_cell : string -> num }.
(* horizons.py:303-324: a row of the result of query_horizons *)
Record horb := mkho { ho_id : string; ho_object : string; ho_time : row; ho_scale : string; ho_coords : list num; ho_origin : string; ho_frame : string }.
(* horizons.py:231-244: a row of the result of query_horizons_ephemeris *)
Record heph := mkhe { he_id : string; he_object : string; he_light : num; he_alpha : num; he_time : row; he_scale : string; he_lon : num; he_lat : num;
                      he_origin : string; he_frame : string }.
(* horizons.py:290, 401-403: the order of days and nanos *)
Definition row_leb (a b : row) : bool := (days a <? days b)%Z || (days a =? days b)%Z && (nanos a <=? nanos b)%Z.
(* horizons.py:72-76, 128-132: the order of orbit_id and datetime_jd *)
Definition frame_leb (a b : string * hrow) : bool :=
  if String.eqb (fst a) (fst b) then Qle_bool (h_jd (snd a)) (h_jd (snd b)) else str_leb (fst a) (fst b).
(* horizons.py:58-69: the tables of all objects, numbered *)
Definition tables (answer : string -> list hrow) (ids : list string) : list (string * hrow) :=
  concat (map (fun p => map (pair (pad5 (fst p))) (answer (snd p))) (combine (seq 0 (List.length ids)) ids)).
(* horizons.py:57-77, 113-133; pd.concat of no table raises ValueError *)
Definition get_frame (answer : string -> list hrow) (ids : list string) : result (list (string * hrow)) :=
  match ids with [] => Err ValueError | _ => Ok (sort frame_leb (tables answer ids)) end.

Section Horizons.
  (* horizons.py:59-67: the table of vectors for location, object and epochs *)
  Variable vectors : string -> string -> list Q -> list hrow.
  (* horizons.py:115-123 *)
  Variable elements : string -> string -> list Q -> list hrow.
  (* horizons.py:61, 117: rescale("tdb") *)
  Variable to_tdb : row -> row.

  (* horizons.py:303-324: one row of vectors *)
  Definition cartesian_row (p : string * hrow) : horb :=
    let c := h_cell (snd p) in
    mkho (fst p) (h_target (snd p)) (from_jd (h_jd (snd p))) "tdb" [c "x"; c "y"; c "z"; c "vx"; c "vy"; c "vz"] "SUN" "ecliptic".
  (* horizons.py:334-358: one row of elements *)
  Definition keplerian_row (p : string * hrow) : horb :=
    let c := h_cell (snd p) in
    mkho (fst p) (h_target (snd p)) (from_jd (h_jd (snd p))) "tdb" [c "a"; c "e"; c "incl"; c "Omega"; c "w"; c "M"] "SUN" "ecliptic".
  (* horizons.py:370-392: one row of elements; reading the time of NaN fails *)
  Definition cometary_row (p : string * hrow) : result horb :=
    let c := h_cell (snd p) in
    bind (jd_row (c "Tp_jd")) (fun tp =>
    Ok (mkho (fst p) (h_target (snd p)) (from_jd (h_jd (snd p))) "tdb" [c "q"; c "e"; c "incl"; c "Omega"; c "w"; Some (mjd tp)] "SUN" "ecliptic")).
  (* horizons.py:292-398: the orbits of one chunk of times *)
  Definition chunk_orbits (kind location : string) (ids : list string) (times : list row) : result (list horb) :=
    if String.eqb kind "cartesian" then
      bind (get_frame (fun id => vectors location id (map (fun t => jd (to_tdb t)) times)) ids) (fun f => Ok (map cartesian_row f))
    else if String.eqb kind "keplerian" then
      bind (get_frame (fun id => elements location id (map (fun t => mjd (to_tdb t)) times)) ids) (fun f => Ok (map keplerian_row f))
    else if String.eqb kind "cometary" then
      bind (get_frame (fun id => elements location id (map (fun t => mjd (to_tdb t)) times)) ids) (fun f => mapM cometary_row f)
    else Err ValueError.
  (* horizons.py:292-394: each chunk is put before the orbits so far *)
  Fixpoint all_chunks (kind location : string) (ids : list string) (chunks : list (list row)) (total : list horb) : result (list horb) :=
    match chunks with
    | [] => Ok total
    | c :: rest => bind (chunk_orbits kind location ids c) (fun os => all_chunks kind location ids rest (os ++ total))
    end.
  (* horizons.py:249-405 *)
  Definition query_horizons (kind location : string) (ids : list string) (times : list row) : result (list horb) :=
    match times with
    | [] => Err AssertionError
    | _ =>
        bind (iterate_chunks (sort row_leb times) 50) (fun chunks =>
        bind (all_chunks kind location ids chunks []) (fun total =>
        Ok (sort (fun a b => row_leb (ho_time a) (ho_time b)) total)))
    end.

  (* horizons.py:167-178: the table for location, object and epochs *)
  Variable ephemerides : string -> string -> list Q -> list hrow.
  (* horizons.py:165: rescale("utc") *)
  Variable to_utc : row -> row.
  (* horizons.py:186-190, 225-229: the order of orbit_id, datetime_jd and observatory_code *)
  Definition eph_leb (a b : string * (string * hrow)) : bool :=
    let '(c, (i, r)) := a in
    let '(c', (i', r')) := b in
    if String.eqb i i' then if Qeq_bool (h_jd r) (h_jd r') then str_leb c c' else Qle_bool (h_jd r) (h_jd r')
    else str_leb i i'.
  (* horizons.py:164-191; a table whose length is not that of the epochs raises ValueError in line 180 *)
  Definition get_ephemeris (ids : list string) (times : list row) (location : string) : result (list (string * (string * hrow))) :=
    let epochs := map (fun t => jd (to_utc t)) times in
    match ids with
    | [] => Err ValueError
    | _ =>
        bind (mapM (fun p => let t := ephemerides location (snd p) epochs in
                             if Nat.eqb (List.length t) (List.length epochs) then Ok (map (fun r => (location, (pad5 (fst p), r))) t) else Err ValueError)
                   (combine (seq 0 (List.length ids)) ids)) (fun l =>
        Ok (sort eph_leb (concat l)))
    end.
  (* horizons.py:231-244: one row *)
  Definition eph_row (p : string * (string * hrow)) : heph :=
    let '(code, (i, r)) := p in
    mkhe i (h_target r) (option_map (fun x => x / inject_Z 1440)%Q (h_cell r "lighttime")) (h_cell r "alpha") (from_jd (h_jd r)) "utc" (h_cell r "RA") (h_cell r "DEC") code "ecliptic".
  (* horizons.py:194-246; an observer is a code and a time *)
  Definition query_horizons_ephemeris (ids : list string) (observers : list (string * row)) : result (list heph) :=
    bind (mapM (fun g => get_ephemeris ids (map snd (snd g)) (fst g)) (iterate_codes str_leb fst observers)) (fun fs =>
    match fs with
    | [] => Err ValueError
    | _ => Ok (map eph_row (sort eph_leb (concat fs)))
    end).
End Horizons.
