(* Model of three smaller parts (definitions only): query_sbdb of src/adam_core/orbits/query/sbdb.py, the data of
   plot_risk_corridor of src/adam_core/dynamics/plots.py, and generate_perceptual_colorscale of
   src/adam_core/missions/porkchop.py.  Simplifications: exact rationals, NaN is None; NotFoundError is [KeyError];
   the answer of astroquery is given as parsed; texts of the figure and colour names are left out. *)
From Coq Require Import QArith Qround ZArith String List Bool.
From Verif Require Import Base ResModel CovModel TimeModel SbdbModel.
Import ListNotations.
Open Scope string_scope.
Open Scope list_scope.
Open Scope nat_scope.

(* ---- sbdb.py:110-277 ---- *)
(* sbdb.py:166-182: the covariance in a parsed answer *)
Record lcov := mk_lcov { lc_labels : list string; lc_data : list (list num); lc_elements : option (list (string * num)); lc_epoch : option num }.
(* sbdb.py:154-221: a parsed answer; the elements by their keys, None for a missing entry *)
Record lres := mk_lres { l_object : option string; l_class : option string; l_elements : list (string * num); l_epoch : num; l_cov : option lcov }.
(* sbdb.py:199-218: elements[key] *)
Definition field (els : list (string * num)) (key : string) : result num :=
  match find (fun p => String.eqb (fst p) key) els with Some p => Ok (snd p) | None => Err KeyError end.
(* sbdb.py:186: the assignment of data[:6, :6] to a six by six slot, with numpy's broadcasting *)
Definition slot (m : list (list num)) : result (nat -> nat -> num) :=
  let r := Nat.min 6 (List.length m) in
  let c := Nat.min 6 (List.length (hd [] m)) in
  if ((r =? 6) || (r =? 1)) && ((c =? 6) || (c =? 1))
  then Ok (fun i j => entry m (if r =? 1 then 0 else i) (if c =? 1 then 0 else j))
  else Err ValueError.
(* sbdb.py:165-208: elements, epoch and covariance *)
Definition legacy_choose (r : lres) : result (list (string * num) * num * (nat -> nat -> num)) :=
  match l_cov r with
  | Some c =>
      if str_list_eqb (firstn 6 (lc_labels c)) expected_labels then
        bind (slot (lc_data c)) (fun m =>
        match lc_elements c with
        | Some els => match lc_epoch c with Some t => Ok (els, t, m) | None => Err KeyError end
        | None => Ok (l_elements r, l_epoch r, m)
        end)
      else Err ValueError
  | None =>
      bind (mapM (field (l_elements r)) ["e_sig"; "q_sig"; "tp_sig"; "om_sig"; "w_sig"; "i_sig"]) (fun s =>
      Ok (l_elements r, l_epoch r, entry (sigmas_to_covariance s)))
  end.
(* sbdb.py:154-218, 241-242: one answer *)
Definition read_result (r : lres) : result spre :=
  match l_object r, l_class r with
  | Some o, Some _ =>
      bind (legacy_choose r) (fun c =>
      let '(els, epoch, m) := c in
      bind (mapM (field els) ["q"; "e"; "i"; "om"; "w"; "tp"]) (fun v =>
      bind (jd_row (nth 5 v None)) (fun tp =>
      Ok (mkspre o epoch (firstn 5 v ++ [Some (mjd tp)]) (convert_covariance m (Some 0%Q)) (None, None, None, None)))))
  | _, _ => Err KeyError
  end.
(* sbdb.py:139-249, 275-277: [results] are the parsed answers, one for each id *)
Definition query_sbdb (results : list lres) : result (list sorb) :=
  bind (mapM read_result results) (fun pres =>
  bind (mapM (fun p => jd_row (sp_epoch p)) pres) (fun times =>
  Ok (map (fun q => let '(i, (p, t)) := q in
             mksorb (pad5 i) (sp_object p) t "tdb" (sp_coords p) (sp_cov p) (sp_phys p) "SUN" "ecliptic")
          (combine (seq 0 (List.length pres)) (combine pres times))))).

(* ---- dynamics/plots.py:871-1142 ---- *)
(* dynamics/plots.py:913-925: an impact on the Earth, as MJD, longitude and latitude *)
Record spot := mk_spot { s_mjd : Q; s_lon : num; s_lat : num }.
(* dynamics/plots.py:978-1014: one frame of the animation *)
Record frame := mk_frame { f_name : nat; f_lon : list num; f_lat : list num; f_minutes : list Q; f_ticks : list Q }.
(* dynamics/plots.py:930-932, 1035, 1045, 1116-1136: centre of the map, ticks of the first picture, frames, labels of the slider *)
Record corridor := mk_corridor { c_center : num * num; c_ticks : list Q; c_frames : list frame; c_slider : list nat }.
Section Corridor.
  (* an impact event: its body and everything else *)
  Context {E : Type}.
  Variable body : E -> string.
  (* the conversion to geodetic coordinates, row by row *)
  Variable geodetic : E -> spot.
  (* numpy.argsort of the MJDs *)
  Variable argsort : list spot -> list spot.
  (* dynamics/plots.py:928: numpy.min of a non-empty array *)
  Definition first_of (l : list spot) : Q := fold_right (fun s m => if Qle_bool (s_mjd s) m then s_mjd s else m) (s_mjd (hd (mk_spot 0 None None) l)) l.
  (* dynamics/plots.py:957-977 *)
  Definition ticks (i : nat) (m : Q) : list Q :=
    match i with 0 => [0%Q] | 1 => [0%Q; m] | _ => [0%Q; (m / 2)%Q; m] end.
  (* dynamics/plots.py:905-1045, 1116-1136 *)
  Definition risk_corridor (impacts : list E) : result corridor :=
    match filter (fun e => String.eqb (body e) "EARTH") impacts with
    | [] => Err ValueError
    | earth =>
        let s := argsort (map geodetic earth) in
        let minutes := map (fun x => ((s_mjd x - first_of s) * 24 * 60)%Q) s in
        let frames := map (fun i => mk_frame i (map s_lon (firstn (i + 1) s)) (map s_lat (firstn (i + 1) s)) (firstn (i + 1) minutes)
                                             (ticks i (nth i minutes 0%Q))) (seq 0 (List.length s)) in
        Ok (mk_corridor (s_lon (hd (mk_spot 0 None None) s), s_lat (hd (mk_spot 0 None None) s)) [0%Q; last minutes 0%Q] frames
              (seq 0 (List.length frames)))
    end.
End Corridor.

(* ---- porkchop.py:110-205 ---- *)
Open Scope Q_scope.
(* porkchop.py:196-198: int() *)
Definition trunc (x : Q) : Z := if Qle_bool 0 x then Qfloor x else (- Qfloor (- x))%Z.
(* porkchop.py:196-198 *)
Definition channel (x : Q) : Z := Z.max 0 (Z.min 255 (trunc (x * 255))).
(* porkchop.py:184 *)
Definition qmax2 (a b : Q) : Q := if Qle_bool a b then b else a.
(* porkchop.py:203: a level without its text *)
Record level := mk_level { v_position : Q; v_red : Z; v_green : Z; v_blue : Z; v_alpha : Q }.
Section Colours.
  (* the base colour, from its name or its hexadecimal digits *)
  Variables red green blue : Z.
  Variables min_lightness max_lightness max_alpha min_alpha : Q.
  (* porkchop.py:164 *)
  Definition base (z : Z) : Q := inject_Z z / 255.
  (* porkchop.py:171 *)
  Definition lightness (position : Q) : Q := max_lightness - position * (max_lightness - min_lightness).
  (* porkchop.py:175-193: one component of the colour *)
  Definition component (position : Q) (z : Z) : Q :=
    let l := lightness position in
    if Qeq_bool position 0 then base z * l + (1 - l)
    else
      let m := qmax2 (qmax2 (base red) (base green)) (base blue) in
      if Qle_bool m 0 then l else base z * (l / m).
  (* porkchop.py:166-203 *)
  Definition color_level (n i : Z) : level :=
    let position := inject_Z i / inject_Z (n - 1) in
    mk_level position (channel (component position red)) (channel (component position green)) (channel (component position blue))
      (min_alpha + (max_alpha - min_alpha) * position).
  (* porkchop.py:110-205; the division of i by n_levels - 1 fails for one level *)
  Definition perceptual (n : Z) : result (list level) :=
    if (n =? 1)%Z then Err ZeroDivisionError else Ok (map (fun k => color_level n (Z.of_nat k)) (seq 0 (Z.to_nat n))).
End Colours.
