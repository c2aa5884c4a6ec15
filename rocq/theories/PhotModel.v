(* Bandpass photometry and the H-G magnitude model:
   /repo/src/adam_core/photometry/bandpasses/api.py lines 147-220, 429-704,
   magnitude_common.py, magnitude.py, absolute_magnitude.py lines 31-354.
   Arithmetic is on exact reals; a NaN or otherwise non-finite value is [None].
   FloatingPointError (numpy errstate "raise") is represented by ZeroDivisionError,
   its sibling under ArithmeticError.  The padded JAX chunk loop is the row-wise map
   (process_in_chunks is the subject of C32).  The vendored curve table has one row
   per filter id. *)
From Coq Require Import Reals Lra.
From Coq Require Import List String Bool.
From Verif Require Import Base StrOrder BandModel SphModel KepModel.
Import ListNotations.
Open Scope string_scope.
Open Scope list_scope.
Open Scope R_scope.

(* helper of [delta_entry], magnitude_common.py:143-144 *)
Definition log10 (x : R) : R := ln x / ln 10.

(* helper of [custom_loop], api.py:465-503 *)
Definition assoc {K V} (eqb : K -> K -> bool) (k : K) (l : list (K * V)) : option V :=
  match find (fun p => eqb k (fst p)) l with Some p => Some (snd p) | None => None end.

(* sampled curves: wavelength, value *)
(* helper of [interp_from], api.py:661-667 *)
Definition samples := list (R * R).

(* api.py 661-667: np.interp(x_new, x, y, left=0, right=0) at one point *)
Fixpoint interp_from (p : R * R) (l : samples) (x : R) : R :=
  match l with
  | [] => if Rle_dec x (fst p) then snd p else 0
  | q :: r =>
      if Rlt_dec x (fst q)
      then snd p + (snd q - snd p) / (fst q - fst p) * (x - fst p)
      else interp_from q r x
  end.
(* helper of [solar_norm], api.py:147-185 *)
Definition interp (l : samples) (x : R) : R :=
  match l with
  | [] => 0
  | p :: r => if Rlt_dec x (fst p) then 0 else interp_from p r x
  end.

(* np.trapezoid(f, w) over a grid of solar samples *)
(* helper of [solar_norm], api.py:147-185 *)
Fixpoint trapezoid (f : R * R -> R) (w : samples) : R :=
  match w with
  | a :: ((b :: _) as r) => (fst b - fst a) * (f a + f b) / 2 + trapezoid f r
  | _ => 0
  end.

(* helper of [solar_norm], api.py:147-185 *)
Definition wl_min (l : samples) : R := fold_right (fun p m => Rmin (fst p) m) (fst (hd (0, 0) l)) l.
(* helper of [solar_norm], api.py:147-185 *)
Definition wl_max (l : samples) : R := fold_right (fun p m => Rmax (fst p) m) (fst (hd (0, 0) l)) l.

(* the solar samples with wavelength inside [lo, hi] *)
(* helper of [solar_norm], api.py:147-185 *)
Definition grid (solar : samples) (lo hi : R) : samples :=
  filter (fun p => if Rle_dec lo (fst p) then (if Rle_dec (fst p) hi then true else false) else false) solar.

(* helper of [integrals_for], magnitude_common.py:87-99 *)
Definition composition : Type := (string + R * R)%type.

(* helper of [norm_ok], api.py:188-220 *)
Record curve := mk_curve { cu_id : string; cu_pts : samples }.

(* register_custom_template 650-654: sorted by wavelength *)
(* helper of [register_custom_template], api.py:622-658 *)
Definition by_wl (p q : R * R) : bool := if Rle_dec (fst p) (fst q) then true else false.
(* helper of [register_custom_template], api.py:622-658 *)
Fixpoint increasing (l : samples) : bool :=
  match l with
  | p :: ((q :: _) as r) => (if Rlt_dec (fst p) (fst q) then true else false) && increasing r
  | _ => true
  end.

(* the module-level dictionaries and the lru_cache of magnitude_common *)
(* helper of [custom_loop], api.py:465-503 *)
Record state := mk_state {
  templates : list (string * samples);
  integrals : list ((string * string) * option R);
  tables : list (composition * list (string * option R)) }.

(* module state of magnitude_common.py before any call *)
Definition start : state := mk_state [] [] [].

(* helper of [custom_loop], api.py:465-503 *)
Definition pair_eqb (a b : string * string) : bool :=
  String.eqb (fst a) (fst b) && String.eqb (snd a) (snd b).
(* helper of [convert_magnitude], magnitude.py:177-248 *)
Definition comp_eqb (a b : composition) : bool :=
  match a, b with
  | inl s, inl t => String.eqb s t
  | inr p, inr q => if Req_EM_T (fst p) (fst q) then (if Req_EM_T (snd p) (snd q) then true else false) else false
  | _, _ => false
  end.

Section Bandpass.
(* _load_solar_spectrum, load_bandpass_curves, load_template_integrals *)
Variable solar : samples.
Variable curves : list curve.
Variable vendored : string -> string -> option R.

(* helper of [build_table], magnitude_common.py:126-145 *)
Definition filter_ids : list string := map cu_id curves.

(* helper of [custom_loop], api.py:465-503 *)
Definition curve_of (f : string) : option samples :=
  match find (fun c => String.eqb f (cu_id c)) curves with Some c => Some (cu_pts c) | None => None end.

(* api.py:147-185 *)
Definition solar_norm (pts : samples) : option R :=
  if (List.length pts <? 2)%nat then None
  else
    let lo := Rmax (wl_min solar) (wl_min pts) in
    let hi := Rmin (wl_max solar) (wl_max pts) in
    if Rle_dec hi lo then None
    else
      let g := grid solar lo hi in
      if (List.length g <? 2)%nat then None
      else Some (trapezoid (fun p => snd p * interp pts (fst p) * fst p) g).

(* api.py:669-700 *)
Definition integral_photon (pts tmpl : samples) : option R :=
  let lo := Rmax (wl_min solar) (Rmax (wl_min pts) (wl_min tmpl)) in
  let hi := Rmin (wl_max solar) (Rmin (wl_max pts) (wl_max tmpl)) in
  if Rle_dec hi lo then None
  else
    let g := grid solar lo hi in
    if (List.length g <? 2)%nat then None
    else Some (trapezoid (fun p => snd p * interp tmpl (fst p) * interp pts (fst p) * fst p) g).

(* api.py 188-220: the table of norms is rejected as a whole when one is invalid *)
Definition norm_ok (c : curve) : bool :=
  match solar_norm (cu_pts c) with Some d => if Rlt_dec 0 d then true else false | None => false end.
(* helper of [get_precomputed], api.py:429-462 *)
Definition norm_of (f : string) : result R :=
  if forallb norm_ok curves then
    match curve_of f with
    | Some pts => match solar_norm pts with Some d => Ok d | None => Err ValueError end
    | None => Err ValueError
    end
  else Err ValueError.

(* api.py:429-462 *)
Definition get_precomputed (t : string) (fs : list string) : result (list (option R)) :=
  match fs with
  | [] => Ok []
  | _ =>
      bind (mapM (fun f => match vendored t f with Some n => Ok n | None => Err ValueError end) fs) (fun ns =>
      bind (mapM norm_of fs) (fun ds =>
      Ok (map (fun p => Some (fst p / snd p)) (combine ns ds))))
  end.

(* api.py:486-502: the loop over the filters, after their norms were found *)
Fixpoint custom_loop (s : state) (t : string) (tmpl : samples) (fds : list (string * R))
    : state * list (option R) :=
  match fds with
  | [] => (s, [])
  | (f, d) :: r =>
      match assoc pair_eqb (t, f) (integrals s) with
      | Some v =>
          let (s', vs) := custom_loop s t tmpl r in
          (s', option_map (fun x => x / d) v :: vs)
      | None =>
          let v := match curve_of f with Some pts => integral_photon pts tmpl | None => None end in
          let s1 := mk_state (templates s) (((t, f), v) :: integrals s) (tables s) in
          let (s', vs) := custom_loop s1 t tmpl r in
          (s', option_map (fun x => x / d) v :: vs)
      end
  end.

(* api.py:465-503 *)
Definition get_integrals (s : state) (t : string) (fs : list string) : state * result (list (option R)) :=
  match assoc String.eqb t (templates s) with
  | None => (s, get_precomputed t fs)
  | Some tmpl =>
      match mapM norm_of fs with
      | Err e => (s, Err e)
      | Ok ds => let (s', vs) := custom_loop s t tmpl (combine fs ds) in (s', Ok vs)
      end
  end.

(* helper of [compute_mix_integrals], api.py:506-531 *)
Definition omap2 (f : R -> R -> R) (a b : option R) : option R :=
  match a, b with Some x, Some y => Some (f x y) | _, _ => None end.

(* api.py:506-531 *)
Definition compute_mix_integrals (s : state) (wc ws : R) (fs : list string) : state * result (list (option R)) :=
  if Rlt_dec wc 0 then (s, Err ValueError)
  else if Rlt_dec ws 0 then (s, Err ValueError)
  else if Rle_dec (wc + ws) 0 then (s, Err ValueError)
  else
    let c := wc / (wc + ws) in
    let d := ws / (wc + ws) in
    let (s1, rc) := get_integrals s "C" fs in
    match rc with
    | Err e => (s1, Err e)
    | Ok ic =>
        let (s2, rs) := get_integrals s1 "S" fs in
        match rs with
        | Err e => (s2, Err e)
        | Ok is => (s2, Ok (map (fun p => omap2 (fun x y => c * x + d * y) (fst p) (snd p)) (combine ic is)))
        end
    end.

(* magnitude_common.py 87-99 *)
Definition integrals_for (s : state) (c : composition) (fs : list string) : state * result (list (option R)) :=
  match c with
  | inl t => get_integrals s t fs
  | inr (wc, ws) => compute_mix_integrals s wc ws fs
  end.

(* magnitude_common.py 102-123 *)
Definition composition_key (c : composition) : result composition :=
  match c with
  | inl t => if String.eqb t "" then Err ValueError else Ok (inl t)
  | inr (wc, ws) =>
      if Rlt_dec wc 0 then Err ValueError
      else if Rlt_dec ws 0 then Err ValueError
      else if Rle_dec (wc + ws) 0 then Err ValueError
      else Ok (inr (wc / (wc + ws), ws / (wc + ws)))
  end.

(* magnitude_common.py 143-144, one entry *)
Definition delta_entry (iv : R) (x : option R) : result (option R) :=
  match x with
  | None => Ok None
  | Some v => if Rlt_dec 0 v then Ok (Some (- 5 / 2 * log10 (v / iv))) else Err ZeroDivisionError
  end.

(* magnitude_common.py 126-145, without the cache; the table is keyed by filter id here *)
Definition build_table (s : state) (k : composition) : state * result (list (string * option R)) :=
  if negb (in_strings "V" filter_ids) then (s, Err ValueError)
  else
    let (s', r) := integrals_for s k filter_ids in
    match r with
    | Err e => (s', Err e)
    | Ok vs =>
        let tab := combine filter_ids vs in
        match assoc String.eqb "V" tab with
        | Some (Some iv) =>
            if Rlt_dec 0 iv then
              (s', bind (mapM (delta_entry iv) vs) (fun ds => Ok (combine filter_ids ds)))
            else (s', Err ValueError)
        | _ => (s', Err ValueError)
        end
    end.

(* lru_cache(maxsize=None): a stored table is returned as it is, errors are not stored *)
(* helper of [convert_magnitude], magnitude.py:177-248 *)
Definition delta_table (s : state) (k : composition) : state * result (list (string * option R)) :=
  match assoc comp_eqb k (tables s) with
  | Some tab => (s, Ok tab)
  | None =>
      let (s', r) := build_table s k in
      match r with
      | Ok tab => (mk_state (templates s') (integrals s') ((k, tab) :: tables s'), Ok tab)
      | Err e => (s', Err e)
      end
  end.

(* helper of [convert_magnitude], magnitude.py:177-248 *)
Definition delta_of (tab : list (string * option R)) (f : option string) : option R :=
  match f with
  | Some f => match assoc String.eqb f tab with Some d => d | None => None end
  | None => None
  end.

(* helper of [convert_magnitude], magnitude.py:177-248 *)
Definition lengths {A B} (a : list A) (b : list B) : bool := (List.length a =? List.length b)%nat.

(* magnitude.py 177-248 *)
Definition convert_magnitude (s : state) (mags : list (option R)) (src tgt : list (option string))
    (c : composition) : state * result (list (option R)) :=
  if negb (lengths src mags && lengths tgt mags) then (s, Err ValueError)
  else if negb (forallb (known filter_ids) src && forallb (known filter_ids) tgt) then (s, Err ValueError)
  else
    match composition_key c with
    | Err e => (s, Err e)
    | Ok k =>
        let (s', r) := delta_table s k in
        match r with
        | Err e => (s', Err e)
        | Ok tab =>
            (s', Ok (map (fun p => omap2 Rplus (fst p)
                       (omap2 Rminus (delta_of tab (snd (snd p))) (delta_of tab (fst (snd p)))))
                     (combine mags (combine src tgt))))
        end
    end.

(* api.py:534-567 *)
Definition bandpass_delta_mag (s : state) (c : composition) (src tgt : string) : state * result R :=
  if String.eqb src "" || String.eqb tgt "" then (s, Err ValueError)
  else if String.eqb src tgt then (s, Ok 0)
  else
    let (s', r) := integrals_for s c [src; tgt] in
    match r with
    | Err e => (s', Err e)
    | Ok [Some a; Some b] =>
        if Rlt_dec 0 a then
          if Rlt_dec 0 b then (s', Ok (- 5 / 2 * log10 (b / a))) else (s', Err ValueError)
        else (s', Err ValueError)
    | Ok _ => (s', Err ValueError)
    end.

(* api.py 622-658 *)
Definition register_custom_template (s : state) (t : string) (wl rf : list R) : state * result unit :=
  if String.eqb t "" then (s, Err ValueError)
  else if negb (lengths wl rf) then (s, Err ValueError)
  else if (List.length wl <? 2)%nat then (s, Err ValueError)
  else
    let tmpl := sort by_wl (combine wl rf) in
    if increasing tmpl then (mk_state ((t, tmpl) :: templates s) [] (tables s), Ok tt)
    else (s, Err ValueError).

(* ---- H-G model ---- *)

(* magnitude.py 263-277, 296-304 *)
Definition clip1 (c : R) : R := Rmin (Rmax c (-1)) 1.
(* helper of [phase_angle], magnitude.py:304-311 *)
Definition cos_phase (obj obs : vec) : R :=
  let r := norm obj in
  let delta := norm (vplus obj (scale (-1) obs)) in
  let sun := norm obs in
  clip1 ((r * r + delta * delta - sun * sun) / (2 * r * delta)).

(* magnitude.py 304-311 *)
Definition phase_angle (obj obs : vec) : R :=
  let c := cos_phase obj obs in
  2 * atan2 (sqrt (Rmax 0 (1 - c))) (sqrt (Rmax 0 (1 + c))) * (180 / PI).

(* t ** p with p > 0 and t >= 0 *)
(* helper of [correction_from_cos], magnitude_common.py:47-60 *)
Definition power (t p : R) : R := if Rlt_dec 0 t then Rpower t p else 0.
(* helper of [correction_from_cos], magnitude_common.py:47-60 *)
Definition phi1 (t : R) : R := exp (- (333 / 100) * power t (63 / 100)).
(* helper of [correction_from_cos], magnitude_common.py:47-60 *)
Definition phi2 (t : R) : R := exp (- (187 / 100) * power t (122 / 100)).

(* magnitude_common.py 47-60; at cos = -1 the tangent is infinite, the phase functions
   are 0 and the logarithm is not finite; a negative sum has no logarithm *)
Definition correction_from_cos (c G : R) : option R :=
  if Rlt_dec (-1) c then
    let t := sqrt ((1 - c) / (1 + c)) in
    let p := (1 - G) * phi1 t + G * phi2 t in
    if Rlt_dec 0 p then Some (- 5 / 2 * log10 p) else None
  else None.

(* magnitude_common.py 28-44 *)
Definition hg_phase_correction (alpha_deg G : R) : R :=
  let t := tan (radians alpha_deg / 2) in
  let p := Rmax ((1 - G) * phi1 t + G * phi2 t) (1 / 1000000000000) in
  - 5 / 2 * log10 p.

(* magnitude.py 251-283, one row *)
Definition apparent_v (H : R) (obj obs : vec) (G : R) : option R :=
  let r := norm obj in
  let delta := norm (vplus obj (scale (-1) obs)) in
  option_map (fun corr => H + 5 * log10 (r * delta) + corr) (correction_from_cos (cos_phase obj obs) G).

(* magnitude.py 35-63, one row *)
Definition geometry_ok (obj obs : vec) : bool :=
  (if Rlt_dec 0 (norm obj) then true else false)
  && (if Rlt_dec 0 (norm (vplus obj (scale (-1) obs))) then true else false).

(* magnitude.py 143-158 and 389-400: rows with their origin and frame labels *)
Record position := mk_pos { p_sun : bool; p_frame : string; p_xyz : vec }.

(* magnitude.py 66-174; the frame is one per table, here the label of each row *)
Definition calculate_phase_angle (objs obss : list position) : result (list R) :=
  if negb (lengths obss objs) then Err ValueError
  else if negb (forallb p_sun objs) then Err ValueError
  else if negb (forallb p_sun obss) then Err ValueError
  else if negb (forallb (fun p => String.eqb (p_frame (fst p)) (p_frame (snd p))) (combine objs obss))
  then Err ValueError
  else if negb (forallb (fun p => geometry_ok (p_xyz (fst p)) (p_xyz (snd p))) (combine objs obss))
  then Err ValueError
  else Ok (map (fun p => phase_angle (p_xyz (fst p)) (p_xyz (snd p))) (combine objs obss)).

(* magnitude.py 515-658 with H and G given per row (scalars are repeated); [obss] is
   what exposures.observers() returns for the exposures, [fs] their filters *)
Definition predict_magnitudes (s : state) (H : list R) (objs obss : list position)
    (fs : list (option string)) (G : list R) (ref : string) (c : composition)
    : state * result (list (option R)) :=
  if negb (lengths objs fs) then (s, Err ValueError)
  else if negb (forallb (known filter_ids) fs && known filter_ids (Some ref)) then (s, Err ValueError)
  else if negb (lengths obss objs) then (s, Err ValueError)
  else if negb (forallb (fun p => geometry_ok (p_xyz (fst p)) (p_xyz (snd p))) (combine objs obss))
  then (s, Err ValueError)
  else if negb (lengths H objs && lengths G objs) then (s, Err ValueError)
  else
    match composition_key c with
    | Err e => (s, Err e)
    | Ok k =>
        let (s', r) := delta_table s k in
        match r with
        | Err e => (s', Err e)
        | Ok tab =>
            let shift h := if String.eqb ref "V" then Some h
                           else omap2 Rminus (Some h) (delta_of tab (Some ref)) in
            (s', Ok (map (fun p : R * (position * (position * (option string * R))) =>
                       let '(h, (o, (b, (f, g)))) := p in
                       match shift h with
                       | None => None
                       | Some hv => omap2 Rplus (apparent_v hv (p_xyz o) (p_xyz b) g) (delta_of tab f)
                       end)
                     (combine H (combine objs (combine obss (combine fs G))))))
        end
    end.
End Bandpass.

(* ---- absolute magnitude ---- *)

(* helper of [fit_rows], absolute_magnitude.py:38-83 *)
Definition rsum (l : list R) : R := fold_right Rplus 0 l.
(* helper of [mad_sigma], absolute_magnitude.py:31-35 *)
Definition rle (x y : R) : bool := if Rle_dec x y then true else false.

(* np.nanmedian of finite values *)
(* helper of [mad_sigma], absolute_magnitude.py:31-35 *)
Definition median (l : list R) : R :=
  let s := sort rle l in
  let n := List.length l in
  if Nat.even n then (nth (n / 2 - 1) s 0 + nth (n / 2) s 0) / 2 else nth (n / 2) s 0.

(* absolute_magnitude.py:31-35 *)
Definition mad_sigma (x : list R) : R :=
  let med := median x in
  14826 / 10000 * median (map (fun v => Rabs (v - med)) x).

(* helper of [fit_rows], absolute_magnitude.py:38-83 *)
Record fit := mk_fit { f_H : R; f_sigma : option R; f_eff : option R; f_chi2 : option R; f_n : nat }.

(* helper of [fit_rows], absolute_magnitude.py:38-83 *)
Fixpoint all_some {A} (l : list (option A)) : option (list A) :=
  match l with
  | [] => Some []
  | x :: r => match x, all_some r with Some v, Some vs => Some (v :: vs) | _, _ => None end
  end.

(* absolute_magnitude.py 38-83 *)
Definition fit_rows (h : list R) (sigma : list (option R)) : result fit :=
  let n := List.length h in
  if (n =? 0)%nat then Err ValueError
  else
    let finish (H : R) (ws : option (list R)) : result fit :=
      let resid := map (fun x => x - H) h in
      let eff := if (2 <=? n)%nat then Some (mad_sigma resid) else None in
      match ws with
      | Some w =>
          if (2 <=? n)%nat then
            let chi2 := rsum (map (fun p => fst p * (snd p * snd p)) (combine w resid)) / INR (n - 1) in
            let hs := sqrt (1 / rsum w) in
            Ok (mk_fit H (Some (if Rlt_dec 1 chi2 then hs * sqrt chi2 else hs)) eff (Some chi2) n)
          else Ok (mk_fit H None eff None n)
      | None => Ok (mk_fit H (option_map (fun e => e / sqrt (INR n)) eff) eff None n)
      end in
    match all_some sigma with
    | Some sg =>
        (* a zero sigma makes the sum of weights infinite *)
        if existsb (fun v => if Req_EM_T v 0 then true else false) sg then Err ValueError
        else
          let w := map (fun v => 1 / (v * v)) sg in
          if Rle_dec (rsum w) 0 then Err ValueError
          else finish (rsum (map (fun p => fst p * snd p) (combine w h)) / rsum w) (Some w)
    | None => finish (rsum h / INR n) None
    end.

(* absolute_magnitude.py:178-190: rows with a magnitude and a forward-model value.
   A row: reported magnitude, its sigma, the forward model at H = 0. *)
Record det := mk_det { d_mag : option R; d_sigma : option R; d_m0 : option R }.

(* absolute_magnitude.py:86-200, one detection *)
Definition usable (d : det) : option (R * option R) :=
  match d_mag d, d_m0 d with Some m, Some m0 => Some (m - m0, d_sigma d) | _, _ => None end.

(* absolute_magnitude.py:86-200: masking *)
Fixpoint keep_some {A} (l : list (option A)) : list A :=
  match l with
  | [] => []
  | Some x :: r => x :: keep_some r
  | None :: r => keep_some r
  end.

(* absolute_magnitude.py:86-200 *)
Definition estimate_h (ds : list det) : result fit :=
  let rows := keep_some (map usable ds) in
  match rows with
  | [] => Err ValueError
  | _ => fit_rows (map fst rows) (map snd rows)
  end.

(* absolute_magnitude.py 285-354: rows are sorted by id (stably), runs of equal ids are
   fitted, a group whose fit raises is left out *)
Definition by_id {A} (p q : string * A) : bool := str_leb (fst p) (fst q).

(* absolute_magnitude.py:203-354: consecutive rows of one object *)
Fixpoint runs {A} (l : list (string * A)) : list (string * list A) :=
  match l with
  | [] => []
  | (i, x) :: r =>
      match runs r with
      | (j, xs) :: rest => if String.eqb i j then (i, x :: xs) :: rest else (i, [x]) :: (j, xs) :: rest
      | [] => [(i, [x])]
      end
  end.

(* absolute_magnitude.py:203-354 *)
Definition estimate_h_grouped (ds : list (option string * det)) : list (string * fit) :=
  let rows := keep_some (map (fun d =>
                match fst d, usable (snd d) with
                | Some i, Some u => Some (i, u)
                | _, _ => None
                end) ds) in
  keep_some (map (fun g =>
      match fit_rows (map fst (snd g)) (map snd (snd g)) with
      | Ok f => Some (fst g, f)
      | Err _ => None
      end) (runs (sort by_id rows))).
