(* Model of src/adam_core/photometry/bandpasses/vendor.py: the vendored photometric data (definitions only).
   Left out: the downloads, the readers of VOTable and FITS files, the parquet files, the citations.
   Simplification: exact real arithmetic; a value that is not finite is [None]. *)
From Coq Require Import Reals String.
From Verif Require Import Base PhotModel.
Open Scope string_scope.
Open Scope list_scope.
Open Scope R_scope.

(* ---- vendor.py:115-160 ---- *)
(* the columns of a table read from the SVO service; None for a column that is missing *)
(* helper of [parse_svo_curve], vendor.py:115-133 *)
Record votable := mk_votable { vt_wavelength : option (list (option R)); vt_transmission : option (list (option R)) }.
(* vendor.py:115-133; the columns are one-dimensional *)
Definition parse_svo_curve (t : votable) : result (list (option R * option R)) :=
  match vt_wavelength t, vt_transmission t with
  | Some wl, Some tr =>
      if negb (List.length wl =? List.length tr)%nat then Err ValueError
      else if (List.length wl <? 2)%nat then Err ValueError
      else Ok (map (fun p => (option_map (fun x => x / 10) (fst p), snd p)) (combine wl tr))
  | _, _ => Err ValueError
  end.

(* vendor.py:141-142: all values are finite *)
Fixpoint finite (l : list (option R * option R)) : option samples :=
  match l with
  | [] => Some []
  | (Some w, Some t) :: r => match finite r with Some s => Some ((w, t) :: s) | None => None end
  | _ => None
  end.
(* vendor.py:149-151: the samples whose wavelength is above that of the sample before them *)
Fixpoint keep (prev : R) (l : samples) : samples :=
  match l with
  | [] => []
  | q :: r => if Rlt_dec 0 (fst q - prev) then q :: keep (fst q) r else keep (fst q) r
  end.
(* vendor.py:155 numpy.clip *)
Definition clip01 (x : R) : R := Rmin (Rmax x 0) 1.
(* helper of [normalize_curve], vendor.py:156 numpy.max of a non-empty array *)
Definition max_of (l : list R) : R := fold_right Rmax (hd 0 l) l.
(* vendor.py:136-160; [argsort] orders the samples by wavelength, equal wavelengths in any order.  For an empty
   array the mask of length one does not fit. *)
Definition normalize_curve (argsort : samples -> samples) (pts : list (option R * option R)) : result samples :=
  match finite pts with
  | None => Err ValueError
  | Some l =>
      match argsort l with
      | [] => Err IndexError
      | p :: r =>
          let u := p :: keep (fst p) r in
          if (List.length u <? 2)%nat then Err ValueError
          else
            let c := map (fun q => (fst q, clip01 (snd q))) u in
            let m := max_of (map snd c) in
            if Rle_dec m 0 then Err ValueError
            else Ok (map (fun q => (fst q, snd q / m)) c)
      end
  end.

(* ---- vendor.py:34-105, 163-219 ---- *)
(* filter_id, instrument, band, svo_id *)
(* helper of [curve_loop], vendor.py:34-39 *)
Definition spec := (string * string * string * string)%type.
(* helper of [curve_loop], vendor.py:34-39 *)
Definition spec_filter (s : spec) : string := let '(f, _, _, _) := s in f.
(* helper of [curve_loop], vendor.py:34-39 *)
Definition spec_svo (s : spec) : string := let '(_, _, _, v) := s in v.
(* vendor.py:42-105 *)
Definition default_specs : list spec :=
  [("V", "Bessell", "V", "Generic/Bessell.V");
   ("Bessell_U", "Bessell", "U", "Generic/Bessell.U");
   ("Bessell_B", "Bessell", "B", "Generic/Bessell.B");
   ("Bessell_R", "Bessell", "R", "Generic/Bessell.R");
   ("Bessell_I", "Bessell", "I", "Generic/Bessell.I");
   ("LSST_u", "LSST", "u", "LSST/LSST.u");
   ("LSST_g", "LSST", "g", "LSST/LSST.g");
   ("LSST_r", "LSST", "r", "LSST/LSST.r");
   ("LSST_i", "LSST", "i", "LSST/LSST.i");
   ("LSST_z", "LSST", "z", "LSST/LSST.z");
   ("LSST_y", "LSST", "y", "LSST/LSST.y");
   ("SDSS_u", "SDSS", "u", "SLOAN/SDSS.u");
   ("SDSS_g", "SDSS", "g", "SLOAN/SDSS.g");
   ("SDSS_r", "SDSS", "r", "SLOAN/SDSS.r");
   ("SDSS_i", "SDSS", "i", "SLOAN/SDSS.i");
   ("SDSS_z", "SDSS", "z", "SLOAN/SDSS.z");
   ("PS1_g", "PS1", "g", "PAN-STARRS/PS1.g");
   ("PS1_r", "PS1", "r", "PAN-STARRS/PS1.r");
   ("PS1_i", "PS1", "i", "PAN-STARRS/PS1.i");
   ("PS1_z", "PS1", "z", "PAN-STARRS/PS1.z");
   ("PS1_y", "PS1", "y", "PAN-STARRS/PS1.y");
   ("PS1_w", "PS1", "w", "PAN-STARRS/PS1.w");
   ("ZTF_g", "ZTF", "g", "Palomar/ZTF.g");
   ("ZTF_r", "ZTF", "r", "Palomar/ZTF.r");
   ("ZTF_i", "ZTF", "i", "Palomar/ZTF.i");
   ("DECam_u", "DECam", "u", "CTIO/DECam.u");
   ("DECam_g", "DECam", "g", "CTIO/DECam.g");
   ("DECam_r", "DECam", "r", "CTIO/DECam.r");
   ("DECam_i", "DECam", "i", "CTIO/DECam.i");
   ("DECam_z", "DECam", "z", "CTIO/DECam.z");
   ("DECam_Y", "DECam", "Y", "CTIO/DECam.Y");
   ("DECam_VR", "DECam", "VR", "CTIO/DECam.VR_filter");
   ("Mosaic3_z", "Mosaic3", "z", "KPNO/MzLS.z");
   ("BASS_g", "BASS", "g", "BOK/BASS.g");
   ("BASS_r", "BASS", "r", "BOK/BASS.r");
   ("SkyMapper_u", "SkyMapper", "u", "SkyMapper/SkyMapper.u");
   ("SkyMapper_v", "SkyMapper", "v", "SkyMapper/SkyMapper.v");
   ("SkyMapper_g", "SkyMapper", "g", "SkyMapper/SkyMapper.g");
   ("SkyMapper_r", "SkyMapper", "r", "SkyMapper/SkyMapper.r");
   ("SkyMapper_i", "SkyMapper", "i", "SkyMapper/SkyMapper.i");
   ("SkyMapper_z", "SkyMapper", "z", "SkyMapper/SkyMapper.z");
   ("ATLAS_c", "ATLAS", "c", "Misc/Atlas.cyan");
   ("ATLAS_o", "ATLAS", "o", "Misc/Atlas.orange")].
(* one row of BandpassCurves *)
(* helper of [curve_loop], vendor.py:184-204 *)
Record crow := mk_crow { cr_filter : string; cr_instrument : string; cr_band : string; cr_pts : samples; cr_svo : string }.
(* helper of [curve_loop], vendor.py:196-204 *)
Definition row_of (s : spec) (pts : samples) : crow := let '(f, i, b, v) := s in mk_crow f i b pts v.
Section Curves.
(* _download_svo_votable and the VOTable reader *)
Variable fetch : string -> result votable.
(* numpy.argsort *)
Variable argsort : samples -> samples.
(* vendor.py:185-204 *)
Fixpoint curve_loop (seen : list string) (specs : list spec) : result (list crow) :=
  match specs with
  | [] => Ok []
  | s :: r =>
      if existsb (String.eqb (spec_filter s)) seen then Err ValueError
      else bind (fetch (spec_svo s)) (fun raw => bind (parse_svo_curve raw) (fun c => bind (normalize_curve argsort c) (fun pts =>
           bind (curve_loop (spec_filter s :: seen) r) (fun rows => Ok (row_of s pts :: rows)))))
  end.
(* vendor.py:172-219 *)
Definition build_bandpass_curves (specs : option (list spec)) : result (list crow) :=
  match (match specs with Some l => l | None => default_specs end) with
  | [] => Err ValueError
  | l => curve_loop [] l
  end.
End Curves.

(* ---- vendor.py:222-303 ---- *)
(* observatory code, reported band, filter *)
(* helper of [observatory_band_map], vendor.py:226-293 *)
Definition entry := (string * string * string)%type.
(* vendor.py:226-291 *)
Definition observatory_band_map : list entry :=
  map (fun b => ("W84", b, "DECam_" ++ b)%string) ["u"; "g"; "r"; "i"; "z"]
  ++ [("W84", "Y", "DECam_Y"); ("W84", "y", "DECam_Y"); ("W84", "VR", "DECam_VR"); ("W84", "vr", "DECam_VR")]
  ++ [("695", "z", "Mosaic3_z")]
  ++ map (fun b => ("I41", b, "ZTF_" ++ b)%string) ["g"; "r"; "i"]
  ++ [("Q55", "u", "SkyMapper_u"); ("Q55", "v", "SkyMapper_v"); ("Q55", "g", "SkyMapper_g"); ("Q55", "r", "SkyMapper_r");
      ("Q55", "i", "SkyMapper_i"); ("Q55", "z", "SkyMapper_z")]
  ++ map (fun b => ("X05", b, "LSST_" ++ b)%string) ["u"; "g"; "r"; "i"; "z"; "y"]
  ++ [("X05", "Y", "LSST_y")]
  ++ flat_map (fun c => [(c, "c", "ATLAS_c"); (c, "o", "ATLAS_o"); (c, "Ac", "ATLAS_c"); (c, "Ao", "ATLAS_o")]) ["T08"; "T05"; "M22"; "W68"]
  ++ [("V00", "g", "BASS_g"); ("V00", "r", "BASS_r")]
  ++ flat_map (fun c => [(c, "w", "PS1_w"); (c, "Pw", "PS1_w")]) ["F51"; "F52"].
(* vendor.py:294 *)
Definition map_key (e : entry) : string := let '(c, b, _) := e in (c ++ "|" ++ b)%string.
(* the observable column, helper of [observatory_band_map], vendor.py:293-300: the column filter_id *)
Definition map_filter (e : entry) : string := let '(_, _, f) := e in f.

(* ---- vendor.py:306-375 ---- *)
(* numpy.linspace *)
(* helper of [template_grid], vendor.py:318 *)
Definition linspace (a b : R) (n : nat) : list R := map (fun k => a + INR k * ((b - a) / INR (n - 1))) (seq 0 n).
(* vendor.py:318 *)
Definition template_grid : list R := linspace 300 1100 (Z.to_nat 4000).
(* vendor.py:329-333 *)
Definition c_type (w : R) : R :=
  1 * (1 + 15 / 100 * (w - 550) / 550) * (1 - 3 / 100 * exp (- (1 / 2) * ((w - 700) / 50) ^ 2))
  * (if Rlt_dec w 450 then exp (- ((450 - w) / 100) ^ 2) else 1).
(* vendor.py:337-341 *)
Definition s_type (w : R) : R :=
  1 * (1 + 50 / 100 * (w - 550) / 550) * (1 - 10 / 100 * exp (- (1 / 2) * ((w - 950) / 100) ^ 2))
  * (if Rlt_dec w 500 then exp (- ((500 - w) / 120) ^ 2) else 1).
(* vendor.py:320-326; 550 nm is inside the grid, so the values outside of it do not matter *)
Definition normalize_at_550 (l : samples) : result samples :=
  let r550 := interp l 550 in
  if Rle_dec r550 0 then Err ValueError else Ok (map (fun p => (fst p, snd p / r550)) l).
(* vendor.py:345-346: linear combination of two templates on the same wavelengths *)
Definition mix (wc ws : R) (c s : samples) : samples :=
  map (fun q => (fst (fst q), wc * snd (fst q) + ws * snd (snd q))) (combine c s).
(* one row of AsteroidTemplates *)
(* helper of [build_templates], vendor.py:348-371 *)
Record trow := mk_trow { t_id : string; t_pts : samples; t_c : R; t_s : R }.
(* vendor.py:306-375 *)
Definition build_templates : result (list trow) :=
  bind (normalize_at_550 (map (fun w => (w, c_type w)) template_grid)) (fun c =>
  bind (normalize_at_550 (map (fun w => (w, s_type w)) template_grid)) (fun s =>
  Ok [mk_trow "C" c 1 0; mk_trow "S" s 0 1; mk_trow "NEO" (mix (5 / 10) (5 / 10) c s) (5 / 10) (5 / 10);
      mk_trow "MBA" (mix (7 / 10) (3 / 10) c s) (7 / 10) (3 / 10)])).

(* ---- vendor.py:414-490 ---- *)
(* vendor.py:430-433: sorted unless the wavelengths already increase strictly *)
Definition sorted_solar (argsort : samples -> samples) (solar : samples) : samples :=
  if ((List.length solar <? 2)%nat || negb (increasing solar))%bool then argsort solar else solar.
(* vendor.py:463-477; [None] is NaN *)
Definition vendor_integral (solar tmpl filt : samples) : option R :=
  let lo := Rmax (wl_min solar) (Rmax (wl_min tmpl) (wl_min filt)) in
  let hi := Rmin (wl_max solar) (Rmin (wl_max tmpl) (wl_max filt)) in
  if Rle_dec hi lo then None
  else Some (trapezoid (fun p => snd p * interp tmpl (fst p) * interp filt (fst p) * fst p) (grid solar lo hi)).
(* numpy min and max of an empty array *)
(* helper of [build_integrals], vendor.py:463-468 *)
Definition is_empty (l : samples) : bool := match l with [] => true | _ => false end.
(* one row of TemplateBandpassIntegrals *)
(* helper of [build_integrals], vendor.py:479-487 *)
Record irow := mk_irow { i_template : string; i_filter : string; i_value : option R }.
(* vendor.py:448-481: one template and one filter *)
Definition integral_row (solar : samples) (t : trow) (c : crow) : result irow :=
  if (is_empty solar || is_empty (t_pts t) || is_empty (cr_pts c))%bool then Err ValueError
  else Ok (mk_irow (t_id t) (cr_filter c) (vendor_integral solar (t_pts t) (cr_pts c))).
(* vendor.py:414-490 *)
Definition build_integrals (argsort : samples -> samples) (solar : samples) (templates : list trow) (curves : list crow) : result (list irow) :=
  let solar := sorted_solar argsort solar in
  mapM (fun p => integral_row solar (fst p) (snd p)) (flat_map (fun t => map (fun c => (t, c)) curves) templates).
