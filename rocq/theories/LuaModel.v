(* Model of src/adam_core/orbits/openspace: lua.py, the classes of renderable.py and translation.py, and of assets.py
   create_initialization, create_renderable_trail_orbit, create_renderable_orbital_kepler, the epochs of orbits_to_sbdb_file
   (definitions only).
   Simplifications: text is ASCII; str() of a number is a parameter; a file is its text; the elements of an orbit are exact
   numbers, a period that is NaN or infinite is None; the CSV file is shown only by its epochs. *)
From Coq Require Import Ascii String QArith Qround ZArith List Bool.
From Verif Require Import Base MpcModel ObsModel AdesModel.
Import ListNotations.
Open Scope string_scope.
Open Scope list_scope.
Open Scope nat_scope.

(* lua.py:13-39: the values of the fields of a LuaDict; [LNum] is the text of a value that is formatted as it is,
   the members of tuples and lists are given by their texts; [LRes] is renderable.py:36-43 *)
Inductive lval :=
| LNone | LBool (b : bool) | LEnum (v : str) | LTuple (l : list str) | LList (l : list str) | LStr (s : str) | LNum (t : str)
| LRes (path : str) | LDict (fields : list (str * lval)).
(* helper of [pascal], lua.py:10-11 *)
Definition upper_char (c : ascii) : ascii :=
  let n := nat_of_ascii c in if ((97 <=? n) && (n <=? 122)) then ascii_of_nat (n - 32) else c.
(* str.capitalize *)
(* helper of [pascal], lua.py:10-11 *)
Definition capitalize (w : str) : str := match w with [] => [] | c :: r => upper_char c :: lower r end.
(* lua.py:10-11 *)
Definition pascal (k : str) : str := flat_map capitalize (split_on "_" k).
(* lua.py:31-34 *)
Definition key_text (k : str) : str := if str_eqb k (s_ "gui") then s_ "GUI" else pascal k.
(* ", ".join *)
(* helper of [show], lua.py:13-39 *)
Fixpoint comma (l : list str) : str := match l with [] => [] | [x] => x | x :: r => x ++ s_ ", " ++ comma r end.
(* helper of [show], lua.py:13-39 *)
Definition quoted (s : str) : str := """"%char :: s ++ [""""%char].
(* helper of [show], lua.py:13-39 *)
Definition braces (s : str) : str := "{"%char :: s ++ ["}"%char].
(* lua.py:13-39 to_string(indent) of a LuaDict, and the text of a value in one *)
Fixpoint show (indent : nat) (v : lval) : str :=
  match v with
  | LNone => s_ "None"
  | LBool b => if b then s_ "true" else s_ "false"
  | LEnum v => quoted v
  | LTuple l => braces (comma l)
  | LList l => braces (quoted (comma l))
  | LStr s => quoted s
  | LNum t => t
  | LRes p => s_ "asset.resource(" ++ quoted p ++ s_ ")"
  | LDict fs =>
      "{"%char :: NL ::
      (fix go (fs : list (str * lval)) : str :=
         match fs with
         | [] => []
         | (k, v) :: r =>
             match v with
             | LNone => go r
             | _ => repeat " "%char indent ++ key_text k ++ s_ " = " ++ show (indent + 4) v ++ ","%char :: NL :: go r
             end
         end) fs ++ repeat " "%char (indent - 4) ++ ["}"%char]
  end.

(* ---- assets.py ---- *)
(* assets.py:93-105: "\n".join of both lists *)
Definition create_initialization (assets : list str) : str :=
  join NL (s_ "asset.onInitialize(function ()" :: map (fun a => s_ "  openspace.addSceneGraphNode(" ++ a ++ s_ ");") assets ++ [s_ "end)"]) ++ [NL] ++
  join NL (s_ "asset.onDeinitialize(function ()" :: map (fun a => s_ "  openspace.removeSceneGraphNode(" ++ a ++ s_ ");") assets ++ [s_ "end)"]).
(* identifier.replace(" ", "_") *)
(* assets.py:196, 351, 434, 450 *)
Definition safe (i : str) : str := map (fun c => if Ascii.eqb c " " then "_"%char else c) i.
(* renderable.py:9-15 *)
Definition bin_modes : list str := map s_ ["Background"; "Opaque"; "PreDeferredTransparent"; "Overlay"; "PostDeferredTransparent"; "Sticker"].
(* renderable.py:24-27 *)
Definition kepler_renderings : list str := map s_ ["Trail"; "Point"; "PointsTrails"].
(* renderable.py:30-33 *)
Definition trail_renderings : list str := map s_ ["Lines"; "Points"; "Lines+Points"].
(* Enum(value): ValueError for another value; None stays None *)
(* assets.py:198-202, 353-357 *)
Definition enum (members : list str) (v : option str) : result lval :=
  match v with None => Ok LNone | Some x => if existsb (str_eqb x) members then Ok (LEnum x) else Err ValueError end.
(* helper of [kepler_asset], assets.py:204-208 *)
Definition default (d : str) (x : option str) : str := match x with Some v => v | None => d end.
(* assets.py:42-45 *)
Definition gui (name path : str) : lval := LDict [(s_ "name", LStr name); (s_ "path", LStr path)].
(* assets.py:48-54 *)
Definition asset (identifier : str) (g renderable transform : lval) : lval :=
  LDict [(s_ "identifier", LStr identifier); (s_ "parent", LStr (s_ "SunEclipJ2000")); (s_ "gui", g); (s_ "renderable", renderable); (s_ "transform", transform)].

(* assets.py:107-132 and 259-284: options that both functions take; one that is not given is LNone *)
Record common := mkcommon { c_dim : lval; c_enabled : lval; c_opacity : lval; c_bin_mode : option str; c_tag : lval }.
(* assets.py:107-132; renderable.py:59-78 *)
Record kepler_options := mkko {
  ko_color : lval; ko_quality : lval; ko_contiguous : lval; ko_enable_max_size : lval; ko_enable_outline : lval; ko_max_size : lval;
  ko_outline_color : lval; ko_outline_width : lval; ko_exponent : lval; ko_rendering : option str; ko_render_size : lval;
  ko_start : lval; ko_trail_fade : lval; ko_trail_width : lval }.
(* assets.py:218-240; the order of the fields is that of the dataclasses, renderable.py:46-78 *)
Definition kepler_renderable (o : kepler_options) (c : common) (bin rend : lval) (path : str) : lval :=
  LDict [(s_ "type", LStr (s_ "RenderableOrbitalKepler"));
    (s_ "dim_in_atmosphere", c_dim c); (s_ "enabled", c_enabled c); (s_ "opacity", c_opacity c); (s_ "render_bin_mode", bin); (s_ "tag", c_tag c);
    (s_ "color", ko_color o); (s_ "format", LEnum (s_ "SBDB")); (s_ "path", LRes path); (s_ "segment_quality", ko_quality o);
    (s_ "contiguous_mode", ko_contiguous o); (s_ "enable_max_size", ko_enable_max_size o); (s_ "enable_outline", ko_enable_outline o);
    (s_ "max_size", ko_max_size o); (s_ "outline_color", ko_outline_color o); (s_ "outline_width", ko_outline_width o);
    (s_ "point_size_exponent", ko_exponent o); (s_ "rendering", rend); (s_ "render_size", ko_render_size o);
    (s_ "start_render_idx", ko_start o); (s_ "trail_fade", ko_trail_fade o); (s_ "trail_width", ko_trail_width o)].
(* os.path.basename of a path without a slash after the directory *)
(* assets.py:107-256: the asset; an identifier with a slash is outside the model *)
Definition kepler_asset (identifier : str) (gui_name gui_path : option str) (o : kepler_options) (c : common) : result lval :=
  bind (enum kepler_renderings (ko_rendering o)) (fun rend =>
  bind (enum bin_modes (c_bin_mode c)) (fun bin =>
  Ok (asset (safe identifier) (gui (default (safe identifier) gui_name) (default (s_ "/ADAM") gui_path))
        (kepler_renderable o c bin rend (safe identifier ++ s_ ".csv")) LNone))).
(* assets.py:250-254 *)
Definition kepler_file (identifier : str) (gui_name gui_path : option str) (o : kepler_options) (c : common) : result str :=
  bind (kepler_asset identifier gui_name gui_path o c) (fun a =>
  Ok (s_ "local Object = " ++ show 4 a ++ [NL; NL] ++ create_initialization [s_ "Object"])).

Section Trail.
Variable number : Q -> str.
(* assets.py:364-369, 381-386: an orbit and its heliocentric Keplerian elements; [o_epoch] is the ISO text of its epoch in TDB *)
Record orbit := mkorbit {
  o_orbit_id : str; o_object_id : option str; o_epoch : str;
  o_a : Q; o_e : Q; o_i : Q; o_raan : Q; o_ap : Q; o_M : Q; o_P : option Q }.
(* assets.py:31-39 *)
Definition safe_period (p : option Q) : Q := match p with Some q => q | None => 10000%Q end.
(* constants.py:11 *)
Definition KM_P_AU : Q := 1495978707 # 10.
(* constants.py:13 *)
Definition S_P_DAY : Q := 86400%Q.
(* helper of [translation], assets.py:398-416 *)
Definition num (q : Q) : lval := LNum (number q).
(* translation.py:17-28; assets.py:399-409 *)
Definition kepler_translation (o : orbit) : lval :=
  LDict [(s_ "type", LStr (s_ "KeplerTranslation")); (s_ "argument_of_periapsis", num (o_ap o)); (s_ "ascending_node", num (o_raan o));
    (s_ "eccentricity", num (o_e o)); (s_ "epoch", LStr (o_epoch o)); (s_ "inclination", num (o_i o)); (s_ "mean_anomaly", num (o_M o));
    (s_ "period", num (safe_period (o_P o) * S_P_DAY)%Q); (s_ "semi_major_axis", num (o_a o * KM_P_AU)%Q)].
(* translation.py:31-38; assets.py:410-414: the target of an object, a text or an integer *)
Definition spice_translation (target : lval) : lval :=
  LDict [(s_ "type", LStr (s_ "SpiceTranslation")); (s_ "observer", LStr (s_ "SOLAR SYSTEM BARYCENTER")); (s_ "target", target);
    (s_ "fixed_date", LNone); (s_ "frame", LNone)].
(* exceptions of create_renderable_trail_orbit; reading [translation] before it is assigned is an UnboundLocalError, assets.py:415-416 *)
Inductive oerr := OErr (e : err) | OUnbound.
(* exceptions as values *)
Inductive ores (A : Type) := OOk (a : A) | OFail (e : oerr).
Arguments OOk {A}. Arguments OFail {A}.
(* exceptions as values *)
Definition obind {A B} (x : ores A) (f : A -> ores B) : ores B := match x with OOk a => f a | OFail e => OFail e end.
(* exceptions as values *)
Definition olift {A} (x : result A) : ores A := match x with Ok a => OOk a | Err e => OFail (OErr e) end.

(* assets.py:259-284; renderable.py:81-95 *)
Record trail_options := mkto {
  to_head : bool; to_gui_name : option str; to_gui_path : option str; to_color : lval; to_resolution : lval; to_type : str;
  to_enable_fade : lval; to_line_fade : lval; to_line_length : lval; to_line_width : lval; to_point_size : lval;
  to_rendering : option str; to_period : option Q; to_kernel : option str; to_ids : option (list (str * lval)) }.
(* assets.py:384-386 *)
Definition object_of (o : orbit) : str := match o_object_id o with Some i => i | None => o_orbit_id o end.
(* assets.py:398-416; [prev] is the translation of the orbit before, which an unknown type prints in its ValueError *)
Definition translation (t : trail_options) (prev : bool) (o : orbit) : ores lval :=
  if str_eqb (to_type t) (s_ "Kepler") then OOk (kepler_translation o)
  else if str_eqb (to_type t) (s_ "Spice") then
    match to_ids t with
    | None => OFail (OErr TypeError)
    | Some m => match dget str_eqb (object_of o) m with Some x => OOk (spice_translation x) | None => OFail (OErr KeyError) end
    end
  else if prev then OFail (OErr ValueError) else OFail OUnbound.
(* assets.py:418-431: neither the options of [common] nor a name are passed *)
Definition trail_renderable (t : trail_options) (rend tr : lval) (o : orbit) : lval :=
  LDict [(s_ "type", LStr (s_ "RenderableTrailOrbit"));
    (s_ "dim_in_atmosphere", LNone); (s_ "enabled", LNone); (s_ "opacity", LNone); (s_ "render_bin_mode", LNone); (s_ "tag", LNone);
    (s_ "color", to_color t); (s_ "period", num (match to_period t with Some p => p | None => safe_period (o_P o) end));
    (s_ "resolution", to_resolution t); (s_ "translation", tr);
    (s_ "enable_fade", to_enable_fade t); (s_ "line_fade_amount", to_line_fade t); (s_ "line_length", to_line_length t);
    (s_ "line_width", to_line_width t); (s_ "point_size", to_point_size t); (s_ "rendering", rend)].
(* assets.py:388-396, 433-438 *)
Definition trail_asset (t : trail_options) (rend tr : lval) (o : orbit) : lval :=
  let path := default (s_ "/ADAM") (to_gui_path t) in
  let i := object_of o in
  asset (safe i) (if to_head t then gui (i ++ s_ " Trail") (path ++ s_ "/" ++ i) else gui i path) (trail_renderable t rend tr o) LNone.
(* assets.py:391-394, 449-456 *)
Definition head_asset (t : trail_options) (tr : lval) (o : orbit) : lval :=
  let i := object_of o in
  asset (safe i ++ s_ "_Head") (gui (i ++ s_ " Head") (default (s_ "/ADAM") (to_gui_path t) ++ s_ "/" ++ i)) LNone (LDict [(s_ "translation", tr)]).
(* assets.py:440, 457: f"Object{n:08d}" *)
Definition variable_name (n : nat) : str := s_ "Object" ++ zfill 8 (str_of (Z.of_nat n)).
(* assets.py:379-463: the variables and their assets *)
Fixpoint nodes (t : trail_options) (rend : lval) (prev : bool) (n : nat) (os : list orbit) : ores (list (str * lval)) :=
  match os with
  | [] => OOk []
  | o :: r =>
      obind (translation t prev o) (fun tr =>
      let here := (variable_name n, trail_asset t rend tr o) :: (if to_head t then [(variable_name (n + 1), head_asset t tr o)] else []) in
      obind (nodes t rend true (n + List.length here) r) (fun rest => OOk (here ++ rest)))
  end.
(* assets.py:444-446, 461-463 *)
Definition declaration (a : str * lval) : str := s_ "local " ++ fst a ++ s_ " = " ++ show 4 (snd a) ++ [NL; NL].
(* assets.py:469-478; the kernel as given relative to the directory *)
Definition kernel_block (kernel : str) : str :=
  s_ "asset.onInitialize(function()" ++ [NL] ++ s_ "  local kernelResource = openspace.resource('" ++ kernel ++ s_ "')" ++ [NL] ++
  s_ "  openspace.spice.loadKernel(kernelResource)" ++ [NL] ++ s_ "end)" ++ [NL] ++
  s_ "asset.onDeinitialize(function()" ++ [NL] ++ s_ "  openspace.spice.unloadKernel(kernelResource)" ++ [NL] ++ s_ "end)" ++ [NL].
(* assets.py:351-373: the checks before the file is opened *)
Definition trail_checks (t : trail_options) (c : common) : result lval :=
  bind (enum trail_renderings (to_rendering t)) (fun rend =>
  bind (enum bin_modes (c_bin_mode c)) (fun _ =>
  if str_eqb (to_type t) (s_ "Spice") then
    match to_kernel t, to_ids t with Some _, Some _ => Ok rend | _, _ => Err ValueError end
  else Ok rend)).
(* assets.py:259-480: the text of the asset file *)
Definition trail_file (t : trail_options) (c : common) (os : list orbit) : ores str :=
  obind (olift (trail_checks t c)) (fun rend =>
  obind (nodes t rend false 0 os) (fun ns =>
  OOk (flat_map declaration ns ++ create_initialization (map fst ns) ++
       (if str_eqb (to_type t) (s_ "Spice") then kernel_block (default [] (to_kernel t)) else [])))).
End Trail.
Arguments OOk {A}. Arguments OFail {A}.

(* ---- the epochs of the CSV file ---- *)
(* assets.py:66-73: the number of the day whose date is the iso text, which astropy rounds to milliseconds, and the
   digits after the point of the text of the MJD: of -0.25 they are 25; a text with an exponent is outside the model *)
Definition iso_day (mjd : Q) : Z := Qfloor (inject_Z (round_half_even (mjd * 86400000)) / 86400000)%Q.
(* assets.py:66-73: the digits after the point of the text of the MJD, as a number *)
Definition digits_after_point (mjd : Q) : Q := let a := (if Qle_bool 0 mjd then mjd else - mjd)%Q in (a - inject_Z (Qfloor a))%Q.
(* assets.py:66-73: the MJD that the written epoch denotes *)
Definition written_epoch (mjd : Q) : Q := (inject_Z (iso_day mjd) + digits_after_point mjd)%Q.
