(* Mission transfer grids: /repo/src/adam_core/missions/porkchop.py.  Arithmetic is on exact reals; NaN is
   [None].  Tables are lists of rows with their attributes; the plot is the data handed to plotly. *)
From Coq Require Import Reals Lra.
From Coq Require Import List String Bool ZArith Lia.
From Verif Require Import Base SchedModel TimeModel SphModel KepModel LightModel FrameModel LambertModel.
Import ListNotations.
Open Scope string_scope.
Open Scope list_scope.
Open Scope R_scope.

(* helper of [generate], porkchop.py:667-672: one row of an Orbits table, the columns that are read *)
Record orb := mkorb { b_id : string; b_time : row; b_pos : vec; b_vel : vec; b_origin : string }.
(* helper of [generate], porkchop.py:655-664: a table with its frame and its time scale *)
Record orbits := mkorbits { t_frame : string; t_scale : string; t_rows : list orb }.
(* porkchop.py:209-235: one row; the velocities are None when the solver gave NaN *)
Record transfer := mktransfer { x_dep : orb; x_arr : orb; x_vels : option (vec * vec); x_origin : string }.
(* porkchop.py:209-235 *)
Record solutions := mksolutions { s_frame : string; s_dep_scale : string; s_arr_scale : string; s_rows : list transfer }.

(* helper of [generate], porkchop.py:675-678: Timestamp.mjd *)
Definition mjdR (t : row) : R := IZR (days t) + IZR (nanos t) / IZR DAY.
(* porkchop.py:667-672: the sort key *)
Definition time_leb (a b : orb) : bool :=
  let p := b_time a in let q := b_time b in
  ((days p <? days q) || ((days p =? days q) && (nanos p <=? nanos q)))%Z.
(* porkchop.py:680-695: boolean indexing of the (arrival, departure) grid goes row by row *)
Definition pairs (deps arrs : list orb) : list (orb * orb) :=
  flat_map (fun a => map (fun d => (d, a)) (filter (fun d => rlt (mjdR (b_time d)) (mjdR (b_time a))) deps)) arrs.

(* porkchop.py:406-412 *)
Definition flight_time (d a : orb) : R := mjdR (b_time a) - mjdR (b_time d).

(* porkchop.py:320-339, 341-360 *)
Definition c3_departure (x : transfer) : option R := option_map (fun v => calculate_c3 (fst v) (b_vel (x_dep x))) (x_vels x).
(* porkchop.py:341-360 *)
Definition c3_arrival (x : transfer) : option R := option_map (fun v => calculate_c3 (snd v) (b_vel (x_arr x))) (x_vels x).
(* porkchop.py:362-382 *)
Definition vinf_departure (x : transfer) : option R := option_map (fun v => norm (vminus (fst v) (b_vel (x_dep x)))) (x_vels x).
(* porkchop.py:384-404 *)
Definition vinf_arrival (x : transfer) : option R := option_map (fun v => norm (vminus (snd v) (b_vel (x_arr x)))) (x_vels x).
(* porkchop.py:406-412 *)
Definition time_of_flight (x : transfer) : R := flight_time (x_dep x) (x_arr x).

(* porkchop.py:707-726: submit, and wait for one when more than 1.5 per process are pending *)
Fixpoint submit_gt {A} (pick : nat -> nat) (P : Z) (k : nat) (pending done : list A) (tasks : list A) : nat * list A * list A :=
  match tasks with
  | [] => (k, pending, done)
  | t :: ts =>
      let p := pending ++ [t] in
      if (3 * P <? 2 * zlen p)%Z then
        match wait_one pick k p with
        | Some (x, p') => submit_gt pick P (Datatypes.S k) p' (done ++ [x]) ts
        | None => submit_gt pick P k p done ts
        end
      else submit_gt pick P k p done ts
  end.
(* porkchop.py:707-731 *)
Definition window_gt {A} (pick : nat -> nat) (P : Z) (tasks : list A) : list A :=
  let '(k, p, d) := submit_gt pick P 0 [] [] tasks in d ++ drain pick (List.length p) k p.

Section Generate.
(* Origin.mu of an OriginCodes member *)
Variable mu : string -> result R.

(* porkchop.py:485-536; the flight times are the differences of the two tables' MJDs; the tables have equal
   length and at least one row *)
Definition worker (propagation_origin : string) (prograde : bool) (max_iter : nat) (tol : R) (ps : list (orb * orb)) : result (list transfer) :=
  bind (mu propagation_origin) (fun m =>
  bind (solve_lambert (map (fun p => b_pos (fst p)) ps) (map (fun p => b_pos (snd p)) ps)
                      (inr (map (fun p => flight_time (fst p) (snd p)) ps)) m prograde max_iter tol) (fun vs =>
  Ok (map (fun q => mktransfer (fst (fst q)) (snd (fst q)) (snd q) propagation_origin) (combine ps vs)))).

(* helper of [generate], porkchop.py:658-664 *)
Definition origin_of (l : list orb) : option string :=
  match uniq String.eqb (map b_origin l) with [o] => Some o | _ => None end.

(* porkchop.py:616-743; [mp] is the number of processes, [pick] the order in which Ray tasks finish.
   Ray is used for more than one process (ray_cluster.py).  The result of a run is labelled with the frame of the
   departures; an empty result keeps the default frame and scale.  Concatenating with the empty table
   keeps the attributes of the other. *)
Definition generate (pick : nat -> nat) (mp : Z) (deps arrs : orbits) (propagation_origin : string) (prograde : bool) (max_iter : nat) (tol : R)
  : result solutions :=
  if negb (String.eqb (t_frame deps) (t_frame arrs)) then Err AssertionError else
  match origin_of (t_rows deps), origin_of (t_rows arrs) with
  | Some o1, Some o2 =>
      if negb (String.eqb o1 o2) then Err AssertionError else
      let ps := pairs (sort time_leb (t_rows deps)) (sort time_leb (t_rows arrs)) in
      match ps with
      | [] => Ok (mksolutions "unspecified" "tai" "tai" [])
      | _ =>
          bind (if (1 <? mp)%Z then
                  bind (iterate_chunks ps 100) (fun tasks =>
                  bind (mapM (worker propagation_origin prograde max_iter tol) (window_gt pick mp tasks)) (fun rs => Ok (concat rs)))
                else worker propagation_origin prograde max_iter tol ps) (fun rows =>
          Ok (mksolutions (t_frame deps) (t_scale deps) (t_scale arrs) rows))
      end
  | _, _ => Err AssertionError
  end.
End Generate.

(* ---- porkchop.py:542-613 ---- *)
(* porkchop.py:588-595: np.arange on the TDB MJDs; the length is the ceiling of the quotient, at least zero *)
Definition arange (start stop step : R) : result (list R) :=
  if Req_EM_T step 0 then Err ZeroDivisionError else
  let n := Z.to_nat (- Int_part (- ((stop - start) / step))) in
  Ok (map (fun k => start + INR k * step) (seq 0 n)).

(* ---- porkchop.py:415-482 ---- *)
(* helper of [departure_direction], porkchop.py:474-481: rotation of a position to the equatorial frame *)
Definition to_equatorial (frame : string) (v : vec) : result vec :=
  let '(x, y, z) := v in
  if String.eqb frame "equatorial" then Ok v else
  if String.eqb frame "ecliptic" then
    Ok (x, cos obliquity * y - sin obliquity * z, sin obliquity * y + cos obliquity * z)
  else Err ValueError.
(* porkchop.py:415-482, one row; None: the direction of the zero vector is NaN.  Frames other than the two inertial
   ones are not modelled (ValueError here).  The origin is not changed. *)
Definition departure_direction (frame : string) (v : vec) : result (option row6) :=
  let speed := norm v in
  if Req_EM_T speed 0 then (if String.eqb frame "equatorial" || String.eqb frame "ecliptic" then Ok None else Err ValueError) else
  bind (to_equatorial frame (scale (/ speed) v)) (fun u =>
  let '(x, y, z) := u in Ok (Some (cartesian_to_spherical (mk6 x y z 0 0 0)))).
(* porkchop.py:447-450, 474-482 *)
Definition departure_spherical (n_times : nat) (frame : string) (vx vy vz : list R) : result (list (option row6)) :=
  if negb (Nat.eqb (List.length vx) (List.length vy) && Nat.eqb (List.length vy) (List.length vz) && Nat.eqb (List.length vz) n_times)
  then Err AssertionError else
  match vx with
  | [] => Err AssertionError
  | _ => mapM (departure_direction frame) (map (fun p => (fst (fst p), snd (fst p), snd p)) (combine (combine vx vy) vz))
  end.

(* ---- porkchop.py:746-1249, the data of the figure ---- *)
(* helper of [plot], porkchop.py:813-822: C3 in km^2/s^2, speed at infinity in km/s, departure and arrival MJD *)
Record point := mkpoint { g_c3 : option R; g_vinf : option R; g_dep : R; g_arr : R }.
(* porkchop.py:813-822, 857-858 *)
Definition point_of (x : transfer) : point :=
  mkpoint (option_map (fun c => c * au_per_day_to_km_per_s 1 ^ 2) (c3_departure x)) (option_map au_per_day_to_km_per_s (vinf_arrival x))
          (mjdR (b_time (x_dep x))) (mjdR (b_time (x_arr x))).
(* helper of [plot], porkchop.py:816 *)
Definition g_tof (p : point) : R := g_arr p - g_dep p.

(* helper of [plot], porkchop.py:826-827: np.max, NaN when any value is; ValueError for no value *)
Definition npmax (l : list (option R)) : result (option R) :=
  match l with
  | [] => Err ValueError
  | x :: r => Ok (fold_left (fun m v => match m, v with Some a, Some b => Some (Rmax a b) | _, _ => None end) r x)
  end.
(* helper of [plot], porkchop.py:882-883 *)
Definition minR (l : list R) (d : R) : R := match l with [] => d | x :: r => fold_left Rmin r x end.
(* helper of [plot], porkchop.py:882-883 *)
Definition maxR (l : list R) (d : R) : R := match l with [] => d | x :: r => fold_left Rmax r x end.

(* porkchop.py:746-765: the numeric options; None is the default *)
Record limits := mklimits { l_c3_min : option R; l_c3_max : option R; l_vinf_min : option R; l_vinf_max : option R;
                            l_tof_min : option R; l_tof_max : option R; l_xlim : option (R * R); l_ylim : option (R * R); l_optimal : bool }.
(* helper of [plot], porkchop.py:824-846 *)
Definition or_zero (x : option R) : R := match x with Some v => v | None => 0 end.
(* helper of [plot], porkchop.py:826-827, 839-840, 845-846 *)
Definition or_max (x : option R) (l : list (option R)) : result (option R) := match x with Some v => Ok (Some v) | None => npmax l end.

(* helper of [selected], porkchop.py:862-871 *)
Definition inside (lo hi : R) (v : option R) : bool := match v with Some x => rle x hi && rle lo x | None => false end.
(* porkchop.py:862-878 *)
Definition selected (c3lo c3hi vlo vhi tlo thi : R) (l : list point) : list point :=
  filter (fun p => inside c3lo c3hi (g_c3 p) && inside vlo vhi (g_vinf p) && inside tlo thi (Some (g_tof p))) l.

(* helper of [plot], porkchop.py:918-923: np.unique *)
Definition unique_sorted (l : list R) : list R := sort rle (uniq (fun a b => if Req_EM_T a b then true else false) l).
(* helper of [plot], porkchop.py:956-967: the last row written to a cell *)
Definition cell (l : list point) (f : point -> option R) (dep arr : R) : option R :=
  fold_left (fun acc p => if Req_EM_T (g_dep p) dep then (if Req_EM_T (g_arr p) arr then f p else acc) else acc) l None.
(* helper of [plot], porkchop.py:1176, 1213: np.nanargmin, the first smallest *)
Fixpoint best_point (f : point -> option R) (b : point) (l : list point) : point :=
  match l with
  | [] => b
  | p :: r => best_point f (match f p, f b with Some u, Some v => if rlt u v then p else b | Some _, None => p | None, _ => b end) r
  end.
(* helper of [plot], porkchop.py:1187-1190, 1224-1227 *)
Definition within (xl yl : R * R) (p : point) : bool :=
  rle (fst xl) (g_dep p) && rle (g_dep p) (snd xl) && rle (fst yl) (g_arr p) && rle (g_arr p) (snd yl).

(* porkchop.py:929-940 an empty figure, or 1081-1249: axes, cells row by row, and the two markers *)
Inductive figure :=
| NoGrid
| Figure (deps arrs : list R) (c3 vinf tof : list (list (option R))) (best_c3 best_vinf : option point).

(* porkchop.py:746-1249 *)
Definition plot (o : limits) (l : list point) : result figure :=
  bind (or_max (l_c3_max o) (map g_c3 l)) (fun c3hi =>
  let c3lo := or_zero (l_c3_min o) in
  match c3hi with
  | None => Err AssertionError
  | Some c3hi =>
  if negb (rlt c3lo c3hi) then Err AssertionError else
  bind (or_max (l_vinf_max o) (map g_vinf l)) (fun vhi =>
  let vlo := or_zero (l_vinf_min o) in
  bind (or_max (l_tof_max o) (map (fun p => Some (g_tof p)) l)) (fun thi =>
  let tlo := or_zero (l_tof_min o) in
  match vhi, thi with
  | Some vhi, Some thi =>
      if negb (rlt 0 ((vhi - vlo) / 10)) then Err AssertionError else
      let s := selected c3lo c3hi vlo vhi tlo thi l in
      let xs := unique_sorted (map g_dep s) in
      let ys := unique_sorted (map g_arr s) in
      if Nat.ltb (List.length xs) 2 || Nat.ltb (List.length ys) 2 then Ok NoGrid else
      let grid f := map (fun a => map (fun d => f d a) xs) ys in
      let xl := match l_xlim o with Some w => w | None => (minR xs 0, maxR xs 0) end in
      let yl := match l_ylim o with Some w => w | None => (minR ys 0, maxR ys 0) end in
      let marker f := match s with
                      | [] => None
                      | p :: r => let b := best_point f p r in if l_optimal o && within xl yl b then Some b else None
                      end in
      Ok (Figure xs ys (grid (cell s g_c3)) (grid (cell s g_vinf)) (grid (fun d a => Some (a - d))) (marker g_c3) (marker g_vinf))
  | _, _ => Err AssertionError
  end))
  end).

(* ---- porkchop.py:29-107 ---- *)
(* helper of [saturated], porkchop.py:85-100: int() and the clamp *)
Definition byte (x : R) : Z := Z.max 0 (Z.min 255 (if rle 0 x then Int_part x else - Int_part (- x)))%Z.
(* porkchop.py:76-105: position, colour and opacity of level i *)
Definition saturated_level (rgb : Z * Z * Z) (n i : nat) (max_alpha min_alpha : R) : R * (Z * Z * Z) * R :=
  let position := INR i / (INR n - 1) in
  let mix c := if Req_EM_T position 0 then byte (IZR c * (9 / 10) + 255 * (1 - 9 / 10))
               else byte (IZR c * (3 / 10 + 7 / 10 * Rpower position (8 / 10))) in
  let '(r, g, b) := rgb in
  (position, (mix r, mix g, mix b), min_alpha + (max_alpha - min_alpha) * position).
(* porkchop.py:29-107; a single level divides by zero *)
Definition saturated (rgb : Z * Z * Z) (n : nat) (max_alpha min_alpha : R) : result (list (R * (Z * Z * Z) * R)) :=
  match n with
  | 1%nat => Err ZeroDivisionError
  | _ => Ok (map (fun i => saturated_level rgb n i max_alpha min_alpha) (seq 0 n))
  end.
