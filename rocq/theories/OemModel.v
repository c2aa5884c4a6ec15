(* Model of src/adam_core/orbits/oem_io.py and orbits/spice_kernel.py (definitions only).

   The `oem` package (text format), rotation into the equatorial frame and unit conversions are
   oracles; SPK arithmetic is exact (rationals). *)
From Coq Require Import String Ascii QArith Qround.
From Verif Require Import Base TimeModel.
Open Scope string_scope.
Open Scope Z_scope.
Open Scope list_scope.

(* helper of [adam_to_oem_frame], oem_io.py:142-171 *)
Fixpoint assoc (k : string) (l : list (string * string)) : option string :=
  match l with [] => None | (a, b) :: l' => if String.eqb k a then Some b else assoc k l' end.
(* helper of [adam_to_oem_frame], oem_io.py:142-171 *)
Definition get (k : string) (l : list (string * string)) : result string :=
  match assoc k l with Some v => Ok v | None => Err ValueError end.
(* str.upper on ASCII *)
(* str.upper in oem_io.py:253-300 *)
Definition upper_char (c : ascii) : ascii :=
  let n := nat_of_ascii c in if ((97 <=? n) && (n <=? 122))%nat then ascii_of_nat (n - 32) else c.
(* str.upper in oem_io.py:253-300 *)
Fixpoint upper (s : string) : string := match s with EmptyString => EmptyString | String c s' => String (upper_char c) (upper s') end.

(* oem_io.py:142-171 *)
Definition adam_to_oem_frame (f : string) : result string := get f [("equatorial", "EME2000"); ("itrf93", "ITRF-93")].
(* oem_io.py:174-203 *)
Definition oem_to_adam_frame (f : string) : result string := get f [("EME2000", "equatorial"); ("ITRF-93", "itrf93")].
(* oem_io.py:225-245 *)
Definition center_map : list (string * string) :=
  [("SOLAR_SYSTEM_BARYCENTER", "SOLAR SYSTEM BARYCENTER"); ("MERCURY_BARYCENTER", "MERCURY BARYCENTER");
   ("VENUS_BARYCENTER", "VENUS BARYCENTER"); ("EARTH_MOON_BARYCENTER", "EARTH BARYCENTER");
   ("MARS_BARYCENTER", "MARS BARYCENTER"); ("JUPITER_BARYCENTER", "JUPITER BARYCENTER");
   ("SATURN_BARYCENTER", "SATURN BARYCENTER"); ("URANUS_BARYCENTER", "URANUS BARYCENTER");
   ("NEPTUNE_BARYCENTER", "NEPTUNE BARYCENTER"); ("SUN", "SUN"); ("MERCURY", "MERCURY"); ("VENUS", "VENUS");
   ("EARTH", "EARTH"); ("MOON", "MOON"); ("MARS", "MARS"); ("JUPITER", "JUPITER"); ("SATURN", "SATURN");
   ("URANUS", "URANUS"); ("NEPTUNE", "NEPTUNE")].
(* oem_io.py:206-250 *)
Definition adam_to_oem_center (c : string) : result string := get c center_map.
(* oem_io.py:272-300 *)
Definition center_map_back : list (string * string) :=
  [("SOLAR SYSTEM BARYCENTER", "SOLAR_SYSTEM_BARYCENTER"); ("MERCURY BARYCENTER", "MERCURY_BARYCENTER");
   ("VENUS BARYCENTER", "VENUS_BARYCENTER"); ("EARTH BARYCENTER", "EARTH_MOON_BARYCENTER");
   ("MARS BARYCENTER", "MARS_BARYCENTER"); ("JUPITER BARYCENTER", "JUPITER_BARYCENTER");
   ("SATURN BARYCENTER", "SATURN_BARYCENTER"); ("URANUS BARYCENTER", "URANUS_BARYCENTER");
   ("NEPTUNE BARYCENTER", "NEPTUNE_BARYCENTER"); ("SUN", "SUN"); ("MERCURY", "MERCURY"); ("VENUS", "VENUS");
   ("EARTH", "EARTH"); ("MOON", "MOON"); ("MARS", "MARS"); ("JUPITER", "JUPITER"); ("SATURN", "SATURN");
   ("URANUS", "URANUS"); ("NEPTUNE", "NEPTUNE")].
(* oem_io.py:253-300 *)
Definition oem_to_adam_center (c : string) : result string := get (upper c) center_map_back.

Section Oem.
Context {V C : Type}.
(* transform_coordinates(..., frame_out="equatorial") of one row from the given frame, values and
   covariance; values_km / covariance_km and back (coordinates/units.py) *)
Variable rotate : string -> V -> V.
Variable rotate_cov : string -> C -> C.
Variables (km au : V -> V) (km_cov au_cov : C -> C).
(* the epoch that survives writing and reading the text file *)
Variable stamp : row -> row.

(* helper of [orbit_to_oem], oem_io.py:303-407 *)
Record state := mkstate { s_object : option string; s_orbit : string; s_time : row; s_code : string; s_vals : V; s_cov : option C }.
(* helper of [orbit_to_oem], oem_io.py:303-407 *)
Record oem := mkoem { f_object : string; f_center : string; f_frame : string; f_start : row; f_stop : row;
                      f_states : list (row * V); f_covs : list (row * (string * C)) }.
(* helper of [orbit_to_oem], oem_io.py:303-407 *)
Definition opt_eqb (a b : option string) : bool :=
  match a, b with Some x, Some y => String.eqb x y | None, None => true | _, _ => false end.
(* helper of [orbit_to_oem], oem_io.py:303-407 *)
Definition time_leb (a b : state) : bool :=
  (days (s_time a) <? days (s_time b)) || ((days (s_time a) =? days (s_time b)) && (nanos (s_time a) <=? nanos (s_time b))).
(* helper of [orbit_to_oem], oem_io.py:303-407 *)
Definition turn (frame : string) (s : state) : state :=
  mkstate (s_object s) (s_orbit s) (s_time s) (s_code s) (rotate frame (s_vals s)) (option_map (rotate_cov frame) (s_cov s)).

(* oem_io.py:303-407.  [sort_by] is stable; a covariance is None when all its entries are NaN. *)
Definition orbit_to_oem (frame : string) (os : list state) : result oem :=
  if negb (List.length (uniq opt_eqb (map s_object os)) =? 1)%nat then Err AssertionError else
  match map s_object os with
  | Some object :: _ =>
      let ss := sort time_leb (map (turn frame) os) in
      match ss with
      | [] => Err IndexError
      | s0 :: _ =>
          bind (adam_to_oem_frame "equatorial") (fun fr =>
          bind (adam_to_oem_center (s_code s0)) (fun ce =>
          bind (ts_min (mkts "" (map s_time ss))) (fun lo =>
          bind (ts_max (mkts "" (map s_time ss))) (fun hi =>
          Ok (mkoem object ce fr (stamp lo) (stamp hi)
                    (map (fun s => (stamp (s_time s), km (s_vals s))) ss)
                    (flat_map (fun s => match s_cov s with Some c => [(stamp (s_time s), (fr, km_cov c))] | None => [] end) ss))))))
      end
  | _ => Err AssertionError
  end.
(* oem_io.py:410-517: [prop o t] is the propagated row of orbit [o] at [t]; every orbit at every time *)
Definition orbit_to_oem_propagated (prop : state -> row -> state) (frame : string) (os : list state) (ts : list row) : result oem :=
  if negb (List.length (uniq opt_eqb (map s_object os)) =? 1)%nat then Err AssertionError else
  if negb (List.length (uniq row_eqb ts) =? List.length ts)%nat then Err AssertionError else
  orbit_to_oem frame (flat_map (fun o => map (prop o) ts) os).

(* oem_io.py:547-583: one segment; later matching covariances replace earlier ones; [name] is the
   formatted orbit id *)
Variable name : string -> row -> string.
Definition find_cov (frame : string) (t : row) (cs : list (row * (string * C))) : option C :=
  fold_left (fun acc c => if row_eqb (fst c) t && String.eqb (fst (snd c)) frame then Some (au_cov (snd (snd c))) else acc) cs None.
(* oem_io.py:520-595 *)
Definition orbit_from_oem (f : oem) : result (string * list state) :=
  bind (oem_to_adam_frame (f_frame f)) (fun fr =>
  bind (oem_to_adam_center (f_center f)) (fun ce =>
  Ok (fr, map (fun s => mkstate (Some (f_object f)) (name (f_object f) (fst s)) (fst s) ce (au (snd s))
                                (find_cov (f_frame f) (fst s) (f_covs f))) (f_states f)))).
End Oem.
Arguments state : clear implicits.
Arguments oem : clear implicits.

(* ---- SPK type 3 ---- *)
Open Scope Q_scope.
(* spice_kernel.py:224, 231-234 *)
Definition num_windows (start stop w : Q) : Z := Qceiling ((stop - start) / w).
(* helper of [segment], spice_kernel.py:196-264 *)
Definition window_start (start w : Q) (k : nat) : Q := start + inject_Z (Z.of_nat k) * w.
(* helper of [segment], spice_kernel.py:196-264 *)
Definition window_end (start stop w : Q) (k : nat) : Q :=
  let e := window_start start w k + w in if Qle_bool e stop then e else stop.
(* spice_kernel.py:72-75: the scaled time the polynomial is fitted in *)
Definition scaled (a b t : Q) : Q := (t - (b + a) / 2) / ((b - a) / 2).
(* spice_kernel.py:77-82 and the evaluation of a Chebyshev expansion (also SPICE's) *)
Fixpoint cheb_eval (t0 t1 : Q) (s : Q) (c : list Q) : Q :=
  match c with [] => 0 | c0 :: c' => c0 * t0 + cheb_eval t1 (2 * s * t1 - t0) s c' end.
(* spice_kernel.py:38-89 *)
Definition chebyshev (c : list Q) (s : Q) : Q := cheb_eval 1 s s c.
(* spkw03/spkr03: record k covers [first + k*intlen, first + (k+1)*intlen] with midpoint and radius
   derived from first and intlen; the record for t is the one t falls in, the last one at most *)
(* SPICE spkr03: record selection *)
Definition record_for (first intlen : Q) (n : Z) (t : Q) : Z :=
  Z.min (Qfloor ((t - first) / intlen)) (n - 1)%Z.
(* SPICE spkr03: scaled time *)
Definition read_scaled (first intlen : Q) (k : nat) (t : Q) : Q :=
  (t - (first + intlen * (inject_Z (Z.of_nat k) + (1 # 2)))) / (intlen / 2).

(* spice_kernel.py:121-128: the sampled times; int() truncates; concatenating nothing raises *)
Definition qtrunc (q : Q) : Z := if Qle_bool 0 q then Qfloor q else (- Qfloor (- q))%Z.
(* spice_kernel.py:121-128 *)
Definition sample_times (start stop step : Q) : result (list Q) :=
  let n := (qtrunc ((stop - start) / step) + 1)%Z in
  match Z.to_nat n with
  | O => Err ValueError
  | n' => Ok (map (fun i => start + inject_Z (Z.of_nat i) * step) (seq 0 n'))
  end.
(* spice_kernel.py:196-264: the segment [first, last] and its windows; no window at all is an
   IndexError at window_starts[0] *)
Definition segment (times : list Q) (w : Q) : result (Q * Q * list (Q * Q)) :=
  match times with
  | [] => Err ValueError
  | t0 :: ts =>
      let lo := fold_left (fun a b => if Qle_bool a b then a else b) ts t0 in
      let hi := fold_left (fun a b => if Qle_bool a b then b else a) ts t0 in
      match Z.to_nat (num_windows lo hi w) with
      | O => Err IndexError
      | n => Ok (lo, hi, map (fun k => (window_start lo w k, window_end lo hi w k)) (seq 0 n))
      end
  end.
