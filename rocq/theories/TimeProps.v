(* C01-C10, C82-C86: time.  Statements only refer to the API functions of
   TimeModel/TimeRModel and to the vocabulary of TimeSpec. *)
From Coq Require Import Reals String QArith Qabs.
From Flocq Require Import Core.
From Verif Require Import Base TimeModel TimeRModel TimeSpec TimeProofs TimeQProofs
  TimeScaleProofs TimeLinkProofs TimeRProofs TimeMoreProofs.
Open Scope Z_scope.

(* ---------------------------------------------------------------- C01 ---- *)
Theorem C01_add_nanos_exact : forall t a,
  Forall normal (rows t) -> Forall interior (rows t) ->
  arg_forall (fun n => - 86400000000000 <= n < 86400000000000) a ->
  fits a (List.length (rows t)) ->
  exists t', add_nanos t a true = Ok t' /\ scale t' = scale t /\
    List.length (rows t') = List.length (rows t) /\
    forall i r, nth_error (rows t) i = Some r ->
      exists n r', arg_at a i = Some n /\ nth_error (rows t') i = Some r' /\
        instant r' = instant r + n /\ normal r'.
Proof. exact add_nanos_exact. Qed.
Print Assumptions C01_add_nanos_exact.

Theorem C01_add_nanos_range_error : forall t a,
  ~ arg_forall (fun n => - 86400000000000 <= n < 86400000000000) a ->
  add_nanos t a true = Err ValueError.
Proof. exact add_nanos_out_of_range. Qed.
Print Assumptions C01_add_nanos_range_error.

Example C01_case :
  add_nanos (mkts "utc" [mkrow 59000 86399999999999; mkrow 59000 0]) (Array [1; -1]) true
  = Ok (mkts "utc" [mkrow 59001 0; mkrow 58999 86399999999999]).
Proof. vm_compute. reflexivity. Qed.

(* ---------------------------------------------------------------- C02 ---- *)
Theorem C02_difference_exact : forall t o,
  Forall normal (rows t) -> Forall normal (rows o) ->
  Forall sane (rows t) -> Forall sane (rows o) ->
  scale t = scale o -> List.length (rows t) = List.length (rows o) ->
  exists ds, difference t o = Ok ds /\ List.length ds = List.length (rows t) /\
    forall i a b, nth_error (rows t) i = Some a -> nth_error (rows o) i = Some b ->
      exists d, nth_error ds i = Some d /\ normal d /\ instant d = instant a - instant b.
Proof. exact difference_exact. Qed.
Print Assumptions C02_difference_exact.

Theorem C02_difference_errors : forall t o,
  (scale t <> scale o -> difference t o = Err ValueError) /\
  (scale t = scale o -> List.length (rows t) <> List.length (rows o) ->
     difference t o = Err ArrowInvalid).
Proof. exact difference_errors. Qed.
Print Assumptions C02_difference_errors.

Theorem C02_difference_scalar_exact : forall t d n,
  Forall normal (rows t) -> Forall sane (rows t) -> normal (mkrow d n) -> sane (mkrow d n) ->
  List.length (difference_scalar t d n) = List.length (rows t) /\
  forall i a, nth_error (rows t) i = Some a ->
    exists x, nth_error (difference_scalar t d n) i = Some x /\ normal x /\
      instant x = instant a - instant (mkrow d n).
Proof. exact difference_scalar_exact. Qed.
Print Assumptions C02_difference_scalar_exact.

(* adding the difference back: first the days, then the nanos *)
Theorem C02_difference_add_back : forall t o ds,
  Forall normal (rows t) -> Forall normal (rows o) ->
  Forall sane (rows t) -> Forall sane (rows o) ->
  difference t o = Ok ds ->
  bind (add_days o (Array (map days ds))) (fun o' => add_nanos o' (Array (map nanos ds)) true) = Ok t.
Proof. exact difference_add_back_table. Qed.
Print Assumptions C02_difference_add_back.

Example C02_case :
  difference (mkts "tdb" [mkrow 0 200; mkrow 1 0]) (mkts "tdb" [mkrow 1 100; mkrow 1 100])
  = Ok [mkrow (-1) 100; mkrow (-1) 86399999999900].
Proof. vm_compute. reflexivity. Qed.

(* ---------------------------------------------------------------- C03 ---- *)
Theorem C03_rounded_truncates : forall p t, Forall normal (rows t) -> p <> OtherPrecision ->
  exists t', rounded p t = Ok t' /\ scale t' = scale t /\
    Forall2 (fun r r' => days r' = days r /\ nanos r - unit_ns p < nanos r' <= nanos r /\
                         nanos r' mod unit_ns p = 0 /\ normal r') (rows t) (rows t').
Proof. exact rounded_truncates. Qed.
Print Assumptions C03_rounded_truncates.

Theorem C03_rounded_idempotent : forall p t t', Forall normal (rows t) ->
  rounded p t = Ok t' -> rounded p t' = Ok t'.
Proof. exact rounded_idempotent_table. Qed.
Print Assumptions C03_rounded_idempotent.

Theorem C03_rounded_composes : forall p q t t1 t2, Forall normal (rows t) ->
  unit_ns p <= unit_ns q -> rounded p t = Ok t1 -> rounded q t1 = Ok t2 -> rounded q t = Ok t2.
Proof. exact rounded_compose_table. Qed.
Print Assumptions C03_rounded_composes.

Theorem C03_rounded_monotone : forall p t t' i j a b a' b', Forall normal (rows t) ->
  rounded p t = Ok t' ->
  nth_error (rows t) i = Some a -> nth_error (rows t) j = Some b ->
  nth_error (rows t') i = Some a' -> nth_error (rows t') j = Some b' ->
  instant a <= instant b -> instant a' <= instant b'.
Proof. exact rounded_monotone_table. Qed.
Print Assumptions C03_rounded_monotone.

Theorem C03_rounded_other : forall t, rounded OtherPrecision t = Err ValueError.
Proof. exact rounded_other. Qed.
Print Assumptions C03_rounded_other.

Example C03_case : rounded MS (mkts "utc" [mkrow 59000 123456789]) = Ok (mkts "utc" [mkrow 59000 123000000]).
Proof. vm_compute. reflexivity. Qed.

(* ---------------------------------------------------------------- C04 ---- *)
(* full statement: equals holds iff |a - b| < one unit, hence symmetric *)
Theorem C04_equals_symmetric_refuted : exists t o,
  Forall normal (rows t) /\ Forall normal (rows o) /\
  equals t o MS = Ok [true] /\ equals o t MS = Ok [false].
Proof. exact equals_refuted. Qed.
Print Assumptions C04_equals_symmetric_refuted.

(* the exact condition (m is one nanosecond below the unit): the interval is
   closed below and open above *)
Theorem C04_equals_partial : forall t o p m,
  Forall normal (rows t) -> Forall normal (rows o) ->
  Forall sane (rows t) -> Forall sane (rows o) ->
  scale t = scale o -> List.length (rows t) = List.length (rows o) ->
  (p = NS /\ m = 0 \/ p = US /\ m = 999 \/ p = MS /\ m = 999999 \/ p = S /\ m = 999999999) ->
  exists bs, equals t o p = Ok bs /\ List.length bs = List.length (rows t) /\
    forall i a b, nth_error (rows t) i = Some a -> nth_error (rows o) i = Some b ->
      exists v, nth_error bs i = Some v /\
        (v = true <-> (m = 0 /\ instant a = instant b) \/
                      (0 < m /\ - m <= instant a - instant b < m)).
Proof. exact equals_char. Qed.
Print Assumptions C04_equals_partial.

(* ---------------------------------------------------------------- C05 ---- *)
Theorem C05_max : forall t, rows t <> [] -> Forall normal (rows t) ->
  exists r, ts_max t = Ok r /\ In r (rows t) /\
    forall x, In x (rows t) -> instant x <= instant r.
Proof. exact ts_max_spec. Qed.
Print Assumptions C05_max.

Theorem C05_min : forall t, rows t <> [] -> Forall normal (rows t) ->
  exists r, ts_min t = Ok r /\ In r (rows t) /\
    forall x, In x (rows t) -> instant r <= instant x.
Proof. exact ts_min_spec. Qed.
Print Assumptions C05_min.

Example C05_case :
  ts_max (mkts "tai" [mkrow 5 7; mkrow 6 3; mkrow 6 9; mkrow 5 11]) = Ok (mkrow 6 9) /\
  ts_min (mkts "tai" [mkrow 5 7; mkrow 6 3; mkrow 6 9; mkrow 5 11]) = Ok (mkrow 5 7).
Proof. vm_compute. split; reflexivity. Qed.

(* ---------------------------------------------------------------- C06 ---- *)
Theorem C06_et_round_trip_refuted : forall r, normal r ->
  instant (from_et (et r)) = instant r - 51544 * 86400000000000 - 43200000000000.
Proof. exact from_et_et. Qed.
Print Assumptions C06_et_round_trip_refuted.

Theorem C86_mjd_round_trip : forall r, normal r -> from_mjd (mjd r) = r /\ from_jd (jd r) = r.
Proof. intros r H. split; [exact (from_mjd_mjd r H)|exact (from_jd_jd r H)]. Qed.
Print Assumptions C86_mjd_round_trip.

Theorem C86_from_mjd_nearest : forall q,
  (q - (1 # 172800000000000) <= mjd (from_mjd q))%Q /\ (mjd (from_mjd q) <= q + (1 # 172800000000000))%Q.
Proof. exact mjd_from_mjd. Qed.
Print Assumptions C86_from_mjd_nearest.

Example C06_C86_case : from_mjd (590005 # 10) = mkrow 59000 43200000000000 /\
                   from_et (et (mkrow 59000 5)) = mkrow 7455 43200000000005.
Proof. vm_compute. split; reflexivity. Qed.

(* ---------------------------------------------------------------- C07 ---- *)
Theorem C85_same_scale_identity : forall E t, rescale E t (scale t) = Ok t.
Proof. exact rescale_same. Qed.
Print Assumptions C85_same_scale_identity.

Theorem C85_tai_tt_round_trip : forall E t, scale t = "tai"%string ->
  Forall normal (rows t) -> Forall sane (rows t) ->
  exists t', rescale E t "tt" = Ok t' /\ scale t' = "tt"%string /\
    Forall2 (fun r r' => instant r' = instant r + 32184000000 /\ normal r') (rows t) (rows t') /\
    rescale E t' "tai" = Ok t.
Proof. exact rescale_tai_tt. Qed.
Print Assumptions C85_tai_tt_round_trip.

Theorem C85_tt_tai_round_trip : forall E t, scale t = "tt"%string ->
  Forall normal (rows t) -> Forall sane (rows t) ->
  exists t', rescale E t "tai" = Ok t' /\ scale t' = "tai"%string /\
    Forall2 (fun r r' => instant r' = instant r - 32184000000 /\ normal r') (rows t) (rows t') /\
    rescale E t' "tt" = Ok t.
Proof. exact rescale_tt_tai. Qed.
Print Assumptions C85_tt_tai_round_trip.

(* any table whose day steps are 0 or +1, including leap-second days *)
Theorem C85_utc_tai_utc_round_trip : forall E t,
  (forall d, 0 <= env_dat E d <= 1000 /\ 0 <= env_dat E (d + 1) - env_dat E d <= 1) ->
  scale t = "utc"%string -> Forall normal (rows t) -> Forall sane (rows t) ->
  exists t', rescale E t "tai" = Ok t' /\ scale t' = "tai"%string /\ rescale E t' "utc" = Ok t.
Proof. exact rescale_utc_tai_round. Qed.
Print Assumptions C85_utc_tai_utc_round_trip.

(* real-arithmetic TT-TDB formula of the code *)
Theorem C07_tt_tdb_tt_within_1ns_partial : forall dat a t, scale t = "tt"%string ->
  Forall normal (rows t) -> Forall sane (rows t) ->
  exists t1 t2, rescale (mkenv dat tdb_formula a) t "tdb" = Ok t1 /\
    rescale (mkenv dat tdb_formula a) t1 "tt" = Ok t2 /\
    scale t1 = "tdb"%string /\ scale t2 = "tt"%string /\
    Forall2 (fun r r2 => normal r2 /\ (-1 <= instant r2 - instant r <= 1)%Z) (rows t) (rows t2).
Proof. exact tt_tdb_tt_table. Qed.
Print Assumptions C07_tt_tdb_tt_within_1ns_partial.

(* two-step conversions that equal the direct one, with the code's formula *)
Theorem C07_compose_partial : forall dat ast a b c t,
  In (a, b, c) [("utc", "tai", "tt"); ("utc", "tai", "tdb"); ("utc", "tt", "tdb");
                ("utc", "tt", "tai"); ("tai", "tt", "tdb"); ("tt", "tai", "tdb");
                ("tdb", "tt", "tai"); ("tdb", "tai", "tt"); ("tdb", "tai", "utc")]%string ->
  (forall d, 0 <= dat d <= 1000 /\ 0 <= dat (d + 1) - dat d <= 1) ->
  scale t = a -> Forall normal (rows t) -> Forall sane (rows t) ->
  let E := mkenv dat tdb_formula ast in
  exists t1 t2, rescale E t b = Ok t1 /\ rescale E t1 c = Ok t2 /\ rescale E t c = Ok t2.
Proof. exact compose_formula. Qed.
Print Assumptions C07_compose_partial.

(* 2016-12-31: TAI-UTC goes from 36 to 37 at the end of MJD 57753 *)

Theorem C07_unknown_scale_refuted : exists t t',
  scale t = "utc"%string /\ scale t' = "xyz"%string /\
  rescale (mkenv dat2016 (fun _ _ => 0) (fun _ _ r => r)) t "xyz" = Ok t'.
Proof. exact unknown_scale_refuted. Qed.
Print Assumptions C07_unknown_scale_refuted.

Theorem C07_utc_tt_utc_refuted : exists t t1 t2,
  scale t = "utc"%string /\ Forall normal (rows t) /\
  rescale (mkenv dat2016 (fun _ _ => 0) (fun _ _ r => r)) t "tt" = Ok t1 /\
  rescale (mkenv dat2016 (fun _ _ => 0) (fun _ _ r => r)) t1 "utc" = Ok t2 /\
  map instant (rows t2) = map (fun r => instant r - 1000000000) (rows t).
Proof. exact utc_tt_utc_refuted. Qed.
Print Assumptions C07_utc_tt_utc_refuted.

Example C07_case :
  rescale (mkenv dat2016 (fun _ _ => 0) (fun _ _ r => r)) (mkts "utc" [mkrow 57754 0]) "tai"
  = Ok (mkts "tai" [mkrow 57754 37000000000]).
Proof. vm_compute. reflexivity. Qed.

(* ---------------------------------------------------------------- C08 ---- *)
Theorem C08_key_injective_partial : forall a b, normal a -> normal b ->
  -106751 <= days a < 106751 -> -106751 <= days b < 106751 ->
  key_row a = key_row b -> a = b.
Proof. exact key_injective. Qed.
Print Assumptions C08_key_injective_partial.

Theorem C08_key_collision_iff_partial : forall a b,
  key_row a = key_row b <-> exists k, instant a = instant b + k * 2 ^ 64.
Proof. exact key_eq_iff. Qed.
Print Assumptions C08_key_collision_iff_partial.

Theorem C08_key_refuted : exists a b, normal a /\ normal b /\ days a <> days b /\
  in_int64 (days a) /\ in_int64 (days b) /\ key_row a = key_row b.
Proof. exact key_refuted. Qed.
Print Assumptions C08_key_refuted.

(* ---------------------------------------------------------------- C09 ---- *)
(* [side p t k l]: l lists, in row order, exactly the rows of t that truncate to k *)
Definition side (p : precision) (t : timestamp) (k : row) (l : list (nat * row)) : Prop :=
  (forall i r, In (i, r) l <->
     nth_error (rows t) i = Some r /\ mkrow (days r) (nanos r - nanos r mod unit_ns p) = k) /\
  StronglySorted Nat.lt (map fst l).

Theorem C09_link_same_scale : forall E p t o, p <> OtherPrecision -> scale t = scale o ->
  Forall normal (rows t) -> Forall normal (rows o) ->
  exists gs, link E p t o = Ok gs /\
    NoDup (map (fun g => fst (fst g)) gs) /\
    (forall g, In g gs -> side p t (fst (fst g)) (snd (fst g)) /\ side p o (fst (fst g)) (snd g) /\
       (snd (fst g) <> [] \/ snd g <> [])) /\
    (forall i r, nth_error (rows t) i = Some r -> exists g, In g gs /\ In (i, r) (snd (fst g))) /\
    (forall i r, nth_error (rows o) i = Some r -> exists g, In g gs /\ In (i, r) (snd g)).
Proof. exact link_spec. Qed.
Print Assumptions C09_link_same_scale.

Theorem C09_link_other_scale : forall E p t o o', scale t <> scale o ->
  rescale E o (scale t) = Ok o' -> link E p t o = link E p t o'.
Proof. exact link_other_scale. Qed.
Print Assumptions C09_link_other_scale.

Example C09_case :
  link (mkenv dat2016 (fun _ _ => 0) (fun _ _ r => r)) US
       (mkts "utc" [mkrow 1 1500; mkrow 2 0; mkrow 1 1001]) (mkts "utc" [mkrow 1 1999; mkrow 3 5])
  = Ok [(mkrow 1 1000, [(0%nat, mkrow 1 1500); (2%nat, mkrow 1 1001)], [(0%nat, mkrow 1 1999)]);
        (mkrow 2 0, [(1%nat, mkrow 2 0)], []);
        (mkrow 3 0, [], [(1%nat, mkrow 3 5)])].
Proof. vm_compute. reflexivity. Qed.

(* ---------------------------------------------------------------- C10 ---- *)
(* every binary64 offset in [-2^-54, 0) (e.g. -1e-17 days) is rejected *)
Theorem C10_add_fractional_days_refuted : forall r x, is_f64 x ->
  (- bpow radix2 (-54) <= x < 0)%R -> add_fractional_days_row r x = Err ValueError.
Proof. exact add_fractional_days_sliver. Qed.
Print Assumptions C10_add_fractional_days_refuted.

Theorem C10_add_fractional_days_partial : forall r x, is_f64 x ->
  (0 <= x \/ x < - bpow radix2 (-54))%R ->
  normal r -> (- 2 ^ 61 < days r < 2 ^ 61)%Z -> (- 2 ^ 61 < x < 2 ^ 61)%R ->
  exists r', add_fractional_days_row r x = Ok r' /\ normal r' /\
    (Rabs (IZR (instant r') - (IZR (instant r) + x * 86400000000000)) < 1.02)%R.
Proof. exact add_fractional_days_ok. Qed.
Print Assumptions C10_add_fractional_days_partial.

Example C10_case : is_f64 (- bpow radix2 (-60)) /\ (- bpow radix2 (-54) <= - bpow radix2 (-60) < 0)%R.
Proof. exact sliver_witness. Qed.

(* ---------------------------------------------------------------- C82 ---- *)
Theorem C82_add_units_partial : forall t a,
  Forall normal (rows t) -> Forall interior (rows t) -> fits a (List.length (rows t)) ->
  forall u add, (u, add) = (1000000000, add_seconds) \/ (u, add) = (1000000, add_millis) \/ (u, add) = (1000, add_micros) ->
  arg_forall (fun n => - 86400000000000 <= n * u < 86400000000000) a ->
  exists t', add t a = Ok t' /\ scale t' = scale t /\
    List.length (rows t') = List.length (rows t) /\
    forall i r, nth_error (rows t) i = Some r ->
      exists n r', arg_at a i = Some n /\ nth_error (rows t') i = Some r' /\
        instant r' = instant r + n * u /\ normal r'.
Proof. exact add_units_all. Qed.
Print Assumptions C82_add_units_partial.

Theorem C82_add_seconds_refuted : forall t, Forall normal (rows t) -> Forall interior (rows t) ->
  exists t', add_seconds t (Scalar 18446744074) = Ok t' /\
    Forall2 (fun r r' => instant r' = instant r + 290448384) (rows t) (rows t').
Proof. exact add_seconds_wraps. Qed.
Print Assumptions C82_add_seconds_refuted.

(* ---------------------------------------------------------------- C83 ---- *)
Theorem C83_from_mjd_partial : forall q, 0 <= nanos (from_mjd q) <= 86400000000000 /\
  (nanos (from_mjd q) = 86400000000000 ->
     exists d, (inject_Z d - (1 # 172800000000000) <= q)%Q /\ (q < inject_Z d)%Q).
Proof. exact from_mjd_full_day. Qed.
Print Assumptions C83_from_mjd_partial.

Theorem C83_from_mjd_refuted : exists q, from_mjd q = mkrow (-1) 86400000000000.
Proof. exact from_mjd_refuted. Qed.
Print Assumptions C83_from_mjd_refuted.

(* ---------------------------------------------------------------- C84 ---- *)
Theorem C84_utc_tai_offset_partial : forall E t,
  (forall d, 0 <= env_dat E d <= 1000 /\ 0 <= env_dat E (d + 1) - env_dat E d <= 1) ->
  scale t = "utc"%string -> Forall normal (rows t) -> Forall sane (rows t) ->
  exists t', rescale E t "tai" = Ok t' /\
    Forall2 (fun r r' => normal r' /\
      ((env_dat E (days r + 1) = env_dat E (days r) \/ nanos r < 43200000000000) ->
        instant r' = instant r + env_dat E (days r) * 1000000000)) (rows t) (rows t').
Proof. exact utc_tai_offset. Qed.
Print Assumptions C84_utc_tai_offset_partial.

(* afternoon of a leap-second day: one second too many *)
Theorem C84_utc_tai_offset_refuted : exists r r',
  normal r /\ rescale (mkenv dat2016 (fun _ _ => 0) (fun _ _ r => r)) (mkts "utc" [r]) "tai" = Ok (mkts "tai" [r']) /\
  instant r' = instant r + (dat2016 (days r) + 1) * 1000000000.
Proof. exact utc_tai_offset_refuted. Qed.
Print Assumptions C84_utc_tai_offset_refuted.
