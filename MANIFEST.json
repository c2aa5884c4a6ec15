{
 "claims": [
  {
   "property": "C01",
   "status": "proved",
   "theorems": [
    "C01_add_nanos_exact",
    "C01_add_nanos_range_error"
   ],
   "note": "days must not be the extreme int64 values (carry would wrap)."
  },
  {
   "property": "C02",
   "status": "proved",
   "theorems": [
    "C02_difference_exact",
    "C02_difference_scalar_exact",
    "C02_difference_errors",
    "C02_difference_add_back"
   ],
   "note": "|days| < 2^62 so that the subtraction does not wrap."
  },
  {
   "property": "C03",
   "status": "proved",
   "theorems": [
    "C03_rounded_truncates",
    "C03_rounded_idempotent",
    "C03_rounded_composes",
    "C03_rounded_monotone",
    "C03_rounded_other"
   ],
   "note": ""
  },
  {
   "property": "C04",
   "status": "partial",
   "theorems": [
    "C04_equals_symmetric_refuted",
    "C04_equals_partial"
   ],
   "note": "refuted: equals is asymmetric at exactly the maximal deviation. The partial theorem gives the exact condition -m <= a-b < m."
  },
  {
   "property": "C05",
   "status": "proved",
   "theorems": [
    "C05_max",
    "C05_min"
   ],
   "note": ""
  },
  {
   "property": "C06",
   "status": "partial",
   "theorems": [
    "C06_et_round_trip_refuted"
   ],
   "note": "refuted for every instant: from_et omits the J2000 offset of 51544.5 days."
  },
  {
   "property": "C07",
   "status": "partial",
   "theorems": [
    "C07_compose_partial",
    "C07_tt_tdb_tt_within_1ns_partial",
    "C07_unknown_scale_refuted",
    "C07_utc_tt_utc_refuted"
   ],
   "note": "refuted: UTC->TT->UTC loses one second around noon of a leap-second day; UTC to an unknown scale does not raise. Proved: nine composition laws, TT->TDB->TT within 1 ns with the code's formula in real arithmetic. Missing: binary64 rounding of the TDB formula."
  },
  {
   "property": "C08",
   "status": "partial",
   "theorems": [
    "C08_key_refuted",
    "C08_key_injective_partial",
    "C08_key_collision_iff_partial"
   ],
   "note": "refuted for dates 2^64 ns apart; proved injective for |days| < 106751 and the exact collision condition."
  },
  {
   "property": "C09",
   "status": "proved",
   "theorems": [
    "C09_link_same_scale",
    "C09_link_other_scale"
   ],
   "note": "quivr's MultiKeyLinkage iteration is modelled from its documentation."
  },
  {
   "property": "C10",
   "status": "partial",
   "theorems": [
    "C10_add_fractional_days_refuted",
    "C10_add_fractional_days_partial"
   ],
   "note": "refuted: every binary64 offset in [-2^-54, 0) raises ValueError. Otherwise proved within 1.02 ns, in binary64 arithmetic (Flocq)."
  },
  {
   "property": "C11",
   "status": "proved",
   "theorems": [
    "C11_numbered_round_trip",
    "C11_numbered_injective",
    "C11_too_large",
    "C11_every_number_has_a_numeral"
   ],
   "note": "All numbers 1..15396335 by base-62 arithmetic, no enumeration."
  },
  {
   "property": "C12",
   "status": "proved",
   "theorems": [
    "C12_provisional_round_trip",
    "C12_provisional_injective"
   ],
   "note": "Years 1000..6199, cycles up to 619."
  },
  {
   "property": "C13",
   "status": "proved",
   "theorems": [
    "C13_survey_round_trip"
   ],
   "note": "Four-digit survey numbers, four surveys."
  },
  {
   "property": "C14",
   "status": "partial",
   "theorems": [
    "C14_only_value_error_refuted",
    "C14_malformed_rejected_refuted",
    "C14_pack_errors_partial",
    "C14_unpack_errors_partial"
   ],
   "note": "refuted: IndexError and KeyError escape, and the non-designation \"199x AB\" packs. Proved instead: exactly which exceptions can escape and for which shapes of input."
  },
  {
   "property": "C15",
   "status": "proved",
   "theorems": [
    "C15_dispatch",
    "C15_dispatch_injective"
   ],
   "note": ""
  },
  {
   "property": "C16",
   "status": "proved",
   "theorems": [
    "C16_lru"
   ],
   "note": "Any key type with decidable equality, any maxsize, any operation list; expected_get is read off the observable trace only."
  },
  {
   "property": "C17",
   "status": "proved",
   "theorems": [
    "C17_spice_cache",
    "C17_far_epochs_refuted"
   ],
   "note": "All sessions without kernel changes, all cache sizes, epochs whose nanosecond count fits int64 (years 1566-2151); SPICE is an oracle antisymmetric in target/observer. Outside that epoch range the claim fails (C17_far_epochs_refuted): two epochs 2^64 ns apart in one request share one state."
  },
  {
   "property": "C18",
   "status": "partial",
   "theorems": [
    "C18_kernel_change_refuted",
    "C18_after_clear_partial"
   ],
   "note": "refuted: register_spice_kernel does not invalidate the cache, cached epochs keep the old kernel answer. Partial: after an explicit cache clear with no later kernel change, answers come from the loaded kernels."
  },
  {
   "property": "C19",
   "status": "partial",
   "theorems": [
    "C19_time_scale_refuted",
    "C19_observer_states_partial"
   ],
   "note": "refuted: the time column and its scale are those of the first caller with the same TDB epochs. Partial: states, frame, origins, errors and the TDB epochs are history independent for every session (digest collisions excluded by hypothesis)."
  },
  {
   "property": "C20",
   "status": "proved",
   "theorems": [
    "C20_translation_cache"
   ],
   "note": "Every history, cache size and enable flag; 64-bit digest collisions excluded by hypothesis; epochs whose nanosecond count fits int64."
  },
  {
   "property": "C21",
   "status": "proved",
   "theorems": [
    "C21_propagate_2body",
    "C21_row_order",
    "C21_ephemeris_2body",
    "C21_ephemeris_lengths"
   ],
   "note": "All schedules, chunk sizes and process counts. Per-row numerics are parameters; a covariance with NaN entries propagates to the missing value; for ephemerides the per-row photometry is assumed not to raise."
  },
  {
   "property": "C22",
   "status": "proved",
   "theorems": [
    "C22_propagate_orbits",
    "C22_ephemeris"
   ],
   "note": "Backend is an oracle treating orbits one by one (any row order); rescaling to UTC must be strictly monotone on the observers' epochs; (epoch, code) determines the observer. generate_ephemeris modelled with covariance=False. Repeated ids and empty tables: see C91."
  },
  {
   "property": "C23",
   "status": "proved",
   "theorems": [
    "C23_task_window",
    "C23_submit_all"
   ],
   "note": "The adversary chooses the finished task at every ray.wait."
  },
  {
   "property": "C24",
   "status": "partial",
   "theorems": [
    "C24_events_order_refuted",
    "C24_events_permutation_partial"
   ],
   "note": "refuted: events are concatenated in completion order ('we sort later' never happens). Proved: the parallel table is a permutation of the serial one for a row-wise backend."
  },
  {
   "property": "C25",
   "status": "partial",
   "theorems": [
    "C25_moid_order_refuted",
    "C25_moid_rows_partial"
   ],
   "note": "refuted for max_processes > 1 (completion order). Proved: perturber-major order serially, a permutation of it in parallel."
  },
  {
   "property": "C26",
   "status": "partial",
   "theorems": [
    "C26_od_order_refuted",
    "C26_iod_survivor_refuted",
    "C26_od_permutation_partial",
    "C26_iod_partial"
   ],
   "note": "refuted: differential_correction returns completion order, and which of two equal initial orbits survives depends on timing. Proved: same rows up to order; initial_orbit_determination's orbit table is schedule independent when no two fits share epoch and state. Members tables are not modelled."
  },
  {
   "property": "C27",
   "status": "proved",
   "theorems": [
    "C27_origin_rowwise",
    "C27_same_origin"
   ],
   "note": "Every table, mixture of origins and cache history; SPICE/observer states are oracles; ValueError exactly when some origin is unsupported."
  },
  {
   "property": "C28",
   "status": "proved",
   "theorems": [
    "C28_rotation_rowwise",
    "C28_rotation_errors"
   ],
   "note": "The rotation of one row at one epoch is an oracle (SPICE sxform and np.ma.dot)."
  },
  {
   "property": "C29",
   "status": "proved",
   "theorems": [
    "C29_from_codes_rowwise",
    "C29_from_codes_errors"
   ],
   "note": "The observer state is an oracle acting row by row (C19 covers its caching)."
  },
  {
   "property": "C30",
   "status": "partial",
   "theorems": [
    "C30_input_origin_partial",
    "C30_duplicated_rows_refuted",
    "C30_dropped_rows_refuted",
    "C30_no_table"
   ],
   "note": "refuted: an id under two origins yields two rows per result row; result ids missing from the inputs are dropped; empty inputs return None; an origin outside OriginCodes raises KeyError. Proved: exactly one row each, in the right origin, when every id has one origin."
  },
  {
   "property": "C31",
   "status": "proved",
   "theorems": [
    "C31_group_by_key",
    "C31_iterate_codes",
    "C31_group_by_healpixel",
    "C31_group_by_object"
   ],
   "note": "group_by_exposure: see C92. healpy.ang2pix is an oracle."
  },
  {
   "property": "C32",
   "status": "proved",
   "theorems": [
    "C32_chunks_tile",
    "C32_chunk_indices",
    "C32_fixed_batches",
    "C32_padded_results",
    "C32_checked_results",
    "C32_zero_chunk_size"
   ],
   "note": "All lengths and chunk sizes."
  },
  {
   "property": "C33",
   "status": "proved",
   "theorems": [
    "C33_validate",
    "C33_lookup",
    "C33_lookup_without_id"
   ],
   "note": "Times are the TDB MJD doubles (exact rationals); rescaling is C07."
  },
  {
   "property": "C34",
   "status": "partial",
   "theorems": [
    "C34_own_epoch_partial",
    "C34_own_epoch_refuted",
    "C34_end_epoch_never_found"
   ],
   "note": "refuted: an epoch equal to the window end is accepted, but segment_for at that epoch returns None or the next segment. Proved for epochs before the end."
  },
  {
   "property": "C35",
   "status": "proved",
   "theorems": [
    "C35_keplerian",
    "C35_cometary",
    "C35_unbound"
   ],
   "note": "Exact rational arithmetic for q = a(1-e), Q = a(1+e)."
  },
  {
   "property": "C36",
   "status": "proved",
   "theorems": [
    "C36_memberships",
    "C36_orbits"
   ],
   "note": "orbit ids unique, every member refers to an orbit of the table; ranking columns finite"
  },
  {
   "property": "C37",
   "status": "partial",
   "theorems": [
    "C37_counts_refuted",
    "C37_counts_partial"
   ],
   "note": "refuted: num_obs is not updated when observations are reassigned; proved: it stays right exactly for orbits that lost nothing and is an upper bound otherwise"
  },
  {
   "property": "C38",
   "status": "proved",
   "theorems": [
    "C38_representatives"
   ],
   "note": "for any key compared by equality (NaN keys not modelled); quivr drop_duplicates as keep-first/keep-last"
  },
  {
   "property": "C39",
   "status": "proved",
   "theorems": [
    "C39_budget",
    "C39_budget_any",
    "C39_errors"
   ],
   "note": "binary64 rounding via Flocq; NaN percentages not represented"
  },
  {
   "property": "C40",
   "status": "partial",
   "theorems": [
    "C40_other_observations_refuted",
    "C40_worst_partial",
    "C40_members_only_partial"
   ],
   "note": "refuted: observations that are not members of the orbit are dropped too; proved: the returned id is a worst member, exactly the other members remain, and the claim holds when all observations are members"
  },
  {
   "property": "C41",
   "status": "proved",
   "theorems": [
    "C41_acceptance",
    "C41_terminates",
    "C41_too_few"
   ],
   "note": "exact rational chi2; propagation, residuals, derivatives and the linear solve are arbitrary oracles; C39 gives the bound on max_outliers"
  },
  {
   "property": "C42",
   "status": "partial",
   "theorems": [
    "C42_rows_mixed_refuted",
    "C42_fit_missed_refuted",
    "C42_stale_residuals_refuted",
    "C42_first_iteration_partial",
    "C42_trailing_outliers_partial"
   ],
   "note": "refuted: weights and residuals are not masked, and residuals of the input orbit are reused in every iteration, so a perfect fit is missed; proved: rows match in the first iteration and (up to stale residuals) when the removed rows are the last ones"
  },
  {
   "property": "C43",
   "status": "partial",
   "theorems": [
    "C43_short_linkage_refuted",
    "C43_no_triple_partial"
   ],
   "note": "refuted for every short linkage: calculate_max_outliers asserts; proved: linkages that pass the assertion but have fewer than three observations give an empty result"
  },
  {
   "property": "C44",
   "status": "proved",
   "theorems": [
    "C44_acceptance"
   ],
   "note": "Gauss solutions, ephemerides and argsort are oracles (argsort any sorting permutation)"
  },
  {
   "property": "C45",
   "status": "proved",
   "theorems": [
    "C45_usable",
    "C45_short",
    "C45_unknown_method",
    "C45_combinations",
    "C45_first_and_last"
   ],
   "note": "np.percentile(nearest) positions are an oracle except for 0 and 100"
  },
  {
   "property": "C46",
   "status": "proved",
   "theorems": [
    "C46_never_worse",
    "C46_terminates"
   ],
   "note": "RMS and update step are oracles over exact rationals"
  },
  {
   "property": "C47",
   "status": "partial",
   "theorems": [
    "C47_unsorted_refuted",
    "C47_own_prediction_partial",
    "C47_duplicate_ids"
   ],
   "note": "refuted for observations not sorted by time and observatory code; proved in full (members, counts, arc, chi2, reduced chi2, outlier flags) for sorted observations in any orbit order"
  },
  {
   "property": "C48",
   "status": "proved",
   "theorems": [
    "C48_longitude"
   ],
   "note": "binary64 rounding modelled with Flocq"
  },
  {
   "property": "C49",
   "status": "partial",
   "theorems": [
    "C49_origins_refuted",
    "C49_empty_refuted",
    "C49_origins_partial"
   ],
   "note": "refuted: only rejected when all rows differ, and empty tables are rejected; proved: accepted tables agree in at least one row, and tables that differ in every row are rejected"
  },
  {
   "property": "C50",
   "status": "proved",
   "theorems": [
    "C50_rowwise",
    "C50_row_values"
   ],
   "note": "exact rationals with missing values; the chi2 of a complete vector, matrix inversion, the chi2 tail and the spherical corrections are oracles"
  },
  {
   "property": "C51",
   "status": "partial",
   "theorems": [
    "C51_lower_refuted",
    "C51_lower_partial"
   ],
   "note": "refuted: entries just below the diagonal become zero; all other entries proved right"
  },
  {
   "property": "C52",
   "status": "proved",
   "theorems": [
    "C52_sigma_points"
   ],
   "note": "exact reals; scipy sqrtm is any symmetric square root; alpha nonzero, kappa not -D"
  },
  {
   "property": "C53",
   "status": "partial",
   "theorems": [
    "C53_same_millisecond_refuted",
    "C53_own_variants_partial",
    "C53_round_trip_partial"
   ],
   "note": "refuted: epochs in the same millisecond are pooled; proved otherwise, including that create(\"sigma-point\") followed by collapse returns every covariance"
  },
  {
   "property": "C54",
   "status": "partial",
   "theorems": [
    "C54_observatories_refuted",
    "C54_observatories_partial"
   ],
   "note": "refuted: the link ignores the observatory; proved when each orbit and epoch is seen from one observatory"
  },
  {
   "property": "C55",
   "status": "partial",
   "theorems": [
    "C55_seed_refuted",
    "C55_seed_partial"
   ],
   "note": "refuted: 'auto' does not pass the seed on; proved for every other method"
  },
  {
   "property": "C56",
   "status": "proved",
   "theorems": [
    "C56_names"
   ],
   "note": "all strings; str.upper on ASCII"
  },
  {
   "property": "C57",
   "status": "partial",
   "theorems": [
    "C57_centre_refuted",
    "C57_centre_partial"
   ],
   "note": "refuted: mixed origins are written with the first state's centre; proved when all origins agree"
  },
  {
   "property": "C58",
   "status": "proved",
   "theorems": [
    "C58_tiling"
   ],
   "note": "exact rationals; record selection as in SPICE spkr03"
  },
  {
   "property": "C59",
   "status": "partial",
   "theorems": [
    "C59_observations_partial",
    "C59_missing_magnitude_refuted",
    "C59_missing_rms_refuted",
    "C59_small_rms_refuted",
    "C59_remarks_refuted"
   ],
   "note": "refuted: a magnitude missing in one of two rows of a station comes back as NaN; a missing or small (1e-6) standard deviation makes the written file unreadable; a remark containing 'provID' loses its row, and one with '|' or a quote is altered. Proved for safe text, numbers given for all rows of a station or none, and standard deviations of at least 1e-5."
  },
  {
   "property": "C60",
   "status": "partial",
   "theorems": [
    "C60_contexts_partial",
    "C60_refuted"
   ],
   "note": "refuted: coinvestigators and collaborators are dropped, an all-empty software section becomes None, absent comments become an empty list, an empty fundingSource becomes None and trailing blanks are lost. Proved: with plain text, each observed station's context comes back under its own code with exactly these changes."
  },
  {
   "property": "C61",
   "status": "proved",
   "theorems": [
    "C61_dates",
    "C61_rejected",
    "C61_sound"
   ],
   "note": "calendar specified by the Gregorian successor of days; exact decimals; ASCII digits"
  },
  {
   "property": "C62",
   "status": "partial",
   "theorems": [
    "C62_errors_refuted",
    "C62_kinds_partial",
    "C62_errors_partial",
    "C62_file_partial"
   ],
   "note": "refuted: NaN, infinite or huge days and right ascensions over 360 degrees raise other errors and abort strict=False; proved for dates of at most nine digits and points per word and integer hours and minutes"
  },
  {
   "property": "C63",
   "status": "partial",
   "theorems": [
    "C63_probability_refuted",
    "C63_probability_partial"
   ],
   "note": "refuted: a variant with two events under a non-stopping condition counts twice, probability 2; proved with at most one event per variant and condition"
  },
  {
   "property": "C64",
   "status": "partial",
   "theorems": [
    "C64_defaults_refuted",
    "C64_defaults_partial"
   ],
   "note": "refuted: detect_collisions labels events \"Earth\", the counting default is \"Default\", nothing is counted; proved for calculate_impacts; the detection backend is an oracle"
  },
  {
   "property": "C65",
   "status": "proved",
   "theorems": [
    "C65_round_trip",
    "C65_axis"
   ],
   "note": "exact real arithmetic; off the polar axis (on the axis the position is recovered and transverse velocity is not: C65_axis)"
  },
  {
   "property": "C66",
   "status": "proved",
   "theorems": [
    "C66_lagrange",
    "C66_converged"
   ],
   "note": "Real arithmetic; every non-radial state, elliptic, parabolic or hyperbolic. The Stumpff values the code keeps are those of the iterate before the last correction; the model keeps that."
  },
  {
   "property": "C67",
   "status": "partial",
   "theorems": [
    "C67_barker_partial",
    "C67_round_trip_refuted",
    "C67_barker_refuted"
   ],
   "note": "refuted: for a mean anomaly M the solver returns the true anomaly of 2M (Curtis' equation uses half the documented mean anomaly), and calc_mean_anomaly uses arctan where tan is needed, so no M >= 5 comes back. Proved: the returned anomaly is in (-pi, pi) and solves Barker's equation for 2M. Exact real arithmetic."
  },
  {
   "property": "C68",
   "status": "partial",
   "theorems": [
    "C68_outbound_partial",
    "C68_inbound_refuted"
   ],
   "note": "refuted: an inbound anomaly whose mean anomaly is in (-2 pi, 0) is wrapped to a positive value and always comes back outbound. Proved for outbound anomalies: the iteration converges and the mean anomaly is recovered up to the square of the tolerance. Exact real arithmetic."
  },
  {
   "property": "C69",
   "status": "proved",
   "theorems": [
    "C69_solution",
    "C69_newton"
   ],
   "note": "The starting light time is the finite sentinel 1e30 days; the theorem asks that distance/c + lt_tol is below it. C69_newton asks that the universal Kepler iteration ends at its root."
  },
  {
   "property": "C70",
   "status": "proved",
   "theorems": [
    "C70_coplanar"
   ],
   "note": "Existence, the coplanarity equation and uniqueness. Real arithmetic."
  },
  {
   "property": "C71",
   "status": "proved",
   "theorems": [
    "C71_identity",
    "C71_inverse",
    "C71_transitive",
    "C71_law",
    "C71_mix_scale",
    "C71_errors"
   ],
   "note": "Solar spectrum, curves and vendored integrals are arbitrary. Rows whose result is not finite (template without overlap) are outside the first statements."
  },
  {
   "property": "C72",
   "status": "proved",
   "theorems": [
    "C72_inverts",
    "C72_between",
    "C72_least_squares",
    "C72_grouped"
   ],
   "note": "Detection rows enter as reported magnitude, sigma and forward model at H = 0. C72_case shows an object with a zero sigma left out of the grouped result without an error."
  },
  {
   "property": "C73",
   "status": "proved",
   "theorems": [
    "C73_rows",
    "C73_sound",
    "C73_canonical",
    "C73_mapped",
    "C73_fallback",
    "C73_null_band"
   ],
   "note": "Curves and mapping table are arbitrary; ASCII strings."
  },
  {
   "property": "C74",
   "status": "partial",
   "theorems": [
    "C74_reregistration_refuted",
    "C74_reregistration_partial"
   ],
   "note": "refuted: the table of shifts is cached per composition name and register_custom_template does not clear it, so convert_magnitude keeps using the replaced template while bandpass_delta_mag uses the new one. Proved part: a composition not converted or predicted with before follows the registrations in force."
  },
  {
   "property": "C75",
   "status": "partial",
   "theorems": [
    "C75_points_refuted",
    "C75_points_partial"
   ],
   "note": "refuted: the angle u is used both as the argument of the eccentric-anomaly and of the true-anomaly formula, so radius and direction belong to different points. C75_points_partial: the point is on the ellipse exactly when the orbit is circular or u is 0. Real arithmetic."
  },
  {
   "property": "C76",
   "status": "proved",
   "theorems": [
    "C76_one_orbit"
   ],
   "note": "Real arithmetic; NaN is None. Positions in exactly opposite directions are C159."
  },
  {
   "property": "C77",
   "status": "proved",
   "theorems": [
    "C77_units",
    "C77_covariance"
   ],
   "note": "Real arithmetic. The induced law is stated with weighted samples: the converted covariance of any samples is the covariance of the converted samples. Missing elements stay missing."
  },
  {
   "property": "C78",
   "status": "proved",
   "theorems": [
    "C78_frames",
    "C78_other_frames"
   ],
   "note": "The bound 3e-25 is due to elements below 1e-25 being set to zero after each rotation. itrf93 is C28."
  },
  {
   "property": "C79",
   "status": "partial",
   "theorems": [
    "C79_geodetic_partial",
    "C79_geodetic_refuted",
    "C79_axis_refuted"
   ],
   "note": "refuted: the latitude iteration restarts from its first guess, so the result describes the input exactly when the point is on the ellipsoid surface or the equator; on the polar axis there is no result. Exact real arithmetic."
  },
  {
   "property": "C80",
   "status": "partial",
   "theorems": [
    "C80_label_refuted",
    "C80_axes_partial"
   ],
   "note": "refuted: the frame label of the output is the literal 'ecliptic', so states propagated from equatorial orbits are equatorial numbers labelled ecliptic. Proved part: the numbers are right in the frame of the input (propagation commutes with every rotation), and the label is right for ecliptic input."
  },
  {
   "property": "C81",
   "status": "proved",
   "theorems": [
    "C81_link_to_observers",
    "C81_link_to_exposures"
   ],
   "note": "quivr linkage semantics in the trusted base. Warning and closeness: see C93."
  },
  {
   "property": "C82",
   "status": "partial",
   "theorems": [
    "C82_add_seconds_refuted",
    "C82_add_units_partial"
   ],
   "note": "refuted: add_seconds(18446744074) silently adds 0.29 s. Proved for counts within one day."
  },
  {
   "property": "C83",
   "status": "partial",
   "theorems": [
    "C83_from_mjd_refuted",
    "C83_from_mjd_partial"
   ],
   "note": "refuted: half a nanosecond below an integer day gives nanos = 86400e9; proved that this is the only way to leave the range."
  },
  {
   "property": "C84",
   "status": "partial",
   "theorems": [
    "C84_utc_tai_offset_refuted",
    "C84_utc_tai_offset_partial"
   ],
   "note": "refuted: afternoon of a leap-second day is one second off; proved on all other instants."
  },
  {
   "property": "C85",
   "status": "proved",
   "theorems": [
    "C85_same_scale_identity",
    "C85_tai_tt_round_trip",
    "C85_tt_tai_round_trip",
    "C85_utc_tai_utc_round_trip"
   ],
   "note": "ERFA utctai/taiutc modelled in exact arithmetic."
  },
  {
   "property": "C86",
   "status": "proved",
   "theorems": [
    "C86_mjd_round_trip",
    "C86_from_mjd_nearest"
   ],
   "note": "exact rational arithmetic."
  },
  {
   "property": "C87",
   "status": "proved",
   "theorems": [
    "C87_packed_date"
   ],
   "note": "Day fraction and its h/m/s split in exact rationals; float rounding and astropy parsing are not modelled."
  },
  {
   "property": "C88",
   "status": "partial",
   "theorems": [
    "C88_propagation_error_row",
    "C88_ephemeris_index_error_refuted",
    "C88_ephemeris_wrong_row_refuted",
    "C88_ephemeris_detects_partial"
   ],
   "note": "refuted for generate_ephemeris_2body: a flattened index is used as row index, so a wrong row is named or an IndexError escapes. Proved for propagate_2body; for ephemerides an exception is raised exactly when a row is non-finite."
  },
  {
   "property": "C89",
   "status": "partial",
   "theorems": [
    "C89_propagator_settings_refuted"
   ],
   "note": "refuted: Ray workers run propagator_class() with default settings."
  },
  {
   "property": "C90",
   "status": "proved",
   "theorems": [
    "C90_observer_pairing"
   ],
   "note": "Composed with propagate_orbits(max_processes=1); distinct ids (repeated ids: C91)."
  },
  {
   "property": "C91",
   "status": "partial",
   "theorems": [
    "C91_schedule_order_refuted",
    "C91_observer_pairing_refuted",
    "C91_empty_input_refuted"
   ],
   "note": "refuted: with a repeated orbit_id the row order depends on task completion order and the default ephemeris combines states with observers of other epochs; an empty table raises AttributeError serially and ValueError in parallel."
  },
  {
   "property": "C92",
   "status": "partial",
   "theorems": [
    "C92_group_by_exposure_partial",
    "C92_null_exposures_refuted"
   ],
   "note": "refuted: a detection with a null exposure id is in no group (an empty group is yielded instead). Proved when no exposure id is null."
  },
  {
   "property": "C93",
   "status": "partial",
   "theorems": [
    "C93_warning_partial",
    "C93_missed_warning_refuted",
    "C93_close_epochs_refuted"
   ],
   "note": "refuted: the warning is missed when an unmatched ephemeris row makes the counts agree, and epochs 1 ns apart across a truncation boundary are not linked at any precision above ns. Proved: no warning and every ephemeris row linked implies no two observers were merged."
  },
  {
   "property": "C94",
   "status": "proved",
   "theorems": [
    "C94_exposure_observers_rowwise",
    "C94_exposure_observers_empty"
   ],
   "note": "Midpoint and observer state are oracles; an empty exposure table raises ArrowInvalid."
  },
  {
   "property": "C95",
   "status": "partial",
   "theorems": [
    "C95_near_earth_partial",
    "C95_near_earth_refuted"
   ],
   "note": "refuted: Apollos with a > 3.2 au are labelled OMB/TJN/CEN/TNO because later entries overwrite earlier ones. Proved for a <= 3.2."
  },
  {
   "property": "C96",
   "status": "partial",
   "theorems": [
    "C96_full_budget_refuted",
    "C96_over_budget_refuted",
    "C96_close_partial"
   ],
   "note": "refuted both ways by binary64 rounding: 50 observations at 58% give 28, 5 observations at 59.99999999999999% give 3; proved: at most 1.5 below the exact percentage"
  },
  {
   "property": "C97",
   "status": "partial",
   "theorems": [
    "C97_degrees_of_freedom_refuted",
    "C97_degrees_of_freedom_partial"
   ],
   "note": "refuted for min_obs <= 2: negative degrees of freedom make every chi2 acceptable; proved for min_obs >= 4"
  },
  {
   "property": "C98",
   "status": "partial",
   "theorems": [
    "C98_negative_limit_refuted",
    "C98_limit_partial"
   ],
   "note": "refuted for negative max_iter when every correction is discarded; proved for non-negative max_iter"
  },
  {
   "property": "C99",
   "status": "partial",
   "theorems": [
    "C99_num_obs_refuted",
    "C99_arc_length_refuted",
    "C99_short_arc_refuted",
    "C99_single_candidate_partial"
   ],
   "note": "refuted three ways; proved: num_obs, arc_length and reduced chi2 are right when each triple gives at most one candidate orbit"
  },
  {
   "property": "C100",
   "status": "partial",
   "theorems": [
    "C100_unimproved_refuted",
    "C100_none_partial"
   ],
   "note": "refuted: the unimproved input orbit is returned when the iteration limit is reached; proved: None is returned only after one worse step with an already tiny perturbation"
  },
  {
   "property": "C101",
   "status": "partial",
   "theorems": [
    "C101_sign_refuted",
    "C101_sign_partial"
   ],
   "note": "refuted: across 0/360 the residual has the sign of the raw difference, so 359 observed and 1 predicted give +2; proved when the raw difference is at most 180"
  },
  {
   "property": "C102",
   "status": "partial",
   "theorems": [
    "C102_mixed_rows_refuted",
    "C102_mixed_rows_partial"
   ],
   "note": "refuted: a row without covariance in the same batch as a row with one makes the call fail; proved when batches are uniform in this respect"
  },
  {
   "property": "C103",
   "status": "partial",
   "theorems": [
    "C103_one_sample_refuted",
    "C103_one_sample_partial"
   ],
   "note": "refuted for n = 1 (IndexError); proved for n >= 2"
  },
  {
   "property": "C104",
   "status": "partial",
   "theorems": [
    "C104_no_variants_refuted",
    "C104_no_variants_partial"
   ],
   "note": "refuted: the covariance is all zeros; proved: positive variance when a linked variant differs and weights are positive"
  },
  {
   "property": "C105",
   "status": "partial",
   "theorems": [
    "C105_longitude_refuted",
    "C105_longitude_partial"
   ],
   "note": "refuted near 0/360; proved when linked variants are within 180 degrees numerically"
  },
  {
   "property": "C106",
   "status": "partial",
   "theorems": [
    "C106_by_object_refuted",
    "C106_by_object_partial"
   ],
   "note": "refuted: the covariance is divided by 2 - alpha^2 + beta; proved exact when beta = alpha^2 - 1 (the defaults) and the mean always; longitude column excluded"
  },
  {
   "property": "C107",
   "status": "partial",
   "theorems": [
    "C107_missing_sigma_refuted",
    "C107_missing_sigma_partial"
   ],
   "note": "refuted: a missing sigma fills its column with NaN but not its row; proved for columns with a known sigma"
  },
  {
   "property": "C108",
   "status": "proved",
   "theorems": [
    "C108_upper",
    "C108_oef"
   ],
   "note": "np.triu_indices/tril_indices modelled row-major"
  },
  {
   "property": "C109",
   "status": "proved",
   "theorems": [
    "C109_rows"
   ],
   "note": "times exact"
  },
  {
   "property": "C110",
   "status": "partial",
   "theorems": [
    "C110_empty_refuted",
    "C110_scales_refuted",
    "C110_total_partial"
   ],
   "note": "refuted: no variants gives None, mixed scales fail in concatenation; proved otherwise"
  },
  {
   "property": "C111",
   "status": "partial",
   "theorems": [
    "C111_round_trip_refuted",
    "C111_propagated_refuted",
    "C111_round_trip_partial",
    "C111_span_partial"
   ],
   "note": "refuted: states at one epoch all get the last covariance; proved for one origin and distinct epochs; rotation, unit conversion and the text file are oracles"
  },
  {
   "property": "C112",
   "status": "partial",
   "theorems": [
    "C112_one_orbit_refuted",
    "C112_one_object_partial",
    "C112_propagated_partial"
   ],
   "note": "refuted: orbits of one object are interleaved; proved: several or missing object ids are rejected"
  },
  {
   "property": "C113",
   "status": "partial",
   "theorems": [
    "C113_evaluated_refuted",
    "C113_evaluated_partial"
   ],
   "note": "refuted for every span that is not a multiple of the window; proved for windows of full length"
  },
  {
   "property": "C114",
   "status": "partial",
   "theorems": [
    "C114_coverage_refuted",
    "C114_short_refuted",
    "C114_coverage_partial"
   ],
   "note": "refuted: the segment stops at the last whole step, and intervals shorter than a step raise IndexError; proved to reach within one step of the end, and exactly when the step divides the interval"
  },
  {
   "property": "C115",
   "status": "proved",
   "theorems": [
    "C115_ra",
    "C115_ra_rejected",
    "C115_dec",
    "C115_dec_rejected"
   ],
   "note": "exact rationals instead of binary64"
  },
  {
   "property": "C116",
   "status": "partial",
   "theorems": [
    "C116_finite_refuted",
    "C116_finite_partial"
   ],
   "note": "refuted: nan, inf and 1e999 are accepted; proved for digits and a point"
  },
  {
   "property": "C117",
   "status": "proved",
   "theorems": [
    "C117_columns",
    "C117_accepts"
   ],
   "note": ""
  },
  {
   "property": "C118",
   "status": "partial",
   "theorems": [
    "C118_identifiers_partial",
    "C118_identifiers_refuted"
   ],
   "note": "refuted: an observation without any identifier is written when another row of its station has one. Proved: writing succeeds exactly when every station has a context and at least one identified row, and otherwise raises ValueError."
  },
  {
   "property": "C119",
   "status": "proved",
   "theorems": [
    "C119_observations_read_back"
   ],
   "note": "writing and reading a time are parameters (stamps); numbers are exact rationals"
  },
  {
   "property": "C120",
   "status": "proved",
   "theorems": [
    "C120_whole_contexts"
   ],
   "note": "numbers of a context are represented by their printed text"
  },
  {
   "property": "C121",
   "status": "proved",
   "theorems": [
    "C121_spherical_first"
   ],
   "note": "exact real arithmetic"
  },
  {
   "property": "C122",
   "status": "partial",
   "theorems": [
    "C122_velocities_partial",
    "C122_velocities_refuted"
   ],
   "note": "refuted: vup holds degrees(east velocity), veast holds degrees(north velocity), vnorth holds the up velocity."
  },
  {
   "property": "C123",
   "status": "partial",
   "theorems": [
    "C123_covariances_partial",
    "C123_covariances_refuted"
   ],
   "note": "refuted: every table with a covariance raises TypeError. Proved: without covariances, rows are converted in order exactly when the frame and origins are right."
  },
  {
   "property": "C124",
   "status": "partial",
   "theorems": [
    "C124_longitude_partial",
    "C124_longitude_refuted"
   ],
   "note": "refuted: for a tiny negative angle the longitude is 360 exactly. Proved: 0 <= longitude <= 360 (binary64 rounding modelled with Flocq)."
  },
  {
   "property": "C125",
   "status": "proved",
   "theorems": [
    "C125_anomalies",
    "C125_mean",
    "C125_converges"
   ],
   "note": "exact real arithmetic; convergence itself is proved for e <= 0.7, for larger e the bound is conditional on the loop having stopped within tolerance"
  },
  {
   "property": "C126",
   "status": "proved",
   "theorems": [
    "C126_state_trip"
   ],
   "note": "exact real arithmetic; 'near' in KepSpec.v gives the bounds on position and velocity"
  },
  {
   "property": "C127",
   "status": "partial",
   "theorems": [
    "C127_complete_partial",
    "C127_circular_refuted",
    "C127_equatorial_refuted"
   ],
   "note": "refuted: circular orbits get NaN anomalies, equatorial orbits a NaN argument of periapsis, retrograde equatorial orbits a NaN node (the code compares the inclination with 2 pi instead of pi). Proved: away from these cases every angle is a number in [0, 360)."
  },
  {
   "property": "C128",
   "status": "partial",
   "theorems": [
    "C128_past_partial",
    "C128_future_refuted",
    "C128_periapsis_refuted",
    "C128_parabola_refuted"
   ],
   "note": "refuted: with the periapsis in the future a hyperbolic comet comes out receding; an approaching one gets a periapsis time in the past; a parabolic one is placed at twice the time since periapsis. Proved for hyperbolic comets after periapsis."
  },
  {
   "property": "C129",
   "status": "proved",
   "theorems": [
    "C129_element_trip"
   ],
   "note": "exact real arithmetic"
  },
  {
   "property": "C130",
   "status": "proved",
   "theorems": [
    "C130_cometary_trip"
   ],
   "note": "exact real arithmetic; unconditional for e <= 0.7 with default settings"
  },
  {
   "property": "C131",
   "status": "proved",
   "theorems": [
    "C131_motion",
    "C131_converges",
    "C131_exact"
   ],
   "note": "Existence and uniqueness of the motion are proved, not assumed. The bound on the last correction depends on the state; radial (rectilinear) states are excluded."
  },
  {
   "property": "C132",
   "status": "partial",
   "theorems": [
    "C132_cycle_refuted"
   ],
   "note": "refuted: from r = (-e, -sqrt(1-e^2), 0), v = (1, 0, 0), mu = 1, e = 3pi/(3pi+2), elapsed time pi/2, the iteration alternates between pi/2 and 2pi; the exhausted iteration is not reported and the returned position is more than 10 semi-major axes off. What holds is C131."
  },
  {
   "property": "C133",
   "status": "partial",
   "theorems": [
    "C133_overflow_refuted"
   ],
   "note": "refuted: the starting value grows linearly with the elapsed time, so cosh overflows binary64 once the mean anomaly passes about 710 and the correction is inf/inf; the caller raises DynamicsNumericalError. What holds is C131."
  },
  {
   "property": "C134",
   "status": "proved",
   "theorems": [
    "C134_legs"
   ],
   "note": "By uniqueness of the solution of Newton's equation (C131)."
  },
  {
   "property": "C135",
   "status": "partial",
   "theorems": [
    "C135_last_iteration_refuted",
    "C135_found_partial"
   ],
   "note": "refuted: convergence in the last allowed iteration is reported as NaN (iterations >= max_lt_iter is tested after the loop). Proved part: with one iteration to spare a contracting iteration always reports a finite light time."
  },
  {
   "property": "C136",
   "status": "proved",
   "theorems": [
    "C136_aberration"
   ],
   "note": "Real arithmetic. The result is defined (no NaN) in every case of the statement."
  },
  {
   "property": "C137",
   "status": "partial",
   "theorems": [
    "C137_missing_refuted",
    "C137_missing_partial"
   ],
   "note": "refuted: np.ma.dot(strict=False) takes missing factors as 0, so a row without velocities is at rest after the rotation. Proved part: a row with nothing known stays unknown; translation keeps missing components missing."
  },
  {
   "property": "C138",
   "status": "partial",
   "theorems": [
    "C138_covariance_refuted",
    "C138_covariance_partial"
   ],
   "note": "refuted: with variances only (elements off the diagonal missing) the rotated variances are kept and the correlations the rotation creates are masked away; going back loses more than a fifth of the variance of y. Proved part: exactly the missing elements stay missing; a covariance of the position alone comes back to 3e-25."
  },
  {
   "property": "C139",
   "status": "proved",
   "theorems": [
    "C139_ric"
   ],
   "note": "Real arithmetic."
  },
  {
   "property": "C140",
   "status": "partial",
   "theorems": [
    "C140_generic_bands_refuted",
    "C140_generic_bands_partial"
   ],
   "note": "refuted: labels are lower-cased before the fallback, so Cousins/Johnson R, G or I of an observatory without entry silently become SDSS_r, SDSS_g, SDSS_i. Proved part: other labels are refused."
  },
  {
   "property": "C141",
   "status": "proved",
   "theorems": [
    "C141_current_templates"
   ],
   "note": "Contrast with C74: only the per-composition table of magnitude_common is stale."
  },
  {
   "property": "C142",
   "status": "partial",
   "theorems": [
    "C142_grey_template_refuted",
    "C142_grey_template_partial"
   ],
   "note": "refuted: the numerator integrates over the part of the filter the template covers, the norm over the whole filter, so a template covering a fifth of the flux of a filter makes a grey object 5/2 log10 5 fainter in it, without an error. Proved part: shift 0 and mean reflectance c when the template covers both filters."
  },
  {
   "property": "C143",
   "status": "proved",
   "theorems": [
    "C143_rescaled_template"
   ],
   "note": "Includes: one succeeds exactly when the other does. Real arithmetic."
  },
  {
   "property": "C144",
   "status": "proved",
   "theorems": [
    "C144_phase_angle",
    "C144_refusals"
   ],
   "note": "Real arithmetic."
  },
  {
   "property": "C145",
   "status": "proved",
   "theorems": [
    "C145_phase_function"
   ],
   "note": "Real arithmetic; hg_phase_correction (with its floor) and the correction inside predictions."
  },
  {
   "property": "C146",
   "status": "partial",
   "theorems": [
    "C146_two_corrections_refuted",
    "C146_two_corrections_partial"
   ],
   "note": "refuted: the numpy version floors the phase function at 1e-12 (30 magnitudes), the other does not. Proved part: they agree up to 30 magnitudes."
  },
  {
   "property": "C147",
   "status": "proved",
   "theorems": [
    "C147_predict_then_convert",
    "C147_additive",
    "C147_v_magnitude"
   ],
   "note": "Real arithmetic; observers() is an arbitrary list of positions."
  },
  {
   "property": "C148",
   "status": "partial",
   "theorems": [
    "C148_frames_refuted",
    "C148_frames_partial"
   ],
   "note": "refuted: origin and frame labels are never looked at, so the same point in equatorial coordinates gets a fainter magnitude without an error (calculate_phase_angle refuses it). Proved part: the result is a function of the components alone."
  },
  {
   "property": "C149",
   "status": "proved",
   "theorems": [
    "C149_rows"
   ],
   "note": "numpy.roots is an oracle that returns exact positive roots. Real arithmetic."
  },
  {
   "property": "C150",
   "status": "proved",
   "theorems": [
    "C150_gibbs_exact"
   ],
   "note": "Real arithmetic; the constant MU of the code."
  },
  {
   "property": "C151",
   "status": "partial",
   "theorems": [
    "C151_series_refuted",
    "C151_series_partial"
   ],
   "note": "refuted: g uses dt^2 instead of dt^3 in its second term, so its error is of second order. Proved part: f is accurate to fourth order and g to second order on circular orbits."
  },
  {
   "property": "C152",
   "status": "partial",
   "theorems": [
    "C152_reversal_refuted",
    "C152_reversal_partial"
   ],
   "note": "refuted: the Gauss method breaks the symmetry for unequal spacing (see C151). Proved part: Gibbs, Herrick-Gibbs, and Gauss with equal spacing."
  },
  {
   "property": "C153",
   "status": "partial",
   "theorems": [
    "C153_mu_refuted",
    "C153_mu_partial"
   ],
   "note": "refuted: the velocity methods use the Sun's mu whatever mu is given. Proved part: positions and epochs follow the unit."
  },
  {
   "property": "C154",
   "status": "proved",
   "theorems": [
    "C154_herrick_gibbs"
   ],
   "note": "Real arithmetic."
  },
  {
   "property": "C155",
   "status": "partial",
   "theorems": [
    "C155_behind_refuted",
    "C155_behind_partial"
   ],
   "note": "refuted: only the middle slant range is checked; an orbit whose first position is behind the observer is returned. Proved part: the middle position is in front."
  },
  {
   "property": "C156",
   "status": "partial",
   "theorems": [
    "C156_degenerate_refuted",
    "C156_same_direction",
    "C156_degenerate_partial"
   ],
   "note": "refuted: identical first and third directions raise ZeroDivisionError. Proved part: no exception for Gibbs and Herrick-Gibbs with ordered times, positive mu, independent lines of sight and a non-zero polynomial coefficient."
  },
  {
   "property": "C157",
   "status": "partial",
   "theorems": [
    "C157_observers_refuted",
    "C157_observers_partial"
   ],
   "note": "refuted: observer positions are sorted, observations are not, so unsorted rows are paired with other observers. Proved part: rows sorted by observer key (as iod_worker sorts them) are paired correctly."
  },
  {
   "property": "C158",
   "status": "partial",
   "theorems": [
    "C158_scale_refuted",
    "C158_scale_partial"
   ],
   "note": "refuted: epochs are labelled utc whatever the scale of the observations. Proved part: right for utc observations."
  },
  {
   "property": "C159",
   "status": "partial",
   "theorems": [
    "C159_half_turn_refuted",
    "C159_half_turn"
   ],
   "note": "refuted: the pole of the transfer plane becomes the zero vector, the tangential velocity is lost, both returned velocities are radial and the energies at the two ends differ by mu*(n2-n1)/(n1*n2). C159_half_turn proves this for every such pair."
  },
  {
   "property": "C160",
   "status": "proved",
   "theorems": [
    "C160_sense"
   ],
   "note": "Real arithmetic."
  },
  {
   "property": "C161",
   "status": "proved",
   "theorems": [
    "C161_derivatives"
   ],
   "note": "For the closed formula (general branch); the series branch approximates it to 1e-26 (C162, C163)."
  },
  {
   "property": "C162",
   "status": "proved",
   "theorems": [
    "C162_transfer",
    "C162_exists"
   ],
   "note": "Real arithmetic. The residual f is that of the solver's own time equation at the returned x: the iteration limit may leave it large. For results with complete revolutions the energy must be negative. C162_exists: for every pair of positions and options without complete revolutions some time of flight is met exactly."
  },
  {
   "property": "C163",
   "status": "proved",
   "theorems": [
    "C163_guess",
    "C163_named"
   ],
   "note": "Real arithmetic."
  },
  {
   "property": "C164",
   "status": "proved",
   "theorems": [
    "C164_no_result",
    "C164_rows"
   ],
   "note": "Real arithmetic; jax.vmap modelled as map with a length check."
  },
  {
   "property": "C165",
   "status": "partial",
   "theorems": [
    "C165_moid_refuted",
    "C165_circle_partial"
   ],
   "note": "refuted: the second orbit's orientation (inclination, node, argument of perihelion) is never used, so for two crossing coplanar ellipses with opposite perihelia every value the search can report is at least 1/4. C165_circle_partial: for a circular second orbit in the reference plane the value is the distance to a point of the orbit, and minimal up to the minimiser's tolerance. scipy minimize_scalar is an oracle; the propagated primary positions are taken to be on its orbit."
  },
  {
   "property": "C166",
   "status": "proved",
   "theorems": [
    "C166_projection",
    "C166_defined"
   ],
   "note": "Real arithmetic."
  },
  {
   "property": "C167",
   "status": "proved",
   "theorems": [
    "C167_verdict",
    "C167_single"
   ],
   "note": "single_period statement for time spans below 2^52 times the required rotations (the frequency floor of the code); a run that gives single_period is shown in C167_case"
  },
  {
   "property": "C168",
   "status": "proved",
   "theorems": [
    "C168_interval",
    "C168_acceptable"
   ],
   "note": ""
  },
  {
   "property": "C169",
   "status": "partial",
   "theorems": [
    "C169_auto_refuted",
    "C169_auto_partial",
    "C169_ignore_partial"
   ],
   "note": "refuted: sixteen observations, one per session, give a period when sessions are ignored and a ValueError with the default options, for every least squares routine. Proved: the session model is always solved first, so whenever it has at least as many columns as observations for every order the call gives no period; and a sufficient condition under which ignoring sessions always gives one."
  },
  {
   "property": "C170",
   "status": "proved",
   "theorems": [
    "C170_grid",
    "C170_period",
    "C170_best"
   ],
   "note": "the upper limit is twice max_period when the fold is doubled: the bound proved is the one the code meets"
  },
  {
   "property": "C171",
   "status": "proved",
   "theorems": [
    "C171_counts",
    "C171_clipped"
   ],
   "note": ""
  },
  {
   "property": "C172",
   "status": "partial",
   "theorems": [
    "C172_scatter_refuted",
    "C172_scatter_partial"
   ],
   "note": "refuted: the weighted scatter is normalised with the number of observations before clipping and the weights after it, so it is too large by sqrt(n_all / n_kept); the factor is proved for all inputs, with equality only if nothing is clipped"
  },
  {
   "property": "C173",
   "status": "proved",
   "theorems": [
    "C173_order",
    "C173_total",
    "C173_confidence"
   ],
   "note": ""
  },
  {
   "property": "C174",
   "status": "proved",
   "theorems": [
    "C174_harmonic"
   ],
   "note": ""
  },
  {
   "property": "C175",
   "status": "partial",
   "theorems": [
    "C175_self_refuted",
    "C175_self_partial"
   ],
   "note": "refuted: with the default tolerance a correct period of 0.4 h is flagged; proved: flagged exactly when p / 24 <= tolerance, hence never above 0.48 h by default"
  },
  {
   "property": "C176",
   "status": "proved",
   "theorems": [
    "C176_apparitions"
   ],
   "note": ""
  },
  {
   "property": "C177",
   "status": "proved",
   "theorems": [
    "C177_best",
    "C177_total"
   ],
   "note": ""
  },
  {
   "property": "C178",
   "status": "proved",
   "theorems": [
    "C178_grouped"
   ],
   "note": ""
  },
  {
   "property": "C179",
   "status": "proved",
   "theorems": [
    "C179_shift"
   ],
   "note": "over real numbers; binary64 rounding of the shifted times is outside the model"
  },
  {
   "property": "C180",
   "status": "proved",
   "theorems": [
    "C180_coverage"
   ],
   "note": ""
  },
  {
   "property": "C181",
   "status": "proved",
   "theorems": [
    "C181_full",
    "C181_staged",
    "C181_found",
    "C181_minima"
   ],
   "note": "for local minima other than the best one: not within a stride of the end of the grid"
  },
  {
   "property": "C182",
   "status": "proved",
   "theorems": [
    "C182_errors",
    "C182_zero_span",
    "C182_few"
   ],
   "note": "errors inside the numerical libraries are outside the model"
  },
  {
   "property": "C183",
   "status": "proved",
   "theorems": [
    "C183_unsigned",
    "C183_weights"
   ],
   "note": ""
  },
  {
   "property": "C184",
   "status": "proved",
   "theorems": [
    "C184_rows",
    "C184_accepted"
   ],
   "note": "multiset equality with the filtered product; a propagation origin with a known gravitational parameter is assumed"
  },
  {
   "property": "C185",
   "status": "partial",
   "theorems": [
    "C185_order_partial",
    "C185_order_refuted"
   ],
   "note": "refuted for more than one process: results are concatenated as tasks finish and never sorted (101 pairs, two chunks finishing in reverse). Proved for one process; departures within one arrival need distinct arrival epochs"
  },
  {
   "property": "C186",
   "status": "proved",
   "theorems": [
    "C186_transfer"
   ],
   "note": "exact arithmetic; unsolved rows have no velocities"
  },
  {
   "property": "C187",
   "status": "partial",
   "theorems": [
    "C187_scales_refuted",
    "C187_scales_partial"
   ],
   "note": "refuted: day numbers of the two tables are compared without regard to their scales, so a TAI departure 22 s after a TT arrival is kept. Proved for two TAI tables, where conversion to TT keeps order and flight time"
  },
  {
   "property": "C188",
   "status": "partial",
   "theorems": [
    "C188_origin_refuted",
    "C188_origin_partial"
   ],
   "note": "refuted: states about any other body are accepted unchanged, solved with the gravity of the propagation origin and relabelled. Proved when the departures refer to the propagation origin"
  },
  {
   "property": "C189",
   "status": "proved",
   "theorems": [
    "C189_speeds",
    "C189_flight_time"
   ],
   "note": "exact arithmetic"
  },
  {
   "property": "C190",
   "status": "proved",
   "theorems": [
    "C190_direction",
    "C190_length",
    "C190_rows"
   ],
   "note": "exact arithmetic; the row theorem says that the result of a call has one direction per velocity"
  },
  {
   "property": "C191",
   "status": "partial",
   "theorems": [
    "C191_unsolved_refuted",
    "C191_unsolved",
    "C191_plain_partial"
   ],
   "note": "refuted: one unsolved transfer makes the default maximum NaN and the plot raises AssertionError. Proved for grids with all transfers solved and some non-zero C3 and arrival speed: then the plot succeeds and every transfer is within the drawn ranges"
  },
  {
   "property": "C192",
   "status": "proved",
   "theorems": [
    "C192_cells",
    "C192_units"
   ],
   "note": "the drawing itself (plotly) is not modelled: cells are the arrays handed to it"
  },
  {
   "property": "C193",
   "status": "partial",
   "theorems": [
    "C193_marker_partial",
    "C193_marker_refuted"
   ],
   "note": "refuted: the optimum is taken over all transfers in range and dropped if it is outside xlim/ylim, so a window can show transfers and no marker. Proved: a marker shown is minimal among all transfers in range and inside the window, and it is shown when all of them are inside"
  },
  {
   "property": "C194",
   "status": "proved",
   "theorems": [
    "C194_epochs",
    "C194_whole_steps",
    "C194_zero_step"
   ],
   "note": "exact arithmetic"
  },
  {
   "property": "C195",
   "status": "partial",
   "theorems": [
    "C195_levels_partial",
    "C195_darker_refuted",
    "C195_one_level"
   ],
   "note": "refuted for the direction: after the first level the channels grow again (red, eight levels). Positions, opacity and channel ranges are proved for two or more levels; one level divides by zero"
  },
  {
   "property": "C196",
   "status": "proved",
   "theorems": [
    "C196_on_sky",
    "C196_light_time"
   ],
   "note": "exact real arithmetic; states of origins and the ITRF rotation are oracles; relative velocities are stated off the polar axis"
  },
  {
   "property": "C197",
   "status": "partial",
   "theorems": [
    "C197_covariance_partial",
    "C197_covariance_refuted",
    "C197_origin_ignored_refuted"
   ],
   "note": "refuted: the derivatives are taken at the six numbers as given, without moving them to the barycentre, so a heliocentric orbit gets the covariance of a barycentric orbit with the same numbers. Proved for barycentric ecliptic orbits. Automatic differentiation is taken to find every derivative that exists."
  },
  {
   "property": "C198",
   "status": "proved",
   "theorems": [
    "C198_labels"
   ],
   "note": ""
  },
  {
   "property": "C199",
   "status": "partial",
   "theorems": [
    "C199_epochs_refuted",
    "C199_lengths_partial"
   ],
   "note": "refuted: only lengths are compared; an observer at any other epoch is accepted and the row is labelled with the epoch of the orbit. Proved: tables of different length are refused."
  },
  {
   "property": "C200",
   "status": "proved",
   "theorems": [
    "C200_representation"
   ],
   "note": "exact arithmetic; covariances are excluded, see C197"
  },
  {
   "property": "C201",
   "status": "proved",
   "theorems": [
    "C201_photometry"
   ],
   "note": "which Sun positions are used is the subject of C202"
  },
  {
   "property": "C202",
   "status": "partial",
   "theorems": [
    "C202_phase_partial",
    "C202_phase_refuted"
   ],
   "note": "refuted: the object is made heliocentric with the Sun at emission and the observer with the Sun at observation, so the direction to the observer is off by the motion of the Sun during the light time and the angle equals neither. Proved when the Sun is at the same place at both epochs."
  },
  {
   "property": "C203",
   "status": "partial",
   "theorems": [
    "C203_never_worse_partial",
    "C203_reported",
    "C203_axes_refuted",
    "C203_scale_refuted"
   ],
   "note": "refuted: the residual function always labels the state SUN, ecliptic, TDB, while the result keeps the input's origin and frame, so an orbit with any other origin, frame or scale can go from a perfect fit to a bad one. Proved for heliocentric ecliptic TDB orbits; the reported chi2 is always that of the orbit returned."
  },
  {
   "property": "C204",
   "status": "partial",
   "theorems": [
    "C204_epoch_partial",
    "C204_epoch_refuted"
   ],
   "note": "refuted: the number of days is kept but relabelled TDB, so the epoch moves by exactly the difference of the two scales. Proved for TDB."
  },
  {
   "property": "C205",
   "status": "proved",
   "theorems": [
    "C205_members",
    "C205_statistics",
    "C205_one_orbit"
   ],
   "note": ""
  },
  {
   "property": "C206",
   "status": "partial",
   "theorems": [
    "C206_few_refuted",
    "C206_complete_refuted",
    "C206_inverse_partial",
    "C206_information_partial"
   ],
   "note": "refuted: the solver sees one chi per observation instead of one value per component, so with fewer than six used observations there is never a covariance, even where three sightings measure the six numbers directly. Proved: what is returned inverts JtJ of the solver's Jacobian, and JtJ is at most the information in the components, so the covariance is never too small."
  },
  {
   "property": "C207",
   "status": "proved",
   "theorems": [
    "C207_settings"
   ],
   "note": ""
  },
  {
   "property": "C208",
   "status": "partial",
   "theorems": [
    "C208_night_partial",
    "C208_rows",
    "C208_unknown",
    "C208_machine_refuted",
    "C208_scale_refuted",
    "C208_before_refuted"
   ],
   "note": "refuted: the offset is looked up as if the reading were local time of the machine, so on a machine that is not in UTC rows around local noon within hours of a change to or from summer time are put in the wrong night; times in another scale are read as UTC; before MJD 0 the night is one too high. Proved for a machine in UTC, UTC times and MJD >= 0; rows are independent."
  },
  {
   "property": "C209",
   "status": "proved",
   "theorems": [
    "C209_state",
    "C209_encounter",
    "C209_invariant"
   ],
   "note": "exact real arithmetic"
  },
  {
   "property": "C210",
   "status": "proved",
   "theorems": [
    "C210_no_crossing",
    "C210_planet",
    "C210_axes",
    "C210_names"
   ],
   "note": "exact real arithmetic"
  },
  {
   "property": "C211",
   "status": "proved",
   "theorems": [
    "C211_rows",
    "C211_statistics",
    "C211_errors"
   ],
   "note": "exact real arithmetic; the statistics are stated for groups whose covariance weights are incomplete or do not sum to zero (see C213 for the others); mode 'recompute' only before its recomputation of light times"
  },
  {
   "property": "C212",
   "status": "partial",
   "theorems": [
    "C212_orbits_partial",
    "C212_orbits_refuted"
   ],
   "note": "refuted: the rows are grouped without the orbit id and missing object ids count as equal, so the variants of all orbits without object id are averaged into one row named after the first; proved if rows with equal object ids have equal orbit ids"
  },
  {
   "property": "C213",
   "status": "partial",
   "theorems": [
    "C213_chunks",
    "C213_independent_partial",
    "C213_independent_refuted"
   ],
   "note": "refuted: when complete covariance weights sum to zero, the path for groups of one size uses equal weights and the path for several sizes uses the mean weights; proved otherwise, and for the chunk size without condition"
  },
  {
   "property": "C214",
   "status": "partial",
   "theorems": [
    "C214_turn_partial",
    "C214_window",
    "C214_turn_refuted"
   ],
   "note": "refuted where the weighted directions cancel: the mean is then 0 whatever the longitudes; proved otherwise (C214_turn_partial, C214_window)"
  },
  {
   "property": "C215",
   "status": "partial",
   "theorems": [
    "C215_layout_partial",
    "C215_errors",
    "C215_layout_refuted",
    "C215_magnitude_refuted"
   ],
   "note": "refuted: only ids are checked, so rows ordered by time are averaged over different times and labelled with the wrong ones; magnitudes are dropped. Proved for the documented layout but for the magnitudes; the size errors are characterised"
  },
  {
   "property": "C216",
   "status": "partial",
   "theorems": [
    "C216_mean",
    "C216_range_partial",
    "C216_present_partial",
    "C216_range_refuted"
   ],
   "note": "refuted for negative weights: with the sigma points of alpha = 0.1, magnitudes between 20 and 20.1 give 30; the formula is proved in general, range and presence for weights that are not negative"
  },
  {
   "property": "C217",
   "status": "partial",
   "theorems": [
    "C217_light_partial",
    "C217_light_refuted",
    "C217_fallback_refuted"
   ],
   "note": "refuted: groups of several sizes silently lose light times that all variants have, and a missing light time is replaced by the distance from the barycentre over the speed of light; proved for complete tables with groups of one size"
  },
  {
   "property": "C218",
   "status": "partial",
   "theorems": [
    "C218_orbits",
    "C218_errors",
    "C218_sigma_points_refuted"
   ],
   "note": "refuted: the weights of the variants are ignored, so the default sigma points give 12/13 of their covariance; the rest is proved (population statistics)"
  },
  {
   "property": "C219",
   "status": "proved",
   "theorems": [
    "C219_auto"
   ],
   "note": "for complete uncertainties the criterion cannot be computed from the reported row, there only the necessary conditions are proved"
  },
  {
   "property": "C220",
   "status": "proved",
   "theorems": [
    "C220_covariance",
    "C220_quadratic",
    "C220_labels",
    "C220_size"
   ],
   "note": ""
  },
  {
   "property": "C221",
   "status": "proved",
   "theorems": [
    "C221_any_order",
    "C221_failure"
   ],
   "note": ""
  },
  {
   "property": "C222",
   "status": "proved",
   "theorems": [
    "C222_retries"
   ],
   "note": "the wait after the last failed try is part of the modelled behaviour: the function also sleeps before giving up"
  },
  {
   "property": "C223",
   "status": "partial",
   "theorems": [
    "C223_solution_partial",
    "C223_solution_refuted"
   ],
   "note": "refuted: if the covariance block has elements but no epoch, they are returned with the epoch of the other solution; proved in all other cases"
  },
  {
   "property": "C224",
   "status": "partial",
   "theorems": [
    "C224_magnitude_partial",
    "C224_magnitude_refuted"
   ],
   "note": "refuted twice: a magnitude H = 0.0 is falsy and is lost (or replaced by H_mag), and H without a sigma takes the sigma of H_mag; proved for a non-zero value and a non-zero sigma, and for G"
  },
  {
   "property": "C225",
   "status": "partial",
   "theorems": [
    "C225_rows_partial",
    "C225_missing",
    "C225_name_refuted"
   ],
   "note": "refuted only in that an object without a name is called \"None\""
  },
  {
   "property": "C226",
   "status": "partial",
   "theorems": [
    "C226_sigmas_partial",
    "C226_sigmas_refuted"
   ],
   "note": "refuted: the covariances of an element of unknown uncertainty with the later ones are unknown too, with the earlier ones zero; proved: the exact entry at every place, diagonal if all are known"
  },
  {
   "property": "C227",
   "status": "proved",
   "theorems": [
    "C227_retries",
    "C227_errors",
    "C227_first_error"
   ],
   "note": ""
  },
  {
   "property": "C228",
   "status": "partial",
   "theorems": [
    "C228_malformed_partial",
    "C228_body_refuted",
    "C228_long_row_refuted",
    "C228_escape_refuted"
   ],
   "note": "refuted in four cases: a body that is no JSON is retried and reported as unavailable, a row with too many cells is cut, a cell that is no number raises the error of Arrow, a numeric version raises TypeError; proved for missing or wrong orbits, data and rows"
  },
  {
   "property": "C229",
   "status": "partial",
   "theorems": [
    "C229_samples_partial",
    "C229_scale_refuted"
   ],
   "note": "refuted: every row is labelled TAI, about 32 s from TDB; proved: rows, values and order"
  },
  {
   "property": "C230",
   "status": "partial",
   "theorems": [
    "C230_ids_partial",
    "C230_ids_refuted"
   ],
   "note": "refuted: the ids are the numbers of the samples, which start again for each object; proved: object and orbit id together are unique if the objects and the numbers in one answer are"
  },
  {
   "property": "C231",
   "status": "proved",
   "theorems": [
    "C231_snapshots",
    "C231_unusable"
   ],
   "note": ""
  },
  {
   "property": "C232",
   "status": "proved",
   "theorems": [
    "C232_rows",
    "C232_order",
    "C232_errors"
   ],
   "note": "the times converted to TDB must have a normal number of nanoseconds; the service is assumed to give the time of perihelion for cometary elements; exact Julian dates"
  },
  {
   "property": "C233",
   "status": "partial",
   "theorems": [
    "C233_origin_partial",
    "C233_origin_refuted"
   ],
   "note": "refuted: for location @ssb (named in the documentation) the barycentric states are labelled SUN; proved: every row is labelled SUN, ecliptic, TDB, which is right for the default location"
  },
  {
   "property": "C234",
   "status": "partial",
   "theorems": [
    "C234_rows_partial",
    "C234_errors",
    "C234_frame_refuted"
   ],
   "note": "refuted: right ascension and declination are labelled ecliptic; everything else is proved"
  },
  {
   "property": "C235",
   "status": "proved",
   "theorems": [
    "C235_coordinates",
    "C235_semidefinite"
   ],
   "note": ""
  },
  {
   "property": "C236",
   "status": "partial",
   "theorems": [
    "C236_exposures_partial",
    "C236_errors",
    "C236_conflict_refuted",
    "C236_unlinked_refuted"
   ],
   "note": "refuted: the details of the first source win silently (exposures of two observatories with the same id become one), and one source without exposure id, start, duration or filter, or with an exposure of more than an hour, makes the whole call fail though the catalogue accepts it; proved: uniqueness, order, coverage, details of the first source, and exactly when it succeeds"
  },
  {
   "property": "C237",
   "status": "proved",
   "theorems": [
    "C237_midpoints",
    "C237_times"
   ],
   "note": ""
  },
  {
   "property": "C238",
   "status": "proved",
   "theorems": [
    "C238_file",
    "C238_remarks"
   ],
   "note": "Text is ASCII; float() is a parameter. Hypothesis: one KEP record, at most one MJD and MAG record, header lines beginning with format, rectype, refsys or '!', an id beginning with none of the keywords."
  },
  {
   "property": "C239",
   "status": "proved",
   "theorems": [
    "C239_rows",
    "C239_refused",
    "C239_errors"
   ],
   "note": "The server is a function from file names to texts. The rows are the Keplerian coordinates before their conversion to Cartesian ones."
  },
  {
   "property": "C240",
   "status": "partial",
   "theorems": [
    "C240_every_id_refuted",
    "C240_kind_refuted",
    "C240_every_id_partial"
   ],
   "note": "refuted: an object whose file has no MJD record is left out without an error, and an orbit_type that does not exist gives an empty table. Proved: where every file has an epoch there are as many rows as ids, or an error."
  },
  {
   "property": "C241",
   "status": "partial",
   "theorems": [
    "C241_no_covariance_refuted",
    "C241_no_rows_partial"
   ],
   "note": "refuted: KeyError. Proved for all queries: one such orbit among the ids and no row at all is returned."
  },
  {
   "property": "C242",
   "status": "partial",
   "theorems": [
    "C242_reads_partial",
    "C242_text_refuted",
    "C242_list_refuted",
    "C242_empty_list_refuted"
   ],
   "note": "refuted: a text with a double quote is written without an escape and the file cannot be read; a list of two tags is read as one text; an empty list is read as a list of one empty text. Proved for texts without quote, backslash or line feed and lists of one member."
  },
  {
   "property": "C243",
   "status": "proved",
   "theorems": [
    "C243_distinct",
    "C243_names"
   ],
   "note": ""
  },
  {
   "property": "C244",
   "status": "partial",
   "theorems": [
    "C244_nodes",
    "C244_identifiers_partial",
    "C244_identifiers_refuted",
    "C244_head_refuted"
   ],
   "note": "refuted for the identifiers: \"2020 AB\" and \"2020_AB\" have the same one, and so have the head of \"X\" and the trail of \"X_Head\". Proved in full for the declarations; identifiers are distinct if the object ids are distinct with blanks replaced and none is the id of another followed by _Head."
  },
  {
   "property": "C245",
   "status": "partial",
   "theorems": [
    "C245_kepler_partial",
    "C245_trail_refuted",
    "C245_trail_ignores",
    "C245_name_ignored"
   ],
   "note": "refuted for trails: dim_in_atmosphere, enabled, opacity, render_bin_mode, tag and gui_name have no effect on the file. Proved for create_renderable_orbital_kepler."
  },
  {
   "property": "C246",
   "status": "partial",
   "theorems": [
    "C246_accepted_partial",
    "C246_spice_partial",
    "C246_mode_refuted",
    "C246_type_refuted"
   ],
   "note": "refuted: the documented modes Transparent and Both raise ValueError; an unknown translation type raises UnboundLocalError, after the file has been opened. Proved: which values are accepted, and the ValueError of an incomplete Spice translation."
  },
  {
   "property": "C247",
   "status": "proved",
   "theorems": [
    "C247_units",
    "C247_options"
   ],
   "note": ""
  },
  {
   "property": "C248",
   "status": "partial",
   "theorems": [
    "C248_epoch_partial",
    "C248_midnight_refuted",
    "C248_negative_refuted"
   ],
   "note": "refuted: within half a millisecond before midnight the date is that of the next day and the epoch is written one day late; before MJD 0 the decimals are those of the absolute value. Proved for all other epochs."
  },
  {
   "property": "C249",
   "status": "proved",
   "theorems": [
    "C249_padding",
    "C249_columns",
    "C249_solver"
   ],
   "note": "a solver as assumed exists (elimination); jnp.linalg.solve in floating point is not modelled"
  },
  {
   "property": "C250",
   "status": "proved",
   "theorems": [
    "C250_backends"
   ],
   "note": ""
  },
  {
   "property": "C251",
   "status": "proved",
   "theorems": [
    "C251_solution"
   ],
   "note": ""
  },
  {
   "property": "C252",
   "status": "partial",
   "theorems": [
    "C252_scores_refuted",
    "C252_coefficients_refuted",
    "C252_loss_partial"
   ],
   "note": "refuted: for ten observations of constant magnitude the numpy score is 0 and the JAX score is positive; the coefficients differ whenever the right-hand side of the normal equations is not zero. Proved: the ridge costs at most 1e-15 times the squared norm of the least-squares coefficients in the sum of squares, and never enlarges the coefficients. Missing: a bound for the clipped fits, where the two may keep different rows."
  },
  {
   "property": "C253",
   "status": "proved",
   "theorems": [
    "C253_rows",
    "C253_columns"
   ],
   "note": ""
  },
  {
   "property": "C254",
   "status": "proved",
   "theorems": [
    "C254_rows",
    "C254_values"
   ],
   "note": "exact rational arithmetic"
  },
  {
   "property": "C255",
   "status": "partial",
   "theorems": [
    "C255_refuted",
    "C255_partial"
   ],
   "note": "refuted: EARTH_MOON_BARYCENTER, MARS, JUPITER, SATURN, URANUS and NEPTUNE raise ValueError. Proved: exactly these six do; every other member has a positive parameter not above that of the barycenter"
  },
  {
   "property": "C256",
   "status": "proved",
   "theorems": [
    "C256_back",
    "C256_read"
   ],
   "note": "assertions are assumed to be enabled"
  },
  {
   "property": "C257",
   "status": "proved",
   "theorems": [
    "C257_ellipse",
    "C257_hyperbola",
    "C257_momentum"
   ],
   "note": "exact real arithmetic"
  },
  {
   "property": "C258",
   "status": "proved",
   "theorems": [
    "C258_keplerian",
    "C258_cometary"
   ],
   "note": "exact real arithmetic; times as real numbers of days"
  },
  {
   "property": "C259",
   "status": "partial",
   "theorems": [
    "C259_refuted",
    "C259_partial",
    "C259_parabola_partial"
   ],
   "note": "refuted: for e = 1 the column p is NaN although the converted state has p = 2 q. Proved for every e other than 1; at e = 1 the columns a, Q and P are infinite and n is 0"
  },
  {
   "property": "C260",
   "status": "proved",
   "theorems": [
    "C260_groups"
   ],
   "note": "assertions are assumed to be enabled"
  },
  {
   "property": "C261",
   "status": "proved",
   "theorems": [
    "C261_frozen"
   ],
   "note": "the conversion of epochs and coordinates are parameters"
  },
  {
   "property": "C262",
   "status": "partial",
   "theorems": [
    "C262_partial",
    "C262_radii",
    "C262_refuted"
   ],
   "note": "refuted: for the Earth the distance is 0.999 times the equatorial radius. Proved: the distance is constant, 0.999 x 6378.1363 km for the Earth and 1738.1 km for the Moon, in all three frames. Exact real arithmetic; the ephemeris and the Earth-fixed rotation are parameters assumed rigid and consistent between frames"
  },
  {
   "property": "C263",
   "status": "partial",
   "theorems": [
    "C263_refuted",
    "C263_partial"
   ],
   "note": "refuted: a variant with impacts on the Moon and on the Earth is in both groups, and in the group of the Earth it still flies after it hit the Moon. Proved when the impacts of each variant are on one body"
  },
  {
   "property": "C264",
   "status": "partial",
   "theorems": [
    "C264_refuted",
    "C264_partial"
   ],
   "note": "refuted: only the variant identifier is compared, so the variant 0 of one orbit is frozen at the impact of the variant 0 of another. Proved when the variant identifiers are used by one orbit only and the impacts belong to the given variants"
  },
  {
   "property": "C265",
   "status": "partial",
   "theorems": [
    "C265_partial",
    "C265_cover",
    "C265_refuted"
   ],
   "note": "refuted for the end: rounding down to the step can leave the last epoch before last impact + time_range, and with time_range = 0 before the impact itself. Proved: the epochs are consecutive multiples of the step, the first is at most one step before first impact - time_range and never after it, the last is within one step of last impact + time_range, and with time_range >= time_step every impact lies strictly between two epochs. Exact arithmetic, also for numpy.arange"
  },
  {
   "property": "C266",
   "status": "proved",
   "theorems": [
    "C266_sorted",
    "C266_errors"
   ],
   "note": "errors of the propagator are not modelled"
  },
  {
   "property": "C267",
   "status": "proved",
   "theorems": [
    "C267_curve",
    "C267_refused"
   ],
   "note": "exact real arithmetic; the sorting algorithm is a parameter that may order equal wavelengths in any way"
  },
  {
   "property": "C268",
   "status": "partial",
   "theorems": [
    "C268_refuted",
    "C268_partial"
   ],
   "note": "refuted: throughputs above 1 are cut before the scaling, so a curve in percent becomes flat. Proved for curves between 0 and 1, where the factor is at least 1. exact real arithmetic"
  },
  {
   "property": "C269",
   "status": "partial",
   "theorems": [
    "C269_refuted",
    "C269_partial"
   ],
   "note": "refuted: of several samples at one wavelength the first one after sorting is kept. Proved for distinct wavelengths, where the sorting algorithm does not matter either. exact real arithmetic"
  },
  {
   "property": "C270",
   "status": "proved",
   "theorems": [
    "C270_rows",
    "C270_mixes"
   ],
   "note": "exact real arithmetic; no custom template named C, S, NEO or MBA is registered; the second part needs a table without NaN"
  },
  {
   "property": "C271",
   "status": "partial",
   "theorems": [
    "C271_refuted",
    "C271_partial"
   ],
   "note": "refuted: when no solar sample lies in the overlap the table has 0 and the custom template NaN. Proved when two solar samples lie where both curves are defined. exact real arithmetic"
  },
  {
   "property": "C272",
   "status": "proved",
   "theorems": [
    "C272_templates"
   ],
   "note": "exact real arithmetic"
  },
  {
   "property": "C273",
   "status": "proved",
   "theorems": [
    "C273_curves",
    "C273_default",
    "C273_units",
    "C273_integrals"
   ],
   "note": "the service and the reader of its files are parameters; exact real arithmetic"
  },
  {
   "property": "C274",
   "status": "proved",
   "theorems": [
    "C274_map",
    "C274_keys"
   ],
   "note": ""
  },
  {
   "property": "C275",
   "status": "partial",
   "theorems": [
    "C275_refuted",
    "C275_partial"
   ],
   "note": "refuted: the older query has no physical parameters, and fails with KeyError on elements without uncertainties where the newer one succeeds. Proved: whenever the older query succeeds the newer one does, with the same ids, epochs, elements, covariances, origin and frame. The parsing by astroquery is the relation belongs; exact arithmetic"
  },
  {
   "property": "C276",
   "status": "proved",
   "theorems": [
    "C276_refused",
    "C276_frames"
   ],
   "note": "exact arithmetic; the conversion to geodetic coordinates is a parameter; texts and layout of the figure are not modelled"
  },
  {
   "property": "C277",
   "status": "partial",
   "theorems": [
    "C277_levels",
    "C277_colour",
    "C277_refuted",
    "C277_partial"
   ],
   "note": "refuted: the first level of purple is darker than the second. Proved: number, positions, ranges and opacity of the levels, the colour of each level up to rounding, and that the channels do not grow from the second level on when the lightness bounds are in order. One level gives ZeroDivisionError. Exact arithmetic"
  },
  {
   "property": "C278",
   "status": "proved",
   "theorems": [
    "C278_rows",
    "C278_refused"
   ],
   "note": "proved for every ephemeris table; the conversion to heliocentric coordinates, the rescaling of times and the photometric formulas are parameters that work row by row; H and G exact"
  },
  {
   "property": "C279",
   "status": "proved",
   "theorems": [
    "C279"
   ],
   "note": "both come from the same formulas; the conversion to heliocentric coordinates, the rescaling of times and the photometric formulas are parameters that work row by row; H and G exact"
  },
  {
   "property": "C280",
   "status": "partial",
   "theorems": [
    "C280_refuted",
    "C280_partial"
   ],
   "note": "refuted: with H and G an observer given twice, or one row without aberrated coordinates, is refused. Proved: the call succeeds when parameters agree, no two observers have the same code and time, and every row has its observer in a sensible geometry; the conversion to heliocentric coordinates, the rescaling of times and the photometric formulas are parameters that work row by row; H and G exact"
  },
  {
   "property": "C281",
   "status": "proved",
   "theorems": [
    "C281"
   ],
   "note": "H and G exact"
  },
  {
   "property": "C282",
   "status": "partial",
   "theorems": [
    "C282_refuted",
    "C282_partial"
   ],
   "note": "refuted: for a row after all observers one fails with ValueError and the other with IndexError. Proved: they succeed for the same tables, with the same indices"
  },
  {
   "property": "C283",
   "status": "partial",
   "theorems": [
    "C283_refuted",
    "C283_partial"
   ],
   "note": "refuted: a chunk whose rows all have no aberrated coordinates is returned unchanged, but the whole table is refused. Proved: whenever the whole table succeeds all chunks do, with the same rows, if there were no magnitudes before; the conversion to heliocentric coordinates, the rescaling of times and the photometric formulas are parameters that work row by row; H and G exact"
  },
  {
   "property": "C284",
   "status": "proved",
   "theorems": [
    "C284",
    "C284_calls"
   ],
   "note": "an invariant of all executions; which files SPICE can load is a parameter, and kernels are only loaded and unloaded through the library"
  },
  {
   "property": "C285",
   "status": "partial",
   "theorems": [
    "C285_refuted",
    "C285_partial"
   ],
   "note": "refuted: not after one was unregistered, not after a first set-up with other kernels, and not in a process that inherits the mark of an earlier process with the same number. Proved: executions without these three, also in forked and spawned processes; which files SPICE can load is a parameter, and kernels are only loaded and unloaded through the library"
  },
  {
   "property": "C286",
   "status": "proved",
   "theorems": [
    "C286",
    "C286_retry"
   ],
   "note": "proved for every reachable process; which files SPICE can load is a parameter, and kernels are only loaded and unloaded through the library"
  },
  {
   "property": "C287",
   "status": "proved",
   "theorems": [
    "C287",
    "C287_refused",
    "C287_agrees"
   ],
   "note": "SPICE is a parameter; numbers are exact rationals; agreement with perturber states for sessions without kernel changes and epochs as in C17"
  },
  {
   "property": "C288",
   "status": "partial",
   "theorems": [
    "C288_refuted",
    "C288_partial"
   ],
   "note": "refuted: for no times the table has the frame \"unspecified\". Proved for at least one time"
  },
  {
   "property": "C289",
   "status": "proved",
   "theorems": [
    "C289"
   ],
   "note": "Ray is a parameter"
  },
  {
   "property": "C290",
   "status": "partial",
   "theorems": [
    "C290_refuted",
    "C290_partial"
   ],
   "note": "refuted: an existing cluster or an initialised Ray is used with whatever it has. Proved: without a cluster a new one is started with exactly these"
  },
  {
   "property": "C291",
   "status": "proved",
   "theorems": [
    "C291"
   ],
   "note": "real numbers, no underflow"
  },
  {
   "property": "C292",
   "status": "proved",
   "theorems": [
    "C292"
   ],
   "note": "propagator and Residuals.calculate are parameters that are linear; real numbers"
  },
  {
   "property": "C293",
   "status": "proved",
   "theorems": [
    "C293",
    "C293_unique"
   ],
   "note": "one iteration; the matrix inverse is a parameter that is right for the matrix at hand; real numbers"
  },
  {
   "property": "C294",
   "status": "proved",
   "theorems": [
    "C294"
   ],
   "note": "real numbers"
  },
  {
   "property": "C295",
   "status": "partial",
   "theorems": [
    "C295_refuted",
    "C295_partial"
   ],
   "note": "refuted: an eigenvalue of exactly minus the tolerance is neither refused nor flipped. Proved for all other matrices; real numbers, the eigenvalue decomposition is a parameter that is right"
  },
  {
   "property": "C296",
   "status": "proved",
   "theorems": [
    "C296",
    "C296_abs"
   ],
   "note": "by the decomposition of a quadratic form into squares; real numbers, the eigenvalue decomposition is a parameter that is right"
  },
  {
   "property": "C297",
   "status": "proved",
   "theorems": [
    "C297"
   ],
   "note": "real numbers, one row"
  },
  {
   "property": "C298",
   "status": "proved",
   "theorems": [
    "C298", "C298_dims"
   ],
   "note": "real numbers; C298_dims for any set of dimensions with values"
  },
  {
   "property": "C299",
   "status": "partial",
   "theorems": [
    "C299_refuted",
    "C299_partial"
   ],
   "note": "refuted: a member is repeated if two observations share its id, as the join returns one row for each. Proved, with the existence of a result, for observations with unique ids; the rows of a join and equal rows of a sort may come in any order"
  },
  {
   "property": "C300",
   "status": "proved",
   "theorems": [
    "C300",
    "C300_linkages"
   ],
   "note": "ids are integers in the order of the strings; the rows of a join and equal rows of a sort may come in any order"
  },
  {
   "property": "C301",
   "status": "proved",
   "theorems": [
    "C301"
   ],
   "note": "two members of a linkage without an observation count as having the same time; the rows of a join and equal rows of a sort may come in any order"
  }
 ]
}