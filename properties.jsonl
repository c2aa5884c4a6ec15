{"id": "C01", "title": "Adding a duration to a Timestamp is exact and keeps it normalised", "statement": "For a Timestamp whose nanos lie in [0, 1 day) and any nanosecond count the range check accepts, Timestamp.add_nanos returns the instant exactly that many nanoseconds later (days*86400e9+nanos increases by exactly the argument), with nanos again in [0, 1 day); counts outside [-1 day, +1 day) raise ValueError; the scale and the number and order of rows never change.", "quantifier": "every row (days, nanos), every integer count, every broadcast of a scalar or equal-length array", "why_tests_cant": "The carry/borrow has four boundary regimes over a 2^64-size domain; tests sample a handful of offsets.", "anchors": ["src/adam_core/time/time.py:Timestamp.add_nanos"]}
{"id": "C02", "title": "Timestamp differences are exact and invert addition", "statement": "For normalised Timestamps of one scale, difference and difference_scalar return (days, nanos) with nanos in [0, 1 day) whose total is exactly the elapsed nanoseconds, and adding that difference back to the subtrahend gives the minuend; mismatched scales or (for difference) mismatched lengths raise.", "quantifier": "every pair of normalised timestamps / equal-length columns, both signs of the difference", "why_tests_cant": "The borrow rule must be right at every sign combination and day boundary.", "anchors": ["src/adam_core/time/time.py:Timestamp.difference", "src/adam_core/time/time.py:Timestamp.difference_scalar"]}
{"id": "C03", "title": "Rounding a Timestamp truncates, is idempotent and keeps day and order", "statement": "Timestamp.rounded(p) for p in ns/us/ms/s leaves days alone, gives nanos that are a multiple of the unit, not larger than and less than one unit below the original (for non-negative nanos), is idempotent, monotone, and composes (s after us equals s); any other precision raises ValueError.", "quantifier": "every row and every pair of precisions", "why_tests_cant": "Quantifies over all nanosecond values and pairs of precisions.", "anchors": ["src/adam_core/time/time.py:Timestamp.rounded", "src/adam_core/time/time.py:Timestamp.seconds", "src/adam_core/time/time.py:Timestamp.millis", "src/adam_core/time/time.py:Timestamp.micros"]}
{"id": "C04", "title": "Timestamp equality within a precision is symmetric", "statement": "Timestamp.equals(other, precision) holds exactly when the two instants are less than one unit of the precision apart; in particular a.equals(b) and b.equals(a) agree.", "quantifier": "every pair of timestamps and every precision", "why_tests_cant": "Asymmetry shows only for particular orderings around a day boundary or offsets inside a unit.", "anchors": ["src/adam_core/time/time.py:Timestamp.equals", "src/adam_core/time/time.py:_duration_arrays_within_tolerance"]}
{"id": "C05", "title": "Timestamp.max and Timestamp.min return an extremal member", "statement": "For a non-empty normalised Timestamp column, max() (min()) is one of the rows and no row is later (earlier) in exact time.", "quantifier": "every non-empty column of any length and order, including ties on the day", "why_tests_cant": "Lexicographic extremum over arbitrary data; sizes are unbounded.", "anchors": ["src/adam_core/time/time.py:Timestamp.max", "src/adam_core/time/time.py:Timestamp.min"]}
{"id": "C06", "title": "Ephemeris time round-trips", "statement": "Timestamp.from_et(t.et()) is the same instant as t in TDB.", "quantifier": "every instant", "why_tests_cant": "A constant offset is invisible unless the pair is composed; tests exercise each direction separately.", "anchors": ["src/adam_core/time/time.py:Timestamp.et", "src/adam_core/time/time.py:Timestamp.from_et", "src/adam_core/time/time.py:Timestamp.from_mjd", "src/adam_core/time/time.py:Timestamp.from_jd"]}
{"id": "C07", "title": "Time-scale conversion round-trips and composes", "statement": "Converting a Timestamp between TT, UTC and TDB with rescale and back returns the original instant, conversions compose (a->b->c equals a->c), and an unsupported scale raises ValueError.", "quantifier": "every instant, every pair/triple of scales, every leap-second table", "why_tests_cant": "Correctness must hold at every leap-second boundary and for every table; tests use a few epochs.", "anchors": ["src/adam_core/time/time.py:Timestamp.rescale", "src/adam_core/time/time.py:Timestamp._leap_seconds_correction", "src/adam_core/time/time.py:Timestamp._tt_tdb_correction"]}
{"id": "C08", "title": "A Timestamp key identifies the instant", "statement": "Timestamp.key() gives equal values to two rows exactly when they denote the same instant, so unique()/cache lookups never merge distinct epochs.", "quantifier": "every pair of rows (days, nanos) representable in the columns", "why_tests_cant": "Collisions come from 64-bit wrap-around far outside the dates tests use.", "anchors": ["src/adam_core/time/time.py:Timestamp.key", "src/adam_core/time/time.py:Timestamp.signature"]}
{"id": "C09", "title": "Timestamp.link pairs exactly the rows with equal rounded times", "statement": "Iterating Timestamp.link(other, precision) yields each distinct rounded epoch once, with on each side exactly the rows whose rounded time (in self's scale) equals that epoch; every row of both sides appears under exactly one key.", "quantifier": "every pair of columns of any lengths, duplicates included, every precision", "why_tests_cant": "A join law over arbitrary multisets.", "anchors": ["src/adam_core/time/time.py:Timestamp.link"]}
{"id": "C10", "title": "Adding fractional days never rejects a representable offset", "statement": "Timestamp.add_fractional_days(x) succeeds for every finite x and returns the instant x days later to within a nanosecond.", "quantifier": "every timestamp and every finite fractional offset", "why_tests_cant": "The failing offsets are a sliver just below an integer.", "anchors": ["src/adam_core/time/time.py:Timestamp.add_fractional_days"]}
{"id": "C11", "title": "Packing and unpacking a numbered MPC designation are inverse", "statement": "For every integer n from 1 to 15396335, pack_numbered_designation succeeds, has the documented length, is injective, and unpack_numbered_designation returns n; every larger number raises ValueError.", "quantifier": "all 15,396,335 numbers and all larger ones", "why_tests_cant": "Three encodings with base-62 carries; tests check a few values per band.", "anchors": ["src/adam_core/utils/mpc.py:pack_numbered_designation", "src/adam_core/utils/mpc.py:unpack_numbered_designation"]}
{"id": "C12", "title": "Packing and unpacking a provisional MPC designation are inverse", "statement": "For every well-formed provisional designation 'YYYY HLn' (century letter range, half-month not I/Z, second letter not I, cycle count without leading zero up to 619), unpacking the packed form returns the same string, the packed form has seven characters, and distinct designations pack differently.", "quantifier": "all years, half-months, letters and cycle counts", "why_tests_cant": "The combined space has millions of strings; carries in the cycle digit are sparse.", "anchors": ["src/adam_core/utils/mpc.py:pack_provisional_designation", "src/adam_core/utils/mpc.py:unpack_provisional_designation"]}
{"id": "C13", "title": "Packing and unpacking a survey designation are inverse", "statement": "For every survey designation 'nnnn P-L' or 'nnnn T-1/2/3' without leading zeros, unpack_survey_designation(pack_survey_designation(d)) = d.", "quantifier": "all survey numbers and the four surveys", "why_tests_cant": "Whole-domain round trip.", "anchors": ["src/adam_core/utils/mpc.py:pack_survey_designation", "src/adam_core/utils/mpc.py:unpack_survey_designation"]}
{"id": "C14", "title": "Malformed packed designations raise ValueError", "statement": "pack_mpc_designation and unpack_mpc_designation raise ValueError (the documented exception) for every string that is not a designation, and no other exception escapes.", "quantifier": "every string", "why_tests_cant": "Arbitrary inputs; the failing ones hit table look-ups the tests never reach.", "anchors": ["src/adam_core/utils/mpc.py:unpack_mpc_designation", "src/adam_core/utils/mpc.py:pack_mpc_designation"]}
{"id": "C15", "title": "The generic pack/unpack dispatchers agree with the specific codecs", "statement": "unpack_mpc_designation(pack_mpc_designation(d)) = d for every valid numbered, provisional and survey designation: no family's packed form is claimed by an earlier branch of the dispatcher.", "quantifier": "every valid designation of the three families", "why_tests_cant": "Ambiguity between families shows up only for particular strings.", "anchors": ["src/adam_core/utils/mpc.py:unpack_mpc_designation", "src/adam_core/utils/mpc.py:pack_mpc_designation"]}
{"id": "C16", "title": "The bounded LRU cache behaves like a map with least-recently-used eviction", "statement": "After any sequence of get/put operations the cache never holds more than maxsize entries or two values for a key, a get returns the value of the latest put for that key or nothing, a key survives exactly while fewer than maxsize other distinct keys have been used since its last use, and maxsize <= 0 stores nothing.", "quantifier": "every sequence of operations, keys, values and every maxsize", "why_tests_cant": "Histories are unbounded.", "anchors": ["src/adam_core/utils/bounded_lru.py:bounded_lru_get", "src/adam_core/utils/bounded_lru.py:bounded_lru_put"]}
{"id": "C17", "title": "Cached SPICE states equal freshly computed states", "statement": "While the set of loaded kernels does not change, get_perturber_state returns for every request the state a cold cache would return, whatever requests (forward or reversed body pairs, any eviction) came before.", "quantifier": "every history of requests, every cache size, every ephemeris function antisymmetric in target/observer", "why_tests_cant": "Transparency of a cache quantifies over all histories.", "anchors": ["src/adam_core/utils/spice.py:get_perturber_state", "src/adam_core/utils/spice.py:_spkez_cache_get", "src/adam_core/utils/spice.py:_spkez_cache_put"]}
{"id": "C18", "title": "Loading or unloading a SPICE kernel takes effect on later queries", "statement": "After register_spice_kernel / unregister_spice_kernel, get_perturber_state answers from the new kernel set.", "quantifier": "every interleaving of registrations and queries", "why_tests_cant": "Staleness needs a query, then a kernel change, then the same query.", "anchors": ["src/adam_core/utils/spice.py:register_spice_kernel", "src/adam_core/utils/spice.py:unregister_spice_kernel", "src/adam_core/utils/spice.py:get_perturber_state"]}
{"id": "C19", "title": "Observer states do not depend on earlier queries", "statement": "get_mpc_observer_state / Observers.from_code return, for a given code and times, the same table (values, times and time scale) whatever was queried before.", "quantifier": "every history of observer-state queries with times in any scale", "why_tests_cant": "Needs two queries for the same instants in different scales; unit tests start cold.", "anchors": ["src/adam_core/observers/state.py:get_mpc_observer_state", "src/adam_core/observers/observers.py:Observers.from_code"]}
{"id": "C20", "title": "Cached SUN<->SSB translations equal fresh ones", "statement": "cartesian_to_origin returns the same coordinates with a warm translation cache as with a cold one, for every request history.", "quantifier": "every history of cartesian_to_origin calls, including evictions", "why_tests_cant": "Cache transparency over all histories.", "anchors": ["src/adam_core/coordinates/transform.py:cartesian_to_origin"]}
{"id": "C21", "title": "propagate_2body gives the same table for every schedule and process count", "statement": "For every completion order of the Ray tasks, every chunk size >= 1 and every max_processes, propagate_2body returns the same table, whose row i*m+j is orbit i at time j, and fails with DynamicsNumericalError exactly when some requested row has a non-finite input or output; the same for generate_ephemeris_2body over its (orbit, observer) pairs.", "quantifier": "every schedule, chunk size, process count, number of orbits and times", "why_tests_cant": "Schedules cannot be enumerated by tests.", "anchors": ["src/adam_core/dynamics/propagation.py:propagate_2body", "src/adam_core/dynamics/ephemeris.py:generate_ephemeris_2body"]}
{"id": "C22", "title": "Propagator results are independent of the schedule", "statement": "For a non-empty table of orbits with distinct (orbit_id, variant_id), Propagator.propagate_orbits and the default generate_ephemeris return the same ordered table for every task completion order, chunk size and process count: one row per orbit and epoch (observer), in the origin of the input orbit, sorted by orbit id, variant id and epoch (then observatory code).", "quantifier": "every schedule, chunk size >= 1, process count, backend that treats orbits independently, orbit table with distinct ids, list of epochs (repeats allowed)", "why_tests_cant": "Schedules cannot be enumerated by tests.", "anchors": ["src/adam_core/propagator/propagator.py:Propagator.propagate_orbits", "src/adam_core/propagator/propagator.py:EphemerisMixin.generate_ephemeris"]}
{"id": "C23", "title": "The task window loses and duplicates nothing and stays bounded", "statement": "The bounded submit/wait loop used for parallel work collects the result of every submitted task exactly once for every completion order, and never has more than ceil(1.5*max_processes) tasks in flight; detect_collisions (which submits everything at once) also collects every result exactly once.", "quantifier": "every number of tasks, process count and adversarial completion order", "why_tests_cant": "Requires quantifying over all schedules.", "anchors": ["src/adam_core/propagator/propagator.py:Propagator.propagate_orbits", "src/adam_core/dynamics/propagation.py:propagate_2body", "src/adam_core/dynamics/impacts.py:ImpactMixin.detect_collisions", "src/adam_core/dynamics/moid.py:calculate_perturber_moids"]}
{"id": "C24", "title": "detect_collisions returns the same ordered table for every schedule", "statement": "ImpactMixin.detect_collisions returns the same variants and collision events in the same order whatever order the parallel tasks finish in.", "quantifier": "every schedule", "why_tests_cant": "Single-process tests never see another order.", "anchors": ["src/adam_core/dynamics/impacts.py:ImpactMixin.detect_collisions"]}
{"id": "C25", "title": "calculate_perturber_moids returns rows in input order for every schedule", "statement": "The i-th row of calculate_perturber_moids belongs to the i-th (perturber, orbit) pair for every completion order.", "quantifier": "every schedule, chunk size, process count", "why_tests_cant": "Single-process tests never see another order.", "anchors": ["src/adam_core/dynamics/moid.py:calculate_perturber_moids"]}
{"id": "C26", "title": "Orbit-determination batches are independent of the schedule", "statement": "initial_orbit_determination and differential_correction return the same result for every completion order of their workers.", "quantifier": "every schedule and duplicate structure of the results", "why_tests_cant": "Needs two linkages fitting the same orbit, finishing in both orders.", "anchors": ["src/adam_core/orbit_determination/iod.py:initial_orbit_determination", "src/adam_core/orbit_determination/od.py:differential_correction", "src/adam_core/orbit_determination/fitted_orbits.py:drop_duplicate_orbits"]}
{"id": "C27", "title": "Per-origin translation acts row by row", "statement": "cartesian_to_origin applied to a table with mixed origins returns, in the same order, each row translated by the vector of its own origin and epoch, with the requested origin; rows already there are unchanged.", "quantifier": "every table, any mixture and order of origins", "why_tests_cant": "Masks over arbitrary mixtures.", "anchors": ["src/adam_core/coordinates/transform.py:cartesian_to_origin"]}
{"id": "C28", "title": "Time-varying rotation acts row by row", "statement": "apply_time_varying_rotation returns in input order each row rotated by the matrix of its own epoch, whatever the multiplicity and order of epochs; it raises for an empty table and for a table of several origins.", "quantifier": "every table of one origin and every epoch multiset; every rotation", "why_tests_cant": "The sort-back step must invert an arbitrary grouping permutation.", "anchors": ["src/adam_core/coordinates/transform.py:apply_time_varying_rotation"]}
{"id": "C29", "title": "Observers.from_codes is row-wise", "statement": "Row i of Observers.from_codes(codes, times) is the state of observatory codes[i] at times[i]; a length mismatch or a null code raises ValueError.", "quantifier": "every list of codes with any repetition and order", "why_tests_cant": "Permutation restoration over arbitrary groupings.", "anchors": ["src/adam_core/observers/observers.py:Observers.from_codes"]}
{"id": "C30", "title": "Propagators returning to the input origin keep one row per result", "statement": "ensure_input_origin_and_frame returns exactly one row per row of results, each in the origin of the input orbit with that id.", "quantifier": "every input table and result table", "why_tests_cant": "Needs ids repeated under different origins.", "anchors": ["src/adam_core/propagator/utils.py:ensure_input_origin_and_frame"]}
{"id": "C31", "title": "Grouping iterators partition the table", "statement": "Orbits.group_by_orbit_id, Exposures.group_by_observatory_code, Observers.iterate_codes, PointSourceDetections.group_by_healpixel and Associations.group_by_object yield groups whose concatenation is a rearrangement of the input, one group per distinct key (null included), each holding exactly the rows with that key in their original order; iterate_codes and group_by_healpixel yield in ascending key order.", "quantifier": "every table including null keys", "why_tests_cant": "Null keys and arbitrary multiplicity.", "anchors": ["src/adam_core/orbits/orbits.py:Orbits.group_by_orbit_id", "src/adam_core/observations/associations.py:Associations.group_by_object", "src/adam_core/observations/detections.py:PointSourceDetections.group_by_healpixel", "src/adam_core/observations/exposures.py:Exposures.group_by_observatory_code", "src/adam_core/observers/observers.py:Observers.iterate_codes"]}
{"id": "C32", "title": "Fixed-size chunking is lossless", "statement": "Chunked evaluation (pad the last chunk, compute row-wise, truncate) equals row-wise evaluation; the chunk iterators tile the input: non-empty consecutive chunks of at most chunk_size rows whose concatenation is the input.", "quantifier": "every input length and chunk size >= 1", "why_tests_cant": "All (N, chunk_size) residues.", "anchors": ["src/adam_core/utils/chunking.py:process_in_chunks", "src/adam_core/utils/iter.py:_iterate_chunks", "src/adam_core/utils/iter.py:_iterate_chunk_indices"]}
{"id": "C33", "title": "A validated trajectory answers every query unambiguously", "statement": "Trajectory.validate_coverage accepts exactly the tables whose windows end after they start, contain their own epoch (ends included) and do not overlap within an object; then for every object and time segment_for returns the unique segment whose half-open window contains the time, or None in a gap, and never reports overlapping segments; without an object id it raises ValueError exactly when several objects are present.", "quantifier": "every table of segments and every query time", "why_tests_cant": "Sorting, adjacency and half-open ends over arbitrary tables.", "anchors": ["src/adam_core/orbits/trajectory.py:Trajectory.validate_coverage", "src/adam_core/orbits/trajectory.py:Trajectory.segment_for"]}
{"id": "C34", "title": "A validated trajectory covers each segment's own epoch", "statement": "If validate_coverage accepts a trajectory then asking for the segment at a segment's own epoch returns that segment.", "quantifier": "every accepted trajectory", "why_tests_cant": "Edge case of an epoch equal to the window end.", "anchors": ["src/adam_core/orbits/trajectory.py:Trajectory.validate_coverage", "src/adam_core/orbits/trajectory.py:Trajectory.segment_for"]}
{"id": "C35", "title": "Orbit classes are assigned by the documented element ranges", "statement": "calc_orbit_class gives a bound orbit (outside the region a > 3.2 au with q < 1.3 au) the only class whose documented (a, e, q, Q) ranges it satisfies, and AST exactly when it satisfies none, from Keplerian and from cometary elements alike; orbits with e > 1 are HYA and with e = 1 PAA whatever their other elements.", "quantifier": "every (a, e) or (q, e) pair, exact arithmetic", "why_tests_cant": "Boundary values and overlaps over the whole plane.", "anchors": ["src/adam_core/orbits/classification.py:calc_orbit_class"]}
{"id": "C36", "title": "Assigning duplicate observations yields disjoint memberships", "statement": "After FittedOrbits.assign_duplicate_observations every observation belongs to exactly one orbit, that orbit is the best (most observations, then longest arc, then lowest reduced chi2) among those that contained it, no orbit without members remains and no member refers to a dropped orbit.", "quantifier": "every set of fitted orbits and memberships", "why_tests_cant": "Ranking and filtering over arbitrary overlap graphs.", "anchors": ["src/adam_core/orbit_determination/fitted_orbits.py:assign_duplicate_observations"]}
{"id": "C37", "title": "Reported observation counts match memberships after reassignment", "statement": "After assign_duplicate_observations each orbit's num_obs equals its number of member observations.", "quantifier": "every set of fitted orbits with shared observations", "why_tests_cant": "Needs overlapping memberships.", "anchors": ["src/adam_core/orbit_determination/fitted_orbits.py:assign_duplicate_observations"]}
{"id": "C38", "title": "Dropping duplicate orbits keeps one representative and consistent members", "statement": "drop_duplicate_orbits keeps for every distinct subset value exactly one orbit (the first / last in table order) and exactly the members of kept orbits.", "quantifier": "every table, subset of columns and keep mode", "why_tests_cant": "Arbitrary duplicate structure.", "anchors": ["src/adam_core/orbit_determination/fitted_orbits.py:drop_duplicate_orbits"]}
{"id": "C39", "title": "Outlier budgets are respected", "statement": "calculate_max_outliers (in the binary64 arithmetic the code uses) never allows removing so many observations that fewer than min_obs remain, nor more than a whole-number percentage of them; for an arbitrary percentage it exceeds the percentage at most by a relative 2^-51; other inputs raise AssertionError.", "quantifier": "every observation count up to 2^40 (2^53), every minimum and every percentage", "why_tests_cant": "Truncation of a rounded product; boundary percentages.", "anchors": ["src/adam_core/orbit_determination/outliers.py:calculate_max_outliers"]}
{"id": "C40", "title": "Removing the worst observation removes exactly one member", "statement": "remove_lowest_probability_observation returns the id of an observation with the smallest residual probability and a table with exactly that observation removed; every other observation stays.", "quantifier": "every fitted-orbit membership and observation table", "why_tests_cant": "Ties and observations outside the membership.", "anchors": ["src/adam_core/orbit_determination/outliers.py:remove_lowest_probability_observation"]}
{"id": "C41", "title": "A returned differential correction satisfies its acceptance criteria", "statement": "If od() returns an orbit then its reported reduced chi2 is chi2/(2 num_obs - 6) of the observations it uses and at most the threshold; it uses at least min_obs observations spanning at least min_arc_length; the removed observations are distinct, at most the allowed number, and have the highest chi2 with respect to the input orbit; num_obs, chi2, arc_length are those of the used observations; the loop ends after at most max_iter*(max_outliers+1) iterations; fewer than min_obs observations give an empty result.", "quantifier": "every residual/derivative/solver oracle, observation table with distinct ids and non-negative max_iter", "why_tests_cant": "The loop's behaviour depends on every possible residual sequence.", "anchors": ["src/adam_core/orbit_determination/od.py:od"]}
{"id": "C42", "title": "Normal equations use matching rows for derivatives, weights and residuals", "statement": "In every iteration of od(), the n-th block of partial derivatives, weights and residuals entering the normal equations belong to the same, currently used observation.", "quantifier": "every outlier pattern", "why_tests_cant": "Misalignment appears only after an outlier has been removed.", "anchors": ["src/adam_core/orbit_determination/od.py:od"]}
{"id": "C43", "title": "iod returns an empty result, not an exception, for short linkages", "statement": "iod() on a linkage with fewer than min_obs observations returns empty tables, as for any linkage without a solution, so one short linkage does not abort a batch.", "quantifier": "every linkage size and parameter set", "why_tests_cant": "Needs the exact parameter combination that trips the assertion.", "anchors": ["src/adam_core/orbit_determination/iod.py:iod", "src/adam_core/orbit_determination/outliers.py:calculate_max_outliers"]}
{"id": "C44", "title": "A returned initial orbit satisfies its acceptance criteria", "statement": "If iod() returns an orbit, its reported reduced chi2 is at most the threshold, its chi2 is that of the non-outlier observations, it has at most max_outliers outliers (none of them among the three observations it was computed from), at least min_obs non-outliers, and when outliers were removed the rest spans at least min_arc_length; with min_obs at least four the true reduced chi2 of the non-outliers is at most the threshold.", "quantifier": "every candidate-orbit sequence and chi2 oracle", "why_tests_cant": "Depends on the history of rejected and accepted candidates.", "anchors": ["src/adam_core/orbit_determination/iod.py:iod"]}
{"id": "C45", "title": "Selected IOD triples are usable", "statement": "select_observations returns only triples of observations with three distinct times, drawn from the input; nothing for fewer than three observations; ValueError for unknown methods otherwise; 'combinations' returns every such triple exactly once, longest arc first and then by closeness of the middle observation to the middle of the arc; 'first+middle+last' returns at most one triple, in time order, starting at the earliest and ending at the latest time.", "quantifier": "every observation table and method", "why_tests_cant": "Combinatorial selection over arbitrary times.", "anchors": ["src/adam_core/orbit_determination/iod.py:select_observations"]}
{"id": "C46", "title": "Least squares never returns a worse orbit", "statement": "LeastSquares.least_squares returns an orbit whose RMS is not larger than the starting orbit's (strictly smaller unless it is the starting orbit itself) and performs at most max_iterations iterations.", "quantifier": "every residual oracle and iteration history", "why_tests_cant": "Depends on the whole sequence of trial RMS values.", "anchors": ["src/adam_core/orbit_determination/least_squares.py:LeastSquares.least_squares"]}
{"id": "C47", "title": "evaluate_orbits compares each observation with its own prediction", "statement": "evaluate_orbits returns, for each orbit and observation, the residual between that observation and that orbit's predicted position at that observation's time, whatever the input order.", "quantifier": "every order of observations and orbits", "why_tests_cant": "Sorted test data hides the dependence on order.", "anchors": ["src/adam_core/orbit_determination/evaluate.py:evaluate_orbits"]}
{"id": "C48", "title": "Longitude residuals are wrapped correctly", "statement": "bound_longitude_residuals returns, for longitudes in [0, 360] and binary64 arithmetic, residuals in [-180, 180] whose size is the angular distance on the circle up to 2^-45 degrees, with the sign of (observed - predicted).", "quantifier": "every pair of longitudes in [0, 360]", "why_tests_cant": "All quadrant combinations including the seam.", "anchors": ["src/adam_core/coordinates/residuals.py:bound_longitude_residuals"]}
{"id": "C49", "title": "Residuals.calculate rejects coordinates with different origins", "statement": "Residuals.calculate raises ValueError whenever some observed row and its predicted row have different origins.", "quantifier": "every pair of tables", "why_tests_cant": "Needs a partially matching origin column.", "anchors": ["src/adam_core/coordinates/residuals.py:Residuals.calculate"]}
{"id": "C50", "title": "Residual degrees of freedom and batching are row-wise", "statement": "Residuals.calculate returns for every row what it returns for that row on its own (residual vector, chi2, probability, degrees of freedom); for non-spherical coordinates the residual is observed minus predicted in each dimension, the degrees of freedom are the number of observed dimensions and chi2 belongs to exactly those dimensions of the combined covariance, independent of how rows are batched by missing-value pattern.", "quantifier": "every mixture of missing-value patterns", "why_tests_cant": "2^6 patterns in arbitrary order and multiplicity.", "anchors": ["src/adam_core/coordinates/residuals.py:Residuals.calculate"]}
{"id": "C51", "title": "Covariances survive the lower-triangle serialisation", "statement": "Writing a symmetric covariance as its lower triangle and reading it back returns the same symmetric matrix.", "quantifier": "every symmetric 6x6 matrix", "why_tests_cant": "Index arithmetic over all entries; tests may use diagonal matrices.", "anchors": ["src/adam_core/coordinates/covariances.py:_lower_triangular_to_full", "src/adam_core/orbits/oem_io.py"]}
{"id": "C52", "title": "Sigma-point variants reproduce the mean and covariance", "statement": "The weighted mean and weighted covariance of the sigma points created from a mean and covariance are exactly that mean and covariance; mean weights sum to one.", "quantifier": "every mean, covariance with a matrix square root, and every alpha, beta, kappa allowed", "why_tests_cant": "Identity over a continuum of matrices and parameters.", "anchors": ["src/adam_core/coordinates/covariances.py:sample_covariance_sigma_points", "src/adam_core/coordinates/covariances.py:weighted_mean", "src/adam_core/coordinates/covariances.py:weighted_covariance"]}
{"id": "C53", "title": "Collapsing variants uses exactly each orbit's own variants", "statement": "VariantOrbits.collapse returns for each input orbit the weighted statistics of exactly the variants with its id and epoch, in input order.", "quantifier": "every table of orbits and variants", "why_tests_cant": "Epoch keys are rounded; needs near-simultaneous epochs.", "anchors": ["src/adam_core/orbits/variants.py:VariantOrbits.collapse", "src/adam_core/orbits/variants.py:VariantOrbits.link_to_orbits"]}
{"id": "C54", "title": "Collapsing ephemeris variants separates observatories", "statement": "VariantEphemeris.collapse computes each row's statistics from the variants seen from the same observatory at the same time only.", "quantifier": "every ephemeris with simultaneous observations from several observatories", "why_tests_cant": "Needs two observatories with the same epoch.", "anchors": ["src/adam_core/orbits/variants.py:VariantEphemeris.collapse"]}
{"id": "C55", "title": "Random variant sampling honours the seed", "statement": "create_coordinate_variants with a given seed returns the same variants each time for every method, including 'auto'.", "quantifier": "every method, seed and covariance", "why_tests_cant": "The seed is only lost on the automatic path.", "anchors": ["src/adam_core/coordinates/variants.py:create_coordinate_variants"]}
{"id": "C56", "title": "OEM frame and centre names round-trip", "statement": "Every frame and origin adam_core can write to an OEM file is read back as the same frame and origin; unsupported ones raise ValueError.", "quantifier": "every frame and origin code", "why_tests_cant": "Two hand-written tables must be mutually inverse.", "anchors": ["src/adam_core/orbits/oem_io.py"]}
{"id": "C57", "title": "OEM export labels every state with its own centre", "statement": "orbit_to_oem never labels a state with a centre other than its own origin: mixed origins are rejected.", "quantifier": "every propagated table", "why_tests_cant": "Needs a table with mixed origins.", "anchors": ["src/adam_core/orbits/oem_io.py:orbit_to_oem"]}
{"id": "C58", "title": "SPK type-3 windows tile the span", "statement": "The windows written for a segment run from its first to its last epoch without gaps or overlaps, and the record SPICE picks for any time of the segment is a window that contains that time.", "quantifier": "every start, end and window length", "why_tests_cant": "The last partial window only occurs for non-multiple spans.", "anchors": ["src/adam_core/orbits/spice_kernel.py:write_spkw03_segment", "src/adam_core/orbits/spice_kernel.py:fit_chebyshev"]}
{"id": "C59", "title": "ADES text round-trips observations", "statement": "Writing observations with ADES_to_string and parsing with ADES_string_to_tables returns every observation with the same identifiers, station, text fields, and numbers to the printed decimals; missing values stay missing and no written file is unreadable.", "quantifier": "every observation table, any remarks text and missing-value pattern", "why_tests_cant": "Header detection and null handling depend on arbitrary content.", "anchors": ["src/adam_core/observations/ades.py:ADES_to_string", "src/adam_core/observations/ades.py:ADES_string_to_tables"]}
{"id": "C60", "title": "ADES header contexts round-trip", "statement": "Every ObsContext written by ADES_to_string and parsed back by ADES_string_to_tables equals the original.", "quantifier": "every ObsContext", "why_tests_cant": "Optional fields in all combinations.", "anchors": ["src/adam_core/observations/ades.py:ObsContext.to_string", "src/adam_core/observations/ades.py:_build_obs_context"]}
{"id": "C61", "title": "Parsing MPC 80-column dates is exact", "statement": "parse_optical_obs80 maps the decimal date to the MJD day of that calendar date and the nearest nanosecond of the fraction, for every valid calendar date; impossible dates are rejected.", "quantifier": "every year, month, day and fraction representable in the columns", "why_tests_cant": "Calendar arithmetic over all dates, leap years and carries.", "anchors": ["src/adam_core/observations/obs80.py:_parse_obstime"]}
{"id": "C62", "title": "The MPC 80-column parser only raises its documented error", "statement": "parse_optical_obs80 raises Obs80ParseError for every malformed line, so the non-strict file parser skips exactly the bad lines, in order, and never aborts.", "quantifier": "every 80-column line", "why_tests_cant": "Arbitrary text; special numerals such as NaN or Infinity.", "anchors": ["src/adam_core/observations/obs80.py:parse_optical_obs80"]}
{"id": "C63", "title": "Impact probabilities lie between zero and one", "statement": "calculate_impact_probabilities returns for every orbit and condition (number of variants that impact)/(number of variants), a number in [0, 1].", "quantifier": "every table of variants and events", "why_tests_cant": "Several events per variant.", "anchors": ["src/adam_core/dynamics/impacts.py:calculate_impact_probabilities"]}
{"id": "C64", "title": "Impacts found with default conditions are counted with default conditions", "statement": "Impacts detected with the default conditions of detect_collisions are counted by calculate_impact_probabilities with its default conditions.", "quantifier": "every detection result", "why_tests_cant": "The two defaults live in different functions; tests pass conditions explicitly.", "anchors": ["src/adam_core/dynamics/impacts.py:ImpactMixin.detect_collisions", "src/adam_core/dynamics/impacts.py:calculate_impact_probabilities"]}
{"id": "C65", "title": "Cartesian and spherical coordinates round-trip", "statement": "Converting a Cartesian state to spherical and back returns the same position and velocity for every state off the polar axis, and rho >= 0, lat in [-90, 90], lon in [0, 360).", "quantifier": "every state with x^2+y^2 > 0 (real arithmetic)", "why_tests_cant": "A continuum of states and all quadrants.", "anchors": ["src/adam_core/coordinates/transform.py:_cartesian_to_spherical", "src/adam_core/coordinates/transform.py:_spherical_to_cartesian"]}
{"id": "C66", "title": "Two-body propagation conserves angular momentum", "statement": "When the universal Kepler iteration ends at the root, the Lagrange coefficients satisfy f*gdot - fdot*g = 1 and the propagated state keeps the angular momentum, the energy and the eccentricity vector of the initial state; when it ends with a small last correction, f*gdot - fdot*g is as close to 1 as the correction is small.", "quantifier": "every state and universal anomaly (real arithmetic)", "why_tests_cant": "An identity over all orbits, elliptic to hyperbolic.", "anchors": ["src/adam_core/dynamics/lagrange.py:calc_lagrange_coefficients", "src/adam_core/dynamics/chi.py:calc_chi", "src/adam_core/dynamics/stumpff.py:calc_stumpff"]}
{"id": "C67", "title": "Parabolic mean anomaly conversion is consistent", "statement": "Solving Barker's equation for a given parabolic mean anomaly and converting the true anomaly back gives the same mean anomaly.", "quantifier": "every mean anomaly (real arithmetic)", "why_tests_cant": "A real identity; a constant factor cancels in one-directional tests.", "anchors": ["src/adam_core/dynamics/barker.py:solve_barker", "src/adam_core/dynamics/kepler.py:_calc_parabolic_anomalies"]}
{"id": "C68", "title": "Hyperbolic anomalies round-trip", "statement": "Converting true to mean anomaly on a hyperbolic orbit and back returns the same true anomaly, inbound and outbound.", "quantifier": "every hyperbolic eccentricity and anomaly (real arithmetic)", "why_tests_cant": "Sign handling for inbound legs.", "anchors": ["src/adam_core/dynamics/kepler.py:calc_mean_anomaly", "src/adam_core/dynamics/kepler.py:solve_kepler"]}
{"id": "C69", "title": "Light-time correction solves the light-time equation", "statement": "When add_light_time reports a finite light time l, the returned state is the original orbit at (t - l), and for every orbit slower than light l differs from distance/c of that state by at most lt_tol. For a body that follows Newton's law no faster than beta times the speed of light, the true light time is found to beta*lt_tol/(1-beta), and a finite light time is reported whenever beta^(j+1)*distance/c <= lt_tol for some j with j+3 <= max_lt_iter.", "quantifier": "every orbit, observer position, epoch, tolerance and iteration limit (real arithmetic)", "why_tests_cant": "Fixed-point iteration over arbitrary orbits.", "anchors": ["src/adam_core/dynamics/aberrations.py:_add_light_time"]}
{"id": "C70", "title": "Gauss slant ranges satisfy the coplanarity equations", "statement": "The slant ranges computed by the Gauss method place the three positions so that lambda1*r1 - r2 + lambda3*r3 = 0 exactly, for every non-degenerate geometry.", "quantifier": "every three observers and lines of sight with non-zero triple product (real arithmetic)", "why_tests_cant": "Vector identity over a continuum.", "anchors": ["src/adam_core/orbit_determination/gauss.py:_calcRhos"]}
{"id": "C71", "title": "Magnitude conversion between filters is consistent", "statement": "Every magnitude convert_magnitude reports is the input for equal source and target filters, comes back when converted back, and equals the direct conversion when converted through a third filter, row by row and whatever calls were made in between; for a composition not converted with before the shift is the one bandpass_delta_mag gives; C/S mixes depend only on the ratio of their weights; wrong lengths, missing or unknown filters and invalid compositions raise ValueError and change nothing.", "quantifier": "every magnitude, filter triple, composition, set of curves and history of calls (real arithmetic)", "why_tests_cant": "Holds for all tables and compositions.", "anchors": ["src/adam_core/photometry/magnitude.py:convert_magnitude"]}
{"id": "C72", "title": "Estimating H inverts predicting magnitudes", "statement": "If detections carry exactly the magnitudes predict_magnitudes gives for an absolute magnitude H, estimate_absolute_magnitude_v_from_detections returns H; in general the estimate lies between the smallest and largest per-row value and, with sigmas, minimises the weighted squares with the reported reduced chi-square; the grouped variant reports, once per object and in order of ids, what the single call reports for the rows of that object, and leaves out objects whose single call fails.", "quantifier": "every geometry, sigmas, history of photometry calls and grouping (real arithmetic)", "why_tests_cant": "Inverse law over all data and groupings.", "anchors": ["src/adam_core/photometry/absolute_magnitude.py:_fit_absolute_magnitude_rows", "src/adam_core/photometry/absolute_magnitude.py:estimate_absolute_magnitude_v_from_detections_grouped"]}
{"id": "C73", "title": "Band mapping is sound and row-wise", "statement": "map_to_canonical_filter_bands works row by row, returns only filters with curves, returns canonical ids unchanged, uses the table entry of the observatory and band where there is one, uses the generic fallback only when allowed, and reports missing bands as the mode asks.", "quantifier": "every list of observatory codes and bands, every mapping table", "why_tests_cant": "Interactions of three rules and two flags over arbitrary rows.", "anchors": ["src/adam_core/photometry/bandpasses/api.py:map_to_canonical_filter_bands"]}
{"id": "C74", "title": "Re-registering a custom template takes effect", "statement": "After register_custom_template replaces a template, convert_magnitude and predict_magnitudes use the new reflectance.", "quantifier": "every history of registrations and conversions", "why_tests_cant": "Needs use, re-registration, reuse.", "anchors": ["src/adam_core/photometry/bandpasses/api.py:register_custom_template", "src/adam_core/photometry/magnitude_common.py:bandpass_delta_table_for_composition_cached"]}
{"id": "C75", "title": "The MOID search measures distance to points of the ellipse", "statement": "coplanar_distance_to_ellipse(P, ellipse, u) is the distance from P to a point of that ellipse for every angle u.", "quantifier": "every ellipse and angle (real arithmetic)", "why_tests_cant": "Circular test orbits hide the inconsistency.", "anchors": ["src/adam_core/dynamics/moid.py:coplanar_distance_to_ellipse"]}
{"id": "C76", "title": "Lambert velocities describe one orbit", "statement": "Whenever the Lambert solver returns velocities, the state at departure and the state at arrival have the same angular momentum vector, the same specific energy and the same eccentricity vector, whether or not the iteration converged.", "quantifier": "every pair of positions not in exactly opposite directions, time of flight, mu, number of revolutions, sense, path, tolerance and iteration limit (real arithmetic)", "why_tests_cant": "An identity over a continuum of geometries and iterates.", "anchors": ["src/adam_core/dynamics/lambert.py:izzo_lambert", "src/adam_core/dynamics/lambert.py:solve_lambert"]}
{"id": "C77", "title": "Unit conversions are inverse and linear", "statement": "au<->km, au/d<->km/s and their covariance counterparts are mutually inverse and the covariance conversion is the one induced by the value conversion.", "quantifier": "every value and covariance matrix (real arithmetic)", "why_tests_cant": "Constant factors over a continuum; one wrong exponent in a block.", "anchors": ["src/adam_core/coordinates/units.py"]}
{"id": "C78", "title": "Rotating between frames and back is the identity", "statement": "Transforming complete coordinates ecliptic -> equatorial -> ecliptic (and the other way round) returns the same state and frame, returns every element of a complete covariance to 3e-25, and keeps distances and speeds; the same frame is the identity and an unknown frame raises ValueError.", "quantifier": "every complete state and covariance (real arithmetic)", "why_tests_cant": "Identity over a continuum.", "anchors": ["src/adam_core/coordinates/transform.py:cartesian_to_frame", "src/adam_core/coordinates/cartesian.py:CartesianCoordinates.rotate"]}
{"id": "C79", "title": "Geodetic latitude is converged", "statement": "cartesian_to_geodetic returns latitude and height that reproduce the input position through the ellipsoid formula.", "quantifier": "every position (real arithmetic)", "why_tests_cant": "A non-iterating fixed-point loop passes loose tolerance tests near the surface.", "anchors": ["src/adam_core/coordinates/transform.py:_cartesian_to_geodetic"]}
{"id": "C80", "title": "Two-body propagation keeps the coordinate frame label truthful", "statement": "propagate_2body returns states labelled with the frame in which they are expressed.", "quantifier": "every input frame", "why_tests_cant": "Tests use ecliptic input only.", "anchors": ["src/adam_core/dynamics/propagation.py:propagate_2body"]}
{"id": "C81", "title": "Linking ephemeris and detections to observers/exposures pairs matching rows", "statement": "Ephemeris.link_to_observers(observers, precision) pairs ephemeris row i with observer row j exactly when the observatory codes agree and the epochs (observers rescaled to the ephemeris scale) truncate to the same value at the precision; PointSourceDetections.link_to_exposures pairs exactly the rows with equal exposure id.", "quantifier": "every pair of tables", "why_tests_cant": "Join law over arbitrary multisets.", "anchors": ["src/adam_core/orbits/ephemeris.py:Ephemeris.link_to_observers", "src/adam_core/observations/detections.py:PointSourceDetections.link_to_exposures"]}
{"id": "C82", "title": "add_seconds, add_millis and add_micros add exactly that many units or raise", "statement": "For every integer count, add_seconds / add_millis / add_micros either return the instant exactly that many units later or raise; they never return another instant.", "quantifier": "every integer count (scalar or array) and every timestamp", "why_tests_cant": "The unit multiplication is unchecked int64; only counts near 2^64/1e9 wrap back into the accepted range.", "anchors": ["src/adam_core/time/time.py:Timestamp.add_seconds", "src/adam_core/time/time.py:Timestamp.add_millis", "src/adam_core/time/time.py:Timestamp.add_micros"]}
{"id": "C83", "title": "from_mjd returns normalised times", "statement": "Timestamp.from_mjd returns nanos in [0, 1 day) for every MJD.", "quantifier": "every MJD value", "why_tests_cant": "Needs a value within half a nanosecond below an integer day.", "anchors": ["src/adam_core/time/time.py:Timestamp.from_mjd"]}
{"id": "C84", "title": "UTC to TAI adds the tabulated TAI-UTC offset", "statement": "Converting a UTC Timestamp to TAI adds exactly the TAI-UTC offset the leap-second table gives for that UTC day.", "quantifier": "every UTC instant, leap-second days included, every leap-second table", "why_tests_cant": "Tests contain no leap-second day; the error only shows in the afternoon of such a day.", "anchors": ["src/adam_core/time/time.py:Timestamp.rescale", "src/adam_core/time/time.py:Timestamp._leap_seconds_correction"]}
{"id": "C85", "title": "TAI, TT and UTC->TAI->UTC conversions round-trip exactly", "statement": "rescale between TAI and TT adds or removes exactly 32.184 s and is undone exactly by the reverse conversion; UTC->TAI->UTC returns the original rows for every leap-second table with daily steps 0 or +1, leap-second days included; rescaling to the same scale is the identity.", "quantifier": "every normalised timestamp column, every such table", "why_tests_cant": "Noon of a leap-second day and carries over midnight are measure-zero cases.", "anchors": ["src/adam_core/time/time.py:Timestamp.rescale"]}
{"id": "C86", "title": "MJD and JD conversions are inverse", "statement": "from_mjd(t.mjd()) and from_jd(t.jd()) return t (exact arithmetic), and from_mjd(q).mjd() is within half a nanosecond of q.", "quantifier": "every normalised row; every rational MJD", "why_tests_cant": "Round-half-even and floor interact for every fraction of a day.", "anchors": ["src/adam_core/time/time.py:Timestamp.from_mjd", "src/adam_core/time/time.py:Timestamp.mjd", "src/adam_core/time/time.py:Timestamp.from_jd", "src/adam_core/time/time.py:Timestamp.jd"]}
{"id": "C87", "title": "Packed MPC dates decode to the date and time of day they encode", "statement": "For every packed date (century letter, two-digit year, month and day character, optional digits of a day fraction), convert_mpc_packed_dates produces the encoded year, month and day, and hours 0..23, minutes 0..59 and seconds in [0,60) that add up exactly to the day fraction.", "quantifier": "all packed dates with any number of fraction digits", "why_tests_cant": "Truncations of fractions interact; a test checks a few dates.", "anchors": ["src/adam_core/utils/mpc.py:_unpack_mpc_date", "src/adam_core/utils/mpc.py:convert_mpc_packed_dates"]}
{"id": "C88", "title": "Numerical failures are reported for the row that failed", "statement": "When propagate_2body or generate_ephemeris_2body meets a non-finite row it raises DynamicsNumericalError, and the row index and orbit id in the error belong to a non-finite row; otherwise it raises nothing.", "quantifier": "every table size and every pattern of non-finite entries", "why_tests_cant": "Tests use one-row tables, where the first entry of row 0 is the only case in which the reported index is right.", "anchors": ["src/adam_core/dynamics/propagation.py:_first_non_finite_row", "src/adam_core/dynamics/ephemeris.py:_first_non_finite", "src/adam_core/dynamics/ephemeris.py:generate_ephemeris_2body"]}
{"id": "C89", "title": "detect_collisions uses the settings of the propagator it is called on", "statement": "The events detect_collisions reports are those of the propagator instance it is called on, for every max_processes.", "quantifier": "every propagator configuration, orbit table and process count", "why_tests_cant": "Tests use default-constructed propagators, so the configuration is never observable.", "anchors": ["src/adam_core/dynamics/impacts.py:impact_worker_ray", "src/adam_core/dynamics/impacts.py:ImpactMixin.detect_collisions"]}
{"id": "C90", "title": "Ephemeris rows pair each state with the observer of its own epoch", "statement": "The default ephemeris generator combines every propagated state with the observer of the same epoch, and every (orbit, observer) pair appears exactly once, for orbit tables with distinct ids and observers in any order.", "quantifier": "every orbit table with distinct ids, every list of observers (repeated epochs, any order)", "why_tests_cant": "The pairing rests on two independent sorts and a tiling agreeing for every input order.", "anchors": ["src/adam_core/propagator/propagator.py:EphemerisMixin._generate_ephemeris", "src/adam_core/propagator/propagator.py:Propagator.propagate_orbits"]}
{"id": "C91", "title": "Propagators handle orbit tables with repeated ids and empty tables", "statement": "propagate_orbits and generate_ephemeris give schedule-independent order and correct observer pairing also when an orbit id occurs on several rows, and an empty orbit table gives an empty result (or one kind of error) in serial and parallel mode.", "quantifier": "every orbit table, with or without repeated ids", "why_tests_cant": "Needs ids repeated across chunks together with unlucky completion orders.", "anchors": ["src/adam_core/propagator/propagator.py:Propagator.propagate_orbits", "src/adam_core/propagator/propagator.py:EphemerisMixin._generate_ephemeris"]}
{"id": "C92", "title": "group_by_exposure loses no detection", "statement": "PointSourceDetections.group_by_exposure yields every detection in exactly one group, also detections whose exposure id is null.", "quantifier": "every detection table", "why_tests_cant": "Null exposure ids are legal but rare in tests.", "anchors": ["src/adam_core/observations/detections.py:PointSourceDetections.group_by_exposure"]}
{"id": "C93", "title": "link_to_observers warns when the precision merges observers and links epochs within the precision", "statement": "Ephemeris.link_to_observers warns whenever the chosen precision merges different observers, and links an ephemeris row to its observer when their epochs differ by less than the precision.", "quantifier": "every pair of tables and every precision", "why_tests_cant": "The warning compares two counts that can agree by coincidence, and truncation boundaries are hit only by particular nanosecond values.", "anchors": ["src/adam_core/orbits/ephemeris.py:Ephemeris.link_to_observers"]}
{"id": "C94", "title": "Exposures.observers is row-wise", "statement": "Row i of Exposures.observers() is the state of exposure i's observatory at exposure i's midpoint, whatever the order and repetition of observatory codes.", "quantifier": "every non-empty exposure table", "why_tests_cant": "Permutation restoration over arbitrary groupings.", "anchors": ["src/adam_core/observations/exposures.py:Exposures.observers"]}
{"id": "C95", "title": "Near-Earth orbits are classified as near-Earth", "statement": "calc_orbit_class labels an orbit satisfying the documented ranges of a near-Earth class (AMO, APO, ATE, IEO) with that class.", "quantifier": "every bound orbit", "why_tests_cant": "Overlapping class ranges are resolved by dictionary order.", "anchors": ["src/adam_core/orbits/classification.py:calc_orbit_class"]}
{"id": "C96", "title": "The outlier budget is the largest number within the percentage", "statement": "calculate_max_outliers returns min(floor(num_obs * percentage / 100), num_obs - min_obs).", "quantifier": "every observation count, minimum and binary64 percentage", "why_tests_cant": "rounding of percentage/100 and of the product lands on either side of an integer only for particular pairs; a test samples a few of them", "anchors": ["src/adam_core/orbit_determination/outliers.py:calculate_max_outliers"]}
{"id": "C97", "title": "Accepted orbits have a chi2 within threshold times degrees of freedom", "statement": "When od() accepts an orbit, its chi2 is at most the reduced chi2 threshold times the (positive) number of degrees of freedom.", "quantifier": "every problem and parameter set", "why_tests_cant": "The sign of the degrees of freedom matters only for very small linkages, where the quotient flips sign.", "anchors": ["src/adam_core/orbit_determination/od.py:od"]}
{"id": "C98", "title": "od always terminates", "statement": "od() terminates for every value of max_iter.", "quantifier": "every parameter set and solver behaviour", "why_tests_cant": "Non-termination cannot be observed by a finite test; the counter is compared by equality.", "anchors": ["src/adam_core/orbit_determination/od.py:od"]}
{"id": "C99", "title": "iod reports num_obs and arc_length of the accepted orbit", "statement": "The num_obs and arc_length reported by iod() are those of the returned orbit's non-outlier observations, and the arc is at least min_arc_length.", "quantifier": "every sequence of candidate orbits", "why_tests_cant": "State left over from an earlier candidate of the same triple only shows for particular chi2 sequences.", "anchors": ["src/adam_core/orbit_determination/iod.py:iod"]}
{"id": "C100", "title": "least_squares returns None exactly when there was no improvement", "statement": "LeastSquares.least_squares returns None exactly when it found no orbit better than the input.", "quantifier": "every residual oracle and iteration history", "why_tests_cant": "Depends on the whole history of trial RMS values and step reductions.", "anchors": ["src/adam_core/orbit_determination/least_squares.py:LeastSquares.least_squares"]}
{"id": "C101", "title": "Longitude residuals point from the prediction to the observation", "statement": "Adding the longitude residual to the predicted longitude gives the observed direction.", "quantifier": "every pair of longitudes", "why_tests_cant": "Only pairs on different sides of 0/360 show a wrong sign, and chi2 with a diagonal covariance hides it.", "anchors": ["src/adam_core/coordinates/residuals.py:bound_longitude_residuals"]}
{"id": "C102", "title": "Rows without covariance do not affect other rows' residuals", "statement": "If Residuals.calculate succeeds for every row on its own, it succeeds for the whole table.", "quantifier": "every mixture of rows with and without covariances", "why_tests_cant": "Depends on which rows share a missing-value pattern in one batch.", "anchors": ["src/adam_core/coordinates/residuals.py:Residuals.calculate", "src/adam_core/coordinates/residuals.py:_batch_coords_and_covariances"]}
{"id": "C103", "title": "A single Monte Carlo sample can be drawn", "statement": "create_coordinate_variants with method 'monte-carlo' and num_samples = n >= 1 returns n variants per row.", "quantifier": "every n and table", "why_tests_cant": "The boundary n = 1 takes a different shape inside the sampling library.", "anchors": ["src/adam_core/coordinates/variants.py:create_coordinate_variants", "src/adam_core/coordinates/covariances.py:sample_covariance_random"]}
{"id": "C104", "title": "Collapsing an orbit without variants leaves its covariance missing", "statement": "VariantOrbits.collapse and VariantEphemeris.collapse do not report a zero covariance unless all linked variants coincide with the orbit.", "quantifier": "every table of orbits and variants", "why_tests_cant": "An empty selection yields a plausible zero matrix, not an error.", "anchors": ["src/adam_core/orbits/variants.py:VariantOrbits.collapse", "src/adam_core/orbits/variants.py:VariantEphemeris.collapse"]}
{"id": "C105", "title": "Collapsed ephemerides treat longitude as an angle", "statement": "The longitude variance VariantEphemeris.collapse reports is the spread of the variants' shortest angular offsets from the mean.", "quantifier": "every ephemeris and variants", "why_tests_cant": "Only wrong for ephemerides within their uncertainty of 0/360.", "anchors": ["src/adam_core/orbits/variants.py:VariantEphemeris.collapse", "src/adam_core/coordinates/covariances.py:weighted_covariance"]}
{"id": "C106", "title": "Collapsing by object id reproduces the sigma-point covariance", "statement": "VariantEphemeris.collapse_by_object_id applied to the sigma points of a mean and covariance returns that mean and covariance for every alpha, beta, kappa.", "quantifier": "every mean, covariance, alpha, beta, kappa", "why_tests_cant": "The weights' normalisation cancels for the default parameters.", "anchors": ["src/adam_core/orbits/variants.py:VariantEphemeris.collapse_by_object_id", "src/adam_core/coordinates/covariances.py:sample_covariance_sigma_points"]}
{"id": "C107", "title": "Covariances built from sigmas are diagonal and symmetric", "statement": "sigmas_to_covariances / CoordinateCovariances.from_sigmas gives a symmetric matrix with the squared sigmas on the diagonal and no other information, also when some sigmas are missing.", "quantifier": "every vector of sigmas with any missing entries", "why_tests_cant": "NaN times zero leaks into off-diagonal entries only for partially missing sigmas.", "anchors": ["src/adam_core/coordinates/covariances.py:sigmas_to_covariances"]}
{"id": "C108", "title": "Upper-triangle covariances are unpacked faithfully", "statement": "Unpacking an upper triangle of 21 values (or 28 with an extra parameter, as in NEOCC OEF files) gives the symmetric 6x6 matrix with exactly those entries; other lengths are rejected.", "quantifier": "every list of values of any length", "why_tests_cant": "Index arithmetic has to be right for all positions and both layouts.", "anchors": ["src/adam_core/coordinates/covariances.py:_upper_triangular_to_full", "src/adam_core/orbits/query/neocc.py:_upper_triangular_to_full"]}
{"id": "C109", "title": "Impact probability rows match the events they summarise", "statement": "calculate_impact_probabilities returns one row per orbit and condition, in order of first appearance; its counts are the numbers of matching events and variants, the minimum and maximum times are times of matching events that bound all of them, the mean lies between them, and all times are missing when there is no event.", "quantifier": "every table of variants and events, every list of conditions", "why_tests_cant": "Selections by orbit and condition over arbitrary tables.", "anchors": ["src/adam_core/dynamics/impacts.py:calculate_impact_probabilities"]}
{"id": "C110", "title": "Impact probabilities can be computed for every input", "statement": "calculate_impact_probabilities returns a table for every table of variants and events, also when there are no variants or the events are in another time scale.", "quantifier": "every table of variants and events", "why_tests_cant": "Only empty inputs or mixed time scales with and without events fail.", "anchors": ["src/adam_core/dynamics/impacts.py:calculate_impact_probabilities"]}
{"id": "C111", "title": "OEM files round-trip orbits", "statement": "Writing orbits of one object with orbit_to_oem (or orbit_to_oem_propagated) and reading the file with orbit_from_oem returns every state, in time order, with its epoch, origin, values and covariance in the equatorial frame.", "quantifier": "every table of orbits of one object", "why_tests_cant": "Covariances are joined to states by epoch; only tables with repeated epochs show the difference.", "anchors": ["src/adam_core/orbits/oem_io.py:orbit_to_oem", "src/adam_core/orbits/oem_io.py:orbit_to_oem_propagated", "src/adam_core/orbits/oem_io.py:orbit_from_oem"]}
{"id": "C112", "title": "An OEM file describes one orbit", "statement": "orbit_to_oem does not write states of different orbits into one trajectory: a table with several orbits (or objects) is rejected.", "quantifier": "every table of orbits", "why_tests_cant": "The check is on object_id only; needs several orbits of one object.", "anchors": ["src/adam_core/orbits/oem_io.py:orbit_to_oem"]}
{"id": "C113", "title": "SPK polynomials are evaluated where they were fitted", "statement": "The scaled time at which SPICE evaluates a record's polynomial is the one it was fitted on, so exactly representable motion is read back exactly.", "quantifier": "every start, end and window length", "why_tests_cant": "The last window is shorter than the others for almost every span.", "anchors": ["src/adam_core/orbits/spice_kernel.py:write_spkw03_segment", "src/adam_core/orbits/spice_kernel.py:fit_chebyshev"]}
{"id": "C114", "title": "SPK files cover the requested interval", "statement": "orbits_to_spk writes a segment covering start_time to end_time for every interval.", "quantifier": "every interval, step and window", "why_tests_cant": "The last partial step is only lost when the step does not divide the interval.", "anchors": ["src/adam_core/orbits/spice_kernel.py:orbits_to_spk", "src/adam_core/orbits/spice_kernel.py:write_spkw03_segment"]}
{"id": "C115", "title": "Right ascension and declination text is read exactly", "statement": "parse_optical_obs80 reads sexagesimal right ascension as 15(h+m/60+s/3600) degrees and declination with the sign applied to the whole value (also for -00 degrees); values out of range are rejected.", "quantifier": "every text of digits and decimal points in the columns", "why_tests_cant": "A lost sign only shows for declinations between -1 and 0 degrees; ranges are unbounded.", "anchors": ["src/adam_core/observations/obs80.py:_parse_ra", "src/adam_core/observations/obs80.py:_parse_dec"]}
{"id": "C116", "title": "Magnitudes are finite or missing", "statement": "An observation read from an 80-column line has a finite magnitude or none.", "quantifier": "every text of the magnitude columns", "why_tests_cant": "Special numerals accepted by float() must be found among all texts.", "anchors": ["src/adam_core/observations/obs80.py:parse_optical_obs80"]}
{"id": "C117", "title": "Every field comes from its columns", "statement": "The fields of a parsed 80-column line are the contents of the columns the MPC format assigns to them, text after column 80 is ignored, and lines with readable values are accepted.", "quantifier": "every 80-column line", "why_tests_cant": "Off-by-one columns only show on lines that use the neighbouring columns.", "anchors": ["src/adam_core/observations/obs80.py:parse_optical_obs80"]}
{"id": "C118", "title": "An observation always carries an identifier in an ADES file", "statement": "ADES_to_string writes a file only if every observation has a permID, provID or trkSub; it raises ValueError otherwise.", "quantifier": "every observation table and context dictionary", "why_tests_cant": "The check is made per station with any-row semantics; a test with one row cannot separate the two.", "anchors": ["src/adam_core/observations/ades.py:ADES_to_string", "src/adam_core/observations/ades.py:ADES_string_to_tables"]}
{"id": "C119", "title": "ADES round trip for well-formed tables", "statement": "If all text is free of separators, quotes, line breaks and header words, every number is given for all or none of a station's rows, and standard deviations are between 1e-5 and 99, then parsing the written file returns exactly the written rows sorted by station, provID, permID, trkSub and time, with identical text, times as re-read, and numbers within half a unit of the last printed decimal.", "quantifier": "every observation table and every set of one-line contexts", "why_tests_cant": "Arbitrarily many stations and rows, arbitrary subsets of optional columns, arbitrary numbers.", "anchors": ["src/adam_core/observations/ades.py:ADES_to_string", "src/adam_core/observations/ades.py:ADES_string_to_tables"]}
{"id": "C120", "title": "ADES contexts without coinvestigators round-trip", "statement": "If every context has plain text, no coinvestigators or collaborators, a comment list and no empty software section, parsing the written file returns exactly one entry per observed station, in station order, each equal to the context that was given.", "quantifier": "every table and every dictionary of such contexts keyed by its own code", "why_tests_cant": "All combinations of optional fields and arbitrary text lengths.", "anchors": ["src/adam_core/observations/ades.py:ObsContext.to_string", "src/adam_core/observations/ades.py:_build_obs_context"]}
{"id": "C121", "title": "Spherical coordinates survive conversion to Cartesian and back", "statement": "Converting spherical coordinates to Cartesian and back returns the same distance, longitude, latitude and rates for every positive distance, longitude in [0, 360) and latitude strictly between the poles.", "quantifier": "every spherical row with rho > 0, 0 <= lon < 360, -90 < lat < 90, any rates", "why_tests_cant": "A continuum of directions in all quadrants and arbitrary rates; a test samples a few.", "anchors": ["src/adam_core/coordinates/transform.py:spherical_to_cartesian", "src/adam_core/coordinates/transform.py:cartesian_to_spherical"]}
{"id": "C122", "title": "Geodetic velocities are in the documented columns", "statement": "GeodeticCoordinates.from_cartesian reports the velocity component along the local up, east and north directions in vup, veast and vnorth, in au/d.", "quantifier": "every Cartesian row off the axis, every ellipsoid", "why_tests_cant": "A wrong order of columns is invisible to a test that only checks shapes or round trips.", "anchors": ["src/adam_core/coordinates/geodetics.py:GeodeticCoordinates", "src/adam_core/coordinates/transform.py:cartesian_to_geodetic"]}
{"id": "C123", "title": "Geodetic conversion accepts covariances", "statement": "A Cartesian table with covariances, in ITRF93 and centred on the Earth, can be converted to geodetic coordinates.", "quantifier": "every table", "why_tests_cant": "The failing path needs a table with covariances, which no test builds.", "anchors": ["src/adam_core/coordinates/transform.py:cartesian_to_geodetic", "src/adam_core/coordinates/geodetics.py:GeodeticCoordinates.from_cartesian"]}
{"id": "C124", "title": "Longitudes are below 360 in floating point", "statement": "Longitudes computed from Cartesian coordinates lie in [0, 360) as binary64 numbers.", "quantifier": "every binary64 angle returned by arctan2", "why_tests_cant": "The failure needs an angle of magnitude below 2^-53 radians.", "anchors": ["src/adam_core/coordinates/transform.py:cartesian_to_spherical"]}
{"id": "C125", "title": "Elliptical anomalies round-trip", "statement": "On an ellipse, converting a true anomaly to a mean anomaly gives a value in [0, 2 pi), and converting back returns the same direction up to a bound quadratic in the tolerance whenever the iteration stopped within tolerance; it does so for every eccentricity up to 0.7 with the default settings. Likewise from mean to true anomaly and back, modulo a full turn.", "quantifier": "every eccentricity in [0, 1), true and mean anomaly, tolerance and iteration limit (real arithmetic)", "why_tests_cant": "Convergence of Newton's method and the quadrants of arctan2 range over a continuum; tests sample a grid.", "anchors": ["src/adam_core/dynamics/kepler.py:calc_mean_anomaly", "src/adam_core/dynamics/kepler.py:solve_kepler"]}
{"id": "C126", "title": "Cartesian to Keplerian and back returns the state", "statement": "For an elliptical, non-circular, non-equatorial state, the elements from cartesian_to_keplerian all exist, and keplerian_to_cartesian of these elements returns the same position and velocity up to a bound quadratic in the solver's tolerance; unconditionally for eccentricities up to 0.7 with the default settings.", "quantifier": "every state with 1e-15 <= e <= 1 - 1e-15 and inclination away from 0 and 180 degrees (real arithmetic)", "why_tests_cant": "Every quadrant of node, periapsis and anomaly has its own branch; tests sample a few orbits.", "anchors": ["src/adam_core/coordinates/transform.py:cartesian_to_keplerian", "src/adam_core/coordinates/transform.py:keplerian_to_cartesian"]}
{"id": "C127", "title": "Degenerate orbits get the documented elements", "statement": "For circular orbits the argument of periapsis is 0 and the anomalies are defined accordingly; for inclinations 0 and 180 degrees the ascending node is 0; all other elements are numbers.", "quantifier": "every circular or equatorial state", "why_tests_cant": "Degenerate orbits have measure zero and every test orbit is generic.", "anchors": ["src/adam_core/coordinates/transform.py:cartesian_to_keplerian"]}
{"id": "C128", "title": "Cometary elements describe the comet at the epoch", "statement": "cometary_to_cartesian returns the state of the comet at the epoch: approaching before its periapsis time and receding after it, at the anomaly reached in the time since periapsis; cartesian_to_cometary returns a periapsis time in the future for approaching hyperbolic comets.", "quantifier": "every hyperbolic or parabolic comet, every epoch", "why_tests_cant": "The wrong branch is taken only for open orbits before periapsis; tests use periodic comets.", "anchors": ["src/adam_core/coordinates/transform.py:cometary_to_cartesian", "src/adam_core/coordinates/transform.py:cartesian_to_cometary"]}
{"id": "C129", "title": "Keplerian to Cartesian and back returns the elements", "statement": "For an ellipse, keplerian_to_cartesian followed by cartesian_to_keplerian returns semi-major axis, eccentricity, inclination, node and argument of periapsis exactly, and the mean anomaly modulo a turn up to a bound quadratic in the tolerance.", "quantifier": "every a > 0, 1e-15 <= e <= 1 - 1e-15, inclination away from 0 and 180, node and argument in [0, 360), any mean anomaly (real arithmetic)", "why_tests_cant": "A continuum of orbits over all quadrants.", "anchors": ["src/adam_core/coordinates/transform.py:keplerian_to_cartesian", "src/adam_core/coordinates/transform.py:cartesian_to_keplerian"]}
{"id": "C130", "title": "Cartesian to cometary and back returns the state on ellipses", "statement": "For an elliptical, non-circular, non-equatorial state, converting to cometary elements at an epoch and back at the same epoch returns the state up to a bound quadratic in the solver's tolerance.", "quantifier": "every such state, epoch, tolerance and iteration limit (real arithmetic)", "why_tests_cant": "The periapsis-time branch depends on the half of the orbit; tests sample few points.", "anchors": ["src/adam_core/coordinates/transform.py:cartesian_to_cometary", "src/adam_core/coordinates/transform.py:cometary_to_cartesian"]}
{"id": "C131", "title": "Two-body propagation follows Newton's law", "statement": "From every non-radial state Newton's equation of motion about a point mass has exactly one solution; the state propagate_2body returns differs from that solution by as little as wanted once the last correction of the universal Kepler iteration is small enough, and equals it when the correction is zero.", "quantifier": "every non-radial state, elapsed time, positive mu, max_iter and tol (real arithmetic)", "why_tests_cant": "The reference solution is a differential equation; tests compare a few orbits with tabulated states.", "anchors": ["src/adam_core/dynamics/propagation.py:_propagate_2body", "src/adam_core/dynamics/chi.py:calc_chi", "src/adam_core/dynamics/lagrange.py:calc_lagrange_coefficients", "src/adam_core/dynamics/stumpff.py:calc_stumpff"]}
{"id": "C132", "title": "Two-body propagation returns the requested state or fails", "statement": "For every closed orbit and elapsed time the state propagate_2body returns is near the true one, or an error is raised.", "quantifier": "every elliptic state and elapsed time, default max_iter and tol", "why_tests_cant": "Newton's iteration is tried on a handful of orbits; the failing cycles occupy small open sets of states.", "anchors": ["src/adam_core/dynamics/chi.py:calc_chi", "src/adam_core/dynamics/propagation.py:propagate_2body"]}
{"id": "C133", "title": "Open orbits can be propagated to any epoch", "statement": "propagate_2body returns a finite state for every hyperbolic orbit and every finite elapsed time.", "quantifier": "every hyperbolic state and elapsed time", "why_tests_cant": "Tests propagate over short arcs.", "anchors": ["src/adam_core/dynamics/chi.py:calc_chi", "src/adam_core/dynamics/stumpff.py:calc_stumpff"]}
{"id": "C134", "title": "Two-body propagation composes", "statement": "Propagating from t0 to t1 and from there to t2 gives the state that propagating from t0 to t2 gives; in particular propagating out and back returns the initial state, whenever the iterations end at their roots.", "quantifier": "every non-radial state and three epochs (real arithmetic)", "why_tests_cant": "A law over all pairs of legs.", "anchors": ["src/adam_core/dynamics/propagation.py:_propagate_2body"]}
{"id": "C135", "title": "A light time that converged is reported", "statement": "If the light-time iteration reaches its tolerance within max_lt_iter iterations, the light time is finite.", "quantifier": "every orbit, observer position, tolerance and iteration limit", "why_tests_cant": "The limit is met exactly only by chosen inputs.", "anchors": ["src/adam_core/dynamics/aberrations.py:_add_light_time"]}
{"id": "C136", "title": "Stellar aberration is a change of direction", "statement": "For every observer slower than light and every target not at the observer, add_stellar_aberration keeps the topocentric distance, never turns the direction away from the observer's velocity, and is undone by applying it with the opposite velocity.", "quantifier": "every target state and observer state (real arithmetic)", "why_tests_cant": "Identities over all velocities; tests compare a few vectors.", "anchors": ["src/adam_core/dynamics/aberrations.py:add_stellar_aberration"]}
{"id": "C137", "title": "Missing components stay missing through a change of frame", "statement": "Coordinates with unknown velocities have unknown velocities in every other frame and origin.", "quantifier": "every coordinate row with missing components", "why_tests_cant": "Masked arithmetic fills values silently; tests use complete rows.", "anchors": ["src/adam_core/coordinates/cartesian.py:CartesianCoordinates.rotate", "src/adam_core/coordinates/cartesian.py:CartesianCoordinates.translate"]}
{"id": "C138", "title": "Partly known covariances survive a change of frame", "statement": "Rotating coordinates with a partly missing covariance to another frame and back returns the known elements.", "quantifier": "every covariance with missing elements", "why_tests_cant": "Tests rotate full covariances or none.", "anchors": ["src/adam_core/coordinates/cartesian.py:CartesianCoordinates.rotate", "src/adam_core/coordinates/transform.py:cartesian_to_frame"]}
{"id": "C139", "title": "RIC axes form a right-handed orthonormal triad", "statement": "For every state the rows of ric3_matrix are orthonormal and right-handed; if the angular momentum is at least 1e-20 they are the directions of the position and of the angular momentum and the transverse direction along which the velocity is positive; otherwise the matrix is the identity.", "quantifier": "every state (real arithmetic)", "why_tests_cant": "An identity over all states, and a threshold.", "anchors": ["src/adam_core/coordinates/cartesian.py:CartesianCoordinates.ric3_matrix"]}
{"id": "C140", "title": "Generic band fallback covers u, g, r, i, z, y only", "statement": "With allow_fallback_filters only the generic bands u, g, r, i, z, y are mapped to SDSS filters, as documented; bands of other systems are not.", "quantifier": "every band label", "why_tests_cant": "Tests use lower-case SDSS bands.", "anchors": ["src/adam_core/photometry/bandpasses/api.py:map_to_canonical_filter_bands"]}
{"id": "C141", "title": "Synthetic colours follow the registered templates", "statement": "bandpass_delta_mag, get_integrals and compute_mix_integrals give, after any calls, the values of a process that made the same registrations and nothing else.", "quantifier": "every history of calls", "why_tests_cant": "Needs arbitrary interleavings of registrations and cached evaluations.", "anchors": ["src/adam_core/photometry/bandpasses/api.py:bandpass_delta_mag", "src/adam_core/photometry/bandpasses/api.py:register_custom_template", "src/adam_core/photometry/bandpasses/api.py:get_integrals"]}
{"id": "C142", "title": "A grey template gives no colour", "statement": "A template with the same reflectance at every wavelength has the same magnitude in every filter (shift 0).", "quantifier": "every grey template, filter pair, solar spectrum and curve set", "why_tests_cant": "Depends on how far the template reaches compared with each curve.", "anchors": ["src/adam_core/photometry/bandpasses/api.py:register_custom_template", "src/adam_core/photometry/bandpasses/api.py:bandpass_delta_mag"]}
{"id": "C143", "title": "Only the shape of a template matters", "statement": "Registering a template with all reflectances multiplied by a positive factor gives the same synthetic colours.", "quantifier": "every template, factor and filter pair", "why_tests_cant": "Scale invariance over all templates.", "anchors": ["src/adam_core/photometry/bandpasses/api.py:register_custom_template", "src/adam_core/photometry/bandpasses/api.py:bandpass_delta_mag"]}
{"id": "C144", "title": "Phase angles are the angles at the object", "statement": "calculate_phase_angle returns, for every row, the angle at the object between the directions to the Sun and to the observer, in degrees between 0 and 180; non-heliocentric rows, different frames, wrong lengths and degenerate geometry raise ValueError.", "quantifier": "every geometry (real arithmetic)", "why_tests_cant": "A law-of-cosines and half-angle identity over a continuum.", "anchors": ["src/adam_core/photometry/magnitude.py:calculate_phase_angle"]}
{"id": "C145", "title": "The H-G phase correction starts at zero and never brightens", "statement": "For 0 <= G <= 1 the phase correction is 0 at opposition, is never negative and grows with the phase angle.", "quantifier": "every G in [0, 1] and pair of phase angles (real arithmetic)", "why_tests_cant": "Monotonicity over a continuum.", "anchors": ["src/adam_core/photometry/magnitude_common.py:hg_phase_correction", "src/adam_core/photometry/magnitude_common.py:hg_phase_correction_from_cos_jax"]}
{"id": "C146", "title": "Both phase corrections agree", "statement": "The numpy phase correction and the one used inside magnitude predictions give the same value for the same phase angle.", "quantifier": "every phase angle below 180 degrees and G in [0, 1]", "why_tests_cant": "The disagreement is confined to extreme phase angles.", "anchors": ["src/adam_core/photometry/magnitude_common.py:hg_phase_correction", "src/adam_core/photometry/magnitude.py:calculate_apparent_magnitude_v"]}
{"id": "C147", "title": "Predictions are consistent across filters and in H", "statement": "Predicting in another filter equals converting the prediction with convert_magnitude; adding dH to H adds dH to every prediction for every reference filter; in V with reference V the prediction is the standard H-G magnitude of the distances and the phase angle.", "quantifier": "every geometry, filters, composition and history of calls (real arithmetic)", "why_tests_cant": "Laws over all inputs and cache states.", "anchors": ["src/adam_core/photometry/magnitude.py:predict_magnitudes", "src/adam_core/photometry/magnitude.py:convert_magnitude"]}
{"id": "C148", "title": "Predicted magnitudes do not depend on the frame", "statement": "predict_magnitudes gives the same magnitude for the same object whichever frame its coordinates are expressed in, or refuses.", "quantifier": "every object position and frame", "why_tests_cant": "Tests use ecliptic coordinates only.", "anchors": ["src/adam_core/photometry/magnitude.py:predict_magnitudes", "src/adam_core/photometry/magnitude.py:calculate_apparent_magnitude_v"]}
{"id": "C149", "title": "Every Gauss orbit is consistent with its observations", "statement": "Every orbit gaussIOD returns lies on the middle line of sight in front of the observer, carries the epoch of the middle observation less the light time of its own slant range, is coplanar with points of the two other lines of sight with the sector ratios of its own heliocentric distance, has the velocity of the chosen method for those three points, and is within 300 au and 1 au/d.", "quantifier": "every three observations and observer positions, method, mu and exact root finder (real arithmetic)", "why_tests_cant": "An algebraic elimination (the degree-8 polynomial) has to be shown equivalent to the geometry for all inputs.", "anchors": ["src/adam_core/orbit_determination/gauss.py:gaussIOD", "src/adam_core/orbit_determination/gauss.py:_calcRhos", "src/adam_core/orbit_determination/gauss.py:approxLangrangeCoeffs"]}
{"id": "C150", "title": "Gibbs recovers the velocity of every conic", "statement": "calcGibbs applied to three positions of a Keplerian orbit (ellipse, parabola or hyperbola, any orientation, within one turn) returns exactly the orbit's velocity at the middle one.", "quantifier": "every conic, orientation and ordered triple of true anomalies less than a turn apart (real arithmetic)", "why_tests_cant": "Exactness over a six-parameter continuum.", "anchors": ["src/adam_core/orbit_determination/gibbs.py:calcGibbs"]}
{"id": "C151", "title": "Gauss f and g series are third-order accurate", "statement": "The f and g series used by the Gauss velocity agree with the exact Lagrange coefficients up to terms of fourth and higher order in time for f and beyond third order for g.", "quantifier": "every circular orbit and time step", "why_tests_cant": "An order of accuracy is a limit statement.", "anchors": ["src/adam_core/orbit_determination/gauss.py:approxLangrangeCoeffs"]}
{"id": "C152", "title": "Reversing time reverses the preliminary velocity", "statement": "Exchanging the first and third position and negating the times negates the velocity returned by each velocity method.", "quantifier": "every three positions and times", "why_tests_cant": "A symmetry over all inputs.", "anchors": ["src/adam_core/orbit_determination/gauss.py:calcGauss", "src/adam_core/orbit_determination/gibbs.py:calcGibbs", "src/adam_core/orbit_determination/herrick_gibbs.py:calcHerrickGibbs"]}
{"id": "C153", "title": "Preliminary orbits follow the gravitational parameter", "statement": "gaussIOD gives the same orbit when times and mu are expressed in another unit of time.", "quantifier": "every three observations, mu and unit", "why_tests_cant": "Tests use the default mu.", "anchors": ["src/adam_core/orbit_determination/gauss.py:gaussIOD", "src/adam_core/orbit_determination/gibbs.py:calcGibbs", "src/adam_core/orbit_determination/herrick_gibbs.py:calcHerrickGibbs"]}
{"id": "C154", "title": "Herrick-Gibbs error bound", "statement": "calcHerrickGibbs differs from the true velocity at the middle time by at most K*a*b*(a^2+b^2)/45 in every component, a and b the two time steps and K a bound of the fifth derivative of the motion.", "quantifier": "every two-body motion (real arithmetic)", "why_tests_cant": "An analytic error bound for all motions.", "anchors": ["src/adam_core/orbit_determination/herrick_gibbs.py:calcHerrickGibbs"]}
{"id": "C155", "title": "Preliminary orbits are in front of all three observers", "statement": "Every orbit gaussIOD returns was built from positions in front of each of the three observers.", "quantifier": "every three observations", "why_tests_cant": "Needs geometries with a negative outer slant range.", "anchors": ["src/adam_core/orbit_determination/gauss.py:gaussIOD"]}
{"id": "C156", "title": "Degenerate observations give an empty result", "statement": "gaussIOD returns an empty table, not an exception, when the observations do not determine an orbit.", "quantifier": "every three observations", "why_tests_cant": "Degenerate triples are a thin set tests avoid.", "anchors": ["src/adam_core/orbit_determination/gauss.py:gaussIOD"]}
{"id": "C157", "title": "iod uses each observation's own observer", "statement": "iod pairs every observation with the position of the observer that made it.", "quantifier": "every order of rows of observations", "why_tests_cant": "Tests pass observations in order of time.", "anchors": ["src/adam_core/orbit_determination/iod.py:iod"]}
{"id": "C158", "title": "Preliminary orbits keep the time scale", "statement": "The epoch of an orbit returned by gaussIOD denotes the instant of the middle observation (less light time) in the time scale of the observations.", "quantifier": "every time scale of the observations", "why_tests_cant": "Tests use one scale.", "anchors": ["src/adam_core/orbit_determination/gauss.py:gaussIOD", "src/adam_core/orbit_determination/iod.py:iod"]}
{"id": "C159", "title": "Half-turn transfers conserve energy", "statement": "Lambert velocities for positions in exactly opposite directions belong to one orbit.", "quantifier": "every pair of positions in exactly opposite directions", "why_tests_cant": "The set of such pairs has measure zero.", "anchors": ["src/adam_core/dynamics/lambert.py:izzo_lambert"]}
{"id": "C160", "title": "Lambert respects the requested sense of motion", "statement": "With prograde=True the transfer turns counter-clockwise about the z axis (z component of the angular momentum not negative), with prograde=False clockwise; strictly so when the positions are not in one vertical plane through the centre.", "quantifier": "every input with a result", "why_tests_cant": "Sense flips depend on the geometry in a case analysis over a continuum.", "anchors": ["src/adam_core/dynamics/lambert.py:izzo_lambert"]}
{"id": "C161", "title": "The Lambert iteration uses the true derivatives of the time of flight", "statement": "The three derivative formulas are the first, second and third derivative of the time of flight as a function of the iteration variable, for elliptic transfers with any number of revolutions and for hyperbolic ones.", "quantifier": "every x in (-1,1) with any M, every x > 1 with M = 0, every |lambda| < 1 (real arithmetic)", "why_tests_cant": "Finite differences only approximate derivatives at sample points.", "anchors": ["src/adam_core/dynamics/lambert.py:_tof_equation_p", "src/adam_core/dynamics/lambert.py:_tof_equation_p2", "src/adam_core/dynamics/lambert.py:_tof_equation_p3"]}
{"id": "C162", "title": "Lambert velocities reach the target in the requested time", "statement": "A body that starts at the first position with the returned departure velocity and moves under the gravity of the centre is at the second position with the returned arrival velocity after the requested time of flight, up to the residual of the time equation and the truncation error of the series near the parabola (at most 1e-26 time units).", "quantifier": "every pair of positions not on a line with the centre, mu, options and result whose residual is smaller than the time of flight; every two-body motion", "why_tests_cant": "Needs the solution of a differential equation, not samples of it.", "anchors": ["src/adam_core/dynamics/lambert.py:izzo_lambert", "src/adam_core/dynamics/lambert.py:solve_lambert"]}
{"id": "C163", "title": "The first guess of the Lambert iteration is on the right side", "statement": "For a single-revolution transfer and any positive time the first guess exists, exceeds -1, is negative exactly for times longer than that of x = 0, above 1 exactly for times shorter than parabolic, and exact at the two named times.", "quantifier": "every positive time of flight and |lambda| < 1", "why_tests_cant": "Thresholds over a continuum.", "anchors": ["src/adam_core/dynamics/lambert.py:_initial_guess"]}
{"id": "C164", "title": "Lambert: NaN rows and row order", "statement": "The solver returns NaN for a zero position, equal positions, a time of flight or mu that is not positive, and a time too short for the requested revolutions; solve_lambert treats each row independently, broadcasts a single time of flight and rejects lists of different lengths.", "quantifier": "every input", "why_tests_cant": "Universal statement over all inputs and lengths.", "anchors": ["src/adam_core/dynamics/lambert.py:izzo_lambert", "src/adam_core/dynamics/lambert.py:solve_lambert"]}
{"id": "C165", "title": "The reported MOID of two orbits that meet is zero", "statement": "calculate_moid returns (nearly) zero for two elliptic orbits that share a point.", "quantifier": "every pair of elliptic orbits (real arithmetic), every behaviour of the minimiser", "why_tests_cant": "Depends on a search over two continua.", "anchors": ["src/adam_core/dynamics/moid.py:calculate_moid", "src/adam_core/dynamics/moid.py:calculate_distance_from_point_to_ellipse"]}
{"id": "C166", "title": "Distance splits into parts across and along the orbit plane", "statement": "project_point_on_plane returns the foot of the perpendicular on the plane through the centre, no point of the plane is nearer, and distance_from_point_to_ellipse recombines the two parts into the distance from the original point; the projection is NaN exactly when position and velocity are parallel.", "quantifier": "every point, state and point of the plane (real arithmetic)", "why_tests_cant": "Universal geometric statement.", "anchors": ["src/adam_core/dynamics/moid.py:project_point_on_plane", "src/adam_core/dynamics/moid.py:distance_from_point_to_ellipse"]}
{"id": "C167", "title": "A rotation verdict means what it says", "statement": "Whenever estimate_rotation_period returns, the verdict, the reliability code, is_valid and is_reliable agree with each other and an insufficient_data verdict carries at least one reason. A single_period verdict guarantees a positive period of at most 240 hours, an amplitude-to-noise of at least 3, phase coverage of at least 0.7, at least the requested number of rotations in the time span, no alternate period, a filter with at least 30 observations, both interval ends within max(2 P, 7 h) of P, and if the period was doubled, permission for it and a flag that says so.", "quantifier": "every list of observations (any number, times, magnitudes, missing uncertainties, filters, sessions), every option value, every result of the external least squares routine, F distribution functions and H-G fit, every value of the speed of light", "why_tests_cant": "Tests use a handful of light curves; the verdict passes through a classifier and two later guards that may overwrite it, and only a case analysis over all of them shows that no combination leaves the columns inconsistent.", "anchors": ["src/adam_core/photometry/rotation/estimator.py:estimate_rotation_period", "src/adam_core/photometry/rotation/estimator.py:_classify_confidence", "src/adam_core/photometry/rotation/estimator.py:_assemble_result", "src/adam_core/photometry/rotation/estimator.py:_derive_fourier_solution"]}
{"id": "C168", "title": "The reported rotation period lies in its interval and the alternates lie outside", "statement": "Whenever a period is reported, lower <= period <= upper, no alternate period lies inside that interval, the relative uncertainty is the larger distance to an end divided by the period, and the number of aliases is one more than the number of alternates. If there are no alternates, the interval holds the period of every grid frequency whose scatter is at most the best one times the square root of the 95% quantile of the F distribution.", "quantifier": "every list of observations (any number, times, magnitudes, missing uncertainties, filters, sessions), every option value, every result of the external least squares routine, F distribution functions and H-G fit, every value of the speed of light", "why_tests_cant": "The interval is built from merged groups of accepted grid frequencies; whether a best fit can be outside its own group or an alternate inside depends on the merge order, for any grid.", "anchors": ["src/adam_core/photometry/rotation/estimator.py:estimate_rotation_period", "src/adam_core/photometry/rotation/estimator.py:_cluster_fourier_solutions", "src/adam_core/photometry/rotation/estimator.py:_relative_period_uncertainty"]}
{"id": "C169", "title": "Session labels cannot make a solvable table fail in the automatic mode", "statement": "With session_mode=\"auto\", a table of observations for which a period is found when session labels are ignored also gives a result.", "quantifier": "every list of observations (any number, times, magnitudes, missing uncertainties, filters, sessions), every option value, every result of the external least squares routine, F distribution functions and H-G fit, every value of the speed of light", "why_tests_cant": "The automatic mode is tested on tables with many observations per session; the failure needs sessions with few observations.", "anchors": ["src/adam_core/photometry/rotation/estimator.py:estimate_rotation_period", "src/adam_core/photometry/rotation/estimator.py:_derive_fourier_solution", "src/adam_core/photometry/rotation/core.py:_build_fixed_design"]}
{"id": "C170", "title": "The rotation search covers the requested frequencies and reports the best of them", "statement": "The frequency grid starts at max(min_rotations / span, 24 / max_period), ends at max_frequency and, unless the result is flagged grid_capped, has a point within 1 / (2 * grid_scale * span) of every frequency between. The reported period is k / f for a grid frequency f (k = 2 if doubled, else 1), so it can exceed max_period by a factor of two only when doubled. For the reported order no grid frequency has a smaller residual scatter than the reported one.", "quantifier": "every list of observations (any number, times, magnitudes, missing uncertainties, filters, sessions), every option value, every result of the external least squares routine, F distribution functions and H-G fit, every value of the speed of light", "why_tests_cant": "Grid ends, spacing and the cap depend on real numbers chosen by the user.", "anchors": ["src/adam_core/photometry/rotation/estimator.py:estimate_rotation_period", "src/adam_core/photometry/rotation/estimator.py:_build_frequency_grid", "src/adam_core/photometry/rotation/estimator.py:_grid_was_capped", "src/adam_core/photometry/rotation/estimator.py:_evaluate_full_order_curve"]}
{"id": "C171", "title": "Observation counts of a rotation result add up and clipping is bounded", "statement": "n_observations is the number of rows given; without a period n_fit and n_clipped are 0; with one, n_fit + n_clipped is the number of rows, the order is one of the allowed ones, and the fit has more observations than parameters. In every fit each kept residual is within clip_sigma times the scatter, or at least eight observations were clipped.", "quantifier": "every list of observations (any number, times, magnitudes, missing uncertainties, filters, sessions), every option value, every result of the external least squares routine, F distribution functions and H-G fit, every value of the speed of light", "why_tests_cant": "Clipping is a loop with a round limit; the relation between counts and residuals must hold after any number of rounds.", "anchors": ["src/adam_core/photometry/rotation/estimator.py:estimate_rotation_period", "src/adam_core/photometry/rotation/core.py:_fit_frequency"]}
{"id": "C172", "title": "Equal uncertainties give the same scatter as no uncertainties", "statement": "Stating the same positive uncertainty for every observation changes neither the fit nor the residual scatter reported for it.", "quantifier": "all data, weights, orders, frequencies, clip limits", "why_tests_cant": "Needs a light curve in which something is clipped; tests compare weighted and unweighted runs without outliers.", "anchors": ["src/adam_core/photometry/rotation/core.py:_paper_sigma", "src/adam_core/photometry/rotation/core.py:_fit_frequency"]}
{"id": "C173", "title": "The selected Fourier order is the smallest one not improved upon", "statement": "Among the fits of increasing order, the chosen one is not improved upon with more than 90% confidence by any higher order, and each lower order is improved upon by some higher one. If any fit exists one is chosen. The confidence is the F distribution of the ratio of the two variances, and zero if the higher order has no smaller positive scatter.", "quantifier": "every list of fits and every F distribution function", "why_tests_cant": "The choice is a nested loop with early exit over any number of orders.", "anchors": ["src/adam_core/photometry/rotation/core.py:_select_order", "src/adam_core/photometry/rotation/core.py:_f_test_confidence"]}
{"id": "C174", "title": "The harmonic-adjusted error is minimal over the listed factors", "statement": "harmonic_adjusted_error_pct returns a factor from the list and the error for that factor, no other listed factor gives a smaller error, and alias_bucket names that factor (never \"other\").", "quantifier": "all recovered and true periods", "why_tests_cant": "Real-valued arguments; the bucket tolerances of neighbouring factors must not overlap.", "anchors": ["src/adam_core/photometry/rotation/core.py:harmonic_adjusted_error_pct", "src/adam_core/photometry/rotation/core.py:alias_bucket"]}
{"id": "C175", "title": "A correct period is not flagged as a one-day alias", "statement": "near_day_alias(p, p) is False for every positive period.", "quantifier": "all positive periods and tolerances", "why_tests_cant": "Only periods below half an hour show it; tests use hours.", "anchors": ["src/adam_core/photometry/rotation/core.py:near_day_alias"]}
{"id": "C176", "title": "Apparitions partition the observations at the gaps", "statement": "The apparition groups contain every row exactly once, in order of time; inside a group neighbouring times differ by at most the gap and times in different groups differ by more than it.", "quantifier": "all lists of times and gap values", "why_tests_cant": "Unsorted input and ties with any number of groups.", "anchors": ["src/adam_core/photometry/rotation/wrappers.py:_apparition_index_groups"]}
{"id": "C177", "title": "The best apparition is one of the apparitions and none beats it", "statement": "estimate_rotation_period_best_apparition returns the result of one of the apparitions, named by its flag, and every other apparition has a lower verdict, or an equal verdict and a lower amplitude-to-noise, or both equal and not more observations. With two or more apparitions the call never raises: a failed apparition counts as insufficient_data.", "quantifier": "every list of observations (any number, times, magnitudes, missing uncertainties, filters, sessions), every option value, every result of the external least squares routine, F distribution functions and H-G fit, every value of the speed of light, every gap", "why_tests_cant": "Maximum over a lexicographic key with missing values, for any number of apparitions.", "anchors": ["src/adam_core/photometry/rotation/wrappers.py:estimate_rotation_period_best_apparition"]}
{"id": "C178", "title": "Grouped rotation estimates equal the single ones", "statement": "estimate_rotation_period_from_detections_grouped returns one row per non-null object id, sorted by id, and the row of an object is what the single-object call gives for the rows with that id in their order; if that call raises ValueError the row is insufficient_data with reason solve_error and the number of rows.", "quantifier": "all lists of detections, exposures, coordinates and object ids, every geometry function", "why_tests_cant": "Grouping after a sort, null ids, interleaved objects; any number of objects.", "anchors": ["src/adam_core/photometry/rotation/wrappers.py:estimate_rotation_period_from_detections_grouped", "src/adam_core/photometry/rotation/wrappers.py:build_rotation_period_observations_from_detections"]}
{"id": "C179", "title": "Only time differences matter for a rotation period", "statement": "Adding the same number of days to all times changes nothing in the result.", "quantifier": "every list of observations (any number, times, magnitudes, missing uncertainties, filters, sessions), every option value, every result of the external least squares routine, F distribution functions and H-G fit, every value of the speed of light, every shift", "why_tests_cant": "A relation between two runs over real-valued shifts.", "anchors": ["src/adam_core/photometry/rotation/estimator.py:estimate_rotation_period"]}
{"id": "C180", "title": "Phase coverage counts occupied twentieths of the rotation", "statement": "The reported phase coverage is the number of the twenty equal phase bins that hold at least one observation, divided by twenty; it is between 1/20 and 1.", "quantifier": "every list of observations (any number, times, magnitudes, missing uncertainties, filters, sessions), every option value, every result of the external least squares routine, F distribution functions and H-G fit, every value of the speed of light", "why_tests_cant": "Bins are computed by truncation and clipping of real phases.", "anchors": ["src/adam_core/photometry/rotation/estimator.py:estimate_rotation_period", "src/adam_core/photometry/rotation/estimator.py:_phase_coverage_fraction"]}
{"id": "C181", "title": "The staged search finds the best fit near the coarse minimum", "statement": "With the full search, or up to 2048 grid points, the returned fit has the smallest scatter of all. With the staged search it is at least as good as every exact fit within max(8, 4 strides) grid points of the best coarse score and of each of the (up to twelve) best local minima of the coarse scores. If any grid point has a fit, one is returned.", "quantifier": "every grid size, every table of exact and coarse fits", "why_tests_cant": "Any grid size and any landscape of scores.", "anchors": ["src/adam_core/photometry/rotation/estimator.py:_search_best_fit", "src/adam_core/photometry/rotation/estimator.py:_candidate_intervals_from_scores"]}
{"id": "C182", "title": "A rotation search that cannot run says so", "statement": "Every error raised by the modelled search is a ValueError. If all observations have the same emission time the result is insufficient_data with reason insufficient_time_span and no period, or a ValueError when early exit is switched off. With early exit, the reason too_few_observations with no period is given exactly if there are fewer than 8 observations or fewer than 8 plus the number of filters.", "quantifier": "every list of observations (any number, times, magnitudes, missing uncertainties, filters, sessions), every option value, every result of the external least squares routine, F distribution functions and H-G fit, every value of the speed of light", "why_tests_cant": "All failure paths of all combinations of options.", "anchors": ["src/adam_core/photometry/rotation/estimator.py:estimate_rotation_period", "src/adam_core/photometry/rotation/estimator.py:_pre_solve_insufficiency"]}
{"id": "C183", "title": "One unknown uncertainty drops all weights", "statement": "If one magnitude uncertainty is missing or not positive, the result (with early exit off) is the one for the table with all uncertainties removed. If all are known and positive, each observation has weight 1 / sigma^2 in the reported scatter.", "quantifier": "every list of observations (any number, times, magnitudes, missing uncertainties, filters, sessions), every option value, every result of the external least squares routine, F distribution functions and H-G fit, every value of the speed of light", "why_tests_cant": "A relation between two runs for any position of the missing value.", "anchors": ["src/adam_core/photometry/rotation/estimator.py:estimate_rotation_period", "src/adam_core/photometry/rotation/estimator.py:_weights_from_sigma"]}
{"id": "C184", "title": "The transfer grid has every departure-arrival pair exactly once", "statement": "When generate_porkchop_data accepts its two tables, its rows are exactly the pairs of a departure state and an arrival state whose departure epoch is strictly before the arrival epoch, each once, in serial and in parallel. It accepts exactly when the tables have the same frame and all their states one common origin.", "quantifier": "every two tables of body states (any number of rows, epochs, positions, velocities, origins), every number of processes, every order in which parallel tasks finish, every gravitational parameter and solver option", "why_tests_cant": "The parallel path splits the pairs into chunks of 100 and collects them in completion order; tests see one order and one size.", "anchors": ["src/adam_core/missions/porkchop.py:generate_porkchop_data", "src/adam_core/missions/porkchop.py:lambert_worker"]}
{"id": "C185", "title": "Transfer grid rows are ordered by arrival and departure epoch", "statement": "The rows of the result are ordered by arrival epoch, then by departure epoch, whatever the number of processes.", "quantifier": "every two tables of body states (any number of rows, epochs, positions, velocities, origins), every number of processes, every order in which parallel tasks finish, every gravitational parameter and solver option", "why_tests_cant": "The order depends on which of the parallel tasks finishes first, which a test cannot choose.", "anchors": ["src/adam_core/missions/porkchop.py:generate_porkchop_data"]}
{"id": "C186", "title": "Each transfer solves its own pair", "statement": "The two velocities of a row are the Lambert solution between that row's own two positions for the time between its own two epochs with the gravitational parameter of the propagation origin, and so the departure and the arrival state of the transfer have the same angular momentum, energy and eccentricity vector (unless the two positions are in exactly opposite directions).", "quantifier": "every two tables of body states (any number of rows, epochs, positions, velocities, origins), every number of processes, every order in which parallel tasks finish, every gravitational parameter and solver option", "why_tests_cant": "A mix-up of rows between chunks, or a swap of arguments, changes only some of thousands of rows; that every row is consistent is a statement over all tables.", "anchors": ["src/adam_core/missions/porkchop.py:generate_porkchop_data", "src/adam_core/missions/porkchop.py:lambert_worker", "src/adam_core/missions/porkchop.py:LambertSolutions"]}
{"id": "C187", "title": "Transfers depart before they arrive even when the tables use different time scales", "statement": "A row of the result departs before it arrives, and its flight time is the elapsed time, whatever the time scales of the two tables.", "quantifier": "every two tables of body states (any number of rows, epochs, positions, velocities, origins), every number of processes, every order in which parallel tasks finish, every gravitational parameter and solver option; every pair of time scales", "why_tests_cant": "The error is at most about 70 seconds, far below the step of test grids.", "anchors": ["src/adam_core/missions/porkchop.py:generate_porkchop_data", "src/adam_core/missions/porkchop.py:LambertSolutions"]}
{"id": "C188", "title": "Transfers are computed about the body the states refer to", "statement": "The origin reported for a transfer is the origin of its departure and arrival states.", "quantifier": "every two tables of body states (any number of rows, epochs, positions, velocities, origins), every number of processes, every order in which parallel tasks finish, every gravitational parameter and solver option", "why_tests_cant": "Tests pass heliocentric states with the default origin.", "anchors": ["src/adam_core/missions/porkchop.py:generate_porkchop_data", "src/adam_core/missions/porkchop.py:lambert_worker", "src/adam_core/missions/porkchop.py:LambertSolutions"]}
{"id": "C189", "title": "C3 and speed at infinity agree and flight times are positive", "statement": "For every transfer C3 is the square of the speed at infinity at the same end, the speed is non-negative and zero exactly when the transfer velocity equals the body's velocity, all four are missing exactly for a transfer without solution, and in every row of a generated grid the time of flight is positive and equals the difference of the two epochs to the nanosecond.", "quantifier": "every transfer, and every row of every grid", "why_tests_cant": "Equalities over all velocities and all grids, including unsolved rows.", "anchors": ["src/adam_core/missions/porkchop.py:LambertSolutions", "src/adam_core/missions/porkchop.py:generate_porkchop_data"]}
{"id": "C190", "title": "The departure direction is the direction of the velocity", "statement": "departure_spherical_coordinates gives distance 1, angles in the documented ranges, and the direction for which speed times direction, turned into the frame of the input, is the velocity given; it does not depend on the length of the velocity, and there is one result per velocity.", "quantifier": "every non-zero velocity, in the equatorial and the ecliptic frame", "why_tests_cant": "Equality of directions over all velocities and both frames.", "anchors": ["src/adam_core/missions/porkchop.py:departure_spherical_coordinates"]}
{"id": "C191", "title": "A grid with an unsolved transfer can be plotted", "statement": "plot_porkchop_plotly with default options draws every solved transfer of a grid and leaves unsolved cells blank.", "quantifier": "every grid", "why_tests_cant": "Whether a grid contains an unsolved transfer depends on the bodies and epochs chosen.", "anchors": ["src/adam_core/missions/porkchop.py:plot_porkchop_plotly"]}
{"id": "C192", "title": "Cells of the transfer plot show the transfer of their epochs", "statement": "In every figure the two axes are strictly increasing and hold exactly the epochs of the transfers within the requested ranges; each C3 and arrival speed cell holds the value of a transfer in range with that departure and arrival epoch, and is blank exactly when there is none; the time-of-flight cell is arrival minus departure; C3 is plotted in km^2/s^2, speeds in km/s and epochs in days.", "quantifier": "every list of transfers and every combination of options", "why_tests_cant": "Transposed or shifted cells are invisible in a test that checks only that a figure is returned.", "anchors": ["src/adam_core/missions/porkchop.py:plot_porkchop_plotly"]}
{"id": "C193", "title": "The optimal transfer is marked", "statement": "With show_optimal the figure marks a transfer that has the least C3, and one with the least arrival speed, among the transfers shown in the visible window.", "quantifier": "every list of transfers and every combination of options", "why_tests_cant": "The defect needs a window that excludes the global optimum.", "anchors": ["src/adam_core/missions/porkchop.py:plot_porkchop_plotly"]}
{"id": "C194", "title": "Propagation epochs cover the half-open interval", "statement": "The epochs at which prepare_and_propagate_orbits propagates a body start at the start time, are one step apart, are all before the end time, and the next one would be at or after the end time; when the interval is a whole number of steps the end time itself is not included; a zero step is an error.", "quantifier": "every start, end and positive step", "why_tests_cant": "All real start, end and step values.", "anchors": ["src/adam_core/missions/porkchop.py:prepare_and_propagate_orbits"]}
{"id": "C195", "title": "The saturated colour scale goes from light to dark", "statement": "generate_saturated_colorscale gives n levels with positions from 0 to 1, opacity growing linearly, channels between 0 and 255, and each level no lighter than the one before.", "quantifier": "every base colour, number of levels and opacity range", "why_tests_cant": "A property of every level of every scale.", "anchors": ["src/adam_core/missions/porkchop.py:generate_saturated_colorscale"]}
{"id": "C196", "title": "A two-body ephemeris row shows the orbit where it was when the light left", "statement": "In every row of generate_ephemeris_2body the aberrated coordinates are the two-body propagation of the orbit, moved to the solar system barycentre and the ecliptic, to the epoch minus the light time. Without stellar aberration, rho, lon and lat are exactly the distance and the equatorial direction of those coordinates from the observer, and the velocity columns are the relative velocity. With stellar aberration they are those of the aberrated vector. lon is in [0, 360) and lat in [-90, 90]. For an orbit that obeys Newton's law and is slower than a fraction beta of light, the reported light time differs from rho divided by the speed of light by at most beta times the tolerance.", "quantifier": "all orbit and observer tables of equal length in ecliptic or equatorial frames, all origins, all tolerances below the starting value of the iteration, all states and epochs", "why_tests_cant": "tests compare a few rows with a reference ephemeris at a tolerance; they cannot show that range, angles, velocities, emission state and light time are consistent for every orbit and observer", "anchors": ["src/adam_core/dynamics/ephemeris.py:generate_ephemeris_2body", "src/adam_core/dynamics/ephemeris.py:_generate_ephemeris_2body", "src/adam_core/dynamics/aberrations.py:_add_light_time"]}
{"id": "C197", "title": "Ephemeris covariances are the orbit covariances carried through the reported coordinates", "statement": "The covariance of every ephemeris row is D C D', with C the covariance of the orbit as given and D the derivatives of the reported coordinates with respect to the orbit's six numbers as given, whatever the origin and frame of the orbit.", "quantifier": "all orbits with covariances, all origins and frames, all observers and settings", "why_tests_cant": "tests use one origin and compare only for presence or rough size; a Jacobian evaluated at the wrong state gives plausible numbers", "anchors": ["src/adam_core/dynamics/ephemeris.py:generate_ephemeris_2body", "src/adam_core/coordinates/covariances.py:transform_covariances_jacobian"]}
{"id": "C198", "title": "Every ephemeris row carries the labels of its orbit and observer", "statement": "Row i of the result has the orbit id, object id and epoch of orbit i and the observatory code of observer i as origin; the frame is equatorial; the aberrated coordinates are barycentric, ecliptic and at the epoch minus the light time of that row.", "quantifier": "all paired tables, all frames, all settings, with and without photometry", "why_tests_cant": "tests look at single observatories or single orbits, where exchanged rows cannot be seen", "anchors": ["src/adam_core/dynamics/ephemeris.py:generate_ephemeris_2body"]}
{"id": "C199", "title": "Orbits that are not at the observer's epoch are refused", "statement": "generate_ephemeris_2body raises an error if the epoch of an orbit differs from that of the observer it is paired with, and if the tables have different lengths.", "quantifier": "all pairs of tables", "why_tests_cant": "tests always pass matching epochs", "anchors": ["src/adam_core/dynamics/ephemeris.py:generate_ephemeris_2body"]}
{"id": "C200", "title": "The ephemeris does not depend on how orbits and observers are represented", "statement": "If two pairs of tables describe the same barycentric states, about any origins and in either frame, then both calls report the same coordinates, light times, emission states and emission epochs, also when the photometry options differ and whichever of the two code paths to the barycentre is taken.", "quantifier": "all pairs of tables describing the same states, all origins and frames, all settings", "why_tests_cant": "tests use heliocentric ecliptic input throughout; the shortcut for that case is never compared with the general path on all inputs", "anchors": ["src/adam_core/dynamics/ephemeris.py:generate_ephemeris_2body"]}
{"id": "C201", "title": "Predicted magnitudes and phase angles are null exactly where they are not defined, and follow the H-G law elsewhere", "statement": "Unless asked for, phase angles and magnitudes are null. A row whose orbit has no H or no G has no magnitude, also when other rows do. Every other row has the phase angle, in degrees, at the heliocentric emission position between the Sun and the heliocentric observer, and the H-G magnitude of these two positions.", "quantifier": "all tables, all combinations of the two options, all H, all G in [0, 1] for the magnitude formula, all geometries but phase angle 180 degrees", "why_tests_cant": "tests give every orbit H and G, and check one or two magnitudes", "anchors": ["src/adam_core/dynamics/ephemeris.py:generate_ephemeris_2body", "src/adam_core/photometry/magnitude.py:calculate_apparent_magnitude_v_and_phase_angle"]}
{"id": "C202", "title": "The phase angle is the angle Sun-object-observer for one position of the Sun", "statement": "The phase angle reported is the angle at the emission position between the directions to the Sun, at emission or at observation, and to the observer.", "quantifier": "all motions of the Sun about the barycentre", "why_tests_cant": "the Sun moves by a few metres per second, so the difference is below any test tolerance", "anchors": ["src/adam_core/dynamics/ephemeris.py:generate_ephemeris_2body"]}
{"id": "C203", "title": "Correcting an orbit never makes its fit worse", "statement": "The orbit returned by fit_least_squares fits the observations that are not ignored at least as well (chi2) as the orbit given, for every origin, frame and time scale of that orbit, if the solver never increases the sum of squares. The chi2 and residuals reported are those of the orbit returned.", "quantifier": "Every propagator, residual, orbit, set of observations in order of epoch, ignore list, and every solver that never increases its cost.", "why_tests_cant": "A test fits one orbit that is heliocentric, ecliptic and in TDB; the loss for other labels needs an orbit with other labels and an independent chi2.", "anchors": ["src/adam_core/orbit_determination/differential_correction.py:fit_least_squares", "src/adam_core/orbit_determination/differential_correction.py:residual_function", "src/adam_core/orbit_determination/evaluate.py:evaluate_orbits"]}
{"id": "C204", "title": "A corrected orbit refers to the epoch of the orbit given", "statement": "The epoch of the orbit returned by fit_least_squares is the same instant as the epoch of the orbit given.", "quantifier": "Every orbit, epoch, time scale and relation between scales, and every solver.", "why_tests_cant": "Tests use TDB orbits, for which the epoch is kept; the error in another scale is a minute, invisible in residuals.", "anchors": ["src/adam_core/orbit_determination/differential_correction.py:fit_least_squares"]}
{"id": "C205", "title": "Every observation is a member of the corrected orbit", "statement": "The members are the observations in the given order, under the id of the orbit; a member is an outlier exactly if its id was ignored, and is part of the solution exactly if it is not an outlier. The number of observations counts the others and is positive. Ids, origin and frame of the orbit are kept. Any number of orbits other than one is refused. chi2 is the sum over the members that are not outliers; the reduced chi2 is that sum divided by the sum of their degrees of freedom less six, and is missing exactly when that is zero; the arc is the time between the first and the last observation that is not ignored.", "quantifier": "Every orbit table, observation table, ignore list, propagator and solver.", "why_tests_cant": "Ignore lists may name any subset, repeated or unknown ids; a test tries one.", "anchors": ["src/adam_core/orbit_determination/differential_correction.py:fit_least_squares", "src/adam_core/orbit_determination/evaluate.py:evaluate_orbits"]}
{"id": "C206", "title": "A determined orbit gets a covariance from all components of its residuals", "statement": "If the residuals determine the six numbers of the state, fit_least_squares returns the covariance that they imply: the inverse of the information in all components of the residuals.", "quantifier": "Every propagator, residual and set of observations, and every solver whose Jacobian has one row per residual.", "why_tests_cant": "Tests compare no covariance with the information in the data, and use many observations, where an inverse exists.", "anchors": ["src/adam_core/orbit_determination/differential_correction.py:fit_least_squares", "src/adam_core/orbit_determination/differential_correction.py:residual_function"]}
{"id": "C207", "title": "Settings of the solver are the documented defaults unless given", "statement": "The solver starts from the state of the orbit given and gets each keyword argument as given; xtol, ftol and gtol are 1e-12, jac is 2-point, x_scale is jac and the bounds are infinite if not given; args is never passed. The state, number of evaluations, success and status of its solution are those returned.", "quantifier": "Every set of keyword arguments and every solver.", "why_tests_cant": "The settings pass silently into scipy; each default and each override is a separate path.", "anchors": ["src/adam_core/orbit_determination/differential_correction.py:fit_least_squares"]}
{"id": "C208", "title": "The observing night is the local noon-to-noon day of the observatory", "statement": "For each row, calculate_observing_night gives the whole MJD of the last local noon at the row's observatory before the instant of the row, whatever the scale of the times, the date, the other rows and the zone of the machine. Codes that are not in the table give a ValueError.", "quantifier": "Every list of codes, times, scale, set of zones with arbitrary changes of offset, and clock of the machine.", "why_tests_cant": "The result depends on the zone of the machine running the tests; tests run in one zone, with UTC times far from noon.", "anchors": ["src/adam_core/observers/utils.py:calculate_observing_night", "src/adam_core/observers/observers.py:ObservatoryParallaxCoefficients.timezone"]}
{"id": "C209", "title": "The Tisserand parameter gives the encounter speed and survives encounters", "statement": "The Tisserand parameter of the elements that the library gives for a Cartesian state is 2 ap/r - ap v^2/mu + 2 hz/sqrt(mu ap). At a point of the planet's circular orbit it is 3 - U^2 for the speed U relative to the planet in units of the planet's speed, so two states there with equal U have equal parameters.", "quantifier": "Every bound or unbound state with a semi-major axis and an inclination, each of the eight planets, every gravitational parameter.", "why_tests_cant": "It is an identity between two functions over all states; tests compare a few published values.", "anchors": ["src/adam_core/dynamics/tisserand.py:calc_tisserand_parameter", "src/adam_core/coordinates/transform.py:_cartesian_to_keplerian"]}
{"id": "C210", "title": "Orbits with a Tisserand parameter above three do not reach the planet", "statement": "If the parameter exceeds three, the perihelion is outside or the aphelion inside the planet's semi-major axis. The planet's own circular orbit has the value three. Exactly the eight lower-case names of planets are accepted, any other gives a ValueError.", "quantifier": "Every ellipse and hyperbola, every inclination and each of the eight planets.", "why_tests_cant": "A bound over three continuous elements; tests use a handful of objects.", "anchors": ["src/adam_core/dynamics/tisserand.py:calc_tisserand_parameter", "src/adam_core/dynamics/tisserand.py:MAJOR_BODIES"]}
{"id": "C211", "title": "Collapsing a variant ephemeris gives the statistics of each object, epoch and observatory", "statement": "collapse_by_object_id gives exactly one row for each combination of object, epoch and observatory among the variants, ordered by object, day, time of day and observatory. Each row has the weighted mean and covariance of exactly the variants with that combination; longitudes are averaged as directions and differences are taken the short way round. Unknown modes and chunk sizes below one give a ValueError.", "quantifier": "Every table of variants with any interleaving, missing ids, missing weights and numbers of variants per group; modes 'none' and 'collapse'; every chunk size.", "why_tests_cant": "Grouping correctness ranges over all permutations and key combinations; tests collapse one ordered table.", "anchors": ["src/adam_core/orbits/variants.py:VariantEphemeris.collapse_by_object_id"]}
{"id": "C212", "title": "Variants of different orbits are not mixed", "statement": "Each row of a collapsed ephemeris is computed from the variants of the orbit that it names.", "quantifier": "Every table of variants with any orbit and object ids.", "why_tests_cant": "Needs tables in which object ids are missing or shared; the tests give each orbit its own object id.", "anchors": ["src/adam_core/orbits/variants.py:VariantEphemeris.collapse_by_object_id"]}
{"id": "C213", "title": "The statistics of a group do not depend on other groups or on slicing", "statement": "The row of an object, epoch and observatory depends only on its own variants: not on which other groups are in the table, and not on group_chunk_size.", "quantifier": "Every two tables that contain the same variants of a group, every pair of positive chunk sizes.", "why_tests_cant": "A relation between two runs on different tables; single runs do not show it.", "anchors": ["src/adam_core/orbits/variants.py:VariantEphemeris.collapse_by_object_id"]}
{"id": "C214", "title": "Collapsed longitudes turn with the sky", "statement": "Adding an angle to all longitudes adds it to the mean longitude modulo 360 degrees and leaves the other means and the covariance as they are. The mean is in [0, 360); with no negative weight it lies within the span of the longitudes if these are within 90 degrees of some direction, also across 0.", "quantifier": "Every table of variants, every angle, every span below 90 degrees.", "why_tests_cant": "An equivariance over a continuous group; tests check single cases near the wrap.", "anchors": ["src/adam_core/orbits/variants.py:VariantEphemeris.collapse_by_object_id"]}
{"id": "C215", "title": "The fast collapse of sigma points agrees with the general one", "statement": "collapse_sigma_points_orbit_major gives the same rows as collapse_by_object_id without aberrations, up to order, and falls back to it when the table is not in the documented layout.", "quantifier": "Every number of orbits, variants and times, all values and weights; every order of the rows.", "why_tests_cant": "Agreement over all table shapes; tests use one shape that is in the documented layout.", "anchors": ["src/adam_core/orbits/variants.py:VariantEphemeris.collapse_sigma_points_orbit_major", "src/adam_core/orbits/variants.py:VariantEphemeris.collapse_by_object_id"]}
{"id": "C216", "title": "Collapsed magnitudes are weighted means of those present", "statement": "The magnitude of a collapsed row is the weighted mean of the magnitudes present in its group, lies between the smallest and the largest of them, and is missing only if all are.", "quantifier": "Every table of variants, weights of either sign, any pattern of missing magnitudes.", "why_tests_cant": "Weights of sigma points can be negative; tests use the default spread.", "anchors": ["src/adam_core/orbits/variants.py:VariantEphemeris.collapse_by_object_id"]}
{"id": "C217", "title": "Collapsed light times are weighted means of those given", "statement": "In mode 'collapse' each row has the weighted mean of the light times and of the aberrated states of its variants if all are given; a group without light times gets none, or the time over its distance from the observer.", "quantifier": "Every table of variants with any pattern of missing light times and states and any group sizes.", "why_tests_cant": "Needs tables with groups of several sizes or partly missing light times, which no propagator in the tests makes.", "anchors": ["src/adam_core/orbits/variants.py:VariantEphemeris.collapse_by_object_id"]}
{"id": "C218", "title": "Collapsing variant orbits gives one orbit for each object", "statement": "VariantOrbits.collapse_by_object_id gives one orbit for each object in order of first appearance, with the common epoch and origin, the mean and the covariance of its variants. It fails exactly if an object id is missing or variants of one object differ in epoch or origin. The sigma points of an orbit give back its covariance.", "quantifier": "Every table of variant orbits.", "why_tests_cant": "The order and failure conditions range over all tables; the covariance of sigma points is only tested for the other collapse method.", "anchors": ["src/adam_core/orbits/variants.py:VariantOrbits.collapse_by_object_id"]}
{"id": "C219", "title": "The automatic session mode gives the result of one of the other modes, for a stated reason", "statement": "With session_mode=\"auto\" a reported row equals the row of session_mode=\"ignore\" or that of session_mode=\"use\". It can be the latter only if there are two sessions, every session has at least the required number of observations in each of its filters, and at least half of the sessions cover more than an instant. If some uncertainty is missing or not positive, it is the latter exactly if moreover the Bayesian information criterion, computed from the reported scatter, order and counts, is smaller by more than the required improvement.", "quantifier": "every list of observations (any number, times, magnitudes, missing uncertainties, filters, sessions), every option value, every result of the external least squares routine, F distribution functions and H-G fit, every value of the speed of light", "why_tests_cant": "A relation between three runs of the whole search on the same table.", "anchors": ["src/adam_core/photometry/rotation/estimator.py:estimate_rotation_period", "src/adam_core/photometry/rotation/core.py:_summarize_sessions", "src/adam_core/photometry/rotation/core.py:_fit_bic"]}
{"id": "C220", "title": "A covariance from SBDB keeps its meaning in the order of the orbit table", "statement": "If a payload gives a six by six covariance with the labels e, q, tp, node, peri, i, the covariance of the resulting orbit has at the place of two elements of the orbit table (q, e, i, node, peri, tp) the entry SBDB gives for these two labels; it is symmetric and, for a symmetric table, its quadratic form on any vector is that of the table on the reordered vector. A payload with other labels or with a smaller or ragged table is refused.", "quantifier": "every list of ids and every JSON payload the server can answer with (any keys missing, null, or of another type), every reading of numbers in text", "why_tests_cant": "Ranges over all matrices and all vectors; an example with one matrix does not distinguish a permutation from one that agrees on it.", "anchors": ["src/adam_core/orbits/query/sbdb.py:_convert_SBDB_covariances", "src/adam_core/orbits/query/sbdb.py:_orbits_from_sbdb_payloads"]}
{"id": "C221", "title": "Results of a concurrent SBDB query do not depend on the order in which requests finish", "statement": "For any number of workers and any order in which the requests finish, the query returns the same table; if requests fail, the error is that of a failing request, and there is an error if any fails.", "quantifier": "every list of ids and every JSON payload the server can answer with (any keys missing, null, or of another type), every reading of numbers in text, every order of completion", "why_tests_cant": "The order of completion is chosen by the network, a test sees one.", "anchors": ["src/adam_core/orbits/query/sbdb.py:_get_sbdb_payloads_new", "src/adam_core/orbits/query/sbdb.py:query_sbdb_new"]}
{"id": "C222", "title": "SBDB requests are retried a bounded number of times, with bounded waits", "statement": "A request is tried at most the stated number of times; it gives the first answer that is not a failure to connect, a 5xx or a 429; if there is none it fails after exactly that number of tries; the waits between tries double from half a second and are bounded.", "quantifier": "every sequence of server replies, every number of attempts", "why_tests_cant": "The sequence of replies is chosen by the server.", "anchors": ["src/adam_core/orbits/query/sbdb.py:_sbdb_api_get_json"]}
{"id": "C223", "title": "Elements and epoch of an SBDB orbit belong to one solution", "statement": "The six elements, the time of perihelion and the epoch of the returned orbit are those of one block of the payload: the block of the covariance if it has elements, otherwise that of the orbit; the epoch is the Julian date given there, in TDB, the origin the Sun and the frame ecliptic.", "quantifier": "every list of ids and every JSON payload the server can answer with (any keys missing, null, or of another type), every reading of numbers in text", "why_tests_cant": "Depends on which of the optional keys of an external payload are present.", "anchors": ["src/adam_core/orbits/query/sbdb.py:_orbits_from_sbdb_payloads"]}
{"id": "C224", "title": "H and its uncertainty come from the same SBDB entry", "statement": "The absolute magnitude of the returned orbit is the value of the entry H, with the sigma of that entry, or else of the entry H_mag; likewise for G.", "quantifier": "every list of ids and every JSON payload the server can answer with (any keys missing, null, or of another type), every reading of numbers in text", "why_tests_cant": "Depends on the values and optional keys of an external payload.", "anchors": ["src/adam_core/orbits/query/sbdb.py:_orbits_from_sbdb_payloads"]}
{"id": "C225", "title": "Rows of an SBDB query belong to the ids asked for", "statement": "The table has one row for each id the server knows, in the order of the ids, named after the object; the orbit ids are distinct five-digit numbers of the row, or the ids of the input if so asked. Without allow_missing an unknown object is an error. An object without a name has no name.", "quantifier": "every list of ids and every JSON payload the server can answer with (any keys missing, null, or of another type), every reading of numbers in text", "why_tests_cant": "Ranges over all lists of ids and all subsets of known objects.", "anchors": ["src/adam_core/orbits/query/sbdb.py:query_sbdb_new", "src/adam_core/orbits/query/sbdb.py:_orbits_from_sbdb_payloads"]}
{"id": "C226", "title": "An unknown uncertainty in an SBDB orbit affects only its own variance", "statement": "If a payload has no covariance, the covariance of the orbit is diagonal with the squares of the given uncertainties, and unknown exactly in the variances whose uncertainty is unknown.", "quantifier": "every list of ids and every JSON payload the server can answer with (any keys missing, null, or of another type), every reading of numbers in text", "why_tests_cant": "Depends on which of six optional numbers are present.", "anchors": ["src/adam_core/orbits/query/sbdb.py:_orbits_from_sbdb_payloads", "src/adam_core/coordinates/covariances.py:sigmas_to_covariances"]}
{"id": "C227", "title": "Scout requests are retried only for failures that may pass, and errors name their object", "statement": "A Scout request is tried at least once and at most the stated number of times, again only after a failure that may pass (no connection, 429, 5xx, a body that is no JSON), with waits that double; it gives the payload of the last try exactly if that is a success. The error of a query says which object failed and how (not found, unavailable, malformed), and is that of the first object that fails: no object is skipped.", "quantifier": "every list of objects, every sequence of server replies, every JSON payload, every number of attempts and every delay", "why_tests_cant": "The replies are chosen by the server.", "anchors": ["src/adam_core/orbits/query/scout.py:_request_scout_json", "src/adam_core/orbits/query/scout.py:_request_scout_object_json", "src/adam_core/orbits/query/scout.py:query_scout"]}
{"id": "C228", "title": "A malformed Scout answer is reported as malformed", "statement": "If the service answers but the answer does not have the documented form (no JSON, no orbits, rows of another length, a cell that is no number), the query fails with the error for malformed answers of that object; it does not return a part of it, nor say that the service is unavailable.", "quantifier": "every list of objects, every sequence of server replies, every JSON payload, every number of attempts and every delay", "why_tests_cant": "Ranges over all payloads.", "anchors": ["src/adam_core/orbits/query/scout.py:_request_scout_object_json", "src/adam_core/orbits/query/scout.py:_require_scout_signature", "src/adam_core/orbits/query/scout.py:query_scout", "src/adam_core/orbits/query/scout.py:query_scout_observations"]}
{"id": "C229", "title": "Scout samples carry the values and the time scale of the service", "statement": "The result of a Scout query has, for each object in the order asked for, one row for each sample in the order of the answer; elements, epoch and H are the numbers in the cells of that row, and the epoch is in TDB, the scale of Scout.", "quantifier": "every list of objects, every sequence of server replies, every JSON payload, every number of attempts and every delay", "why_tests_cant": "Ranges over all payloads.", "anchors": ["src/adam_core/orbits/query/scout.py:scout_orbits_to_variant_orbits", "src/adam_core/orbits/query/scout.py:query_scout"]}
{"id": "C230", "title": "Scout samples of different objects have different ids", "statement": "Two rows of the result of a Scout query do not have the same orbit id and variant id.", "quantifier": "every list of objects, every sequence of server replies, every JSON payload, every number of attempts and every delay", "why_tests_cant": "Ranges over all lists of objects.", "anchors": ["src/adam_core/orbits/query/scout.py:scout_orbits_to_variant_orbits", "src/adam_core/orbits/query/scout.py:query_scout"]}
{"id": "C231", "title": "A Scout observation snapshot is complete and belongs to its object", "statement": "The observations returned for an object are all those of its file, in order, numbered from zero, each with the number of all, the digest of the file and the run it comes from, and each of that object; a file that cannot be read, is empty or has an observation of another object is an error.", "quantifier": "every list of objects, every sequence of server replies, every JSON payload, every number of attempts and every delay, every reader of observation files", "why_tests_cant": "Ranges over all files and payloads.", "anchors": ["src/adam_core/orbits/query/scout.py:query_scout_observations"]}
{"id": "C232", "title": "A Horizons query returns every object at every time, in order", "statement": "A query of Horizons for any number of objects and times returns one orbit for each object and time, with the values and the name the service gave for them, sorted by time. If the times are distinct and there are at most 100000 objects the rows of one time are in the order of the request. No times, no objects and an unknown type of coordinates are errors.", "quantifier": "every list of objects, every list of times of any length, every conversion of times to TDB, every answer of the service with one row for each epoch", "why_tests_cant": "The times are sent in chunks of 50; the order across chunks depends on sorting numbers as text. No test asks for enough objects and times.", "anchors": ["src/adam_core/orbits/query/horizons.py:query_horizons", "src/adam_core/orbits/query/horizons.py:_get_horizons_vectors", "src/adam_core/orbits/query/horizons.py:_get_horizons_elements"]}
{"id": "C233", "title": "The origin of a Horizons orbit is the location asked for", "statement": "The states returned by a query of Horizons have the location of the query as their origin.", "quantifier": "every list of objects, every list of times of any length, every conversion of times to TDB, every answer of the service with one row for each epoch, every location", "why_tests_cant": "The label is only wrong for locations other than the default.", "anchors": ["src/adam_core/orbits/query/horizons.py:query_horizons"]}
{"id": "C234", "title": "A Horizons ephemeris has every object for every observer, in the frame of right ascension", "statement": "A query for ephemerides returns one row for each object and observer with right ascension, declination, phase angle and light time (in days) the service gave for them, time in UTC, the observatory as origin, sorted by object, time and observatory, in the equatorial frame. No objects and no observers are errors.", "quantifier": "every list of objects, every list of observers, every conversion of times to UTC, every answer of the service with one row for each epoch", "why_tests_cant": "Ranges over all groupings of observers by observatory; the frame is a label no test compares with the meaning of the numbers.", "anchors": ["src/adam_core/orbits/query/horizons.py:query_horizons_ephemeris", "src/adam_core/orbits/query/horizons.py:_get_horizons_ephemeris", "src/adam_core/observers/observers.py:Observers"]}
{"id": "C235", "title": "Coordinates of a source catalogue carry its uncertainties in degrees", "statement": "The coordinates of a source catalogue have, row by row, the right ascension, declination, time and observatory of the source in the equatorial frame; the variances are the squares of the uncertainties in degrees, the covariance is the correlation times both, each unknown exactly if a number it needs is; all other entries are unknown. For a correlation the schema accepts, the block of both angles is a covariance (positive semidefinite).", "quantifier": "every source catalogue (any number of rows, any of the nullable columns null)", "why_tests_cant": "Ranges over all uncertainties and correlations.", "anchors": ["src/adam_core/observations/source_catalog.py:SourceCatalog"]}
{"id": "C236", "title": "The exposures of a catalogue are those its sources name", "statement": "The exposures of a source catalogue are, each once, the exposures its sources name, with the details all sources of it agree on; sources without an exposure do not prevent that.", "quantifier": "every source catalogue (any number of rows, any of the nullable columns null)", "why_tests_cant": "Depends on which rows share an exposure id and which details are null.", "anchors": ["src/adam_core/observations/source_catalog.py:SourceCatalog", "src/adam_core/observations/exposures.py:Exposures"]}
{"id": "C237", "title": "Observers of a catalogue at exposure midpoints agree with those of its exposures", "statement": "If the sources of each exposure agree on its observatory, start and duration, the observer of each source at the middle of its exposure is the observer of its exposure, and the time is start plus half the duration to half a nanosecond; otherwise the observers are those at the times of the sources, row by row.", "quantifier": "every source catalogue (any number of rows, any of the nullable columns null), every state of observatories", "why_tests_cant": "Two implementations with different groupings; ranges over all catalogues.", "anchors": ["src/adam_core/observations/source_catalog.py:SourceCatalog", "src/adam_core/observations/exposures.py:Exposures", "src/adam_core/observers/observers.py:Observers"]}
{"id": "C238", "title": "A NEOCC orbit file is read as what it says", "statement": "For every OEF file with a header, an id line and a body of remarks and records in any order and of any length, reading it gives the id, the reference system, the six elements, the epoch with its time system, H and G, the covariance and the correlation (the 6x6 upper triangle of 21 values, or the first six rows and columns of a triangle of 28), and for every remark of the form '! NAME value' the value of that name.", "quantifier": "all files, with any blanks between fields, any number and order of remarks and other records, quoted or unquoted header values", "why_tests_cant": "A test reads a few downloaded files; order, blanks and the other records vary without limit.", "anchors": ["src/adam_core/orbits/query/neocc.py:_parse_oef", "src/adam_core/orbits/query/neocc.py:_remove_last_column_of_upper_triangular"]}
{"id": "C239", "title": "NEOCC rows follow the ids and keep time scale and frame", "statement": "If the file of every id is usable (TDT, ECLM J2000, with a covariance), query_neocc returns one row per id in the order of the ids, with ids, elements, epoch, H, G and covariance of its own file, labelled tt, ecliptic and heliocentric. If the file of any id is in another time scale or reference system, there is no result. Equinoctial elements and unknown epochs are errors.", "quantifier": "all lists of ids, all servers, both epochs", "why_tests_cant": "Tests query a few objects from a live server; nobody tests a file in another scale or system.", "anchors": ["src/adam_core/orbits/query/neocc.py:query_neocc", "src/adam_core/orbits/query/neocc.py:_physical_parameters_from_neocc"]}
{"id": "C240", "title": "Every id queried from the NEOCC has a row or there is an error", "statement": "If query_neocc returns, it returns as many rows as there are ids.", "quantifier": "all lists of ids, all servers, all kinds of elements", "why_tests_cant": "Tests query objects whose files are complete.", "anchors": ["src/adam_core/orbits/query/neocc.py:query_neocc"]}
{"id": "C241", "title": "A NEOCC orbit without covariance can be queried", "statement": "An orbit file with elements, epoch and magnitude but without COV records gives a row with a missing covariance.", "quantifier": "all lists of ids, all servers", "why_tests_cant": "Tests query objects with a covariance.", "anchors": ["src/adam_core/orbits/query/neocc.py:query_neocc", "src/adam_core/orbits/query/neocc.py:_parse_oef"]}
{"id": "C242", "title": "An OpenSpace asset is written as a Lua table that says the asset", "statement": "Lua, reading the text of an asset, finds a table with one entry for each field that is set, under the name of the field and with its value: texts as the same texts, numbers and booleans as such, tuples and lists as tables of their members, nested dictionaries as nested tables. Fields that are None are absent.", "quantifier": "all assets of any nesting depth and any indentation", "why_tests_cant": "texts, lists and nestings are unbounded; tests compare a few files with stored text and run no Lua reader", "anchors": ["src/adam_core/orbits/openspace/lua.py:LuaDict", "src/adam_core/orbits/openspace/assets.py:Asset"]}
{"id": "C243", "title": "Fields of an OpenSpace asset have distinct names", "statement": "Two fields with different Python names get different names in Lua, so that no field of an asset overwrites another. The names of the fields the package writes are those of OpenSpace (dim_in_atmosphere is DimInAtmosphere, gui is GUI).", "quantifier": "all pairs of field names of small letters and digits whose words begin with a letter, other than g_u_i", "why_tests_cant": "there are infinitely many names; tests look at the names of a few fields", "anchors": ["src/adam_core/orbits/openspace/lua.py:LuaDict"]}
{"id": "C244", "title": "A trail file declares, adds and removes every node once", "statement": "create_renderable_trail_orbit writes one node for each orbit, two if heads are created, each under a variable of its own. Every variable is added once when the asset is initialised and removed once when it is deinitialised, in order. Nodes have distinct identifiers.", "quantifier": "all lists of orbits and all options", "why_tests_cant": "the number of orbits is unbounded and the numbering of variables is stateful; tests write few orbits", "anchors": ["src/adam_core/orbits/openspace/assets.py:create_renderable_trail_orbit", "src/adam_core/orbits/openspace/assets.py:create_initialization"]}
{"id": "C245", "title": "An option given to an OpenSpace asset is written in it", "statement": "Every display option given to create_renderable_orbital_kepler or create_renderable_trail_orbit is a field of the renderable in the file, with the value given; an option that is not given is absent.", "quantifier": "all orbits and all values of the options", "why_tests_cant": "the statement compares files for all values of the options; tests look for a few fields", "anchors": ["src/adam_core/orbits/openspace/assets.py:create_renderable_orbital_kepler", "src/adam_core/orbits/openspace/assets.py:create_renderable_trail_orbit"]}
{"id": "C246", "title": "OpenSpace options have the documented values", "statement": "The documented render modes (Opaque, Transparent, Both), rendering types and translation types are accepted; any other value of them raises ValueError, and so does a Spice translation without a kernel or object ids.", "quantifier": "all values of the options, all lists of orbits", "why_tests_cant": "invalid values are unbounded; tests do not cover errors of these functions", "anchors": ["src/adam_core/orbits/openspace/assets.py:create_renderable_trail_orbit", "src/adam_core/orbits/openspace/assets.py:create_renderable_orbital_kepler", "src/adam_core/orbits/openspace/renderable.py:RenderBinMode"]}
{"id": "C247", "title": "Trails and heads in OpenSpace follow the elements of their orbit", "statement": "With Kepler translations the node of an orbit has the eccentricity, the angles and the epoch of that orbit under their names, its semi-major axis in kilometres and its period in seconds; the renderable has its period in days, or the one the user gave. An orbit without a finite period gets 10000 days. The head has the same translation as the trail. Every option of the trail is written under its own name, and left out if it is None; opacity, enabled, tag and the other common options are never written.", "quantifier": "all lists of orbits and all options", "why_tests_cant": "mixing up elements or units changes numbers only; tests cannot cover all orbits", "anchors": ["src/adam_core/orbits/openspace/assets.py:create_renderable_trail_orbit", "src/adam_core/orbits/openspace/translation.py:KeplerTranslation"]}
{"id": "C248", "title": "Epochs in the file of elements are those of the orbits", "statement": "The calendar date with decimal day that orbits_to_sbdb_file writes denotes the epoch of the orbit.", "quantifier": "all epochs", "why_tests_cant": "the failures are within half a millisecond before midnight and before 1858-11-17", "anchors": ["src/adam_core/orbits/openspace/assets.py:orbits_to_sbdb_file"]}
{"id": "C249", "title": "Batch size and padding of the JAX backend never change the result", "statement": "With exact_evaluation_backend=\"jax\" the scores of all frequencies, the best fit and its place do not depend on the batch size, on the row padding or on the padding of the design to a multiple of eight columns. The coefficients of padded columns are exactly zero and the others are those of the design without padding.", "quantifier": "all data sets, Fourier orders, clipping factors, lists of frequencies, batch sizes and padding settings; any linear solver that solves positive definite systems; exact arithmetic", "why_tests_cant": "padding changes the shape of every matrix in the fit; tests compare a few sizes", "anchors": ["src/adam_core/photometry/rotation/jax_backend.py:evaluate_frequency_indices_jax", "src/adam_core/photometry/rotation/jax_backend.py:_pad_rows", "src/adam_core/photometry/rotation/jax_backend.py:_evaluate_frequency_batch_jit", "src/adam_core/photometry/rotation/estimator.py:_evaluate_frequency_indices_with_jax"]}
{"id": "C250", "title": "With the same linear solver the JAX backend returns the scores and the best fit of the numpy backend", "statement": "If both backends solved their least-squares problems by the same ridge system, every score, the best fit (frequency, coefficients, sigma, residual sum, degrees of freedom, numbers of fitted and clipped rows) and its place would be equal, although the JAX backend always runs every clipping round on a mask and the numpy backend stops early on the kept rows. The first of equal minima wins in both.", "quantifier": "all data sets with or without weights, all orders, clipping factors, frequencies, batch sizes and paddings", "why_tests_cant": "the two loops are different programs; tests compare them on a few light curves", "anchors": ["src/adam_core/photometry/rotation/jax_backend.py:_evaluate_frequency_batch_jit", "src/adam_core/photometry/rotation/estimator.py:_evaluate_frequency_indices_with_jax", "src/adam_core/photometry/rotation/estimator.py:_evaluate_frequency_indices", "src/adam_core/photometry/rotation/core.py:_fit_frequency"]}
{"id": "C251", "title": "The period solution does not depend on the evaluation backend, given the same linear solver", "statement": "The chosen order, period, period interval, clusters, alternates, reliability and amplitude are the same with exact_evaluation_backend \"jax\" and \"numpy\", for the staged and the exhaustive search, if both solve the same ridge systems; the fits that the JAX backend does not return are fitted again only where they are needed.", "quantifier": "all options, data sets, frequency grids, batch sizes and paddings", "why_tests_cant": "the statement relates two runs of the whole search; tests compare a few light curves", "anchors": ["src/adam_core/photometry/rotation/estimator.py:_derive_fourier_solution", "src/adam_core/photometry/rotation/estimator.py:_search_best_fit", "src/adam_core/photometry/rotation/estimator.py:_evaluate_full_order_curve"]}
{"id": "C252", "title": "Both backends return the same scores and coefficients", "statement": "For the same data the JAX backend, which adds 1e-15 to the diagonal of the normal equations, returns the scores and coefficients of the numpy backend, which solves the least-squares problem itself.", "quantifier": "all data sets and frequencies, every program that returns a least-squares solution, exact arithmetic", "why_tests_cant": "the difference is below what tests compare", "anchors": ["src/adam_core/photometry/rotation/jax_backend.py:_evaluate_frequency_batch_jit", "src/adam_core/photometry/rotation/core.py:_weighted_lstsq"]}
{"id": "C253", "title": "Padded sizes are the smallest that fit", "statement": "The number of padded rows is the smallest power of two that holds the rows and the requested minimum, less than twice as many; the number of padded columns is the smallest multiple of eight that holds the columns.", "quantifier": "all numbers of rows and columns and all minima", "why_tests_cant": "sizes are unbounded; an error at exact powers of two wastes memory without an error", "anchors": ["src/adam_core/photometry/rotation/jax_backend.py:_row_bucket", "src/adam_core/photometry/rotation/jax_backend.py:_next_multiple"]}
{"id": "C254", "title": "The gravitational parameter of a row depends only on the origin code of the row", "statement": "Origin.mu() returns one value per row, and the value of a row is that of a one-row table with the same code, whatever the other rows are and whatever the uninitialised output array held. It raises ValueError exactly when some row alone would. The Sun agrees with the constant MU of the library within 1e-15, the solar system barycenter is the sum of its eleven parts and agrees with Horizons within 2e-9.", "quantifier": "all tables of origin codes of any length, in any order, with any repetitions, and any initial memory", "why_tests_cant": "the array is allocated uninitialised and filled by masks; a row missed by every mask would return whatever was in memory, which often looks right", "anchors": ["src/adam_core/coordinates/origin.py:Origin.mu", "src/adam_core/coordinates/origin.py:OriginGravitationalParameters", "src/adam_core/coordinates/origin.py:_convert_mu_units"]}
{"id": "C255", "title": "Every origin code has a gravitational parameter", "statement": "Origin.mu() of a table made of any member of OriginCodes returns its positive gravitational parameter.", "quantifier": "all members of OriginCodes", "why_tests_cant": "tests use the Sun and the barycenter; the two enumerations are written by hand and can drift apart", "anchors": ["src/adam_core/coordinates/origin.py:OriginCodes", "src/adam_core/coordinates/origin.py:OriginGravitationalParameters", "src/adam_core/coordinates/origin.py:Origin.mu"]}
{"id": "C256", "title": "Origin codes survive the round trip through a table", "statement": "as_OriginCodes of from_OriginCodes(code, size) is the code, for every size of at least one. as_OriginCodes succeeds exactly for a table that is not empty and whose rows all name the same member; it raises KeyError when they all name something else and AssertionError otherwise.", "quantifier": "all members, all sizes, all tables of codes", "why_tests_cant": "the number of rows and the mixtures of codes are unbounded", "anchors": ["src/adam_core/coordinates/origin.py:Origin.from_OriginCodes", "src/adam_core/coordinates/origin.py:Origin.as_OriginCodes"]}
{"id": "C257", "title": "The derived q, Q and p of a Keplerian table describe the states it is converted to", "statement": "For an ellipse the distance of the converted state is between q and Q for every mean anomaly, equal to q at M = 0 and to Q at M = 180 degrees. For a hyperbola it is at least q, equal to q at M = 0, and Q and P are infinite. In both cases p is the squared angular momentum over mu and the energy is -mu / (2 a).", "quantifier": "all orbits outside the parabolic tolerance of 1e-15, all orientations and anomalies, any number of solver steps and any tolerance", "why_tests_cant": "a continuum of orbits; tests compare a few rows with Horizons", "anchors": ["src/adam_core/coordinates/keplerian.py:KeplerianCoordinates.q", "src/adam_core/coordinates/keplerian.py:KeplerianCoordinates.Q", "src/adam_core/coordinates/keplerian.py:KeplerianCoordinates.p", "src/adam_core/coordinates/keplerian.py:KeplerianCoordinates.P", "src/adam_core/coordinates/keplerian.py:KeplerianCoordinates.to_cartesian", "src/adam_core/dynamics/kepler.py:calc_periapsis_distance", "src/adam_core/dynamics/kepler.py:calc_apoapsis_distance", "src/adam_core/dynamics/kepler.py:calc_semi_latus_rectum", "src/adam_core/dynamics/kepler.py:calc_period", "src/adam_core/coordinates/transform.py:keplerian_to_cartesian"]}
{"id": "C258", "title": "P is the period of the converted states and n the angle per day", "statement": "For an ellipse n P is 360 degrees, and a Keplerian row whose mean anomaly is advanced by n P, any number of times, converts to exactly the same state. A cometary row converts to the same state at t0 and at t0 plus any whole number of periods; at the time of periapsis its distance is q, half a period later it is Q, and at every time it lies between them.", "quantifier": "all elliptic orbits outside the parabolic tolerance, all epochs, all whole numbers of periods, any number of solver steps and any tolerance", "why_tests_cant": "the solver is iterative and the conversion branches on the sign of tp - t0; tests try a few epochs", "anchors": ["src/adam_core/coordinates/keplerian.py:KeplerianCoordinates.P", "src/adam_core/coordinates/keplerian.py:KeplerianCoordinates.n", "src/adam_core/coordinates/cometary.py:CometaryCoordinates.P", "src/adam_core/coordinates/cometary.py:CometaryCoordinates.Q", "src/adam_core/coordinates/keplerian.py:KeplerianCoordinates.to_cartesian", "src/adam_core/coordinates/cometary.py:CometaryCoordinates.to_cartesian", "src/adam_core/dynamics/kepler.py:calc_period", "src/adam_core/dynamics/kepler.py:calc_mean_motion", "src/adam_core/dynamics/kepler.py:solve_kepler", "src/adam_core/coordinates/transform.py:cometary_to_cartesian"]}
{"id": "C259", "title": "The derived columns of a cometary table are those of the same orbit in Keplerian form", "statement": "For every cometary row the semi-latus rectum is q (1 + e), the squared angular momentum over mu of the state it converts to, and a, Q, P and n are those of the Keplerian row of the same orbit; Q and P are infinite exactly for orbits that are not bound.", "quantifier": "all periapsis distances, eccentricities and gravitational parameters", "why_tests_cant": "the columns are computed through the semi-major axis, which is infinite at one eccentricity; tests rarely contain an exact parabola", "anchors": ["src/adam_core/coordinates/cometary.py:CometaryCoordinates.a", "src/adam_core/coordinates/cometary.py:CometaryCoordinates.Q", "src/adam_core/coordinates/cometary.py:CometaryCoordinates.p", "src/adam_core/coordinates/cometary.py:CometaryCoordinates.P", "src/adam_core/coordinates/cometary.py:CometaryCoordinates.n", "src/adam_core/dynamics/kepler.py:calc_semi_major_axis", "src/adam_core/dynamics/kepler.py:calc_semi_latus_rectum", "src/adam_core/coordinates/transform.py:cometary_to_cartesian"]}
{"id": "C260", "title": "The impact visualisation sorts every propagated row into the groups its impacts call for", "statement": "The dictionary has the key \"Non-Impacting\" and one key for each body that appears in the impacts, each once. \"Non-Impacting\" holds exactly the rows whose identifier is no variant_id of the impacts, unchanged and in order. The group of a body holds, up to order, the identifiers and epochs of exactly the rows whose variant has an impact on that body.", "quantifier": "all tables of propagated variants and all tables of impacts, in any order, with any repetitions and with null variant identifiers", "why_tests_cant": "the groups are rebuilt by splitting and concatenating once per impact; the number of impacts and rows is unbounded", "anchors": ["src/adam_core/dynamics/plots.py:prepare_propagated_variants"]}
{"id": "C261", "title": "A variant is shown frozen exactly from its impact on", "statement": "In the group of a body a row keeps its propagated coordinates if its variant has no impact on that body at or before its epoch. Otherwise it is shown at the collision coordinates of the last such impact in the order of the table, evaluated at the epoch of the row. Identifier and epoch never change.", "quantifier": "all tables of propagated variants and impacts, any two time scales, any conversion between them and any rounding of the epochs to MJD", "why_tests_cant": "the result is a fold over the impacts in which later impacts see rows already moved by earlier ones", "anchors": ["src/adam_core/dynamics/plots.py:prepare_propagated_variants"]}
{"id": "C262", "title": "Frozen variants stay on the surface of the body they hit", "statement": "At every epoch a frozen variant is at the distance of the radius of the body from its centre: the radius of the Earth for impacts on the Earth, of the Moon for impacts on the Moon.", "quantifier": "all longitudes, latitudes and epochs, collision coordinates in ecliptic, equatorial or Earth-fixed axes", "why_tests_cant": "a continuum of points, and the centre of the Moon and the Earth-fixed axes move with the epoch", "anchors": ["src/adam_core/dynamics/plots.py:prepare_propagated_variants", "src/adam_core/dynamics/plots.py:EARTH_RADIUS_KM", "src/adam_core/dynamics/plots.py:MOON_RADIUS_KM", "src/adam_core/coordinates/transform.py:transform_coordinates"]}
{"id": "C263", "title": "Every propagated row appears in exactly one group", "statement": "Together the groups contain every propagated row once.", "quantifier": "all tables of propagated variants and impacts", "why_tests_cant": "tests use one impact per variant", "anchors": ["src/adam_core/dynamics/plots.py:prepare_propagated_variants"]}
{"id": "C264", "title": "A variant without impact is never shown as impacting", "statement": "The rows of a variant that has no impact, by orbit and variant identifier, are in \"Non-Impacting\" with their propagated coordinates.", "quantifier": "all variant orbits, all impacts, all propagators", "why_tests_cant": "tests use the variants of a single orbit", "anchors": ["src/adam_core/dynamics/plots.py:generate_impact_visualization_data", "src/adam_core/dynamics/plots.py:prepare_propagated_variants"]}
{"id": "C265", "title": "The epochs of the visualisation cover the impacts with the asked margin", "statement": "The epochs are consecutive multiples of the time step and reach from time_range before the first impact to time_range after the last one.", "quantifier": "all impact epochs, all positive time steps, all margins", "why_tests_cant": "a continuum of epochs and steps", "anchors": ["src/adam_core/dynamics/plots.py:generate_impact_visualization_data"]}
{"id": "C266", "title": "The visualisation data are sorted by epoch and fail only as documented", "statement": "Every returned group is the prepared group sorted by epoch, rows of one epoch in their previous order. The call raises ValueError exactly when there are no impacts or an impact is on a body other than the Earth and the Moon; otherwise it fails only for a time step of zero.", "quantifier": "all variant orbits, impacts, propagators that return, steps and margins", "why_tests_cant": "all orders of rows and all mixtures of bodies", "anchors": ["src/adam_core/dynamics/plots.py:generate_impact_visualization_data"]}
{"id": "C267", "title": "A normalised filter curve is a function of wavelength with maximum 1", "statement": "A curve that is accepted has at least two samples, strictly increasing wavelengths that are exactly those of the input, throughputs between 0 and 1, and a sample with throughput 1. A curve with a non-finite value is refused, as is an empty one, one at a single wavelength and one without positive throughput; every other curve without repeated wavelengths is accepted.", "quantifier": "all lists of samples in any order, with repeated wavelengths and non-finite values; any sorting algorithm", "why_tests_cant": "the values form a continuum and the number of samples is unbounded", "anchors": ["src/adam_core/photometry/bandpasses/vendor.py:_normalize_curve"]}
{"id": "C268", "title": "Normalising a filter curve keeps its shape", "statement": "All throughputs are multiplied by the same positive number.", "quantifier": "all accepted curves", "why_tests_cant": "a continuum of curves; tests use curves between 0 and 1", "anchors": ["src/adam_core/photometry/bandpasses/vendor.py:_normalize_curve"]}
{"id": "C269", "title": "A normalised filter curve does not depend on the order of the samples", "statement": "Two curves with the same samples in different orders have the same normalised curve.", "quantifier": "all lists of samples and all permutations of them; any sorting algorithm", "why_tests_cant": "unboundedly many permutations", "anchors": ["src/adam_core/photometry/bandpasses/vendor.py:_normalize_curve"]}
{"id": "C270", "title": "The named mixes NEO and MBA are the mixes of the C and S templates", "statement": "In the table of integrals the value for NEO is half the sum of those for C and S, and the one for MBA is 0.7 and 0.3 of them, for every filter. Asking for the integrals of NEO (MBA) gives the same result or error as asking for a mix with weights in the proportion 1:1 (7:3), for every list of filters.", "quantifier": "all solar spectra, all filter curves, all lists of filters, all positive weights in the proportion", "why_tests_cant": "the spectra and curves are continua, and the integrals are built by interpolation on grids that depend on them", "anchors": ["src/adam_core/photometry/bandpasses/vendor.py:build_asteroid_templates", "src/adam_core/photometry/bandpasses/vendor.py:build_template_bandpass_integrals", "src/adam_core/photometry/bandpasses/api.py:get_integrals", "src/adam_core/photometry/bandpasses/api.py:compute_mix_integrals"]}
{"id": "C271", "title": "A vendored integral is what the template gives when registered as a custom one", "statement": "For every template and filter the value in the table is the integral that is computed for a custom template with the same reflectance.", "quantifier": "all increasing solar spectra, all templates and filters", "why_tests_cant": "two separate implementations over a continuum of curves", "anchors": ["src/adam_core/photometry/bandpasses/vendor.py:build_template_bandpass_integrals", "src/adam_core/photometry/bandpasses/api.py:_compute_integral_photon"]}
{"id": "C272", "title": "The vendored templates are positive and equal 1 at 550 nm", "statement": "The templates C, S, NEO and MBA can be built. All have the same 4000 strictly increasing wavelengths from 300 to 1100 nm, are positive at each of them, have the value 1 at 550 nm, and their weights of C and S add up to 1.", "quantifier": "all wavelengths of the grid", "why_tests_cant": "exponentials at 4000 points, and 550 nm is not among them; positivity has to hold for the exact functions", "anchors": ["src/adam_core/photometry/bandpasses/vendor.py:build_asteroid_templates"]}
{"id": "C273", "title": "The vendored tables have exactly the requested rows", "statement": "The table of curves has one row for each specification, in order and with its columns; its curve is the normalised one of its own data, in nm where the service gives Angstrom. It is built exactly when the list is not empty, no filter is repeated and each curve can be read and normalised. The default filters are distinct. The table of integrals has one row for each pair of template and filter, in order.", "quantifier": "all lists of specifications, all answers of the service, all lists of templates and curves", "why_tests_cant": "unboundedly many specifications and answers", "anchors": ["src/adam_core/photometry/bandpasses/vendor.py:build_bandpass_curves", "src/adam_core/photometry/bandpasses/vendor.py:_parse_svo_curve", "src/adam_core/photometry/bandpasses/vendor.py:_default_svo_bandpass_specs", "src/adam_core/photometry/bandpasses/vendor.py:build_template_bandpass_integrals"]}
{"id": "C274", "title": "The observatory map names one existing filter for each pair of observatory and band", "statement": "A pair of observatory and band has at most one filter in the vendored map, the keys of the map are distinct, and every filter in it is one of the default filters.", "quantifier": "all observatory codes and bands", "why_tests_cant": "tests look at single entries", "anchors": ["src/adam_core/photometry/bandpasses/vendor.py:build_observatory_band_map", "src/adam_core/photometry/bandpasses/vendor.py:_default_svo_bandpass_specs"]}
{"id": "C275", "title": "The newer SBDB query can replace the older one", "statement": "For the same answers of the service query_sbdb_new succeeds exactly when query_sbdb does, and returns the same orbits.", "quantifier": "all lists of ids and answers with any covariances, epochs and elements; any order of completion; with and without allow_missing", "why_tests_cant": "the answers are unboundedly many JSON documents, and the two queries read them by different code", "anchors": ["src/adam_core/orbits/query/sbdb.py:query_sbdb", "src/adam_core/orbits/query/sbdb.py:query_sbdb_new"]}
{"id": "C276", "title": "The risk corridor animates the Earth impacts in the order of time", "statement": "The plot is refused exactly when there is no impact on the Earth. Otherwise it is centred on an earliest Earth impact and has one frame for each. Frame k shows the k + 1 earliest of them with their positions and their minutes since the first one; its ticks start at 0, end at the last minute shown and lie between. The first picture has ticks at 0 and at the minute of the latest impact.", "quantifier": "all lists of impacts on any bodies, any positions and epochs, any admissible result of argsort for equal epochs", "why_tests_cant": "the number of impacts is unbounded and equal epochs can be ordered in any way", "anchors": ["src/adam_core/dynamics/plots.py:plot_risk_corridor"]}
{"id": "C277", "title": "The perceptual colour scale gets darker and more opaque", "statement": "The scale has the requested number of levels at equal distances from 0 to 1, channels between 0 and 255 and an opacity that rises linearly between its bounds; the later levels are the base colour at a falling lightness, rounded down; no channel gets larger from a level to a later one.", "quantifier": "all base colours, all lightness and opacity bounds, all numbers of levels", "why_tests_cant": "a continuum of bounds and unboundedly many levels", "anchors": ["src/adam_core/missions/porkchop.py:generate_perceptual_colorscale"]}
{"id": "C278", "title": "Predicted magnitudes and phase angles belong to the observer of the row", "statement": "The ephemeris keeps its rows and all other columns. When something is computed, each row gets the phase angle and the magnitude for its own position, the only observer with its code and time, and the H and G of its orbit; rows of orbits without H or G have no magnitude. Otherwise the table is unchanged. The only error is ValueError, raised exactly for conflicting H or G, two observers with the same code and time, or a row without an observer in a sensible geometry.", "quantifier": "all ephemerides, observers and orbits, all observatory codes including ones that contain the separator of the keys, all epochs, all four combinations of the options, all time scales", "why_tests_cant": "unboundedly many tables, and rows are matched through texts built from codes and integers", "anchors": ["src/adam_core/propagator/propagator.py:attach_magnitude_or_phase", "src/adam_core/propagator/propagator.py:_alignment_indices_struct_index_in"]}
{"id": "C279", "title": "Asking for both columns gives what asking for each of them gives", "statement": "With both options the call succeeds exactly when it does with each option alone; its magnitudes are those of the one and its phase angles those of the other.", "quantifier": "all ephemerides, observers and orbits", "why_tests_cant": "a relation between three calls over unboundedly many tables", "anchors": ["src/adam_core/propagator/propagator.py:attach_magnitude_or_phase"]}
{"id": "C280", "title": "An absolute magnitude does not make an ephemeris fail", "statement": "If magnitudes are requested and the call succeeds for orbits without H and G, it succeeds for the same orbits with H and G.", "quantifier": "all ephemerides, observers and orbits", "why_tests_cant": "unboundedly many tables", "anchors": ["src/adam_core/propagator/propagator.py:attach_magnitude_or_phase"]}
{"id": "C281", "title": "H and G of a row are those of its orbit", "statement": "The parameters of a row are those of the rows of the orbit table with its identifier that have both; there are none exactly if no such row has both. Different values for one identifier are refused with ValueError, equal ones never are.", "quantifier": "all orbit tables with repeated identifiers and missing values, all lists of identifiers", "why_tests_cant": "unboundedly many tables", "anchors": ["src/adam_core/propagator/propagator.py:_hg_params_for_ephemeris_rows_arrow"]}
{"id": "C282", "title": "Both ways to align rows with observers agree", "statement": "The alignment by sorted keys and the one by lookup have the same result or the same error.", "quantifier": "all lists of keys, any total order on texts", "why_tests_cant": "unboundedly many keys; the sorted lookup depends on the order of texts", "anchors": ["src/adam_core/propagator/propagator.py:_alignment_indices_string_keys", "src/adam_core/propagator/propagator.py:_alignment_indices_struct_index_in"]}
{"id": "C283", "title": "Magnitudes and phase angles do not depend on the chunks of orbits", "statement": "Splitting the orbits into chunks with their own rows gives the same result as the whole table.", "quantifier": "all ephemerides and observers, all splittings into chunks such that the rows of an orbit stay with it", "why_tests_cant": "unboundedly many chunks", "anchors": ["src/adam_core/propagator/propagator.py:attach_magnitude_or_phase", "src/adam_core/propagator/propagator.py:ephemeris_worker_ray"]}
{"id": "C284", "title": "SPICE holds exactly the registered kernels, each once", "statement": "At any time, in any process, the kernels loaded in SPICE are exactly those list_registered_kernels() shows, and none is loaded twice. Registering a kernel loads it or fails without effect; unregistering takes exactly that kernel away.", "quantifier": "all executions of any number of processes that set SPICE up, register and unregister kernels, fork, spawn and exit, in any order, with any failures to load", "why_tests_cant": "unboundedly many processes and calls in any order", "anchors": ["src/adam_core/utils/spice.py:register_spice_kernel", "src/adam_core/utils/spice.py:unregister_spice_kernel", "src/adam_core/utils/spice.py:list_registered_kernels", "src/adam_core/utils/spice.py:setup_SPICE"]}
{"id": "C285", "title": "After setup_SPICE() the default kernels are loaded", "statement": "Whenever setup_SPICE() returns without an error, all default kernels are loaded in the process.", "quantifier": "all executions of any number of processes", "why_tests_cant": "whether the kernels are there depends on the whole history and on process numbers", "anchors": ["src/adam_core/utils/spice.py:setup_SPICE"]}
{"id": "C286", "title": "setup_SPICE fails only for files that cannot be loaded and can be retried", "statement": "In a process not yet set up, or with force, the call loads all requested kernels, or fails because one of them is not loaded and cannot be; kernels loaded before stay. After a failure the same call succeeds as soon as the files can be loaded, and loads nothing twice. In a process set up before nothing happens without force.", "quantifier": "all executions of any number of processes, all lists of kernels with repetitions, all sets of loadable files", "why_tests_cant": "unboundedly many histories and failures", "anchors": ["src/adam_core/utils/spice.py:setup_SPICE", "src/adam_core/utils/spice.py:register_spice_kernel"]}
{"id": "C287", "title": "Body states belong to the time of their row", "statement": "get_spice_body_state returns one row per time in the given order, with the state SPICE has for the body at that epoch in the requested frame and from the requested origin, in au and au per day. It is refused, with ValueError, exactly for an unknown frame or an epoch without a state. For bodies that are perturbers it agrees with get_perturber_state, whatever was queried before.", "quantifier": "all lists of times with repetitions, all bodies, frames and origins, all earlier queries of perturbers", "why_tests_cant": "unboundedly many times; states are computed once per distinct epoch and copied", "anchors": ["src/adam_core/utils/spice.py:get_spice_body_state", "src/adam_core/utils/spice.py:get_perturber_state"]}
{"id": "C288", "title": "Tables of perturber states are labelled with the requested frame", "statement": "The table get_perturber_state returns is in the requested frame; unknown frames are refused.", "quantifier": "all numbers of times including none, all frames", "why_tests_cant": "the empty table is one case among unboundedly many, and callers combine tables by frame", "anchors": ["src/adam_core/utils/spice.py:get_perturber_state"]}
{"id": "C289", "title": "initialize_use_ray leaves Ray initialised and respects what exists", "statement": "It returns true exactly if the number of processors is not given or more than one, and then Ray is initialised. An initialised Ray is used as it is; otherwise an existing cluster is tried first and a new one started only if there is none. The keyword arguments reach Ray, and the dashboard is off unless the caller says otherwise.", "quantifier": "all numbers of processors, all keyword arguments, all answers of Ray", "why_tests_cant": "unboundedly many arguments and all failures of an external service", "anchors": ["src/adam_core/ray_cluster.py:initialize_use_ray"]}
{"id": "C290", "title": "Ray runs with the requested number of processors and memory", "statement": "After initialize_use_ray(n, m) returns true, Ray was started with n processors and m bytes of object store.", "quantifier": "all numbers of processors and bytes, all answers of Ray", "why_tests_cant": "depends on an external service", "anchors": ["src/adam_core/ray_cluster.py:initialize_use_ray"]}
{"id": "C291", "title": "Least squares never divides by a zero perturbation", "statement": "For a perturbation fraction that is not zero, the perturbation of each parameter is not zero; it is that fraction of the parameter unless this is below 1e-20, and for a zero coordinate or velocity the fraction of 1 or of 0.01.", "quantifier": "all states including zero components, all nonzero fractions, all parameters", "why_tests_cant": "a continuum of states and fractions", "anchors": ["src/adam_core/orbit_determination/least_squares.py:LeastSquares._compute_partials"]}
{"id": "C292", "title": "Numerical derivatives are exact for a linear sky", "statement": "If RA and Dec depend linearly on the state, the derivatives least_squares uses are the true ones with one-sided and with central differences, for every perturbation.", "quantifier": "all linear skies, states, observations and nonzero perturbation fractions, both difference schemes", "why_tests_cant": "a continuum of problems", "anchors": ["src/adam_core/orbit_determination/least_squares.py:LeastSquares._compute_partials", "src/adam_core/orbit_determination/least_squares.py:LeastSquares._update_orbit", "src/adam_core/orbit_determination/least_squares.py:LeastSquares._residual_columns"]}
{"id": "C293", "title": "One correction solves a linear problem", "statement": "If RA and Dec depend linearly on the state and the observations determine it, the state after one iteration of least_squares has the smallest RMS of all states, no other state has it, and the covariance is the inverse of the information of the observations and symmetric.", "quantifier": "all linear skies, all numbers of observations, all nonnegative weights, all starting states and perturbations, both difference schemes; compared with all states", "why_tests_cant": "a minimum over a continuum of states, for unboundedly many observations", "anchors": ["src/adam_core/orbit_determination/least_squares.py:LeastSquares.least_squares", "src/adam_core/orbit_determination/least_squares.py:LeastSquares._compute_partials", "src/adam_core/orbit_determination/least_squares.py:LeastSquares._rms", "src/adam_core/orbit_determination/least_squares.py:LeastSquares._update_orbit"]}
{"id": "C294", "title": "The RMS measures all residuals", "statement": "With positive weights the RMS least_squares compares is zero exactly if all residuals are zero, does not depend on the order of the observations, and scales with the residuals.", "quantifier": "all nonempty lists of observations, positive weights and residuals", "why_tests_cant": "unboundedly many observations and a continuum of residuals", "anchors": ["src/adam_core/orbit_determination/least_squares.py:LeastSquares._rms"]}
{"id": "C295", "title": "A repaired covariance is positive semidefinite", "statement": "Whenever make_positive_semidefinite returns a matrix, no direction has a negative variance in it.", "quantifier": "all symmetric matrices of all sizes, all tolerances", "why_tests_cant": "a continuum of matrices; the failure is at a single value", "anchors": ["src/adam_core/coordinates/covariances.py:make_positive_semidefinite"]}
{"id": "C296", "title": "Repairing a covariance changes it at most by the tolerance", "statement": "make_positive_semidefinite refuses, with ValueError, exactly the matrices with a variance below minus the tolerance in some direction of unit length. Otherwise no variance gets smaller or grows by more than twice the tolerance, and a positive semidefinite matrix is returned unchanged. If no variance is exactly minus the tolerance, the result has the eigenvectors of the given matrix and the absolute values of its eigenvalues.", "quantifier": "all symmetric matrices of all sizes, all nonnegative tolerances, all directions", "why_tests_cant": "a continuum of matrices and directions", "anchors": ["src/adam_core/coordinates/covariances.py:make_positive_semidefinite"]}
{"id": "C297", "title": "The cosine of the latitude scales longitudes only and does not spread missing values", "statement": "apply_cosine_latitude_correction multiplies the residuals of longitude and its rate by the cosine of the latitude, and each entry of the covariance by the factors of its row and column; other values are unchanged, missing entries stay missing and change nothing else.", "quantifier": "all latitudes, all residuals and covariances with any pattern of missing entries", "why_tests_cant": "a continuum of values and all patterns of missing entries", "anchors": ["src/adam_core/coordinates/residuals.py:apply_cosine_latitude_correction"]}
{"id": "C298", "title": "The cosine of the latitude does not change chi2", "statement": "Away from the poles, chi2 of the corrected residuals with the corrected covariance is chi2 without the correction, for a complete row and for the dimensions in which a row has values.", "quantifier": "all latitudes with a cosine other than zero, all residuals, all invertible covariances", "why_tests_cant": "a continuum of values", "anchors": ["src/adam_core/coordinates/residuals.py:apply_cosine_latitude_correction"]}
{"id": "C299", "title": "Sorting linkage members keeps each member once", "statement": "The members returned by sort_by_id_and_time are the given members, each exactly once, also those whose observation is not among the observations.", "quantifier": "all tables of members and observations, all orders in which rows of a join and equal rows of a sort may come", "why_tests_cant": "all tables and all orders pyarrow may choose; tests see one order and unique ids", "anchors": ["src/adam_core/orbit_determination/iod.py:sort_by_id_and_time"]}
{"id": "C300", "title": "Linkage members are sorted by linkage and time", "statement": "For observations with unique ids, the members returned by sort_by_id_and_time come by linkage, within a linkage by the time of their observation, and members without an observation come last in their linkage. The linkages come by id, each exactly once.", "quantifier": "all tables of linkages, members and observations, all orders in which rows of a join and equal rows of a sort may come", "why_tests_cant": "all tables and all orders pyarrow may choose", "anchors": ["src/adam_core/orbit_determination/iod.py:sort_by_id_and_time"]}
{"id": "C301", "title": "The order of sorted members does not depend on the order of the tables", "statement": "If ids of observations are unique and no two members of a linkage have the same time, sort_by_id_and_time returns the same members for every order of members and observations, and for every order pyarrow may choose.", "quantifier": "all tables of members and observations and all their rearrangements", "why_tests_cant": "all rearrangements of all tables", "anchors": ["src/adam_core/orbit_determination/iod.py:sort_by_id_and_time"]}
