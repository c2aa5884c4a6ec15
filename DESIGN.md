# Design

Subject: `adam_core` at the pinned commit in `/repo` (Python). The code is read
as text and never run. Everything below is about a hand-written Gallina model
of it, in `rocq/theories` (logical name `Verif`).

## 1. Conventions

* **One model file per area** (`*Model.v`, definitions only), one proof file
  (`*Proofs.v`), one property file (`*Props.v`) which holds only
  `Theorem ... exact lemma. Qed.`, the `Print Assumptions` below it and an
  `Example` showing a concrete non-trivial case that meets the hypotheses.
  Specification predicates that a statement needs but that are not code live in
  `*Spec.v` or at the top of the property file, and do not call model helpers.
* **Every model definition cites file and lines** in `/repo` and states its
  simplifications.
* **Exceptions are values**: `result A := Ok a | Err e` with
  `e : ValueError | IndexError | KeyError | AssertionError | OverflowError | ...`.
* **Numbers**: `Z` for int64 columns. Wrap-around (`wrap64`) is written where the
  code uses numpy int64 arithmetic; Arrow `*_checked` kernels return
  `Err ArrowInvalid` on overflow. Floating point formulas are modelled over the
  reals `R` or the rationals `Q` (stated in each definition); claims about
  them are claims about exact arithmetic, not about rounding error.
* **Tables** are lists of records. Arrow `sort_indices` and pandas
  `drop_duplicates` are modelled by stable insertion sort / first-occurrence
  filters. Arrow joins are modelled by filters.
* **External calls** (SPICE, astropy/ERFA, Ray scheduling order, the propagator
  implementation, chi2/residual evaluation, scipy) are Section variables or
  explicit function arguments; each theorem quantifies over them.
* A property whose full statement is false of the faithful model gets a theorem
  `..._refuted` with a witness, and, where there is one, the strongest part that
  does hold as `..._partial`. In `MANIFEST.json` such a property has status
  `partial` and the note says "refuted".

## 2. Trusted base

* The Coq 8.16.1 kernel (and `vm_compute`).
* For each property theorem exactly what its `Print Assumptions` lists. Integer,
  list and string developments are meant to be closed under the global context.
  Developments over `R` depend on the standard library's real-number axioms
  (`ClassicalDedekindReals.sig_forall_dec`, `ClassicalDedekindReals.sig_not_dec`,
  `FunctionalExtensionality.functional_extensionality_dep`, and where
  trigonometry lemmas use it `Classical_Prop.classic`).
  Section 5 lists the actual result per property.
* The reading of the Python source: that each definition mirrors the cited lines.
  Nothing checks this by machine. The cited ranges were compared with the syntax
  tree of the source (each range exists and does not cut across functions, and
  overlaps the function it names); that the Gallina text means the same as those
  lines rests on reading. Before this comparison about 80 citations were wrong.
* Semantics of pyarrow / numpy / pandas / quivr / ray primitives as stated in the
  comments of the definitions that model them.

## 3. What is modelled, what is not

Each model file cites the lines it mirrors. "Oracle" means: an arbitrary function (Section variable or argument) over which the theorems quantify.

| model | code | oracles and simplifications |
|----|----|----|
| `TimeModel.v`, `TimeRModel.v` | `time/time.py` | Leap-second table, TT-TDB and UT1 functions are arguments. ERFA's utctai/taiutc are modelled from the published algorithm in exact arithmetic. `add_fractional_days` in binary64 via Flocq (`fl`, `is_f64`), else exact rationals. |
| `MpcModel.v` | `utils/mpc.py` | ASCII strings; day fractions exact. |
| `CacheModel.v` | `utils/bounded_lru.py`, caches of `utils/spice.py`, `observers/state.py`, `coordinates/transform.py` | SPICE states and blake2b digests are oracles; digest injectivity is a hypothesis where used. |
| `SchedModel.v` | Ray submit/wait loops in `dynamics/{propagation,ephemeris,impacts,moid}.py`, `propagator/propagator.py`, `orbit_determination/{od,iod}.py`, `utils/{chunking,iter}.py` | The order in which Ray tasks finish is an adversary `pick`; workers are pure functions. |
| `PropModel.v` | `propagator/propagator.py`, `propagator/utils.py` | The propagator backend is an oracle. |
| `TableModel.v` | row-wise code in `coordinates/transform.py`, `orbits/{orbits,ephemeris}.py`, `observers/observers.py`, `observations/{detections,exposures,associations}.py` | Rotations and observer states are oracles; quivr linkage is grouping by key. |
| `TrajModel.v` | `orbits/trajectory.py`, `orbits/classification.py`, element arithmetic of `dynamics/kepler.py` | Exact rationals. |
| `FitModel.v`, `FitRModel.v` | `orbit_determination/{evaluate,fitted_orbits,outliers}.py` | Residuals are oracles; the outlier budget in binary64 (Flocq). |
| `OdModel.v` | `orbit_determination/{od,iod,least_squares}.py` control flow | Differential correction, chi2 and the Gauss solver are oracles. |
| `ResModel.v`, `ResRModel.v` | `coordinates/residuals.py`, `coordinates/origin.py` | Matrix inverse and chi2 are oracles; missing values are `None`. |
| `CovModel.v`, `SigmaModel.v` | `coordinates/{covariances,variants}.py`, `orbits/variants.py`, `orbits/query/neocc.py` (matrix unpacking) | Matrix square root and random samples are oracles with their defining law as hypothesis; real arithmetic. |
| `ImpModel.v` | `dynamics/impacts.py` | The impact detection backend is an oracle. |
| `OemModel.v` | `orbits/oem_io.py`, `orbits/spice_kernel.py` | The oem text format, rotation and unit conversion are oracles; spkw03/spkr03 record selection as documented by SPICE; exact rationals. |
| `ObsModel.v` | `observations/obs80.py` | ASCII lines; Python Decimal/float/int/date syntax modelled on ASCII; exact rationals. |
| `AdesModel.v` | `observations/ades.py` | csv/pandas quoting and time text are oracles; numbers are exact or their printed text. |
| `SphModel.v`, `SphRModel.v` | spherical and geodetic transforms of `coordinates/{transform,geodetics}.py`, `coordinates/{covariances,jacobian}.py` dispatch | Real arithmetic; the 360 degree boundary in binary64 (Flocq). |
| `KepModel.v` | `dynamics/{kepler,barker}.py`, Keplerian and cometary transforms of `coordinates/transform.py` | Real arithmetic; NaN is `None`. |
| `UnivModel.v` | `dynamics/{stumpff,chi,lagrange,propagation}.py` (numeric part) | Real arithmetic; overflow of cosh is modelled for C133 only. |
| `LightModel.v` | `dynamics/aberrations.py` | Real arithmetic; the propagation inside the light-time loop is an oracle. |
| `FrameModel.v` | `coordinates/cartesian.py` (rotate, translate), `coordinates/units.py`, `coordinates/transform.py` frame changes, RIC triad, constants | `np.ma.dot(strict=False)` takes missing factors as 0; the ITRF93 matrix is an oracle. |
| `BandModel.v` | `photometry/bandpasses/api.py` band labels | Tables of labels are arguments; ASCII strings. |
| `PhotModel.v` | `photometry/{magnitude,magnitude_common,absolute_magnitude,bandpasses/*}.py` | Filter curves and templates are arguments; real arithmetic; FloatingPointError is represented by ZeroDivisionError. |
| `GaussModel.v` | `orbit_determination/{gauss,gibbs,herrick_gibbs}.py`, candidate selection of `iod.py` | `numpy.roots` is an oracle; numba division by zero raises ZeroDivisionError; LinAlgError is represented by ValueError. |
| `LambertModel.v` | `dynamics/lambert.py` | Real arithmetic; NaN and infinities are `None`; `jax.vmap` is a map with a length check. |
| `MoidModel.v` | `dynamics/moid.py` | scipy `minimize_scalar` is an oracle that picks a place; the minimum it reports is the value there. |
| `RotModel.v` | `photometry/rotation/core.py`, `estimator.py`, `wrappers.py`, `lightcurve.py` | numpy backend only (not `jax_backend.py`). Oracles: least squares, polynomial fit of the H-G curve, F distribution, per-row observing geometry. Positive Fourier orders. Exact reals. The text of solve errors is dropped. |
| `PorkModel.v` | `missions/porkchop.py` | The gravitational parameter is an oracle; Ray is used for more than one process; completion order is an adversary. Of the plot only the arrays and markers handed to plotly. `generate_perceptual_colorscale` is in `LateModel.v`; `prepare_and_propagate_orbits` beyond its epochs is not modelled. Taken as given: quivr concatenation with an empty table keeps the attributes of the other, `np.array` of a three-column table has shape (N, 3), `np.arange` with step 0 raises ZeroDivisionError. |
| `EphModel.v` | `dynamics/ephemeris.py` | Exact reals, NaN as None, epochs as TDB days, one process and no padding (C21, C32). States of origins relative to each other, the ITRF rotation, the gravitational parameter and the Jacobian of jax are oracles. Taken as given: an origin is at rest about itself; jax finds every derivative that exists (only in C197). |
| `DcModel.v` | `orbit_determination/differential_correction.py`, `evaluate.py` (one orbit) | Exact reals; epochs as days survive the trip through MJD (C86); ephemerides have one row per observer in the order of epoch and code (C22, C90). The propagator with the residuals, the solver of scipy and the inverse of numpy are oracles. Taken as given, where named: the solver never increases its cost (C203), its Jacobian has one row per residual (C206), an inverse exists exactly for regular matrices (C206). |
| `NightModel.v` | `observers/utils.py` | Times in whole microseconds, no leap seconds, the float MJD on the right side of midnight. Zones, offsets and the clock of the machine are oracles. |
| `TissModel.v` | `dynamics/tisserand.py` | Exact reals; values that are not finite are None. |
| `CollModel.v` | `orbits/variants.py` (`collapse_by_object_id`, `collapse_sigma_points_orbit_major`) | Exact reals; missing or non-finite numbers are None; not the recomputation of light times (mode `recompute`) and not the epochs of emission. |
| `SbdbModel.v` | `orbits/query/sbdb.py` | the payload as a JSON value; concurrency as an order of completion; the number reader and `str` of JSON values are parameters; the legacy `query_sbdb` is in `LateModel.v` |
| `ScoutModel.v` | `orbits/query/scout.py` | the payload as a JSON value; number reader, `str` and the reader of observation files are parameters; `get_scout_objects` is not modelled |
| `HorModel.v` | `orbits/query/horizons.py` | what the service answers is a parameter; exact Julian dates; ends at the coordinates of the type asked for |
| `CatModel.v` | `observations/source_catalog.py`, `Exposures.midpoint` of `observations/exposures.py` | nulls are None; quivr's errors are ValueError; exact arithmetic; detections, associations, photometry and healpixels are projections and are not modelled |
| `NeoModel.v` | `orbits/query/neocc.py` | `_parse_oef`, `query_neocc`; the server and float() are parameters |
| `LuaModel.v` | `orbits/openspace/lua.py`, `renderable.py`, `translation.py`, `assets.py` (initialisation, both kinds of asset files, epochs of the CSV file) | str() of numbers is a parameter, text is ASCII; the other columns of the CSV file and writing to disk are not modelled |
| `JaxModel.v` | `photometry/rotation/jax_backend.py`; `photometry/rotation/estimator.py` (`_evaluate_frequency_indices_with_jax`, `_search_best_fit` and `_derive_fourier_solution` with the JAX backend) | exact reals; `jnp.linalg.solve` is a parameter that solves positive definite systems; compilation and the data types of JAX are not modelled |
| `ElemModel.v` | `coordinates/origin.py` (except the comparison operators); the derived columns of `coordinates/keplerian.py` and `coordinates/cometary.py`; `dynamics/kepler.py:12-135` | exact rationals and reals extended by infinities and NaN; the setters and deleters, which only raise, are not modelled |
| `VizModel.v` | `dynamics/plots.py:31-32`, `43-273`: grouping and freezing of propagated variants, epochs of the animation | conversions of time, propagator: parameters; placement of points once as a parameter and once on exact reals; object identifiers, velocities, nominal orbit and figures left out |
| `VendModel.v` | `photometry/bandpasses/vendor.py:34-105`, `115-375`, `414-490`: filter curves, observatory map, templates, integrals | service, file readers and sorting algorithm: parameters; exact reals; solar spectrum file, parquet files and citations left out |
| `LateModel.v` | `orbits/query/sbdb.py:110-277`, `dynamics/plots.py:871-1142`, `missions/porkchop.py:110-205` | parsing by astroquery, geodetic conversion and argsort: parameters; exact rationals; texts of the figure and colour names left out |
| `AttModel.v` | `propagator/propagator.py:40-276`: `attach_magnitude_or_phase` and its helpers | heliocentric conversion, rescaling of times and photometric formulas: parameters, row by row; H and G exact rationals; no nulls in columns that may not have them; Ray references resolved |
| `SpiModel.v` | `utils/spice.py:90-128, 171-172, 232-243, 245-360` (`setup_SPICE`, kernel registration, `get_spice_body_state`), `ray_cluster.py:20-61` | SPICE, Ray and which files can be loaded: parameters; processes with inherited environments by hand; exact rationals; logging and warning filters left out |
| `LsqModel.v` | `orbit_determination/least_squares.py:37-185, 277-308`: one iteration of `LeastSquares.least_squares` and its helpers | real numbers; propagator, `Residuals.calculate` and matrix inverse: parameters; ids, epochs and debug information left out; the loop is in `OdModel.v` |
| `PsdModel.v` | `coordinates/covariances.py:183-213` (`make_positive_semidefinite`), `coordinates/residuals.py:35-96` (`apply_cosine_latitude_correction`) | real numbers; eigenvalue decomposition: parameter; one row at a time; NaN as missing |
| `SrtModel.v` | `orbit_determination/iod.py:32-98` (`sort_by_id_and_time`) | relation: any order of joined rows and of equal rows; ids as integers; null times as missing |

Libraries used: Coq standard library; Flocq (binary64 rounding); Coquelicot (derivatives, mean value theorem).

Not modelled: floating-point rounding except where stated, JAX tracing and automatic differentiation, SPICE/ERFA internals, file system and network access (the answers of servers are parameters of the models of `orbits/query`), kernel downloads, plotting except `missions/porkchop.py`.

## 4. Per property

The plan written before the proofs (C01-C81), then for each later property the model it is about and how it was proved. Statements are in `properties.jsonl`, outcome per property in `MANIFEST.json`.

| id | model and proof |
|----|----|
| C01 | `add_nanos` etc. on `(days, nanos) : Z*Z` with the four-way carry; prove `total (add_nanos t n) = total t + n`, normalisation, and the exact error condition. Column version by map/zip with broadcasting. |
| C02 | `difference` on rows; prove exactness, range and inverse with C01. |
| C03 | `rounded` by truncating division; lia over the four units. |
| C04 | `equals` row predicate from `_duration_arrays_within_tolerance`; refute symmetry and the distance characterisation; prove ns precision is equality and that "equal" implies distance at most one unit. |
| C05 | `max`/`min` as code (max day, then max nanos in that day, mask, first); induction over the column. |
| C06 | `et`, `from_et`, `mjd`, `from_mjd` over exact rationals with round-half-even; prove mjd/jd round trip; refute et round trip. |
| C07 | `rescale` with leap-second table and TT-TDB function as arguments; prove TAI/TT exact round trip, UTC round trip away from a leap second for any table; report unsupported-scale behaviour. |
| C08 | `key` with `wrap64`; prove injectivity for normalised rows with |days| < 106751, refute in general. |
| C09 | `link` as grouping of both sides by rounded key; prove the partition/join law. |
| C10 | `add_fractional_days` over exact rationals; refute (sliver below an integer in binary64 modelled by the truncation rule), prove success otherwise. |
| C11 | `pack/unpack_numbered` over `list ascii`; base-62 digits; induction-free algebra on digits plus finite sweeps for single characters. |
| C12 | `pack/unpack_provisional`; case analysis on the cycle bands, digit lemmas. |
| C13 | `pack/unpack_survey`; digits lemmas; leading zeros excluded by the hypothesis, shown necessary. |
| C14 | error values of the codecs; refute (KeyError/IndexError witnesses); prove which errors can occur. |
| C15 | dispatcher; prove no earlier branch claims the packed form. |
| C16 | association list in recency order; refinement to "history" spec by induction over operations. |
| C17 | memo state machine over an arbitrary antisymmetric ephemeris function; invariant "every cached entry is correct". |
| C18 | same machine with kernel epochs; refute by a three-step history; prove that it holds if the cache is cleared in between. |
| C19 | observer cache keyed by TDB digest, value carries the first caller's time; refute; prove value part transparent. |
| C20 | translation cache keyed by digest; transparency assuming the digest is injective on the queried columns. |
| C21 | scheduler model: nondeterministic completion as an arbitrary choice function; results keyed by start, sorted; prove equality with serial. |
| C22 | completion-order concatenation then stable sort with a total key; prove schedule independence when keys are unique. |
| C23 | the submit/wait loop; prove permutation of tasks and the in-flight bound for every chooser. |
| C24 | completion-order concatenation without sort; refute order, prove multiset. |
| C25 | same as C24 for MOIDs. |
| C26 | completion order then drop-duplicates(keep first) then sort; refute; prove for duplicate-free results. |
| C27 | per-origin mask loop on lists; prove equality with `map`. |
| C28 | group by unique epoch, rotate, concatenate, sort by stored index; prove equality with `map`. |
| C29 | same shape as C28. |
| C30 | filter per unique origin and concatenate; refute for repeated ids, prove for unique ids (permutation). |
| C31 | three iterators; prove partition; refute null exposure ids. |
| C32 | chunk functions; prove for every N and chunk size. |
| C33 | trajectory validation with stable sort and adjacency check; prove uniqueness and no-overlap error. |
| C34 | refute (epoch equal to window end), prove for epochs strictly inside. |
| C35 | decision list over `R`/`Q`; prove characterisation and pairwise disjointness/overlaps found. |
| C36 | sort-by-rank, first-containing-orbit assignment; prove the four parts. |
| C37 | refute with two orbits sharing an observation. |
| C38 | drop-duplicates; prove. |
| C39 | exact rational version; prove bounds for exact arithmetic; note float truncation. |
| C40 | argmin with tie-break; prove removal; refute "others stay" for non-members. |
| C41 | od loop with oracle; prove acceptance invariants and termination by fuel bound. |
| C42 | index-alignment model of one iteration; refute after outlier removal; prove before. |
| C43 | refute by the assertion path. |
| C44 | iod loop over candidate orbits with chi2 oracle; prove the rchi2/outlier bounds; refute the num_obs/arc parts. |
| C45 | selection by combinations; prove. |
| C46 | least-squares loop with oracle RMS; prove monotone/termination; refute "None iff no improvement". |
| C47 | alignment model; prove for time-sorted input, refute otherwise. |
| C48 | `bound_longitude_residuals` over `R`/`Q`; prove range and circular distance. |
| C49 | refute with a partially matching column. |
| C50 | batching by NaN mask as grouping plus scatter; prove equal to row-wise map. |
| C51 | index lists; refute for `_lower_triangular_to_full`; prove for the upper version/matrix flattening. |
| C52 | sigma points over `R` vectors of any dimension; prove mean and covariance recovery. |
| C53 | keyed filter with millisecond key; prove for separated epochs, refute for same-millisecond epochs. |
| C54 | refute. |
| C55 | dispatcher with the seed argument; refute for "auto". |
| C56 | the two tables as functions on strings; finite proof by case analysis over all codes. |
| C57 | refute. |
| C58 | window arithmetic over `Q`/`R`; prove tiling; refute the scaled-time part for a partial last window. |
| C59 | line-level model of writer and header detection; refute with remarks / missing values; prove under explicit conditions. |
| C60 | record model; refute for dropped fields; prove on the preserved fields. |
| C61 | Gregorian day number against an independent recursive calendar; prove for all dates. |
| C62 | refute with NaN/Infinity day fields; prove skip behaviour for documented errors. |
| C63 | refute upper bound; prove for at most one event per variant. |
| C64 | refute (default ids differ). |
| C65 | over `R` with `atan2` defined from `atan`; prove round trip. |
| C66 | Stumpff identities for psi > 0, < 0, = 0; prove f*gdot - fdot*g = 1 at a root and angular-momentum conservation. |
| C67 | closed-form cubic; refute the round trip (factor 2 and arctan/tan). |
| C68 | hyperbolic anomaly formulas; refute for inbound, prove outbound. |
| C69 | loop with fuel over an arbitrary propagation function; prove the exit condition. |
| C70 | 3-vector algebra over `R`; field/nsatz. |
| C71 | table look-up and group law over `R`. |
| C72 | weighted mean algebra over `R` lists. |
| C73 | row resolver; prove the documented decision and row independence. |
| C74 | memo machine; refute. |
| C75 | refute with e > 0; prove for e = 0. |
| C76 | algebra over `R`. |
| C77 | algebra over `R`. |
| C78 | orthogonal matrix algebra over `R`, any obliquity. |
| C79 | the loop as written (closed-over latitude); refute that it iterates; show one-step formula. |
| C80 | label model; refute. |
| C81 | join law as C09. |
| C82 | add_seconds, add_millis and add_micros add exactly that many units or raise: `TimeProps.v`. Integer and exact rational arithmetic on (day, nanosecond) pairs; binary64 through Flocq where named. Outcome: partial (refuted, with the part that holds). |
| C83 | from_mjd returns normalised times: `TimeProps.v`. Integer and exact rational arithmetic on (day, nanosecond) pairs; binary64 through Flocq where named. Outcome: partial (refuted, with the part that holds). |
| C84 | UTC to TAI adds the tabulated TAI-UTC offset: `TimeProps.v`. Integer and exact rational arithmetic on (day, nanosecond) pairs; binary64 through Flocq where named. Outcome: partial (refuted, with the part that holds). |
| C85 | TAI, TT and UTC->TAI->UTC conversions round-trip exactly: `TimeProps.v`. Integer and exact rational arithmetic on (day, nanosecond) pairs; binary64 through Flocq where named. Outcome: proved. |
| C86 | MJD and JD conversions are inverse: `TimeProps.v`. Integer and exact rational arithmetic on (day, nanosecond) pairs; binary64 through Flocq where named. Outcome: proved. |
| C87 | Packed MPC dates decode to the date and time of day they encode: `MpcProps.v`. Digit lemmas on strings. Outcome: proved. |
| C88 | Numerical failures are reported for the row that failed: `SchedProps.v`. Adversarial scheduler, induction over the submit/wait loop. Outcome: partial (refuted, with the part that holds). |
| C89 | detect_collisions uses the settings of the propagator it is called on: `SchedProps.v`. Adversarial scheduler, induction over the submit/wait loop. Outcome: partial (refuted, with the part that holds). |
| C90 | Ephemeris rows pair each state with the observer of its own epoch: `PropProps.v`. Propagator oracle, list induction. Outcome: proved. |
| C91 | Propagators handle orbit tables with repeated ids and empty tables: `PropProps.v`. Propagator oracle, list induction. Outcome: partial (refuted, with the part that holds). |
| C92 | group_by_exposure loses no detection: `TableProps.v`. Row-wise list model, permutation and join laws. Outcome: partial (refuted, with the part that holds). |
| C93 | link_to_observers warns when the precision merges observers and links epochs within the precision: `TableProps.v`. Row-wise list model, permutation and join laws. Outcome: partial (refuted, with the part that holds). |
| C94 | Exposures.observers is row-wise: `TableProps.v`. Row-wise list model, permutation and join laws. Outcome: proved. |
| C95 | Near-Earth orbits are classified as near-Earth: `TrajProps.v`. Exact rationals, decision list. Outcome: partial (refuted, with the part that holds). |
| C96 | The outlier budget is the largest number within the percentage: `FitProps.v`. Lists of members with residual oracles; binary64 bound through Flocq. Outcome: partial (refuted, with the part that holds). |
| C97 | Accepted orbits have a chi2 within threshold times degrees of freedom: `OdProps.v`. Control loop with oracles, invariant over iterations. Outcome: partial (refuted, with the part that holds). |
| C98 | od always terminates: `OdProps.v`. Control loop with oracles, invariant over iterations. Outcome: partial (refuted, with the part that holds). |
| C99 | iod reports num_obs and arc_length of the accepted orbit: `OdProps.v`. Control loop with oracles, invariant over iterations. Outcome: partial (refuted, with the part that holds). |
| C100 | least_squares returns None exactly when there was no improvement: `OdProps.v`. Control loop with oracles, invariant over iterations. Outcome: partial (refuted, with the part that holds). |
| C101 | Longitude residuals point from the prediction to the observation: `ResProps.v`. Masked rows, batching as grouping and scatter; real arithmetic for angles. Outcome: partial (refuted, with the part that holds). |
| C102 | Rows without covariance do not affect other rows' residuals: `ResProps.v`. Masked rows, batching as grouping and scatter; real arithmetic for angles. Outcome: partial (refuted, with the part that holds). |
| C103 | A single Monte Carlo sample can be drawn: `CovProps.v`. Index lists and weighted sums of any dimension. Outcome: partial (refuted, with the part that holds). |
| C104 | Collapsing an orbit without variants leaves its covariance missing: `CovProps.v`. Index lists and weighted sums of any dimension. Outcome: partial (refuted, with the part that holds). |
| C105 | Collapsed ephemerides treat longitude as an angle: `CovProps.v`. Index lists and weighted sums of any dimension. Outcome: partial (refuted, with the part that holds). |
| C106 | Collapsing by object id reproduces the sigma-point covariance: `CovProps.v`. Index lists and weighted sums of any dimension. Outcome: partial (refuted, with the part that holds). |
| C107 | Covariances built from sigmas are diagonal and symmetric: `CovProps.v`. Index lists and weighted sums of any dimension. Outcome: partial (refuted, with the part that holds). |
| C108 | Upper-triangle covariances are unpacked faithfully: `CovProps.v`. Index lists and weighted sums of any dimension. Outcome: proved. |
| C109 | Impact probability rows match the events they summarise: `ImpProps.v`. Counting over event lists. Outcome: proved. |
| C110 | Impact probabilities can be computed for every input: `ImpProps.v`. Counting over event lists. Outcome: partial (refuted, with the part that holds). |
| C111 | OEM files round-trip orbits: `OemProps.v`. Tables of names, sorted states, exact rational windows. Outcome: partial (refuted, with the part that holds). |
| C112 | An OEM file describes one orbit: `OemProps.v`. Tables of names, sorted states, exact rational windows. Outcome: partial (refuted, with the part that holds). |
| C113 | SPK polynomials are evaluated where they were fitted: `OemProps.v`. Tables of names, sorted states, exact rational windows. Outcome: partial (refuted, with the part that holds). |
| C114 | SPK files cover the requested interval: `OemProps.v`. Tables of names, sorted states, exact rational windows. Outcome: partial (refuted, with the part that holds). |
| C115 | Right ascension and declination text is read exactly: `ObsProps.v`. Column slices and field parsers over ASCII lines. Outcome: proved. |
| C116 | Magnitudes are finite or missing: `ObsProps.v`. Column slices and field parsers over ASCII lines. Outcome: partial (refuted, with the part that holds). |
| C117 | Every field comes from its columns: `ObsProps.v`. Column slices and field parsers over ASCII lines. Outcome: proved. |
| C118 | An observation always carries an identifier in an ADES file: `AdesProps.v`. Writer and reader as inverse functions on lines and tables. Outcome: partial (refuted, with the part that holds). |
| C119 | ADES round trip for well-formed tables: `AdesProps.v`. Writer and reader as inverse functions on lines and tables. Outcome: proved. |
| C120 | ADES contexts without coinvestigators round-trip: `AdesProps.v`. Writer and reader as inverse functions on lines and tables. Outcome: proved. |
| C121 | Spherical coordinates survive conversion to Cartesian and back: `SphProps.v`. Trigonometric identities over R, branches of atan2. Outcome: proved. |
| C122 | Geodetic velocities are in the documented columns: `SphProps.v`. Trigonometric identities over R, branches of atan2. Outcome: partial (refuted, with the part that holds). |
| C123 | Geodetic conversion accepts covariances: `SphProps.v`. Trigonometric identities over R, branches of atan2. Outcome: partial (refuted, with the part that holds). |
| C124 | Longitudes are below 360 in floating point: `SphProps.v`. Trigonometric identities over R, branches of atan2. Outcome: partial (refuted, with the part that holds). |
| C125 | Elliptical anomalies round-trip: `KepProps.v`. Conic geometry over R in the perifocal basis; Newton iteration by contraction/monotonicity. Outcome: proved. |
| C126 | Cartesian to Keplerian and back returns the state: `KepProps.v`. Conic geometry over R in the perifocal basis; Newton iteration by contraction/monotonicity. Outcome: proved. |
| C127 | Degenerate orbits get the documented elements: `KepProps.v`. Conic geometry over R in the perifocal basis; Newton iteration by contraction/monotonicity. Outcome: partial (refuted, with the part that holds). |
| C128 | Cometary elements describe the comet at the epoch: `KepProps.v`. Conic geometry over R in the perifocal basis; Newton iteration by contraction/monotonicity. Outcome: partial (refuted, with the part that holds). |
| C129 | Keplerian to Cartesian and back returns the elements: `KepProps.v`. Conic geometry over R in the perifocal basis; Newton iteration by contraction/monotonicity. Outcome: proved. |
| C130 | Cartesian to cometary and back returns the state on ellipses: `KepProps.v`. Conic geometry over R in the perifocal basis; Newton iteration by contraction/monotonicity. Outcome: proved. |
| C131 | Two-body propagation follows Newton's law: `UnivProps.v`. Universal functions as solutions of differential equations (Coquelicot); uniqueness by Gronwall; Newton iteration by convexity. Outcome: proved. |
| C132 | Two-body propagation returns the requested state or fails: `UnivProps.v`. Universal functions as solutions of differential equations (Coquelicot); uniqueness by Gronwall; Newton iteration by convexity. Outcome: partial (refuted, with the part that holds). |
| C133 | Open orbits can be propagated to any epoch: `UnivProps.v`. Universal functions as solutions of differential equations (Coquelicot); uniqueness by Gronwall; Newton iteration by convexity. Outcome: partial (refuted, with the part that holds). |
| C134 | Two-body propagation composes: `UnivProps.v`. Universal functions as solutions of differential equations (Coquelicot); uniqueness by Gronwall; Newton iteration by convexity. Outcome: proved. |
| C135 | A light time that converged is reported: `LightProps.v`. Exit condition of the loop; vector algebra over R. Outcome: partial (refuted, with the part that holds). |
| C136 | Stellar aberration is a change of direction: `LightProps.v`. Exit condition of the loop; vector algebra over R. Outcome: proved. |
| C137 | Missing components stay missing through a change of frame: `FrameProps.v`. Orthogonal matrices over R with missing entries. Outcome: partial (refuted, with the part that holds). |
| C138 | Partly known covariances survive a change of frame: `FrameProps.v`. Orthogonal matrices over R with missing entries. Outcome: partial (refuted, with the part that holds). |
| C139 | RIC axes form a right-handed orthonormal triad: `FrameProps.v`. Orthogonal matrices over R with missing entries. Outcome: proved. |
| C140 | Generic band fallback covers u, g, r, i, z, y only: `BandProps.v`. String decision list. Outcome: partial (refuted, with the part that holds). |
| C141 | Synthetic colours follow the registered templates: `PhotProps.v`. Integrals as finite trapezoid sums over R, monotonicity of exp. Outcome: proved. |
| C142 | A grey template gives no colour: `PhotProps.v`. Integrals as finite trapezoid sums over R, monotonicity of exp. Outcome: partial (refuted, with the part that holds). |
| C143 | Only the shape of a template matters: `PhotProps.v`. Integrals as finite trapezoid sums over R, monotonicity of exp. Outcome: proved. |
| C144 | Phase angles are the angles at the object: `PhotProps.v`. Integrals as finite trapezoid sums over R, monotonicity of exp. Outcome: proved. |
| C145 | The H-G phase correction starts at zero and never brightens: `PhotProps.v`. Integrals as finite trapezoid sums over R, monotonicity of exp. Outcome: proved. |
| C146 | Both phase corrections agree: `PhotProps.v`. Integrals as finite trapezoid sums over R, monotonicity of exp. Outcome: partial (refuted, with the part that holds). |
| C147 | Predictions are consistent across filters and in H: `PhotProps.v`. Integrals as finite trapezoid sums over R, monotonicity of exp. Outcome: proved. |
| C148 | Predicted magnitudes do not depend on the frame: `PhotProps.v`. Integrals as finite trapezoid sums over R, monotonicity of exp. Outcome: partial (refuted, with the part that holds). |
| C149 | Every Gauss orbit is consistent with its observations: `GaussProps.v`. Vector algebra (nsatz) over R, Taylor bounds. Outcome: proved. |
| C150 | Gibbs recovers the velocity of every conic: `GaussProps.v`. Vector algebra (nsatz) over R, Taylor bounds. Outcome: proved. |
| C151 | Gauss f and g series are third-order accurate: `GaussProps.v`. Vector algebra (nsatz) over R, Taylor bounds. Outcome: partial (refuted, with the part that holds). |
| C152 | Reversing time reverses the preliminary velocity: `GaussProps.v`. Vector algebra (nsatz) over R, Taylor bounds. Outcome: partial (refuted, with the part that holds). |
| C153 | Preliminary orbits follow the gravitational parameter: `GaussProps.v`. Vector algebra (nsatz) over R, Taylor bounds. Outcome: partial (refuted, with the part that holds). |
| C154 | Herrick-Gibbs error bound: `GaussProps.v`. Vector algebra (nsatz) over R, Taylor bounds. Outcome: proved. |
| C155 | Preliminary orbits are in front of all three observers: `GaussProps.v`. Vector algebra (nsatz) over R, Taylor bounds. Outcome: partial (refuted, with the part that holds). |
| C156 | Degenerate observations give an empty result: `GaussProps.v`. Vector algebra (nsatz) over R, Taylor bounds. Outcome: partial (refuted, with the part that holds). |
| C157 | iod uses each observation's own observer: `GaussProps.v`. Vector algebra (nsatz) over R, Taylor bounds. Outcome: partial (refuted, with the part that holds). |
| C158 | Preliminary orbits keep the time scale: `GaussProps.v`. Vector algebra (nsatz) over R, Taylor bounds. Outcome: partial (refuted, with the part that holds). |
| C159 | Half-turn transfers conserve energy: `LambertProps.v`. Conserved quantities by algebra, time of flight through the universal functions, derivatives with Coquelicot. Outcome: partial (refuted, with the part that holds). |
| C160 | Lambert respects the requested sense of motion: `LambertProps.v`. Conserved quantities by algebra, time of flight through the universal functions, derivatives with Coquelicot. Outcome: proved. |
| C161 | The Lambert iteration uses the true derivatives of the time of flight: `LambertProps.v`. Conserved quantities by algebra, time of flight through the universal functions, derivatives with Coquelicot. Outcome: proved. |
| C162 | Lambert velocities reach the target in the requested time: `LambertProps.v`. Conserved quantities by algebra, time of flight through the universal functions, derivatives with Coquelicot. Outcome: proved. |
| C163 | The first guess of the Lambert iteration is on the right side: `LambertProps.v`. Conserved quantities by algebra, time of flight through the universal functions, derivatives with Coquelicot. Outcome: proved. |
| C164 | Lambert: NaN rows and row order: `LambertProps.v`. Conserved quantities by algebra, time of flight through the universal functions, derivatives with Coquelicot. Outcome: proved. |
| C165 | The reported MOID of two orbits that meet is zero: `MoidProps.v`. Conic geometry over R with an arbitrary minimiser. Outcome: partial (refuted, with the part that holds). |
| C166 | Distance splits into parts across and along the orbit plane: `MoidProps.v`. Conic geometry over R with an arbitrary minimiser. Outcome: proved. |
| C167 | A rotation verdict means what it says: `RotProps.v`. Case analysis and induction over lists with the numerical routines as arbitrary functions. Outcome: proved. |
| C168 | The reported rotation period lies in its interval and the alternates lie outside: `RotProps.v`, `RotProps3.v`. Case analysis and induction over lists with the numerical routines as arbitrary functions. Outcome: proved. |
| C169 | Session labels cannot make a solvable table fail in the automatic mode: `RotProps.v`. Case analysis and induction over lists with the numerical routines as arbitrary functions. Outcome: partial (refuted, with the part that holds). |
| C170 | The rotation search covers the requested frequencies and reports the best of them: `RotProps.v`. Case analysis and induction over lists with the numerical routines as arbitrary functions. Outcome: proved. |
| C171 | Observation counts of a rotation result add up and clipping is bounded: `RotProps.v`. Case analysis and induction over lists with the numerical routines as arbitrary functions. Outcome: proved. |
| C172 | Equal uncertainties give the same scatter as no uncertainties: `RotProps.v`. Case analysis and induction over lists with the numerical routines as arbitrary functions. Outcome: partial (refuted, with the part that holds). |
| C173 | The selected Fourier order is the smallest one not improved upon: `RotProps.v`, `RotProps3.v`. Case analysis and induction over lists with the numerical routines as arbitrary functions. Outcome: proved. |
| C174 | The harmonic-adjusted error is minimal over the listed factors: `RotProps.v`. Case analysis and induction over lists with the numerical routines as arbitrary functions. Outcome: proved. |
| C175 | A correct period is not flagged as a one-day alias: `RotProps.v`. Case analysis and induction over lists with the numerical routines as arbitrary functions. Outcome: partial (refuted, with the part that holds). |
| C176 | Apparitions partition the observations at the gaps: `RotProps.v`. Case analysis and induction over lists with the numerical routines as arbitrary functions. Outcome: proved. |
| C177 | The best apparition is one of the apparitions and none beats it: `RotProps.v`. Case analysis and induction over lists with the numerical routines as arbitrary functions. Outcome: proved. |
| C178 | Grouped rotation estimates equal the single ones: `RotProps.v`. Case analysis and induction over lists with the numerical routines as arbitrary functions. Outcome: proved. |
| C179 | Only time differences matter for a rotation period: `RotProps.v`. Case analysis and induction over lists with the numerical routines as arbitrary functions. Outcome: proved. |
| C180 | Phase coverage counts occupied twentieths of the rotation: `RotProps.v`. Case analysis and induction over lists with the numerical routines as arbitrary functions. Outcome: proved. |
| C181 | The staged search finds the best fit near the coarse minimum: `RotProps.v`, `RotProps2.v`. Case analysis and induction over lists with the numerical routines as arbitrary functions. Outcome: proved. |
| C182 | A rotation search that cannot run says so: `RotProps.v`, `RotProps3.v`. Case analysis and induction over lists with the numerical routines as arbitrary functions. Outcome: proved. |
| C183 | One unknown uncertainty drops all weights: `RotProps.v`, `RotProps3.v`. Case analysis and induction over lists with the numerical routines as arbitrary functions. Outcome: proved. |
| C184 | The transfer grid has every departure-arrival pair exactly once: `PorkProps.v`. Permutations and sorted lists for the grid, the Lambert results for the rows, real arithmetic for the plot. Outcome: proved. |
| C185 | Transfer grid rows are ordered by arrival and departure epoch: `PorkProps.v`. Permutations and sorted lists for the grid, the Lambert results for the rows, real arithmetic for the plot. Outcome: partial (refuted, with the part that holds). |
| C186 | Each transfer solves its own pair: `PorkProps.v`. Permutations and sorted lists for the grid, the Lambert results for the rows, real arithmetic for the plot. Outcome: proved. |
| C187 | Transfers depart before they arrive even when the tables use different time scales: `PorkProps.v`. Permutations and sorted lists for the grid, the Lambert results for the rows, real arithmetic for the plot. Outcome: partial (refuted, with the part that holds). |
| C188 | Transfers are computed about the body the states refer to: `PorkProps.v`. Permutations and sorted lists for the grid, the Lambert results for the rows, real arithmetic for the plot. Outcome: partial (refuted, with the part that holds). |
| C189 | C3 and speed at infinity agree and flight times are positive: `PorkProps.v`. Permutations and sorted lists for the grid, the Lambert results for the rows, real arithmetic for the plot. Outcome: proved. |
| C190 | The departure direction is the direction of the velocity: `PorkProps.v`. Permutations and sorted lists for the grid, the Lambert results for the rows, real arithmetic for the plot. Outcome: proved. |
| C191 | A grid with an unsolved transfer can be plotted: `PorkProps.v`. Permutations and sorted lists for the grid, the Lambert results for the rows, real arithmetic for the plot. Outcome: partial (refuted, with the part that holds). |
| C192 | Cells of the transfer plot show the transfer of their epochs: `PorkProps.v`. Permutations and sorted lists for the grid, the Lambert results for the rows, real arithmetic for the plot. Outcome: proved. |
| C193 | The optimal transfer is marked: `PorkProps.v`. Permutations and sorted lists for the grid, the Lambert results for the rows, real arithmetic for the plot. Outcome: partial (refuted, with the part that holds). |
| C194 | Propagation epochs cover the half-open interval: `PorkProps.v`. Permutations and sorted lists for the grid, the Lambert results for the rows, real arithmetic for the plot. Outcome: proved. |
| C195 | The saturated colour scale goes from light to dark: `PorkProps.v`. Permutations and sorted lists for the grid, the Lambert results for the rows, real arithmetic for the plot. Outcome: partial (refuted, with the part that holds). |
| C196 | A two-body ephemeris row shows the orbit where it was when the light left: `EphProps.v`. Rows of `generate_ephemeris_2body` unfolded to one kernel per row; light time through C69; derivatives with Coquelicot; angles by Cauchy-Schwarz. Outcome: proved. |
| C197 | Ephemeris covariances are the orbit covariances carried through the reported coordinates: `EphProps2.v`. Rows of `generate_ephemeris_2body` unfolded to one kernel per row; light time through C69; derivatives with Coquelicot; angles by Cauchy-Schwarz. Outcome: partial (refuted, with the part that holds). |
| C198 | Every ephemeris row carries the labels of its orbit and observer: `EphProps.v`. Rows of `generate_ephemeris_2body` unfolded to one kernel per row; light time through C69; derivatives with Coquelicot; angles by Cauchy-Schwarz. Outcome: proved. |
| C199 | Orbits that are not at the observer's epoch are refused: `EphProps.v`. Rows of `generate_ephemeris_2body` unfolded to one kernel per row; light time through C69; derivatives with Coquelicot; angles by Cauchy-Schwarz. Outcome: partial (refuted, with the part that holds). |
| C200 | The ephemeris does not depend on how orbits and observers are represented: `EphProps.v`. Rows of `generate_ephemeris_2body` unfolded to one kernel per row; light time through C69; derivatives with Coquelicot; angles by Cauchy-Schwarz. Outcome: proved. |
| C201 | Predicted magnitudes and phase angles are null exactly where they are not defined, and follow the H-G law elsewhere: `EphProps3.v`. Rows of `generate_ephemeris_2body` unfolded to one kernel per row; light time through C69; derivatives with Coquelicot; angles by Cauchy-Schwarz. Outcome: proved. |
| C202 | The phase angle is the angle Sun-object-observer for one position of the Sun: `EphProps3.v`. Rows of `generate_ephemeris_2body` unfolded to one kernel per row; light time through C69; derivatives with Coquelicot; angles by Cauchy-Schwarz. Outcome: partial (refuted, with the part that holds). |
| C203 | Correcting an orbit never makes its fit worse: `DcProps.v`. Unfolding of one fit; sorted lists for the order of residuals; elimination for too few rows; derivatives and Cauchy-Schwarz for the information. Outcome: partial (refuted, with the part that holds). |
| C204 | A corrected orbit refers to the epoch of the orbit given: `DcProps.v`. Unfolding of one fit; sorted lists for the order of residuals; elimination for too few rows; derivatives and Cauchy-Schwarz for the information. Outcome: partial (refuted, with the part that holds). |
| C205 | Every observation is a member of the corrected orbit: `DcProps.v`, `DcProps2.v`. Unfolding of one fit; sorted lists for the order of residuals; elimination for too few rows; derivatives and Cauchy-Schwarz for the information. Outcome: proved. |
| C206 | A determined orbit gets a covariance from all components of its residuals: `DcProps.v`. Unfolding of one fit; sorted lists for the order of residuals; elimination for too few rows; derivatives and Cauchy-Schwarz for the information. Outcome: partial (refuted, with the part that holds). |
| C207 | Settings of the solver are the documented defaults unless given: `DcProps.v`. Unfolding of one fit; sorted lists for the order of residuals; elimination for too few rows; derivatives and Cauchy-Schwarz for the information. Outcome: proved. |
| C208 | The observing night is the local noon-to-noon day of the observatory: `NightProps.v`. Loop over codes unfolded to rows by induction; offsets, zones and the clock of the machine as arbitrary functions. Outcome: partial (refuted, with the part that holds). |
| C209 | The Tisserand parameter gives the encounter speed and survives encounters: `TissProps.v`. Energy and angular momentum of the state put into the elements; real arithmetic. Outcome: proved. |
| C210 | Orbits with a Tisserand parameter above three do not reach the planet: `TissProps.v`. Energy and angular momentum of the state put into the elements; real arithmetic. Outcome: proved. |
| C211 | Collapsing a variant ephemeris gives the statistics of each object, epoch and observatory: `CollProps.v`. Runs of the stably sorted rows shown equal to filters of the given rows; circular means by polar coordinates; layout by indices of nested blocks. Outcome: proved. |
| C212 | Variants of different orbits are not mixed: `CollProps.v`. Runs of the stably sorted rows shown equal to filters of the given rows; circular means by polar coordinates; layout by indices of nested blocks. Outcome: partial (refuted, with the part that holds). |
| C213 | The statistics of a group do not depend on other groups or on slicing: `CollProps.v`. Runs of the stably sorted rows shown equal to filters of the given rows; circular means by polar coordinates; layout by indices of nested blocks. Outcome: partial (refuted, with the part that holds). |
| C214 | Collapsed longitudes turn with the sky: `CollProps2.v`. Runs of the stably sorted rows shown equal to filters of the given rows; circular means by polar coordinates; layout by indices of nested blocks. Outcome: partial (refuted, with the part that holds). |
| C215 | The fast collapse of sigma points agrees with the general one: `CollProps3.v`. Runs of the stably sorted rows shown equal to filters of the given rows; circular means by polar coordinates; layout by indices of nested blocks. Outcome: partial (refuted, with the part that holds). |
| C216 | Collapsed magnitudes are weighted means of those present: `CollProps2.v`. Runs of the stably sorted rows shown equal to filters of the given rows; circular means by polar coordinates; layout by indices of nested blocks. Outcome: partial (refuted, with the part that holds). |
| C217 | Collapsed light times are weighted means of those given: `CollProps3.v`. Runs of the stably sorted rows shown equal to filters of the given rows; circular means by polar coordinates; layout by indices of nested blocks. Outcome: partial (refuted, with the part that holds). |
| C218 | Collapsing variant orbits gives one orbit for each object: `CollProps4.v`. Runs of the stably sorted rows shown equal to filters of the given rows; circular means by polar coordinates; layout by indices of nested blocks. Outcome: partial (refuted, with the part that holds). |
| C219 | The automatic session mode gives the result of one of the other modes, for a stated reason: `RotProps3.v`. Case analysis and induction over lists with the numerical routines as arbitrary functions. Outcome: proved. |
| C220 | A covariance from SBDB keeps its meaning in the order of the orbit table: `SbdbProps.v`. Inversion of a successful reading of a payload; collection of answers by induction over the order of completion; list lemmas for rows. Outcome: proved. |
| C221 | Results of a concurrent SBDB query do not depend on the order in which requests finish: `SbdbProps.v`. Inversion of a successful reading of a payload; collection of answers by induction over the order of completion; list lemmas for rows. Outcome: proved. |
| C222 | SBDB requests are retried a bounded number of times, with bounded waits: `SbdbProps.v`. Inversion of a successful reading of a payload; collection of answers by induction over the order of completion; list lemmas for rows. Outcome: proved. |
| C223 | Elements and epoch of an SBDB orbit belong to one solution: `SbdbProps2.v`. Inversion of a successful reading of a payload; collection of answers by induction over the order of completion; list lemmas for rows. Outcome: partial (refuted, with the part that holds). |
| C224 | H and its uncertainty come from the same SBDB entry: `SbdbProps2.v`. Inversion of a successful reading of a payload; collection of answers by induction over the order of completion; list lemmas for rows. Outcome: partial (refuted, with the part that holds). |
| C225 | Rows of an SBDB query belong to the ids asked for: `SbdbProps2.v`. Inversion of a successful reading of a payload; collection of answers by induction over the order of completion; list lemmas for rows. Outcome: partial (refuted, with the part that holds). |
| C226 | An unknown uncertainty in an SBDB orbit affects only its own variance: `SbdbProps2.v`. Inversion of a successful reading of a payload; collection of answers by induction over the order of completion; list lemmas for rows. Outcome: partial (refuted, with the part that holds). |
| C227 | Scout requests are retried only for failures that may pass, and errors name their object: `ScoutProps.v`. Inversion of a successful reading of a payload; induction over the tries and over the objects. Outcome: proved. |
| C228 | A malformed Scout answer is reported as malformed: `ScoutProps.v`. Inversion of a successful reading of a payload; induction over the tries and over the objects. Outcome: partial (refuted, with the part that holds). |
| C229 | Scout samples carry the values and the time scale of the service: `ScoutProps.v`. Inversion of a successful reading of a payload; induction over the tries and over the objects. Outcome: partial (refuted, with the part that holds). |
| C230 | Scout samples of different objects have different ids: `ScoutProps.v`. Inversion of a successful reading of a payload; induction over the tries and over the objects. Outcome: partial (refuted, with the part that holds). |
| C231 | A Scout observation snapshot is complete and belongs to its object: `ScoutProps.v`. Inversion of a successful reading of a payload; induction over the tries and over the objects. Outcome: proved. |
| C232 | A Horizons query returns every object at every time, in order: `HorProps.v`. Permutation and stable sorting lemmas; two lists sorted by time that agree at each time are equal; padded numbers compare as numbers. Outcome: proved. |
| C233 | The origin of a Horizons orbit is the location asked for: `HorProps.v`. Permutation and stable sorting lemmas; two lists sorted by time that agree at each time are equal; padded numbers compare as numbers. Outcome: partial (refuted, with the part that holds). |
| C234 | A Horizons ephemeris has every object for every observer, in the frame of right ascension: `HorProps.v`. Permutation and stable sorting lemmas; two lists sorted by time that agree at each time are equal; padded numbers compare as numbers. Outcome: partial (refuted, with the part that holds). |
| C235 | Coordinates of a source catalogue carry its uncertainties in degrees: `CatProps.v`. Row-wise characterisation; the first row of each id by the lemmas on drop_duplicates; rounding by the floor. Outcome: proved. |
| C236 | The exposures of a catalogue are those its sources name: `CatProps.v`. Row-wise characterisation; the first row of each id by the lemmas on drop_duplicates; rounding by the floor. Outcome: partial (refuted, with the part that holds). |
| C237 | Observers of a catalogue at exposure midpoints agree with those of its exposures: `CatProps.v`. Row-wise characterisation; the first row of each id by the lemmas on drop_duplicates; rounding by the floor. Outcome: proved. |
| C238 | A NEOCC orbit file is read as what it says: `NeoProps.v`. shapes of lines as an inductive relation, the reader followed line by line; the query by induction on the ids Outcome: proved. |
| C239 | NEOCC rows follow the ids and keep time scale and frame: `NeoProps.v`. shapes of lines as an inductive relation, the reader followed line by line; the query by induction on the ids Outcome: proved. |
| C240 | Every id queried from the NEOCC has a row or there is an error: `NeoProps.v`. shapes of lines as an inductive relation, the reader followed line by line; the query by induction on the ids Outcome: partial (refuted, with the part that holds). |
| C241 | A NEOCC orbit without covariance can be queried: `NeoProps.v`. shapes of lines as an inductive relation, the reader followed line by line; the query by induction on the ids Outcome: partial (refuted, with the part that holds). |
| C242 | An OpenSpace asset is written as a Lua table that says the asset: `LuaProps.v`. an independent reader of Lua tables is run on the written text by induction on the nesting of values; nodes by induction on the orbits; epochs by rounding bounds on exact numbers Outcome: partial (refuted, with the part that holds). |
| C243 | Fields of an OpenSpace asset have distinct names: `LuaProps.v`. an independent reader of Lua tables is run on the written text by induction on the nesting of values; nodes by induction on the orbits; epochs by rounding bounds on exact numbers Outcome: proved. |
| C244 | A trail file declares, adds and removes every node once: `LuaProps.v`. an independent reader of Lua tables is run on the written text by induction on the nesting of values; nodes by induction on the orbits; epochs by rounding bounds on exact numbers Outcome: partial (refuted, with the part that holds). |
| C245 | An option given to an OpenSpace asset is written in it: `LuaProps.v`. an independent reader of Lua tables is run on the written text by induction on the nesting of values; nodes by induction on the orbits; epochs by rounding bounds on exact numbers Outcome: partial (refuted, with the part that holds). |
| C246 | OpenSpace options have the documented values: `LuaProps.v`. an independent reader of Lua tables is run on the written text by induction on the nesting of values; nodes by induction on the orbits; epochs by rounding bounds on exact numbers Outcome: partial (refuted, with the part that holds). |
| C247 | Trails and heads in OpenSpace follow the elements of their orbit: `LuaProps.v`, `LuaProps2.v`. an independent reader of Lua tables is run on the written text by induction on the nesting of values; nodes by induction on the orbits; epochs by rounding bounds on exact numbers Outcome: proved. |
| C248 | Epochs in the file of elements are those of the orbits: `LuaProps.v`. an independent reader of Lua tables is run on the written text by induction on the nesting of values; nodes by induction on the orbits; epochs by rounding bounds on exact numbers Outcome: partial (refuted, with the part that holds). |
| C249 | Batch size and padding of the JAX backend never change the result: `JaxProps.v`. zero rows drop out of the normal equations, zero columns by uniqueness of solutions of positive definite systems; the masked loop simulates the loop on rows; batches by an invariant over the batches Outcome: proved. |
| C250 | With the same linear solver the JAX backend returns the scores and the best fit of the numpy backend: `JaxProps.v`. zero rows drop out of the normal equations, zero columns by uniqueness of solutions of positive definite systems; the masked loop simulates the loop on rows; batches by an invariant over the batches Outcome: proved. |
| C251 | The period solution does not depend on the evaluation backend, given the same linear solver: `JaxProps.v`. zero rows drop out of the normal equations, zero columns by uniqueness of solutions of positive definite systems; the masked loop simulates the loop on rows; batches by an invariant over the batches Outcome: proved. |
| C252 | Both backends return the same scores and coefficients: `JaxProps.v`. zero rows drop out of the normal equations, zero columns by uniqueness of solutions of positive definite systems; the masked loop simulates the loop on rows; batches by an invariant over the batches Outcome: partial (refuted, with the part that holds). |
| C253 | Padded sizes are the smallest that fit: `JaxProps.v`. zero rows drop out of the normal equations, zero columns by uniqueness of solutions of positive definite systems; the masked loop simulates the loop on rows; batches by an invariant over the batches Outcome: proved. |
| C254 | The gravitational parameter of a row depends only on the origin code of the row: `ElemProps.v`. the masked writes by induction over the unique codes; the apsides because the Newton iteration rests at anomalies with zero sine; the period because the iteration commutes with whole turns Outcome: proved. |
| C255 | Every origin code has a gravitational parameter: `ElemProps.v`. the masked writes by induction over the unique codes; the apsides because the Newton iteration rests at anomalies with zero sine; the period because the iteration commutes with whole turns Outcome: partial (refuted, with the part that holds). |
| C256 | Origin codes survive the round trip through a table: `ElemProps.v`. the masked writes by induction over the unique codes; the apsides because the Newton iteration rests at anomalies with zero sine; the period because the iteration commutes with whole turns Outcome: proved. |
| C257 | The derived q, Q and p of a Keplerian table describe the states it is converted to: `ElemProps.v`. the masked writes by induction over the unique codes; the apsides because the Newton iteration rests at anomalies with zero sine; the period because the iteration commutes with whole turns Outcome: proved. |
| C258 | P is the period of the converted states and n the angle per day: `ElemProps.v`. the masked writes by induction over the unique codes; the apsides because the Newton iteration rests at anomalies with zero sine; the period because the iteration commutes with whole turns Outcome: proved. |
| C259 | The derived columns of a cometary table are those of the same orbit in Keplerian form: `ElemProps.v`. the masked writes by induction over the unique codes; the apsides because the Newton iteration rests at anomalies with zero sine; the period because the iteration commutes with whole turns Outcome: partial (refuted, with the part that holds). |
| C260 | The impact visualisation sorts every propagated row into the groups its impacts call for: `VizProps.v`. the loop over the impacts is, up to the order of rows, a map of one function over the rows, which picks the last impact that is due; the epochs are bounded with floors and ceilings of rationals; the distance follows from rotations being rigid Outcome: proved. |
| C261 | A variant is shown frozen exactly from its impact on: `VizProps.v`. the loop over the impacts is, up to the order of rows, a map of one function over the rows, which picks the last impact that is due; the epochs are bounded with floors and ceilings of rationals; the distance follows from rotations being rigid Outcome: proved. |
| C262 | Frozen variants stay on the surface of the body they hit: `VizProps.v`. the loop over the impacts is, up to the order of rows, a map of one function over the rows, which picks the last impact that is due; the epochs are bounded with floors and ceilings of rationals; the distance follows from rotations being rigid Outcome: partial (refuted, with the part that holds). |
| C263 | Every propagated row appears in exactly one group: `VizProps.v`. the loop over the impacts is, up to the order of rows, a map of one function over the rows, which picks the last impact that is due; the epochs are bounded with floors and ceilings of rationals; the distance follows from rotations being rigid Outcome: partial (refuted, with the part that holds). |
| C264 | A variant without impact is never shown as impacting: `VizProps.v`. the loop over the impacts is, up to the order of rows, a map of one function over the rows, which picks the last impact that is due; the epochs are bounded with floors and ceilings of rationals; the distance follows from rotations being rigid Outcome: partial (refuted, with the part that holds). |
| C265 | The epochs of the visualisation cover the impacts with the asked margin: `VizProps.v`. the loop over the impacts is, up to the order of rows, a map of one function over the rows, which picks the last impact that is due; the epochs are bounded with floors and ceilings of rationals; the distance follows from rotations being rigid Outcome: partial (refuted, with the part that holds). |
| C266 | The visualisation data are sorted by epoch and fail only as documented: `VizProps.v`. the loop over the impacts is, up to the order of rows, a map of one function over the rows, which picks the last impact that is due; the epochs are bounded with floors and ceilings of rationals; the distance follows from rotations being rigid Outcome: proved. |
| C267 | A normalised filter curve is a function of wavelength with maximum 1: `VendProps.v`. the samples kept of a sorted curve are characterised once for any sorting algorithm, interpolation and the trapezoid rule are linear in the template, positive increasing samples interpolate to positive values, and the tables of constants are compared by computation and lifted to all codes and bands Outcome: proved. |
| C268 | Normalising a filter curve keeps its shape: `VendProps.v`. the samples kept of a sorted curve are characterised once for any sorting algorithm, interpolation and the trapezoid rule are linear in the template, positive increasing samples interpolate to positive values, and the tables of constants are compared by computation and lifted to all codes and bands Outcome: partial (refuted, with the part that holds). |
| C269 | A normalised filter curve does not depend on the order of the samples: `VendProps.v`. the samples kept of a sorted curve are characterised once for any sorting algorithm, interpolation and the trapezoid rule are linear in the template, positive increasing samples interpolate to positive values, and the tables of constants are compared by computation and lifted to all codes and bands Outcome: partial (refuted, with the part that holds). |
| C270 | The named mixes NEO and MBA are the mixes of the C and S templates: `VendProps.v`. the samples kept of a sorted curve are characterised once for any sorting algorithm, interpolation and the trapezoid rule are linear in the template, positive increasing samples interpolate to positive values, and the tables of constants are compared by computation and lifted to all codes and bands Outcome: proved. |
| C271 | A vendored integral is what the template gives when registered as a custom one: `VendProps.v`. the samples kept of a sorted curve are characterised once for any sorting algorithm, interpolation and the trapezoid rule are linear in the template, positive increasing samples interpolate to positive values, and the tables of constants are compared by computation and lifted to all codes and bands Outcome: partial (refuted, with the part that holds). |
| C272 | The vendored templates are positive and equal 1 at 550 nm: `VendProps.v`. the samples kept of a sorted curve are characterised once for any sorting algorithm, interpolation and the trapezoid rule are linear in the template, positive increasing samples interpolate to positive values, and the tables of constants are compared by computation and lifted to all codes and bands Outcome: proved. |
| C273 | The vendored tables have exactly the requested rows: `VendProps.v`. the samples kept of a sorted curve are characterised once for any sorting algorithm, interpolation and the trapezoid rule are linear in the template, positive increasing samples interpolate to positive values, and the tables of constants are compared by computation and lifted to all codes and bands Outcome: proved. |
| C274 | The observatory map names one existing filter for each pair of observatory and band: `VendProps.v`. the samples kept of a sorted curve are characterised once for any sorting algorithm, interpolation and the trapezoid rule are linear in the template, positive increasing samples interpolate to positive values, and the tables of constants are compared by computation and lifted to all codes and bands Outcome: proved. |
| C275 | The newer SBDB query can replace the older one: `LateProps.v`. the two SBDB queries are compared answer by answer through a relation between parsed and raw answers, the frames are prefixes of a sorted list, and the channels are monotone in the lightness Outcome: partial (refuted, with the part that holds). |
| C276 | The risk corridor animates the Earth impacts in the order of time: `LateProps.v`. the two SBDB queries are compared answer by answer through a relation between parsed and raw answers, the frames are prefixes of a sorted list, and the channels are monotone in the lightness Outcome: proved. |
| C277 | The perceptual colour scale gets darker and more opaque: `LateProps.v`. the two SBDB queries are compared answer by answer through a relation between parsed and raw answers, the frames are prefixes of a sorted list, and the channels are monotone in the lightness Outcome: partial (refuted, with the part that holds). |
| C278 | Predicted magnitudes and phase angles belong to the observer of the row: `AttProps.v`. the keys are shown to be injective, the two alignments are characterised by positions in a list without repetitions, groups by their smallest and largest member, and each row by a function of its own data Outcome: proved. |
| C279 | Asking for both columns gives what asking for each of them gives: `AttProps.v`. the keys are shown to be injective, the two alignments are characterised by positions in a list without repetitions, groups by their smallest and largest member, and each row by a function of its own data Outcome: proved. |
| C280 | An absolute magnitude does not make an ephemeris fail: `AttProps.v`. the keys are shown to be injective, the two alignments are characterised by positions in a list without repetitions, groups by their smallest and largest member, and each row by a function of its own data Outcome: partial (refuted, with the part that holds). |
| C281 | H and G of a row are those of its orbit: `AttProps.v`. the keys are shown to be injective, the two alignments are characterised by positions in a list without repetitions, groups by their smallest and largest member, and each row by a function of its own data Outcome: proved. |
| C282 | Both ways to align rows with observers agree: `AttProps.v`. the keys are shown to be injective, the two alignments are characterised by positions in a list without repetitions, groups by their smallest and largest member, and each row by a function of its own data Outcome: partial (refuted, with the part that holds). |
| C283 | Magnitudes and phase angles do not depend on the chunks of orbits: `AttProps.v`. the keys are shown to be injective, the two alignments are characterised by positions in a list without repetitions, groups by their smallest and largest member, and each row by a function of its own data Outcome: partial (refuted, with the part that holds). |
| C284 | SPICE holds exactly the registered kernels, each once: `SpiProps.v`. invariants of single processes are carried through all executions by induction over the steps; the loop over epochs is described as a function of the row Outcome: proved. |
| C285 | After setup_SPICE() the default kernels are loaded: `SpiProps.v`. invariants of single processes are carried through all executions by induction over the steps; the loop over epochs is described as a function of the row Outcome: partial (refuted, with the part that holds). |
| C286 | setup_SPICE fails only for files that cannot be loaded and can be retried: `SpiProps.v`. invariants of single processes are carried through all executions by induction over the steps; the loop over epochs is described as a function of the row Outcome: proved. |
| C287 | Body states belong to the time of their row: `SpiProps.v`. invariants of single processes are carried through all executions by induction over the steps; the loop over epochs is described as a function of the row Outcome: proved. |
| C288 | Tables of perturber states are labelled with the requested frame: `SpiProps.v`. invariants of single processes are carried through all executions by induction over the steps; the loop over epochs is described as a function of the row Outcome: partial (refuted, with the part that holds). |
| C289 | initialize_use_ray leaves Ray initialised and respects what exists: `SpiProps.v`. invariants of single processes are carried through all executions by induction over the steps; the loop over epochs is described as a function of the row Outcome: proved. |
| C290 | Ray runs with the requested number of processors and memory: `SpiProps.v`. invariants of single processes are carried through all executions by induction over the steps; the loop over epochs is described as a function of the row Outcome: partial (refuted, with the part that holds). |
| C291 | Least squares never divides by a zero perturbation: `LsqProps.v`. the sums of the normal equations are turned into the orthogonality of the residuals to every change of the state by induction over the observations; sums over the six parameters are unfolded and compared by ring Outcome: proved. |
| C292 | Numerical derivatives are exact for a linear sky: `LsqProps.v`. the sums of the normal equations are turned into the orthogonality of the residuals to every change of the state by induction over the observations; sums over the six parameters are unfolded and compared by ring Outcome: proved. |
| C293 | One correction solves a linear problem: `LsqProps.v`. the sums of the normal equations are turned into the orthogonality of the residuals to every change of the state by induction over the observations; sums over the six parameters are unfolded and compared by ring Outcome: proved. |
| C294 | The RMS measures all residuals: `LsqProps.v`. the sums of the normal equations are turned into the orthogonality of the residuals to every change of the state by induction over the observations; sums over the six parameters are unfolded and compared by ring Outcome: proved. |
| C295 | A repaired covariance is positive semidefinite: `PsdProps.v`. the quadratic form of a sum of eigenvalues times squares is computed by induction over the eigenvalues; the 6 by 6 products are compared entry by entry Outcome: partial (refuted, with the part that holds). |
| C296 | Repairing a covariance changes it at most by the tolerance: `PsdProps.v`. the quadratic form of a sum of eigenvalues times squares is computed by induction over the eigenvalues; the 6 by 6 products are compared entry by entry Outcome: proved. |
| C297 | The cosine of the latitude scales longitudes only and does not spread missing values: `PsdProps.v`. the quadratic form of a sum of eigenvalues times squares is computed by induction over the eigenvalues; the 6 by 6 products are compared entry by entry Outcome: proved. |
| C298 | The cosine of the latitude does not change chi2: `PsdProps.v`. the quadratic form of a sum of eigenvalues times squares is computed by induction over the eigenvalues; the 6 by 6 products are compared entry by entry Outcome: proved. |
| C299 | Sorting linkage members keeps each member once: `SrtProps.v`. the joined rows are shown to carry one key per member; a sorted arrangement is unique up to equal keys, by induction Outcome: partial (refuted, with the part that holds). |
| C300 | Linkage members are sorted by linkage and time: `SrtProps.v`. the joined rows are shown to carry one key per member; a sorted arrangement is unique up to equal keys, by induction Outcome: proved. |
| C301 | The order of sorted members does not depend on the order of the tables: `SrtProps.v`. the joined rows are shown to carry one key per member; a sorted arrangement is unique up to equal keys, by induction Outcome: proved. |

### Plan for the rotation period search (written before its proofs)

* Verdict, reliability code, validity flags agree; what `single_period` implies: case analysis of the classifier and both guardrails.
* The reported period lies in its own interval and no alternate does: clusters are separated because items are merged in order of lower edge.
* Session offsets in automatic mode must not make a solvable input fail: expected refuted, the session fit is derived before eligibility is tested.
* Frequency grid: bounds, end points, spacing unless `grid_capped` is reported.
* Sigma clipping: counts add up; retained rows are within the clip unless eight rounds were used.
* Equal uncertainties versus none: expected refuted for clipped fits (n_obs in place of n_fit).
* Order selection, staged search near the coarse minimum, phase coverage, shift of all times.
* Harmonic scoring; day alias of a correct period: expected refuted for fast rotators.
* Apparitions partition the table and the best is chosen; grouped runs equal solo runs.

### Plan for transfer grids (written before its proofs)

* `generate_porkchop_data`: the rows are exactly the pairs with departure before arrival, each once; serial order; expected refuted for the parallel order (results are concatenated as they finish).
* Each row carries the Lambert solution of its own pair, so its two states lie on one conic about the propagation origin.
* Flight times and the pair filter compare MJDs of the two tables without looking at their scales: expected refuted for mixed scales, proved for one scale.
* The origin column is the propagation origin whatever the origin of the states: expected refuted.
* C3 is the square of the speed at infinity; both are missing exactly when there is no solution.
* `departure_spherical_coordinates` gives the equatorial direction of the velocity, whatever its length.
* `plot_porkchop_plotly` on data with an unsolved transfer: expected refuted (the default maximum is NaN and an assertion fails); cells and markers of a figure show the selected rows; the marker disappears when the optimum is outside the window.
* The epochs of `prepare_and_propagate_orbits` cover a half-open interval.
* The generated colour scale should go from light to dark: expected refuted.

### Plan for two-body ephemerides (written before its proofs)

* `generate_ephemeris_2body`: the on-sky position reproduces the vector from the observer to the state at emission, the range is its length, angles are in range, the light time solves the light-time equation (through C69).
* The barycentric state of every row is its state plus the state of its own origin, in the ecliptic; the shortcut for heliocentric tables changes nothing; the result does not depend on the origin and frame the input is given in.
* Covariances: expected refuted, the derivative is taken at the state relative to the input origin with the barycentric observer, and the covariance is not rotated; proved for barycentric ecliptic input.
* Orbits and observers at different epochs: expected refuted, nothing compares the epochs.
* Labels: ids, codes, epochs, emission epochs.
* Photometry: nulls exactly where parameters are missing or the magnitude is undefined; the object is made heliocentric with the Sun at emission, the observer with the Sun at observation: equality of the photometric range and the ephemeris range is expected refuted.

### Plan for the scipy differential corrector (written before its proofs)

* `fit_least_squares` with a solver that never increases the sum of squares must not return an orbit with a larger chi2 than the input orbit: expected refuted for input that is not heliocentric, ecliptic and TDB, because the residual function hard-codes these; proved otherwise.
* Which observations are used, flags of the members, refusal of several orbits, missing covariance when the normal matrix is singular.
* The covariance should be the inverse of the information of all residual components: expected refuted, the solver is given one chi per observation; the information used is never larger.

### Plan for observing nights and the Tisserand parameter (written before its proofs)

* `calculate_observing_night`: local civil day number of noon to noon; expected refuted for dependence on the zone of the machine and on the time scale of the input; proved for a machine in UTC and UTC times.
* `calc_tisserand_parameter`: value 3 for the planet's own orbit, invariance, refusal of unknown bodies, domain.

### Plan for collapsing variants by object (written before its proofs)

* `VariantEphemeris.collapse_by_object_id`: one row per object, epoch and observatory, from exactly its variants; that orbits are not mixed is expected refuted (the key has no orbit id, and missing object ids count as equal).
* The statistics of a group do not depend on the sizes of other groups or on the chunk size: expected refuted when the covariance weights sum to zero, proved otherwise.
* Longitude: turning all variants by an angle turns the mean by it and changes nothing else; expected refuted where the weighted directions cancel.
* Magnitudes: weighted mean of those present; range expected refuted for negative weights.
* Light times in mode "collapse": expected refuted where a group has none (distance from the barycentre is used instead of the observer).
* `collapse_sigma_points_orbit_major`: agrees with the general collapse for the documented layout; expected refuted that any other layout is detected.
* `VariantOrbits.collapse_by_object_id`: order, errors, population statistics; expected refuted that sigma points give back their covariance.

### Plan for the query services and the source catalogue (written before its proofs)

* SBDB (`query_sbdb_new`), a JSON payload as a value: the covariance is carried from the labelled order to the order of the cometary elements with its quadratic form; rows follow the ids for every order in which the requests finish; bounded retries; that elements and epoch, and that H and its sigma, are of one source is expected refuted; that an unknown sigma leaves the rest of the diagonal covariance alone is expected refuted.
* Scout (`query_scout`, `query_scout_observations`): bounded retries, the classes of errors; expected refuted: a malformed body is reported as such, epochs are in TDB as Scout's, orbit ids are unique over objects.
* Horizons (`query_horizons`, `query_horizons_ephemeris`): one row per object and epoch in order of time, for any number of chunks; expected refuted: the origin is the location asked for, RA and DEC are labelled equatorial.
* `SourceCatalog`: covariance in degrees, positive semidefinite for every accepted row; exposures one per id, expected refuted that every detection keeps its exposure; observers at exposure midpoints agree with those of the exposures.
* The server is a parameter (an outcome for every request), floats in text are read by a parameter, coordinate conversions are those of other sections.

### Plan for NEOCC orbit files and OpenSpace assets (written before its proofs)

* NEOCC (`query_neocc` and the reading of its OEF files), a file as text: a file with a header, an id line and a body of comments and records, in any order and of any length, is read as the id, elements, epoch, magnitude and covariance in it; a row is only ever made of an orbit in TDT and ECLM J2000 and is labelled tt, ecliptic, SUN; rows follow the ids. Expected refuted: every id gets a row or an error; an orbit without a covariance can be queried.
* OpenSpace (`LuaDict.to_string`, `create_initialization`, `create_renderable_trail_orbit`, `orbits_to_sbdb_file`): a small reader of Lua tables is the specification; an asset is read back field by field for every nesting, when its strings need no escape; every node of a trail file is added and removed once, under distinct variable names. Expected refuted: strings with quotes, lists of tags, options that are accepted and not written, distinct identifiers of nodes, documented render modes, epochs of the SBDB file near midnight and before MJD 0.
* The server, the reading of floats and the printing of numbers are parameters.

### Plan for the JAX backend of the rotation fits (written before its proofs)

Source: `photometry/rotation/jax_backend.py` and the two functions of `photometry/rotation/estimator.py` that call it.
`JaxModel.v` models the row padding to a power of two, the column padding to a multiple of eight, the batches of
frequencies, the fixed number of clipping rounds on a mask, the ridge `1e-15 * I` and the choice of the best frequency.
`jnp.linalg.solve` is a parameter; where it matters the theorems assume that it solves positive definite systems, and a
separate lemma builds such a solver by elimination. Arithmetic is on exact reals.

- C249: batch size, row padding and column padding never change the result. Proved by showing that the whole evaluation
  equals a list of independent fits without any padding. Zero rows drop out of the normal equations; the padded columns
  get coefficient zero because the padded system is positive definite, so its solution is unique.
- C250: with the same linear solver the JAX backend returns the scores and the best fit of the numpy backend, although
  one stops clipping early and the other always runs every round. Proved by a simulation between masks and row lists.
- C251: the whole period solution is the same with either backend, for every search mode, given the same linear solver.
- C252: the fitted coefficients of the two backends are equal (full statement). Expected to be false of the exact
  arithmetic because of the ridge: the coefficients differ whenever the right-hand side of the normal equations is not
  zero. The bound on the loss in the sum of squares is proved as the true part.
- C253: the row bucket is the smallest power of two that is large enough, and the column bucket the smallest multiple.

### Plan for origins and derived orbital elements (written before its proofs)

Source: `coordinates/origin.py`, the derived columns of `coordinates/keplerian.py` and `coordinates/cometary.py`, and
`dynamics/kepler.py:12-135`. `ElemModel.v` models the loop of `Origin.mu` over the unique codes with masked writes, the
tables of codes and parameters (exact decimals), `as_OriginCodes`, and the derived columns on reals extended by the two
infinities and NaN. The conversions to Cartesian states are those of `KepModel.v`.

- C254: the parameter of a row depends only on the code of that row; the call fails exactly when some code is unknown.
- C255: every member of `OriginCodes` has a parameter. Expected refuted; the true part says exactly which members do.
- C256: `as_OriginCodes` inverts `from_OriginCodes`, and otherwise fails with the documented kind of error.
- C257: the columns q and Q of a Keplerian table are the least and the greatest distance over all anomalies, and both are
  reached; p is the squared angular momentum over mu; for hyperbolas q is a lower bound and Q is infinite.
- C258: P is the period. A state at t and the state at t + P are equal, for Keplerian and cometary rows, for every
  number of Newton steps; n P is 360 degrees. Proved by showing that the Newton iteration commutes with whole turns.
- C259: the derived columns of a cometary table are those of the same orbit in Keplerian form (full statement, with
  p = q (1 + e) for every orbit). Expected refuted for the parabola, where p is NaN.

### Plan for the impact visualisation data (written before its proofs)

Source: `dynamics/plots.py:31-32` and `43-275` (`prepare_propagated_variants`, `generate_impact_visualization_data`).
`VizModel.v` models the masks, the loop over the colliding bodies, the loop over the impacts with its split and
concatenation, the choice of radius, the grid of epochs, the renaming of the variants and the final sort. The time
conversions, the propagator and the placement of a point are parameters; a second, concrete placement on real vectors
(spherical to Cartesian, shift of origin, turn of frame) is used for the claim about distances. The figures are not
modelled.

- C260: which rows are in which group; no row, identifier or epoch is lost, added or changed.
- C261: a row of a body group is shown where it was propagated, unless its variant has an impact on that body at or
  before its epoch; then it is shown at the last such impact of the table. Induction over the impacts.
- C262: the frozen points stay on one sphere around the body they hit, at every epoch. The documentation says the
  radius of the Earth; expected refuted by the factor 0.999 and proved with it.
- C263: every propagated row is in exactly one group. Expected refuted for a variant with impacts on both bodies;
  proved when each variant hits one body.
- C264: a variant without impact is never shown as impacting. Expected refuted when two orbits number their variants
  alike, because only the variant identifier is compared; proved for identifiers used by one orbit only.
- C265: the epochs are consecutive multiples of the step and reach from the first to the last impact with the asked
  margin. Expected refuted for the end of the range; proved with the exact margins.
- C266: the groups returned are sorted by epoch, errors are raised exactly in the documented cases.

### Plan for the vendored photometric data (written before its proofs)

Source: `photometry/bandpasses/vendor.py` (everything but the downloads, the VOTable and FITS readers and the parquet
files). `VendModel.v` models the normalisation of a curve, with the order that `numpy.argsort` returns as an argument
(ties are in no particular order), the loops that build the curves and the integrals, the observatory map, and the
templates on the real grid of wavelengths. Interpolation and the trapezoid rule are those of `PhotModel.v`. Exact real
arithmetic.

- C267: a normalised curve has strictly increasing wavelengths, exactly those of the input, and a throughput between 0
  and 1 with maximum 1; it is refused exactly when it has fewer than two wavelengths or no positive throughput.
- C268: normalisation keeps the shape of the curve. Expected refuted for curves above 1 (for instance in percent), which
  are cut before they are scaled; proved for curves between 0 and 1.
- C269: the normalised curve does not depend on the order of the samples. Expected refuted with repeated wavelengths;
  proved for distinct ones.
- C270: the vendored integrals of the mixes are the mixes of the integrals, for any solar spectrum and any filter; what
  a user gets from NEO and MBA is what they get from the weights 0.5/0.5 and 0.7/0.3.
- C271: a vendored integral is what the same template gives when registered as a custom template. Expected refuted when
  fewer than two solar samples fall in the overlap (0 against NaN); proved otherwise.
- C272: the templates can be built, are positive everywhere and equal 1 at 550 nm.
- C273: the tables of curves and of integrals have one row for each specification and for each pair, in order; repeated
  filter identifiers are refused.
- C274: every pair of observatory and band has at most one entry in the map, and its filter is among the curves built.

### Plan for the older SBDB query, the risk corridor and the perceptual colour scale (written before its proofs)

`LateModel.v` models `query_sbdb` of `orbits/query/sbdb.py`, from the parsed answer of astroquery on. How astroquery
parses the JSON payload is not part of the code; `LateSpec.v` says when a parsed answer belongs to a payload (same object,
epoch, elements, covariance), and the newer query is that of `SbdbModel.v`. It also models the data of
`plot_risk_corridor` (`dynamics/plots.py`; the conversion to geodetic coordinates and the sorting algorithm are
parameters) and `generate_perceptual_colorscale` (`missions/porkchop.py`; exact rationals, colours as numbers).

- C275: `query_sbdb_new` is a drop-in alternative to `query_sbdb`. Expected refuted (physical parameters, and answers
  without uncertainties); proved: whenever the older query succeeds on answers with full matrices, the newer one succeeds
  and gives the same identifiers, objects, epochs, elements, covariances, origin and frame.
- C276: frame i of the risk corridor shows the i + 1 earliest impacts on the Earth with their minutes since the first one,
  the last frame all of them; the ticks of the colour bar span the minutes shown.
- C277: the perceptual colour scale has positions from 0 to 1, channels between 0 and 255 and opacity between its bounds,
  and gets darker from each level to the next. The last part is expected refuted for dark colours (the first level is
  mixed differently); proved from the second level on.

### Plan for magnitudes and phase angles of propagated ephemerides (written before its proofs)

`propagator/propagator.py:40-276` (`attach_magnitude_or_phase` and its helpers), model `AttModel.v`. Times are pairs of integers and
keys are the texts the code builds. The heliocentric conversions, the rescaling of times and the photometric formulas
(modelled in `PhotModel.v`) are parameters.

- C278: each row is paired with the only observer of its code and time, the other columns stay, and the call is refused
  exactly for the stated reasons. The text keys are shown to be injective for all codes, also codes with a bar in them.
- C279: asking for both columns gives exactly what asking for each of them gives.
- C280: giving an orbit an absolute magnitude does not make the query fail. Expected to be false for repeated observers and for a row
  without aberrated coordinates; the success cases are proved.
- C281: the parameters of a row are those of the valid rows of its orbit id, and conflicting ones are refused.
- C282: both alignment functions give the same result. Expected to be false for the kind of error; equal on success for any order on texts.
- C283 (added after the proofs of the others): chunks of orbits give the same rows as the whole table.

### Plan for SPICE set-up, body states and the Ray cluster (written before its proofs)

`utils/spice.py:90-128, 232-360` (`setup_SPICE`, registering kernels, `get_spice_body_state`) and `ray_cluster.py:20-61`
(`initialize_use_ray`), model `SpiModel.v`. A world is a set of processes with their kernel pool, their set of registered kernels
and their environment; processes set SPICE up, register and unregister kernels, fork, spawn and exit in any order. Whether a
kernel file can be loaded and what SPICE and Ray answer are parameters.

- C284: in every reachable world each process holds each kernel at most once, and exactly the registered ones. Induction over executions.
- C285: after `setup_SPICE()` the default kernels are loaded. Expected to be false (unregistered kernels, other kernels at first, reused
  process numbers); proved for executions without these.
- C286: `setup_SPICE` fails exactly for a file that cannot be loaded, and can be retried.
- C287: `get_spice_body_state` gives each row the state at its own epoch and agrees with `get_perturber_state`.
- C288: tables of states are labelled with the requested frame. Expected to be false for an empty table from `get_perturber_state`.
- C289: `initialize_use_ray` leaves Ray initialised when it returns true and respects an existing cluster.

### Plan for one iteration of the least-squares corrector (written before its proofs)

`orbit_determination/least_squares.py:37-185, 277-308` (`_update_orbit`, `_residual_columns`, `_compute_partials`, `_rms` and the normal
equations of `least_squares`), model `LsqModel.v`. Real numbers; the propagator, `Residuals.calculate` and the matrix inverse are parameters.
The iteration around it is in `OdModel.v` (C46, C100).

- C291: a perturbation is never zero and changes one component; exact for every state, also with zero components.
- C292: for a sky that depends linearly on the state both difference schemes give the exact partial derivatives, for every step.
- C293: in that case one correction reaches the smallest RMS of all states, for all weights, and the covariance is symmetric. Orthogonality of the residuals
  from the normal equations.
- C294: the RMS is zero exactly for zero residuals, does not depend on the order, and scales with the residuals.

### Plan for repaired covariances and the cosine of the latitude (written before its proofs)

`coordinates/covariances.py:183-213` (`make_positive_semidefinite`) and `coordinates/residuals.py:35-96` (`apply_cosine_latitude_correction`),
model `PsdModel.v`. Real numbers; the eigenvalue decomposition is a parameter, missing entries are `None`.

- C295: `make_positive_semidefinite` returns a positive semidefinite matrix. Expected to be false for an eigenvalue of exactly minus the tolerance;
  proved otherwise.
- C296: it is refused exactly if the matrix is negative beyond the tolerance in some direction; a positive semidefinite matrix is unchanged; any
  other is changed by at most twice the tolerance in every direction.
- C297: the correction scales longitudes and their rates, and each entry of the covariance by the factors of its row and column; missing entries stay missing and do
  not spread.
- C298: the correction does not change chi2 away from the poles.

### Plan for sorted linkages (written before its proofs)

`orbit_determination/iod.py:32-98` (`sort_by_id_and_time`), model `SrtModel.v`. The order in which pyarrow returns the rows of a join, and equal rows
of a sort, is not promised: the model is a relation that allows any of them. Ids are integers in the order of the strings.

- C299: the sorted members are the given members, each once. Expected to be false if two observations share an id; proved otherwise.
- C300: members come by linkage, then by the time of their observation, members without an observation last; linkages come by id, each once.
- C301: the result does not depend on the order of members and observations, if no two members of a linkage have the same time.

What cannot be expressed: the effect of floating-point rounding on the claims about exact arithmetic, and the run time of the programs.

## 5. Assumptions per theorem

Output of `Print Assumptions` for every theorem named in `MANIFEST.json`.

### Closed under the global context

C01_add_nanos_exact, C01_add_nanos_range_error, C02_difference_exact, C02_difference_scalar_exact, C02_difference_errors, C02_difference_add_back, C03_rounded_truncates, C03_rounded_idempotent, C03_rounded_composes, C03_rounded_monotone, C03_rounded_other, C04_equals_symmetric_refuted, C04_equals_partial, C05_max, C05_min, C06_et_round_trip_refuted, C07_unknown_scale_refuted, C07_utc_tt_utc_refuted, C08_key_refuted, C08_key_injective_partial, C08_key_collision_iff_partial, C09_link_same_scale, C09_link_other_scale, C11_numbered_round_trip, C11_numbered_injective, C11_too_large, C11_every_number_has_a_numeral, C12_provisional_round_trip, C12_provisional_injective, C13_survey_round_trip, C14_only_value_error_refuted, C14_malformed_rejected_refuted, C14_pack_errors_partial, C14_unpack_errors_partial, C15_dispatch, C15_dispatch_injective, C16_lru, C17_spice_cache, C17_far_epochs_refuted, C18_kernel_change_refuted, C18_after_clear_partial, C19_time_scale_refuted, C19_observer_states_partial, C20_translation_cache, C21_propagate_2body, C21_row_order, C21_ephemeris_2body, C21_ephemeris_lengths, C22_propagate_orbits, C22_ephemeris, C23_task_window, C23_submit_all, C24_events_order_refuted, C24_events_permutation_partial, C25_moid_order_refuted, C25_moid_rows_partial, C26_od_order_refuted, C26_iod_survivor_refuted, C26_od_permutation_partial, C26_iod_partial, C27_origin_rowwise, C27_same_origin, C28_rotation_rowwise, C28_rotation_errors, C29_from_codes_rowwise, C29_from_codes_errors, C30_input_origin_partial, C30_duplicated_rows_refuted, C30_dropped_rows_refuted, C30_no_table, C31_group_by_key, C31_iterate_codes, C31_group_by_healpixel, C31_group_by_object, C32_chunks_tile, C32_chunk_indices, C32_fixed_batches, C32_padded_results, C32_checked_results, C32_zero_chunk_size, C33_validate, C33_lookup, C33_lookup_without_id, C34_own_epoch_partial, C34_own_epoch_refuted, C34_end_epoch_never_found, C35_keplerian, C35_cometary, C35_unbound, C36_memberships, C36_orbits, C37_counts_refuted, C37_counts_partial, C38_representatives, C40_other_observations_refuted, C40_worst_partial, C40_members_only_partial, C41_acceptance, C41_terminates, C41_too_few, C42_rows_mixed_refuted, C42_fit_missed_refuted, C42_stale_residuals_refuted, C42_first_iteration_partial, C42_trailing_outliers_partial, C44_acceptance, C45_usable, C45_short, C45_unknown_method, C45_combinations, C45_first_and_last, C46_never_worse, C46_terminates, C47_unsorted_refuted, C47_own_prediction_partial, C47_duplicate_ids, C49_origins_refuted, C49_empty_refuted, C49_origins_partial, C50_rowwise, C50_row_values, C51_lower_refuted, C51_lower_partial, C56_names, C57_centre_refuted, C57_centre_partial, C58_tiling, C59_observations_partial, C59_missing_magnitude_refuted, C59_missing_rms_refuted, C59_small_rms_refuted, C59_remarks_refuted, C60_contexts_partial, C60_refuted, C61_dates, C61_rejected, C61_sound, C62_errors_refuted, C62_kinds_partial, C62_errors_partial, C62_file_partial, C63_probability_refuted, C63_probability_partial, C64_defaults_refuted, C64_defaults_partial, C73_rows, C73_sound, C73_canonical, C73_mapped, C73_fallback, C73_null_band, C81_link_to_observers, C81_link_to_exposures, C82_add_seconds_refuted, C82_add_units_partial, C83_from_mjd_refuted, C83_from_mjd_partial, C84_utc_tai_offset_refuted, C84_utc_tai_offset_partial, C85_same_scale_identity, C85_tai_tt_round_trip, C85_tt_tai_round_trip, C85_utc_tai_utc_round_trip, C86_mjd_round_trip, C86_from_mjd_nearest, C87_packed_date, C88_propagation_error_row, C88_ephemeris_index_error_refuted, C88_ephemeris_wrong_row_refuted, C88_ephemeris_detects_partial, C89_propagator_settings_refuted, C90_observer_pairing, C91_schedule_order_refuted, C91_observer_pairing_refuted, C91_empty_input_refuted, C92_group_by_exposure_partial, C92_null_exposures_refuted, C93_warning_partial, C93_missed_warning_refuted, C93_close_epochs_refuted, C94_exposure_observers_rowwise, C94_exposure_observers_empty, C95_near_earth_partial, C95_near_earth_refuted, C97_degrees_of_freedom_refuted, C97_degrees_of_freedom_partial, C98_negative_limit_refuted, C98_limit_partial, C99_num_obs_refuted, C99_arc_length_refuted, C99_short_arc_refuted, C99_single_candidate_partial, C100_unimproved_refuted, C100_none_partial, C102_mixed_rows_refuted, C102_mixed_rows_partial, C107_missing_sigma_refuted, C107_missing_sigma_partial, C108_upper, C108_oef, C109_rows, C110_empty_refuted, C110_scales_refuted, C110_total_partial, C111_round_trip_refuted, C111_propagated_refuted, C111_round_trip_partial, C111_span_partial, C112_one_orbit_refuted, C112_one_object_partial, C112_propagated_partial, C113_evaluated_refuted, C113_evaluated_partial, C114_coverage_refuted, C114_short_refuted, C114_coverage_partial, C115_ra, C115_ra_rejected, C115_dec, C115_dec_rejected, C116_finite_refuted, C116_finite_partial, C117_columns, C117_accepts, C118_identifiers_partial, C118_identifiers_refuted, C119_observations_read_back, C120_whole_contexts, C140_generic_bands_refuted, C140_generic_bands_partial, C195_one_level, C208_night_partial, C208_rows, C208_unknown, C208_machine_refuted, C208_scale_refuted, C208_before_refuted, C220_covariance, C220_quadratic, C220_labels, C220_size, C221_any_order, C221_failure, C222_retries, C223_solution_partial, C223_solution_refuted, C224_magnitude_partial, C224_magnitude_refuted, C225_rows_partial, C225_missing, C225_name_refuted, C226_sigmas_partial, C226_sigmas_refuted, C227_retries, C227_errors, C227_first_error, C228_malformed_partial, C228_body_refuted, C228_long_row_refuted, C228_escape_refuted, C229_samples_partial, C229_scale_refuted, C230_ids_partial, C230_ids_refuted, C231_snapshots, C231_unusable, C232_rows, C232_order, C232_errors, C233_origin_partial, C233_origin_refuted, C234_rows_partial, C234_errors, C234_frame_refuted, C235_coordinates, C235_semidefinite, C236_exposures_partial, C236_errors, C236_conflict_refuted, C236_unlinked_refuted, C237_midpoints, C237_times, C238_file, C238_remarks, C239_rows, C239_refused, C239_errors, C240_every_id_refuted, C240_kind_refuted, C240_every_id_partial, C241_no_covariance_refuted, C241_no_rows_partial, C242_reads_partial, C242_text_refuted, C242_list_refuted, C242_empty_list_refuted, C243_distinct, C243_names, C244_nodes, C244_identifiers_partial, C244_identifiers_refuted, C244_head_refuted, C245_kepler_partial, C245_trail_refuted, C245_trail_ignores, C245_name_ignored, C246_accepted_partial, C246_spice_partial, C246_mode_refuted, C246_type_refuted, C247_units, C247_options, C248_epoch_partial, C248_midnight_refuted, C248_negative_refuted, C253_rows, C253_columns, C254_rows, C254_values, C255_refuted, C255_partial, C256_back, C256_read, C260_groups, C261_frozen, C262_radii, C263_refuted, C263_partial, C264_refuted, C264_partial, C265_partial, C265_cover, C265_refuted, C266_sorted, C266_errors, C274_map, C274_keys, C275_refuted, C275_partial, C276_refused, C276_frames, C277_levels, C277_colour, C277_refuted, C277_partial, C278_rows, C278_refused, C279, C280_refuted, C280_partial, C281, C282_refuted, C282_partial, C283_refuted, C283_partial, C284, C284_calls, C285_refuted, C285_partial, C286, C286_retry, C287, C287_refused, C287_agrees, C288_refuted, C288_partial, C289, C290_refuted, C290_partial, C299_refuted, C299_partial, C300, C300_linkages, C301

### Standard library axioms: `ClassicalDedekindReals.sig_forall_dec`

C53_own_variants_partial, C54_observatories_partial, C104_no_variants_refuted, C137_missing_partial

### Standard library axioms: `ClassicalDedekindReals.sig_forall_dec`, `FunctionalExtensionality.functional_extensionality_dep`

C52_sigma_points, C53_same_millisecond_refuted, C53_round_trip_partial, C54_observatories_refuted, C55_seed_refuted, C55_seed_partial, C70_coplanar, C77_units, C77_covariance, C103_one_sample_refuted, C103_one_sample_partial, C104_no_variants_partial, C105_longitude_refuted, C105_longitude_partial, C106_by_object_partial, C157_observers_refuted, C157_observers_partial, C170_grid, C173_order, C173_total, C173_confidence, C174_harmonic, C175_self_refuted, C175_self_partial, C176_apparitions, C181_full, C181_staged, C181_found, C181_minima, C191_unsolved, C192_cells, C193_marker_partial, C193_marker_refuted, C194_epochs, C194_whole_steps, C194_zero_step, C218_orbits, C218_errors, C218_sigma_points_refuted, C249_columns, C249_solver, C252_coefficients_refuted, C252_loss_partial, C267_curve, C267_refused, C268_refuted, C268_partial, C269_refuted, C269_partial, C271_refuted, C271_partial, C273_curves, C273_default, C273_units, C273_integrals, C291, C292, C295_refuted, C295_partial, C296, C296_abs

### Standard library axioms: `ClassicalDedekindReals.sig_forall_dec`, `ClassicalDedekindReals.sig_not_dec`, `FunctionalExtensionality.functional_extensionality_dep`

C07_compose_partial, C69_solution, C72_between, C72_least_squares, C72_grouped, C78_frames, C78_other_frames, C80_axes_partial, C106_by_object_refuted, C135_found_partial, C136_aberration, C137_missing_refuted, C138_covariance_refuted, C138_covariance_partial, C139_ric, C149_rows, C150_gibbs_exact, C152_reversal_refuted, C152_reversal_partial, C153_mu_partial, C155_behind_partial, C156_degenerate_refuted, C156_same_direction, C156_degenerate_partial, C158_scale_partial, C166_projection, C166_defined, C171_clipped, C172_scatter_refuted, C172_scatter_partial, C189_speeds, C191_plain_partial, C192_units, C203_never_worse_partial, C203_reported, C203_axes_refuted, C203_scale_refuted, C204_epoch_partial, C204_epoch_refuted, C205_members, C205_statistics, C205_one_orbit, C206_few_refuted, C206_complete_refuted, C206_inverse_partial, C206_information_partial, C207_settings, C210_no_crossing, C210_planet, C210_axes, C210_names, C249_padding, C250_backends, C251_solution, C252_scores_refuted, C259_partial, C259_parabola_partial, C262_partial, C262_refuted, C293, C293_unique, C294, C297, C298, C298_dims

### Standard library axioms: `ClassicalDedekindReals.sig_forall_dec`, `ClassicalDedekindReals.sig_not_dec`, `Classical_Prop.classic`, `FunctionalExtensionality.functional_extensionality_dep`

C07_tt_tdb_tt_within_1ns_partial, C10_add_fractional_days_refuted, C10_add_fractional_days_partial, C39_budget, C39_budget_any, C39_errors, C43_short_linkage_refuted, C43_no_triple_partial, C48_longitude, C65_round_trip, C65_axis, C66_lagrange, C66_converged, C67_barker_partial, C67_round_trip_refuted, C67_barker_refuted, C68_outbound_partial, C68_inbound_refuted, C69_newton, C71_identity, C71_inverse, C71_transitive, C71_law, C71_mix_scale, C71_errors, C72_inverts, C74_reregistration_refuted, C74_reregistration_partial, C75_points_refuted, C75_points_partial, C76_one_orbit, C79_geodetic_partial, C79_geodetic_refuted, C79_axis_refuted, C80_label_refuted, C96_full_budget_refuted, C96_over_budget_refuted, C96_close_partial, C101_sign_refuted, C101_sign_partial, C121_spherical_first, C122_velocities_partial, C122_velocities_refuted, C123_covariances_partial, C123_covariances_refuted, C124_longitude_partial, C124_longitude_refuted, C125_anomalies, C125_mean, C125_converges, C126_state_trip, C127_complete_partial, C127_circular_refuted, C127_equatorial_refuted, C128_past_partial, C128_future_refuted, C128_periapsis_refuted, C128_parabola_refuted, C129_element_trip, C130_cometary_trip, C131_motion, C131_converges, C131_exact, C132_cycle_refuted, C133_overflow_refuted, C134_legs, C135_last_iteration_refuted, C141_current_templates, C142_grey_template_refuted, C142_grey_template_partial, C143_rescaled_template, C144_phase_angle, C144_refusals, C145_phase_function, C146_two_corrections_refuted, C146_two_corrections_partial, C147_predict_then_convert, C147_additive, C147_v_magnitude, C148_frames_refuted, C148_frames_partial, C151_series_refuted, C151_series_partial, C153_mu_refuted, C154_herrick_gibbs, C155_behind_refuted, C158_scale_refuted, C159_half_turn_refuted, C159_half_turn, C160_sense, C161_derivatives, C162_transfer, C162_exists, C163_guess, C163_named, C164_no_result, C164_rows, C165_moid_refuted, C165_circle_partial, C167_verdict, C167_single, C168_interval, C168_acceptable, C169_auto_refuted, C169_auto_partial, C169_ignore_partial, C170_period, C170_best, C171_counts, C177_best, C177_total, C178_grouped, C179_shift, C180_coverage, C182_errors, C182_zero_span, C182_few, C183_unsigned, C183_weights, C184_rows, C184_accepted, C185_order_partial, C185_order_refuted, C186_transfer, C187_scales_refuted, C187_scales_partial, C188_origin_refuted, C188_origin_partial, C189_flight_time, C190_direction, C190_length, C190_rows, C191_unsolved_refuted, C195_levels_partial, C195_darker_refuted, C196_on_sky, C196_light_time, C197_covariance_partial, C197_covariance_refuted, C197_origin_ignored_refuted, C198_labels, C199_epochs_refuted, C199_lengths_partial, C200_representation, C201_photometry, C202_phase_partial, C202_phase_refuted, C209_state, C209_encounter, C209_invariant, C211_rows, C211_statistics, C211_errors, C212_orbits_partial, C212_orbits_refuted, C213_chunks, C213_independent_partial, C213_independent_refuted, C214_turn_partial, C214_window, C214_turn_refuted, C215_layout_partial, C215_errors, C215_layout_refuted, C215_magnitude_refuted, C216_mean, C216_range_partial, C216_present_partial, C216_range_refuted, C217_light_partial, C217_light_refuted, C217_fallback_refuted, C219_auto, C257_ellipse, C257_hyperbola, C257_momentum, C258_keplerian, C258_cometary, C259_refuted, C270_rows, C270_mixes, C272_templates

## 6. Findings

Properties that are false of the code as modelled, each with a machine-checked counterexample (`..._refuted`):

* C04 Timestamp equality within a precision is symmetric: equals is asymmetric at exactly the maximal deviation. The partial theorem gives the exact condition -m <= a-b < m.
* C06 Ephemeris time round-trips: for every instant: from_et omits the J2000 offset of 51544.5 days.
* C07 Time-scale conversion round-trips and composes: UTC->TT->UTC loses one second around noon of a leap-second day; UTC to an unknown scale does not raise. Proved: nine composition laws, TT->TDB->TT within 1 ns with the code's formula in real arithmetic. Missing: binary64 rounding of the TDB formula.
* C08 A Timestamp key identifies the instant: for dates 2^64 ns apart; proved injective for |days| < 106751 and the exact collision condition.
* C10 Adding fractional days never rejects a representable offset: every binary64 offset in [-2^-54, 0) raises ValueError. Otherwise proved within 1.02 ns, in binary64 arithmetic (Flocq).
* C14 Malformed packed designations raise ValueError: IndexError and KeyError escape, and the non-designation "199x AB" packs. Proved instead: exactly which exceptions can escape and for which shapes of input.
* C18 Loading or unloading a SPICE kernel takes effect on later queries: register_spice_kernel does not invalidate the cache, cached epochs keep the old kernel answer. Partial: after an explicit cache clear with no later kernel change, answers come from the loaded kernels.
* C19 Observer states do not depend on earlier queries: the time column and its scale are those of the first caller with the same TDB epochs. Partial: states, frame, origins, errors and the TDB epochs are history independent for every session (digest collisions excluded by hypothesis).
* C24 detect_collisions returns the same ordered table for every schedule: events are concatenated in completion order ('we sort later' never happens). Proved: the parallel table is a permutation of the serial one for a row-wise backend.
* C25 calculate_perturber_moids returns rows in input order for every schedule: for max_processes > 1 (completion order). Proved: perturber-major order serially, a permutation of it in parallel.
* C26 Orbit-determination batches are independent of the schedule: differential_correction returns completion order, and which of two equal initial orbits survives depends on timing. Proved: same rows up to order; initial_orbit_determination's orbit table is schedule independent when no two fits share epoch and state. Members tables are not modelled.
* C30 Propagators returning to the input origin keep one row per result: an id under two origins yields two rows per result row; result ids missing from the inputs are dropped; empty inputs return None; an origin outside OriginCodes raises KeyError. Proved: exactly one row each, in the right origin, when every id has one origin.
* C34 A validated trajectory covers each segment's own epoch: an epoch equal to the window end is accepted, but segment_for at that epoch returns None or the next segment. Proved for epochs before the end.
* C37 Reported observation counts match memberships after reassignment: num_obs is not updated when observations are reassigned; proved: it stays right exactly for orbits that lost nothing and is an upper bound otherwise
* C40 Removing the worst observation removes exactly one member: observations that are not members of the orbit are dropped too; proved: the returned id is a worst member, exactly the other members remain, and the claim holds when all observations are members
* C42 Normal equations use matching rows for derivatives, weights and residuals: weights and residuals are not masked, and residuals of the input orbit are reused in every iteration, so a perfect fit is missed; proved: rows match in the first iteration and (up to stale residuals) when the removed rows are the last ones
* C43 iod returns an empty result, not an exception, for short linkages: for every short linkage: calculate_max_outliers asserts; proved: linkages that pass the assertion but have fewer than three observations give an empty result
* C47 evaluate_orbits compares each observation with its own prediction: for observations not sorted by time and observatory code; proved in full (members, counts, arc, chi2, reduced chi2, outlier flags) for sorted observations in any orbit order
* C49 Residuals.calculate rejects coordinates with different origins: only rejected when all rows differ, and empty tables are rejected; proved: accepted tables agree in at least one row, and tables that differ in every row are rejected
* C51 Covariances survive the lower-triangle serialisation: entries just below the diagonal become zero; all other entries proved right
* C53 Collapsing variants uses exactly each orbit's own variants: epochs in the same millisecond are pooled; proved otherwise, including that create("sigma-point") followed by collapse returns every covariance
* C54 Collapsing ephemeris variants separates observatories: the link ignores the observatory; proved when each orbit and epoch is seen from one observatory
* C55 Random variant sampling honours the seed: 'auto' does not pass the seed on; proved for every other method
* C57 OEM export labels every state with its own centre: mixed origins are written with the first state's centre; proved when all origins agree
* C59 ADES text round-trips observations: a magnitude missing in one of two rows of a station comes back as NaN; a missing or small (1e-6) standard deviation makes the written file unreadable; a remark containing 'provID' loses its row, and one with '|' or a quote is altered. Proved for safe text, numbers given for all rows of a station or none, and standard deviations of at least 1e-5.
* C60 ADES header contexts round-trip: coinvestigators and collaborators are dropped, an all-empty software section becomes None, absent comments become an empty list, an empty fundingSource becomes None and trailing blanks are lost. Proved: with plain text, each observed station's context comes back under its own code with exactly these changes.
* C62 The MPC 80-column parser only raises its documented error: NaN, infinite or huge days and right ascensions over 360 degrees raise other errors and abort strict=False; proved for dates of at most nine digits and points per word and integer hours and minutes
* C63 Impact probabilities lie between zero and one: a variant with two events under a non-stopping condition counts twice, probability 2; proved with at most one event per variant and condition
* C64 Impacts found with default conditions are counted with default conditions: detect_collisions labels events "Earth", the counting default is "Default", nothing is counted; proved for calculate_impacts; the detection backend is an oracle
* C67 Parabolic mean anomaly conversion is consistent: for a mean anomaly M the solver returns the true anomaly of 2M (Curtis' equation uses half the documented mean anomaly), and calc_mean_anomaly uses arctan where tan is needed, so no M >= 5 comes back. Proved: the returned anomaly is in (-pi, pi) and solves Barker's equation for 2M. Exact real arithmetic.
* C68 Hyperbolic anomalies round-trip: an inbound anomaly whose mean anomaly is in (-2 pi, 0) is wrapped to a positive value and always comes back outbound. Proved for outbound anomalies: the iteration converges and the mean anomaly is recovered up to the square of the tolerance. Exact real arithmetic.
* C74 Re-registering a custom template takes effect: the table of shifts is cached per composition name and register_custom_template does not clear it, so convert_magnitude keeps using the replaced template while bandpass_delta_mag uses the new one. Proved part: a composition not converted or predicted with before follows the registrations in force.
* C75 The MOID search measures distance to points of the ellipse: the angle u is used both as the argument of the eccentric-anomaly and of the true-anomaly formula, so radius and direction belong to different points. C75_points_partial: the point is on the ellipse exactly when the orbit is circular or u is 0. Real arithmetic.
* C79 Geodetic latitude is converged: the latitude iteration restarts from its first guess, so the result describes the input exactly when the point is on the ellipsoid surface or the equator; on the polar axis there is no result. Exact real arithmetic.
* C80 Two-body propagation keeps the coordinate frame label truthful: the frame label of the output is the literal 'ecliptic', so states propagated from equatorial orbits are equatorial numbers labelled ecliptic. Proved part: the numbers are right in the frame of the input (propagation commutes with every rotation), and the label is right for ecliptic input.
* C82 add_seconds, add_millis and add_micros add exactly that many units or raise: add_seconds(18446744074) silently adds 0.29 s. Proved for counts within one day.
* C83 from_mjd returns normalised times: half a nanosecond below an integer day gives nanos = 86400e9; proved that this is the only way to leave the range.
* C84 UTC to TAI adds the tabulated TAI-UTC offset: afternoon of a leap-second day is one second off; proved on all other instants.
* C88 Numerical failures are reported for the row that failed: for generate_ephemeris_2body: a flattened index is used as row index, so a wrong row is named or an IndexError escapes. Proved for propagate_2body; for ephemerides an exception is raised exactly when a row is non-finite.
* C89 detect_collisions uses the settings of the propagator it is called on: Ray workers run propagator_class() with default settings.
* C91 Propagators handle orbit tables with repeated ids and empty tables: with a repeated orbit_id the row order depends on task completion order and the default ephemeris combines states with observers of other epochs; an empty table raises AttributeError serially and ValueError in parallel.
* C92 group_by_exposure loses no detection: a detection with a null exposure id is in no group (an empty group is yielded instead). Proved when no exposure id is null.
* C93 link_to_observers warns when the precision merges observers and links epochs within the precision: the warning is missed when an unmatched ephemeris row makes the counts agree, and epochs 1 ns apart across a truncation boundary are not linked at any precision above ns. Proved: no warning and every ephemeris row linked implies no two observers were merged.
* C95 Near-Earth orbits are classified as near-Earth: Apollos with a > 3.2 au are labelled OMB/TJN/CEN/TNO because later entries overwrite earlier ones. Proved for a <= 3.2.
* C96 The outlier budget is the largest number within the percentage: both ways by binary64 rounding: 50 observations at 58% give 28, 5 observations at 59.99999999999999% give 3; proved: at most 1.5 below the exact percentage
* C97 Accepted orbits have a chi2 within threshold times degrees of freedom: for min_obs <= 2: negative degrees of freedom make every chi2 acceptable; proved for min_obs >= 4
* C98 od always terminates: for negative max_iter when every correction is discarded; proved for non-negative max_iter
* C99 iod reports num_obs and arc_length of the accepted orbit: three ways; proved: num_obs, arc_length and reduced chi2 are right when each triple gives at most one candidate orbit
* C100 least_squares returns None exactly when there was no improvement: the unimproved input orbit is returned when the iteration limit is reached; proved: None is returned only after one worse step with an already tiny perturbation
* C101 Longitude residuals point from the prediction to the observation: across 0/360 the residual has the sign of the raw difference, so 359 observed and 1 predicted give +2; proved when the raw difference is at most 180
* C102 Rows without covariance do not affect other rows' residuals: a row without covariance in the same batch as a row with one makes the call fail; proved when batches are uniform in this respect
* C103 A single Monte Carlo sample can be drawn: for n = 1 (IndexError); proved for n >= 2
* C104 Collapsing an orbit without variants leaves its covariance missing: the covariance is all zeros; proved: positive variance when a linked variant differs and weights are positive
* C105 Collapsed ephemerides treat longitude as an angle: near 0/360; proved when linked variants are within 180 degrees numerically
* C106 Collapsing by object id reproduces the sigma-point covariance: the covariance is divided by 2 - alpha^2 + beta; proved exact when beta = alpha^2 - 1 (the defaults) and the mean always; longitude column excluded
* C107 Covariances built from sigmas are diagonal and symmetric: a missing sigma fills its column with NaN but not its row; proved for columns with a known sigma
* C110 Impact probabilities can be computed for every input: no variants gives None, mixed scales fail in concatenation; proved otherwise
* C111 OEM files round-trip orbits: states at one epoch all get the last covariance; proved for one origin and distinct epochs; rotation, unit conversion and the text file are oracles
* C112 An OEM file describes one orbit: orbits of one object are interleaved; proved: several or missing object ids are rejected
* C113 SPK polynomials are evaluated where they were fitted: for every span that is not a multiple of the window; proved for windows of full length
* C114 SPK files cover the requested interval: the segment stops at the last whole step, and intervals shorter than a step raise IndexError; proved to reach within one step of the end, and exactly when the step divides the interval
* C116 Magnitudes are finite or missing: nan, inf and 1e999 are accepted; proved for digits and a point
* C118 An observation always carries an identifier in an ADES file: an observation without any identifier is written when another row of its station has one. Proved: writing succeeds exactly when every station has a context and at least one identified row, and otherwise raises ValueError.
* C122 Geodetic velocities are in the documented columns: vup holds degrees(east velocity), veast holds degrees(north velocity), vnorth holds the up velocity.
* C123 Geodetic conversion accepts covariances: every table with a covariance raises TypeError. Proved: without covariances, rows are converted in order exactly when the frame and origins are right.
* C124 Longitudes are below 360 in floating point: for a tiny negative angle the longitude is 360 exactly. Proved: 0 <= longitude <= 360 (binary64 rounding modelled with Flocq).
* C127 Degenerate orbits get the documented elements: circular orbits get NaN anomalies, equatorial orbits a NaN argument of periapsis, retrograde equatorial orbits a NaN node (the code compares the inclination with 2 pi instead of pi). Proved: away from these cases every angle is a number in [0, 360).
* C128 Cometary elements describe the comet at the epoch: with the periapsis in the future a hyperbolic comet comes out receding; an approaching one gets a periapsis time in the past; a parabolic one is placed at twice the time since periapsis. Proved for hyperbolic comets after periapsis.
* C132 Two-body propagation returns the requested state or fails: from r = (-e, -sqrt(1-e^2), 0), v = (1, 0, 0), mu = 1, e = 3pi/(3pi+2), elapsed time pi/2, the iteration alternates between pi/2 and 2pi; the exhausted iteration is not reported and the returned position is more than 10 semi-major axes off. What holds is C131.
* C133 Open orbits can be propagated to any epoch: the starting value grows linearly with the elapsed time, so cosh overflows binary64 once the mean anomaly passes about 710 and the correction is inf/inf; the caller raises DynamicsNumericalError. What holds is C131.
* C135 A light time that converged is reported: convergence in the last allowed iteration is reported as NaN (iterations >= max_lt_iter is tested after the loop). Proved part: with one iteration to spare a contracting iteration always reports a finite light time.
* C137 Missing components stay missing through a change of frame: np.ma.dot(strict=False) takes missing factors as 0, so a row without velocities is at rest after the rotation. Proved part: a row with nothing known stays unknown; translation keeps missing components missing.
* C138 Partly known covariances survive a change of frame: with variances only (elements off the diagonal missing) the rotated variances are kept and the correlations the rotation creates are masked away; going back loses more than a fifth of the variance of y. Proved part: exactly the missing elements stay missing; a covariance of the position alone comes back to 3e-25.
* C140 Generic band fallback covers u, g, r, i, z, y only: labels are lower-cased before the fallback, so Cousins/Johnson R, G or I of an observatory without entry silently become SDSS_r, SDSS_g, SDSS_i. Proved part: other labels are refused.
* C142 A grey template gives no colour: the numerator integrates over the part of the filter the template covers, the norm over the whole filter, so a template covering a fifth of the flux of a filter makes a grey object 5/2 log10 5 fainter in it, without an error. Proved part: shift 0 and mean reflectance c when the template covers both filters.
* C146 Both phase corrections agree: the numpy version floors the phase function at 1e-12 (30 magnitudes), the other does not. Proved part: they agree up to 30 magnitudes.
* C148 Predicted magnitudes do not depend on the frame: origin and frame labels are never looked at, so the same point in equatorial coordinates gets a fainter magnitude without an error (calculate_phase_angle refuses it). Proved part: the result is a function of the components alone.
* C151 Gauss f and g series are third-order accurate: g uses dt^2 instead of dt^3 in its second term, so its error is of second order. Proved part: f is accurate to fourth order and g to second order on circular orbits.
* C152 Reversing time reverses the preliminary velocity: the Gauss method breaks the symmetry for unequal spacing (see C151). Proved part: Gibbs, Herrick-Gibbs, and Gauss with equal spacing.
* C153 Preliminary orbits follow the gravitational parameter: the velocity methods use the Sun's mu whatever mu is given. Proved part: positions and epochs follow the unit.
* C155 Preliminary orbits are in front of all three observers: only the middle slant range is checked; an orbit whose first position is behind the observer is returned. Proved part: the middle position is in front.
* C156 Degenerate observations give an empty result: identical first and third directions raise ZeroDivisionError. Proved part: no exception for Gibbs and Herrick-Gibbs with ordered times, positive mu, independent lines of sight and a non-zero polynomial coefficient.
* C157 iod uses each observation's own observer: observer positions are sorted, observations are not, so unsorted rows are paired with other observers. Proved part: rows sorted by observer key (as iod_worker sorts them) are paired correctly.
* C158 Preliminary orbits keep the time scale: epochs are labelled utc whatever the scale of the observations. Proved part: right for utc observations.
* C159 Half-turn transfers conserve energy: the pole of the transfer plane becomes the zero vector, the tangential velocity is lost, both returned velocities are radial and the energies at the two ends differ by mu*(n2-n1)/(n1*n2). C159_half_turn proves this for every such pair.
* C165 The reported MOID of two orbits that meet is zero: the second orbit's orientation (inclination, node, argument of perihelion) is never used, so for two crossing coplanar ellipses with opposite perihelia every value the search can report is at least 1/4. C165_circle_partial: for a circular second orbit in the reference plane the value is the distance to a point of the orbit, and minimal up to the minimiser's tolerance. scipy minimize_scalar is an oracle; the propagated primary positions are taken to be on its orbit.
* C169 Session labels cannot make a solvable table fail in the automatic mode: sixteen observations, one per session, give a period when sessions are ignored and a ValueError with the default options, for every least squares routine. Proved: the session model is always solved first, so whenever it has at least as many columns as observations for every order the call gives no period; and a sufficient condition under which ignoring sessions always gives one.
* C172 Equal uncertainties give the same scatter as no uncertainties: the weighted scatter is normalised with the number of observations before clipping and the weights after it, so it is too large by sqrt(n_all / n_kept); the factor is proved for all inputs, with equality only if nothing is clipped
* C175 A correct period is not flagged as a one-day alias: with the default tolerance a correct period of 0.4 h is flagged; proved: flagged exactly when p / 24 <= tolerance, hence never above 0.48 h by default
* C185 Transfer grid rows are ordered by arrival and departure epoch: for more than one process: results are concatenated as tasks finish and never sorted (101 pairs, two chunks finishing in reverse). Proved for one process; departures within one arrival need distinct arrival epochs
* C187 Transfers depart before they arrive even when the tables use different time scales: day numbers of the two tables are compared without regard to their scales, so a TAI departure 22 s after a TT arrival is kept. Proved for two TAI tables, where conversion to TT keeps order and flight time
* C188 Transfers are computed about the body the states refer to: states about any other body are accepted unchanged, solved with the gravity of the propagation origin and relabelled. Proved when the departures refer to the propagation origin
* C191 A grid with an unsolved transfer can be plotted: one unsolved transfer makes the default maximum NaN and the plot raises AssertionError. Proved for grids with all transfers solved and some non-zero C3 and arrival speed: then the plot succeeds and every transfer is within the drawn ranges
* C193 The optimal transfer is marked: the optimum is taken over all transfers in range and dropped if it is outside xlim/ylim, so a window can show transfers and no marker. Proved: a marker shown is minimal among all transfers in range and inside the window, and it is shown when all of them are inside
* C195 The saturated colour scale goes from light to dark: for the direction: after the first level the channels grow again (red, eight levels). Positions, opacity and channel ranges are proved for two or more levels; one level divides by zero
* C197 Ephemeris covariances are the orbit covariances carried through the reported coordinates: the derivatives are taken at the six numbers as given, without moving them to the barycentre, so a heliocentric orbit gets the covariance of a barycentric orbit with the same numbers. Proved for barycentric ecliptic orbits. Automatic differentiation is taken to find every derivative that exists.
* C199 Orbits that are not at the observer's epoch are refused: only lengths are compared; an observer at any other epoch is accepted and the row is labelled with the epoch of the orbit. Proved: tables of different length are refused.
* C202 The phase angle is the angle Sun-object-observer for one position of the Sun: the object is made heliocentric with the Sun at emission and the observer with the Sun at observation, so the direction to the observer is off by the motion of the Sun during the light time and the angle equals neither. Proved when the Sun is at the same place at both epochs.
* C203 Correcting an orbit never makes its fit worse: the residual function always labels the state SUN, ecliptic, TDB, while the result keeps the input's origin and frame, so an orbit with any other origin, frame or scale can go from a perfect fit to a bad one. Proved for heliocentric ecliptic TDB orbits; the reported chi2 is always that of the orbit returned.
* C204 A corrected orbit refers to the epoch of the orbit given: the number of days is kept but relabelled TDB, so the epoch moves by exactly the difference of the two scales. Proved for TDB.
* C206 A determined orbit gets a covariance from all components of its residuals: the solver sees one chi per observation instead of one value per component, so with fewer than six used observations there is never a covariance, even where three sightings measure the six numbers directly. Proved: what is returned inverts JtJ of the solver's Jacobian, and JtJ is at most the information in the components, so the covariance is never too small.
* C208 The observing night is the local noon-to-noon day of the observatory: the offset is looked up as if the reading were local time of the machine, so on a machine that is not in UTC rows around local noon within hours of a change to or from summer time are put in the wrong night; times in another scale are read as UTC; before MJD 0 the night is one too high. Proved for a machine in UTC, UTC times and MJD >= 0; rows are independent.
* C212 Variants of different orbits are not mixed: the rows are grouped without the orbit id and missing object ids count as equal, so the variants of all orbits without object id are averaged into one row named after the first; proved if rows with equal object ids have equal orbit ids
* C213 The statistics of a group do not depend on other groups or on slicing: when complete covariance weights sum to zero, the path for groups of one size uses equal weights and the path for several sizes uses the mean weights; proved otherwise, and for the chunk size without condition
* C214 Collapsed longitudes turn with the sky: where the weighted directions cancel: the mean is then 0 whatever the longitudes; proved otherwise (C214_turn_partial, C214_window)
* C215 The fast collapse of sigma points agrees with the general one: only ids are checked, so rows ordered by time are averaged over different times and labelled with the wrong ones; magnitudes are dropped. Proved for the documented layout but for the magnitudes; the size errors are characterised
* C216 Collapsed magnitudes are weighted means of those present: for negative weights: with the sigma points of alpha = 0.1, magnitudes between 20 and 20.1 give 30; the formula is proved in general, range and presence for weights that are not negative
* C217 Collapsed light times are weighted means of those given: groups of several sizes silently lose light times that all variants have, and a missing light time is replaced by the distance from the barycentre over the speed of light; proved for complete tables with groups of one size
* C218 Collapsing variant orbits gives one orbit for each object: the weights of the variants are ignored, so the default sigma points give 12/13 of their covariance; the rest is proved (population statistics)
* C223 Elements and epoch of an SBDB orbit belong to one solution: if the covariance block has elements but no epoch, they are returned with the epoch of the other solution; proved in all other cases
* C224 H and its uncertainty come from the same SBDB entry: twice: a magnitude H = 0.0 is falsy and is lost (or replaced by H_mag), and H without a sigma takes the sigma of H_mag; proved for a non-zero value and a non-zero sigma, and for G
* C225 Rows of an SBDB query belong to the ids asked for: only in that an object without a name is called "None"
* C226 An unknown uncertainty in an SBDB orbit affects only its own variance: the covariances of an element of unknown uncertainty with the later ones are unknown too, with the earlier ones zero; proved: the exact entry at every place, diagonal if all are known
* C228 A malformed Scout answer is reported as malformed: in four cases: a body that is no JSON is retried and reported as unavailable, a row with too many cells is cut, a cell that is no number raises the error of Arrow, a numeric version raises TypeError; proved for missing or wrong orbits, data and rows
* C229 Scout samples carry the values and the time scale of the service: every row is labelled TAI, about 32 s from TDB; proved: rows, values and order
* C230 Scout samples of different objects have different ids: the ids are the numbers of the samples, which start again for each object; proved: object and orbit id together are unique if the objects and the numbers in one answer are
* C233 The origin of a Horizons orbit is the location asked for: for location @ssb (named in the documentation) the barycentric states are labelled SUN; proved: every row is labelled SUN, ecliptic, TDB, which is right for the default location
* C234 A Horizons ephemeris has every object for every observer, in the frame of right ascension: right ascension and declination are labelled ecliptic; everything else is proved
* C236 The exposures of a catalogue are those its sources name: the details of the first source win silently (exposures of two observatories with the same id become one), and one source without exposure id, start, duration or filter, or with an exposure of more than an hour, makes the whole call fail though the catalogue accepts it; proved: uniqueness, order, coverage, details of the first source, and exactly when it succeeds
* C240 Every id queried from the NEOCC has a row or there is an error: an object whose file has no MJD record is left out without an error, and an orbit_type that does not exist gives an empty table. Proved: where every file has an epoch there are as many rows as ids, or an error.
* C241 A NEOCC orbit without covariance can be queried: KeyError. Proved for all queries: one such orbit among the ids and no row at all is returned.
* C242 An OpenSpace asset is written as a Lua table that says the asset: a text with a double quote is written without an escape and the file cannot be read; a list of two tags is read as one text; an empty list is read as a list of one empty text. Proved for texts without quote, backslash or line feed and lists of one member.
* C244 A trail file declares, adds and removes every node once: for the identifiers: "2020 AB" and "2020_AB" have the same one, and so have the head of "X" and the trail of "X_Head". Proved in full for the declarations; identifiers are distinct if the object ids are distinct with blanks replaced and none is the id of another followed by _Head.
* C245 An option given to an OpenSpace asset is written in it: for trails: dim_in_atmosphere, enabled, opacity, render_bin_mode, tag and gui_name have no effect on the file. Proved for create_renderable_orbital_kepler.
* C246 OpenSpace options have the documented values: the documented modes Transparent and Both raise ValueError; an unknown translation type raises UnboundLocalError, after the file has been opened. Proved: which values are accepted, and the ValueError of an incomplete Spice translation.
* C248 Epochs in the file of elements are those of the orbits: within half a millisecond before midnight the date is that of the next day and the epoch is written one day late; before MJD 0 the decimals are those of the absolute value. Proved for all other epochs.
* C252 Both backends return the same scores and coefficients: for ten observations of constant magnitude the numpy score is 0 and the JAX score is positive; the coefficients differ whenever the right-hand side of the normal equations is not zero. Proved: the ridge costs at most 1e-15 times the squared norm of the least-squares coefficients in the sum of squares, and never enlarges the coefficients. Missing: a bound for the clipped fits, where the two may keep different rows.
* C255 Every origin code has a gravitational parameter: EARTH_MOON_BARYCENTER, MARS, JUPITER, SATURN, URANUS and NEPTUNE raise ValueError. Proved: exactly these six do; every other member has a positive parameter not above that of the barycenter
* C259 The derived columns of a cometary table are those of the same orbit in Keplerian form: for e = 1 the column p is NaN although the converted state has p = 2 q. Proved for every e other than 1; at e = 1 the columns a, Q and P are infinite and n is 0
* C262 Frozen variants stay on the surface of the body they hit: for the Earth the distance is 0.999 times the equatorial radius. Proved: the distance is constant, 0.999 x 6378.1363 km for the Earth and 1738.1 km for the Moon, in all three frames. Exact real arithmetic; the ephemeris and the Earth-fixed rotation are parameters assumed rigid and consistent between frames
* C263 Every propagated row appears in exactly one group: a variant with impacts on the Moon and on the Earth is in both groups, and in the group of the Earth it still flies after it hit the Moon. Proved when the impacts of each variant are on one body
* C264 A variant without impact is never shown as impacting: only the variant identifier is compared, so the variant 0 of one orbit is frozen at the impact of the variant 0 of another. Proved when the variant identifiers are used by one orbit only and the impacts belong to the given variants
* C265 The epochs of the visualisation cover the impacts with the asked margin: for the end: rounding down to the step can leave the last epoch before last impact + time_range, and with time_range = 0 before the impact itself. Proved: the epochs are consecutive multiples of the step, the first is at most one step before first impact - time_range and never after it, the last is within one step of last impact + time_range, and with time_range >= time_step every impact lies strictly between two epochs. Exact arithmetic, also for numpy.arange
* C268 Normalising a filter curve keeps its shape: throughputs above 1 are cut before the scaling, so a curve in percent becomes flat. Proved for curves between 0 and 1, where the factor is at least 1. exact real arithmetic
* C269 A normalised filter curve does not depend on the order of the samples: of several samples at one wavelength the first one after sorting is kept. Proved for distinct wavelengths, where the sorting algorithm does not matter either. exact real arithmetic
* C271 A vendored integral is what the template gives when registered as a custom one: when no solar sample lies in the overlap the table has 0 and the custom template NaN. Proved when two solar samples lie where both curves are defined. exact real arithmetic
* C275 The newer SBDB query can replace the older one: the older query has no physical parameters, and fails with KeyError on elements without uncertainties where the newer one succeeds. Proved: whenever the older query succeeds the newer one does, with the same ids, epochs, elements, covariances, origin and frame. The parsing by astroquery is the relation belongs; exact arithmetic
* C277 The perceptual colour scale gets darker and more opaque: the first level of purple is darker than the second. Proved: number, positions, ranges and opacity of the levels, the colour of each level up to rounding, and that the channels do not grow from the second level on when the lightness bounds are in order. One level gives ZeroDivisionError. Exact arithmetic
* C280 An absolute magnitude does not make an ephemeris fail: with H and G an observer given twice, or one row without aberrated coordinates, is refused. Proved: the call succeeds when parameters agree, no two observers have the same code and time, and every row has its observer in a sensible geometry; the conversion to heliocentric coordinates, the rescaling of times and the photometric formulas are parameters that work row by row; H and G exact
* C282 Both ways to align rows with observers agree: for a row after all observers one fails with ValueError and the other with IndexError. Proved: they succeed for the same tables, with the same indices
* C283 Magnitudes and phase angles do not depend on the chunks of orbits: a chunk whose rows all have no aberrated coordinates is returned unchanged, but the whole table is refused. Proved: whenever the whole table succeeds all chunks do, with the same rows, if there were no magnitudes before; the conversion to heliocentric coordinates, the rescaling of times and the photometric formulas are parameters that work row by row; H and G exact
* C285 After setup_SPICE() the default kernels are loaded: not after one was unregistered, not after a first set-up with other kernels, and not in a process that inherits the mark of an earlier process with the same number. Proved: executions without these three, also in forked and spawned processes; which files SPICE can load is a parameter, and kernels are only loaded and unloaded through the library
* C288 Tables of perturber states are labelled with the requested frame: for no times the table has the frame "unspecified". Proved for at least one time
* C290 Ray runs with the requested number of processors and memory: an existing cluster or an initialised Ray is used with whatever it has. Proved: without a cluster a new one is started with exactly these
* C295 A repaired covariance is positive semidefinite: an eigenvalue of exactly minus the tolerance is neither refused nor flipped. Proved for all other matrices; real numbers, the eigenvalue decomposition is a parameter that is right
* C299 Sorting linkage members keeps each member once: a member is repeated if two observations share its id, as the join returns one row for each. Proved, with the existence of a result, for observations with unique ids; the rows of a join and equal rows of a sort may come in any order
