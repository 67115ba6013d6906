# Formal model of solarspatialtools in Rocq (Coq 8.16.1)

This document says what is modelled, how each property in `properties.jsonl` is stated and proved,
what is trusted, and what is left out. Sources: `/repo/src/solarspatialtools` at the pinned commit.

## 1. Approach

* Every modelled Python function becomes one (or a few) total Gallina functions in a file
  `theories/M_<module>.v`, mirrored branch by branch. Each definition has a comment citing the file and
  lines it models, and naming its simplifications. Model files contain no proofs.
* Python exceptions are values: `result A := Ok a | Err e` (`Prelude.v`).
* `Spec_<module>.v` holds small independent vocabulary (total-distance, permutation, "lies on the line",
  "is a rank", ...), written without the model's helpers.
* `P_<module>.v` holds lemmas and proofs. `T_<module>.v` holds only the property theorems (one `exact` each),
  the non-vacuity `Example`s beside them, and `Print Assumptions`.
* Documented behaviour that is false of the code is stated as a `..._refuted` theorem with a witness, next to
  the strongest true statement.

## 2. Numbers

* Finite floats are modelled by Coq's real numbers `R` (exact arithmetic, no rounding). Consequence: laws such as
  "the round trip returns the same point" are about exact arithmetic.
* Where NaN/inf decide control flow (QC flags, clear-sky index, intersection of parallel lines, NaN skipping), values
  are extended floats `fl := Fin r | Pinf | Ninf | Nan` with IEEE comparison and arithmetic rules (no signed zero,
  no rounding, no overflow), or `option R` where only missing/non-missing matters.
* Where rounding itself matters (UTM zone edges, `theta % (2 pi)`, lengths and distances, and others), a second model in Flocq binary64 rounding or in the
  stdlib's executable `SpecFloat` is used and the float theorem is stated separately.

## 3. External code

Library calls that are not part of the repository are Section variables, so every theorem is universally
quantified over them; what is assumed about each is an explicit hypothesis of the theorem, and beside it a concrete
instance satisfying the hypothesis is given:
`pyproj.Proj` (forward/inverse pair), `scipy.optimize.linear_sum_assignment` (returns an optimal assignment),
`minimize_scalar`, `leastsq`, `differential_evolution` (return some point / a minimiser), the random generators (any values in their
range), `pywt`, `scipy.signal.welch/csd/coherence` (from segment spectra), the file system and the network.

numpy/pandas primitives that the code relies on for its meaning (`interp`, `unwrap`, `percentile`, `rank`, `diff`, `cumsum`, `unique`,
`reshape`, slicing with negative bounds, boolean masks, alignment by label, `fft`) are given explicit Gallina definitions
following their documentation. They are part of the trusted modelling step.

## 4. Trusted base

* Coq 8.16.1's kernel (`coqc`; `coqchk` is run at the end as a second check) and the standard library.
* Axioms: only the standard library's, as printed by `Print Assumptions` at the end of each `T_*.v`. Theorems over `R` use
  `ClassicalDedekindReals.sig_forall_dec`, `ClassicalDedekindReals.sig_not_dec`,
  `FunctionalExtensionality.functional_extensionality_dep`, and (through Coquelicot/`ClassicalEpsilon`-style
  lemmas or `Classical_Prop`) possibly `Classical_Prop.classic`. Theorems over lists, strings, `Z`, `Q`, `nat` are closed under the global context.
  The table in section 7 is the list actually printed.
* No axioms of our own, no `Admitted`, no plugin, no kernel switch.
* That the Gallina definitions say what the Python says: this is by inspection, helped by the citations, and by seeding bugs
  into the model (`seeded/LOG.jsonl`) and checking that theorems fail.
  `T_repo_tests.v` also replays the project's own unit tests on the model: the expected values in `/repo/tests` for zones,
  polar and vector geometry, space-time distances, error metrics, variability metrics, rolling quantile, clear-sky index, cascaded
  remappings, copula helpers, cloud-field weights, masks and edges come out of the model as well (long constant records are cut short).

## 5. Plan per property

| id | modelled | how proved |
|---|---|---|
| C01 | `_calc_zone` over R with truncation toward zero; second version with binary64 rounding of each operation (Flocq `round`) | case analysis on integer part; monotonicity of rounding; explicit float just below an edge for the refutation |
| C02 | `latlon2utm`/`utm2latlon` over a projection oracle, scalar and list paths, pandas index | induction on lists |
| C03 | same, oracle with inverse law | rewriting, list induction; witness oracle for the hemisphere default |
| C04 | `latlon2lcs` | algebra; witness for the zone rule |
| C05 | `lcs2latlon` | algebra + oracle law; witness for explicit zone |
| C06 | `lla2flat` matlab branch with WGS84 constants, radii as in the code | monotonicity lemmas, `nra`/`lra`, sqrt facts |
| C07 | `rect2pol`, `pol2rect`, own `atan2` by quadrant from stdlib `atan` | case split per quadrant |
| C08 | `rotate_vector` as 2x2 product on columns | trigonometric identities |
| C09 | `dot`, `unit`, `magnitude`, `project_vectors` | Cauchy-Schwarz in the plane |
| C10 | `compute_vectors` | list induction |
| C11 | `compute_intersection` over `fl` | field; degenerate case by computation on `fl` |
| C12, C13 | `spacetime_distances` as flattened site-major matrix | index arithmetic (`div`/`mod`), planar metric |
| C14 | `_get_pairs` on lists | induction; membership iff; NoDup; count |
| C15, C16 | `_validate_method_options` on association dictionaries with the mutated dictionary returned; call histories as lists of methods | dictionary lemmas; induction on history |
| C17 | `_pairwise_qc` as ordered overwrites over `fl` | exhaustive case analysis |
| C18, C19 | cascade and early exit of `compute_cmv` | counting lemmas |
| C20 | normalisation of `(velocity, theta)` with Python float `%`; binary64 counterexample | floor facts, trigonometric periodicity |
| C21, C22 | the estimator parts of `compute_cmv` with optimiser oracles | variance zero iff all equal; normal equations/sum of squares zero |
| C23 | `optimum_subset` cost matrix and assignment | assignment oracle spec, `abs`/`unit` algebra |
| C24-C26 | `remap_positions`, `cascade_remap` on keyed tables | list/dictionary induction, permutations |
| C27-C29 | `assign_positions` with linear assignment oracle | permutation and sum-reordering lemmas; concrete brute-force solver as instance |
| C30, C31 | `compute_predicted_position` after delays are known | algebra; sorting lemmas |
| C32-C34 | error metrics on lists and on labelled series | Cauchy-Schwarz, induction |
| C35-C38 | `variability_score`, `variability_index`, `darr`, block means, pandas average rank | counting lemmas, total variation |
| C39 | `calc_quantile` on a day/time-of-day grid | window membership lemmas |
| C40 | `clearsky_index` over `fl` | case analysis |
| C41-C43 | `correlation` with explicit lag sums | sum manipulation, Cauchy-Schwarz |
| C44, C45 | `xcorr_delay`, `compute_delays` loop | argmax lemmas, strict Cauchy-Schwarz |
| C46 | DFT over Coquelicot C, zero padding, circular correlation | orthogonality of roots of unity |
| C47, C48 | argument passing and naming of `averaged_psd`, `averaged_tf` | rewriting, witnesses |
| C49 | `averaged_tf`/coherence from segment spectra | complex Cauchy-Schwarz |
| C50 | `interp_tf`, `unwrap`, linear interpolation | interpolation lemmas |
| C51-C53 | `tf_delay`, extras of `compute_delays_tf` | linear algebra with least-squares oracle, interpolation |
| C54 | `apply_delay` | complex exponential algebra |
| C55 | `get_1d_plant` | list/mask lemmas |
| C56, C57 | `plant1d_to_camfilter` | DFT triangle inequality; witness xmax=3 |
| C58 | `apply_filter` | DFT inversion |
| C59 | `get_marcosfilter` | algebra |
| C60 | `cleanfreq` in state-passing style | list update lemmas |
| C61-C64 | `_sigmoid`, `_process_params`, `_exponential_decay_parameter`, `_gmdistribution`, `_inverse_sample` | algebra, interpolation lemmas |
| C65-C68 | `_space_time_copula`, `downscale`, `downscale_multihour` with sampler oracle | reuse C12/C13, index arithmetic, case analysis on argument forms |
| C69-C71 | `_random_at_scale`, weights, `_stack_random_field` with RNG oracle | convexity of bilinear interpolation |
| C72-C75 | `_calc_clear_mask`, `_find_edges`, `_scale_field_*` | percentile lemmas, sums over masks |
| C76 | `get_positional_ts` slices | Python-slice lemmas |
| C77 | `get_timeseries_stats` with wavelet oracle | sums, percentiles |
| C78, C79 | `flag_qc`, `null_qc`, `interp_nan` on lists of optional values | list lemmas; computed witnesses |
| C80-C83 | file-system state machines for `getfiles`, `wget_fromurl`, `dataset_to_h5`, `process_files` with crash points | induction on traces |
| C84 | `cloudfield_timeseries` with the random draws as arguments | composition of C69-C75 |
| C85 | `_main` of hope_campaign: `main_makeh5`, `main_qc` with the user's answers and crash points as arguments | case analysis, C78, C79, C82 |
| C86 | `resample("10ms").ffill()` as used by `process_files` | integer grid arithmetic |
| C87 | `compute_delays` on tables of different shapes | unfolding, argmax of the true lag curve |
| C88 | `averaged_psd` | one-sided folding and Parseval for the discrete Fourier transform |
| C89 | both motion fits on arbitrary data, explicit closed forms of the line fit | least-squares algebra, `fl` case analysis |
| C90 | `get_camfilter` as composition of projection, positions and `plant1d_to_camfilter` | C55-C57, projection algebra |
| C91 | field `compute_delays` column by column | C51-C53 per column |
| C92 | `ensurepath` on a tree of directories and files, crash points | induction on the path |
| C93 | bins and counts of `scatter_hist` | ceiling arithmetic, counting lemmas |
| C94 | `compute_cmv` with `compute_delays`/`compute_delays_tf` plugged in (`M_link.v`) | C17, C21, C22, C41-C45, C51-C53 composed; counterexample for the mean |
| C95 | whole `compute_cmv` | case analysis along the order of the checks |
| C96 | `parse_file` on the variables of a netCDF file (`parse_nc`) | case analysis, positions in `combine` |
| C97 | whole `_main`: five phases over a state of directories, files and h5 files, each with its own crash budget; server, user and netCDF decoder are arguments | phases composed; invariants kept at every crash point; C81, C82, C85, C92 |
| C98 | `averaged_tf`, `tf_delay`, `compute_delays_tf` as for C49-C54; signals are functions on all integers with a period | rotation invariance of sums over a period; every segment spectrum is the same up to a phase; then C51, C52, C91 |
| C99 | `compute_predicted_position` joined to the modelled `compute_delays_tf` and `compute_cmv` (labels are strings, one time step for both tables; a pair with a gap in a row its segments read is a pair of zero records) | paired and one-to-many calls agree; then C30, C31, C91, C94 |
| C100 | scipy `detrend` ('linear', 'constant') in closed form (`M_window.v`), inside `averaged_psd`/`averaged_tf` | uniqueness of the least-squares residual; equal segments give equal results; counterexample for 'constant' |
| C101 | scipy `get_window` for the four usual names (`M_window.v`) | trigonometric bounds; C47, C49, C50 |
| C102 | `averaged_psd` with these windows on a sinusoid | exponentials, geometric sums of roots of unity |
| C103 | `averaged_tf` with its own row count for each table (`M_tf_rows.v`) | segments as for C49; equals the model of C49 for equal counts; counterexamples |
| C104 | `linregress` and the rest of jamaly's `method_data` (`M_cmv.v`) | the misfit as a quadratic in the line; uniqueness of the best line; joined to `compute_cmv` and to C21 |
| C105 | `WindspeedData.to_dict` (`M_cmv_dict.v`) on the results of the modelled `compute_cmv` | injectivity entry by entry; list lengths through the run |
| C106 | `latlon2lcs` with origins of every shape (`M_lcs.v`): scalar, array, Series; broadcasting and label alignment of the in-place subtraction | case analysis over the nine shape pairs against a position/label matching relation; outcome theorem for all inputs |
| C107 | `compute_predicted_position` joined to its point selection (`M_field_pos.v`), true and listed positions kept apart | the separations as affine functions of the displacement means; a permutation has mean displacement zero |
| C108 | the loop of `demos/field_demo_full_process.py` (`M_field_loop.v`, names read in `M_field_names.v`) over the modelled `compute_predicted_position`, `assign_positions`, `cascade_remap`, `remap_positions` | invariant of the loop (map one-to-one, layout = plan rearranged); trace characterisation; uniqueness of the cheapest assignment; C107 for the exact case; counterexample for names |
| C109 | the selection steps of `demos/automate_cmv_demo.py` and the pair choice of `demos/field_demo_full_process.py` (`M_auto_cmv.v`) over the modelled `compute_cmv`, `optimum_subset` | sorted lists, monadic maps, C23 and C105; arccos monotone |
| C110 | `flag_qc` on labelled tables that need not line up (`M_clean.flag_qc_labelled`) | cell-wise characterisation by label, invariance under the order of the flag table, agreement with the positional model of C78, no effect of foreign labels |
| C111 | `interp_nan` with the time stamps as an argument (`M_clean.interp_nan_t`) | success condition and full value theorem over arbitrary stamps with window counts (`Spec_clean.mostly_open`), reduction to C79 at 1 Hz, safe case, two refutations (a jump erases an observation; filling ignores time) |
| C112 | the averaging width in binary64 (`M_stats_float.width_b64`, Flocq rounding) | exactness for whole seconds, error bound from the relative rounding error of two operations, refutation at 100 x 0.29 s by evaluating the roundings |
| C113 | the pool of worker processes as a transition system: queue, busy workers, delivered results, main process (`M_field_pool`) | invariant over all event lists (each task waits, is worked on, is delivered or lost; the main process has folded the first i results), a rank that every move lowers, pigeonhole for progress; simulation of the serial rounds |
| C114 | the sampling in `demos/synthetic_clouds_demo.py` (`M_cloud_demo`) over the modelled `rotate_vector`, with the field generator as an argument and `cloudfield_timeseries` as its instance | positions reduced to along/across coordinates; floor and ceiling arithmetic; slices; monadic map over the sensors |
| C115 | the lag map of `demos/cmv_demo.py` (`M_cmv_demo`) over the modelled `compute_cmv` | C14 (each pair once, in one order) makes the writes disjoint; dictionary lemmas |
| C116 | the three rounds of `demos/field_reassignment_demo.py` (`M_field_reassign`, names read in `M_field_names`) over the modelled `compute_predicted_position`, `assign_positions`, `cascade_remap`, `remap_positions` | optimality of one group (C27, C28), composition (C25), uniqueness of the nearest assignment, C107 for the exact case; witness for the wrong answer |
| C117 | `downscale` (`M_copula`) with a sampler oracle that applies a factor A of the covariance (A A^T = cov) to a vector, as numpy's svd method does | rows of A with scalar products 1 coincide; C65 (correlation 1 exactly along the motion) and C67 (routing); geometry of the moving frame for the peak |
| C118 | the filter steps of `demos/signalproc_demo.py`: `get_camfilter`, `apply_filter`, `get_marcosfilter` (`M_signal_plant`) | the comb of grid points (C55, C57), frequencies of the signal among those of the filter, spectral product of a sum of phasors = sum of delayed records; mean and energy from C58; witness with sites abreast |
| C119 | `variability_score`, `variability_index`, `darr` with a real tau (`M_stats_tau`) | the truncated width from C112's `int`, bins as in C36; bins of one sample give the series back; periods of `diff` as a parameter (refused or truncated) |
| C120 | the loop of `demos/field_demo.py` and the cells of `demos/field_demo_detailed.ipynb` (`M_field_demo`) | invariant over the rows filled so far; C107 with the top-ranked record excluded; equality of both computations when the test for finite coherence removes nothing, counterexample otherwise |
| C121 | the cells of `demos/plant_digitization_example.ipynb` after reading the file (`M_digitize`); the projection and the fallback for outlines without area are arbitrary functions | sums over the sides of a ring: differences between consecutive corners cancel around the ring, which gives independence of the base point and the behaviour under affine maps; positivity of the triangles gives the convex hull |
| C122 | the truncated products and quotients of `averaged_psd`/`averaged_tf`, `get_positional_ts`, `_stack_random_field`, `scatter_hist` and the grid of `downscale`, every operation rounded to binary64 (`M_trunc_float`, Flocq); no overflow | the largest binary64 number below one and the relative error bound keep a product below the next whole number; powers of two are exact; the grid by an absolute error bound and an explicit value of 0.01 |
| C123 | `apply_filter` and `interp_tf` with NaN in the record and the filter, with tables, and `get_1d_plant` with integer or float numbers (`M_filter_nan`); one NaN in an FFT input makes all bins NaN | agreement with the NaN-free model (C58); the unwrapped phase is NaN from the first NaN on, so a gap is harmless exactly when two rows below it bracket the frequency; composition with C56 for sites outside the domain |
| C124 | `ensurepath` as a sequence of system calls (`exists`, `mkdir`), with an arbitrary list of directories created by others before each call (`M_paths_race`); os.makedirs as in CPython 3.8+; the others delete nothing | growth of the tree as a reflexive-transitive closure of successful mkdir steps; induction on the path for makedirs; the quiet environment gives back the model of C92 |
| C125 | `calc_quantile` on an index with a time zone (`M_quantile_tz`): the clock of the zone and its inverse are arguments, as is whether pandas refuses plain dates as bounds (behaviour of pandas 2, modelled from its source) or reads them in the zone | windows by instants equal windows by clock readings when midnights occur once; results then agree with C39; failures from repeated readings through the pivot and from readings that cannot be localised; a zone with one switch is shown to obey the rules |
| C126 | the axis, windows, squares and triangles of `get_1d_plant` with every operation rounded to binary64 (`M_plant_float`, Flocq), for a whole `xmax`; the gaussian shape is left out because of `exp` | multiples of 2^-k are closed under the operations used; a quotient of whole numbers below 2^53 is not rounded across a whole number; half-ulp bounds for the drift; a computed witness |
| C127 | averaging of `variability_score`, `variability_index`, `darr` on an index with a time zone (`M_resample_tz`): the clock of the zone and its inverse are arguments; origin of the bins modelled from the pandas source (`Timestamp.normalize` of the first sample, bins in UTC) | the bins only depend on their origin modulo the width, and move with the timestamps; hence agreement with clock readings and independence of the zone |
| C128 | the error metrics on Series with repeated labels (`M_stats_dup`): pandas alignment as the product of the rows under each label | the aligned differences are a permutation of the differences of the specification's pairs; the metrics are invariant under permutation |
| C129 | numpy's error handling as session state (`M_session`): `np.seterr` of `compute_cmv`, `np.errstate` of `averaged_tf`, and the divisions and logarithms of the pair speeds, the coherence and `_calc_vs_weights` as operations that look at it | induction over sessions (nested blocks by a structural induction); values agree with the models of C70 and the division of `fl` |
| C130 | the error metrics on arrays of machine integers (`M_stats_int`): wrap-around arithmetic modulo 2^bits in Z, means in R | congruence modulo 2^bits; sums by induction over the arrays |
| C131 | the in-place functions on a store of objects (`M_heap`): references, copies, assignments, loops and exceptions as a state monad | each call refines its value model and extends the store at the end; loops by induction as folds over the newest object; sessions by induction over the calls |
| C132 | ensurepath with others creating, deleting and replacing at will (`M_paths_any`): an arbitrary change of the tree before every system call | a relation that weaves the others' changes with this process's own directories; induction over the path |
| C133 | get_1d_plant on machine integers (`M_plant_int`): in-place subtraction with wrap-around, casting error for float references | congruence modulo 2^bits; reduction to the model on floats |
| C134 | magnitude, unit and spacetime_distances with every operation rounded to binary64 (Flocq); cos and sin of the direction are given doubles | relative-error lemmas composed through the square, the sum and the root; the layout lemma of C13 for the matrix; witnesses for the two refuted claims |
| C135 | compute_predicted_position with the layout as a table of named columns: `pos_utm['E']` by name, `.iloc[0]`, `.iloc[1]` and `.values` by place | refinement to the two-column model; unfolding for further, missing and swapped columns; a one-combiner witness |
| C136 | `x in iterator` as a function returning the answer and the rest of the iterator; `_get_pairs` as a loop threading it; the rest of compute_cmv from the list of pairs on | induction over the pairs; reduction to compute_cmv on a one-site layout, then C19 |
| C137 | project_vectors, compute_vectors and pol2rect with every operation rounded to binary64 (Flocq), on the unit vector of C134 | error bounds of the products and the sum composed; rounding commutes with the sign |
| C138 | `df[name]` on the tables of `averaged_tf` (M_tf_names): once, several times or not at all; names compared letter by letter. Splitting at the first or last underscore, then the pairwise description of `averaged_tf`. |
| C139 | `get_marcosfilter` followed by rounding both parts to binary32 (Flocq, M_marcos32). Monotony of rounding for ranges and order, Flocq's error lemma for the distance, an explicit rounding for the gain above 1. |

## 6. Modelled and not modelled

Every function of `src/solarspatialtools` has a model, except the following.

* Not modelled at all: `annotate_fig` and the drawing commands of `scatter_hist` (`vis_tools.py`; its bins and counts are
  modelled), `_parse_args` and the printed messages of `hope_campaign.py`, `WindspeedData.__repr__`, the
  slope, intercept and p-value that `scipy.stats.linregress` returns and the code drops (cmv.py:343), the `pcov` entry of gagne's `method_data`, progress bars,
  warnings, docstrings and `demos/` (except the reassignment loop and pair choice of `field_demo_full_process.py`, its multi-process version and the selection
  steps of `automate_cmv_demo.py`, modelled for C108, C113 and C109, the sampling of `synthetic_clouds_demo.py`, the lag map of `cmv_demo.py`
  and the rounds of `field_reassignment_demo.py`, modelled for C114, C115 and C116; the claim in the comments of `synthetic_copula_demo.py` is C117, the filter steps of `signalproc_demo.py` C118; the loop of `field_demo.py` and the notebook `field_demo_detailed.ipynb` are modelled for C120; `plant_digitization_example.ipynb` for C121).
* Replaced by a parameter (the theorem then holds for every behaviour of it): parsing of raw text, csv and HDF5
  (files are abstract contents), the network, random draws (`M_cloudfield`, `M_irradiance`), the wavelet transform, the
  Cholesky factorisation and normal CDF, window vectors and detrending inside Welch's method (the segmentation, averaging,
  scaling, one-sided folding, coherence and transfer function are explicit), all optimisers and least-squares solvers,
  the map projection.
* Not represented: rounding, overflow and signed zeros except where section 2 says so; time and memory use; dtype and
  memory layout; data-frame metadata other than labels.
* Named simplifications stand in the comment of the definition concerned (search for "Simplified" and "simplif" in
  `theories/M_*.v`).

## 7. What Print Assumptions lists

Every theorem, grouped by the axioms printed for it (all from the standard library; generated from the output of the build).

### Closed under the global context

86 theorems: C03_utm_inverse_rows, C105_dict_method, C105_to_dict_faithful, C105_to_dict_keys, C108_inverter_read, C108_same_width, C113_pool_bound, C113_pool_finishes, C113_pool_killed, C113_pool_sequential, C116_named_choice, C116_refs_chosen, C124_ensurepath_alone, C124_ensurepath_race, C124_ensurepath_race_blocked, C124_ensurepath_race_refuted, C125_switching_clock, C127_tz_grid, C129_wrapped_calls, C130_int_error_entry, C131_arguments_refuted, C131_assign_out_clean, C131_cleanfreq_in_place, C131_remap_positions_clean, C132_ensurepath_any_creating, C132_ensurepath_any_end, C132_ensurepath_any_made, C132_ensurepath_any_refuted, C133_int_plant_float_reference, C136_iterator_pairs, C136_iterator_prefix, C136_iterator_refuted, C136_iterator_sound, C14_pairs_count, C14_pairs_members, C14_pairs_ordered, C15_options_any_case, C24_remap_keeps_rows, C24_remap_keyerror, C24_remap_simultaneous, C25_cascade_composes, C25_cascade_keyerror, C25_cascade_result, C26_cascade_associative, C26_cascade_identity, C26_cascade_inverse, C34_series_pairing, C60_clean_again, C60_clean_effect, C79_gaps_cases, C80_files_ascending, C80_files_members, C80_files_once, C80_files_one_extension, C80_files_order_free, C80_files_unsorted, C81_wget_again, C81_wget_complete, C81_wget_crash, C81_wget_fails, C81_wget_never_overwrites, C81_wget_ok, C81_wget_resume, C81_wget_truncated_refuted, C82_h5_builds, C82_h5_crash, C82_h5_fresh, C82_h5_refuses, C82_h5_stops, C83_nrcan_errors, C83_nrcan_names, C83_nrcan_repeats, C83_nrcan_value, C85_main_h5, C85_main_h5_inconsistent, C86_resample_regular, C86_resample_value, C92_ensurepath_blocked, C92_ensurepath_creates, C92_ensurepath_file_refuted, C92_ensurepath_resume, C96_parse_fails, C96_parse_reads, C96_parse_succeeds, C97_file_names, C97_names_any_case.

### `ClassicalDedekindReals.sig_forall_dec`

5 theorems: C10_vectors_frame, C10_vectors_from_reference, C10_vectors_short_reference, C115_lag_map_refused, C86_resample_lookahead_refuted.

### `ClassicalDedekindReals.sig_forall_dec`, `FunctionalExtensionality.functional_extensionality_dep`

168 theorems: C01_zone_is_band, C01_zone_monotone, C01_zone_no_lower_clamp, C01_zone_upper_clamp, C02_utm_elementwise, C02_utm_length_mismatch, C02_utm_mixed, C02_utm_point, C03_utm_default_hemisphere_refuted, C03_utm_round_trip, C03_utm_round_trip_sequence, C04_lcs_displacement_origin_free, C04_lcs_is_utm_minus_origin, C04_lcs_origin_zero, C04_lcs_zone_from_origin_refuted, C05_lcs_array_unsupported, C05_lcs_explicit_zone_refuted, C05_lcs_round_trip, C100_detrend_constant, C100_detrend_linear, C104_figures_determined, C106_lcs_one_origin, C106_lcs_position_refuted, C109_auto_hours, C10_vectors_reference_free, C110_labelled_aligned, C110_labelled_apart, C110_labelled_order, C110_labelled_value, C111_stamped_1hz, C111_stamped_jump_refuted, C111_stamped_line_refuted, C111_stamped_ok, C111_stamped_short, C111_stamped_value, C119_fractional_ramps, C11_intersection_parallel_not_finite, C11_intersection_row_mismatch, C11_intersection_single_row, C11_intersection_symmetric, C11_intersection_symmetric_rows, C11_intersection_unique_point, C121_centroid_affine, C121_centroid_inside, C121_centroid_pieces, C121_centroid_redrawn, C121_centroid_rows, C121_centroid_simple, C121_centroid_thin, C121_centroid_triangles, C121_longitude_hidden, C121_others_refused, C125_quantile_tz_agrees, C125_quantile_tz_change, C125_quantile_tz_strict, C125_quantile_tz_total, C127_tz_free_refuted, C130_int_unsigned, C131_flag_qc_clean, C131_interp_nan_clean, C131_null_qc_clean, C131_session_clean, C15_options_effective, C15_options_validated, C16_gagne_keeps_acceptance, C16_history_preserves_values, C16_jamaly_then_gagne_rejected, C16_reuse_same_method, C18_cascade_threshold, C25_cascade_partial_refuted, C34_series_rows, C35_vs_bounds, C35_vs_distinct, C35_vs_documented_refuted, C35_vs_steady, C35_vs_value, C36_vs_affine, C36_vs_block_average, C36_vs_blocks, C36_vs_constant, C36_vs_percent, C36_vs_reverse, C36_vs_shift_negate, C38_darr_additive, C38_darr_affine, C38_darr_block_average, C38_darr_blocks, C38_darr_ends, C38_darr_percent, C38_darr_tau, C38_darr_value, C39_quantile_causal, C39_quantile_duplicates, C39_quantile_levels, C39_quantile_total, C39_quantile_value, C40_csi_column, C40_csi_ratio, C40_csi_table, C40_csi_table_bound_refuted, C62_decay_bounds, C62_decay_documented_refuted, C62_decay_value, C64_inverse_ends, C64_inverse_linear, C64_inverse_monotone, C64_inverse_node, C64_inverse_range, C69_random_corners, C69_random_range, C69_random_shape, C69_random_value, C70_wavelet_weights_nan, C70_wavelet_weights_value, C72_mask_edge, C72_mask_selfcheck_refuted, C72_mask_succeeds, C72_mask_value, C73_edges_complement, C73_edges_constant, C73_edges_empty, C73_edges_marked, C73_edges_threshold, C73_edges_value, C74_lave_all_clear, C74_lave_bad_quantile, C74_lave_excess, C74_lave_mean, C74_lave_over_one_refuted, C74_lave_ranges, C74_lave_value, C75_basic_all_clear, C75_basic_bad_quantile, C75_basic_mean, C75_basic_over_one_refuted, C75_basic_ranges, C75_basic_value, C76_ts_errors, C76_ts_length, C76_ts_negative, C76_ts_shift, C76_ts_value, C77_stats_missing, C77_stats_value, C77_stats_weights, C78_flag_value, C78_null_value, C78_qc_laws, C79_gaps_leading_loss, C79_gaps_long_loss, C79_gaps_ok, C79_gaps_rule_refuted, C79_gaps_short, C79_gaps_value, C85_main_qc_crash, C85_main_qc_interp, C85_main_qc_target, C85_main_qc_values, C93_hist_outcome, C93_hist_swap_refuted, C93_hist_value, C97_main_cleans, C97_main_repeat, C97_main_resume, C97_main_runs, C97_main_truncated_refuted, C97_main_unknown, C98_pulse_coherence_range.

### `ClassicalDedekindReals.sig_forall_dec`, `ClassicalDedekindReals.sig_not_dec`, `FunctionalExtensionality.functional_extensionality_dep`

247 theorems: C06_flat_is_affine, C06_flat_methods, C06_flat_oriented, C06_flat_radii, C08_rotation_adds_angle, C08_rotation_blockwise, C08_rotation_group, C08_rotation_rigid, C09_dot_magnitude, C09_project_direction_only, C09_project_keeps_index, C09_project_linear, C09_project_list, C09_project_pythagoras, C09_project_signed_length, C09_project_zero_direction, C09_unit_vector_length, C100_line_has_no_spectrum, C100_offset_leaves_no_trace, C100_slope_survives_constant_refuted, C100_trend_leaves_no_trace, C101_psd_always_works, C101_tf_always_works, C101_window_facts, C101_window_weights, C102_sine_density, C102_sine_reading, C103_extra_rows_dilute, C103_rows_coherence_refuted, C103_rows_same, C103_rows_short, C103_rows_short_accepted, C103_rows_value, C104_linregress_value, C108_named_workflow, C108_process_bound, C108_process_history, C108_process_names_refuted, C108_process_recovers, C108_process_sound, C109_auto_chosen, C109_auto_fails, C109_auto_flag_refuted, C109_auto_kept, C109_auto_success, C114_demo_delay, C114_demo_fails, C114_demo_moved, C114_demo_reads, C114_demo_refused, C116_named_one_inverter, C116_reassign_answer_refuted, C116_reassign_converged, C116_reassign_recovers, C116_reassign_refused, C116_reassign_sound, C117_downscale_later, C117_multihour_restarts, C119_fractional_average, C119_fractional_failure, C119_fractional_index, C119_period_average, C119_tau_without_effect, C119_whole_tau, C123_plant_numbers, C127_tz_averages, C127_tz_free, C127_tz_no_midnight, C127_tz_plain, C127_tz_readings, C128_repeated_order_refuted, C128_repeated_product, C128_repeated_same_index, C128_repeated_unique, C12_spacetime_defined, C12_spacetime_pseudometric, C130_int_metrics_exact, C130_int_metrics_refuted, C130_int_signed_safe, C131_get_1d_plant_clean, C133_int_plant_default, C133_int_plant_exact, C133_int_plant_refuted, C133_int_plant_unsigned, C138_names_pick, C138_names_unknown, C13_spacetime_advection, C13_spacetime_entry, C13_spacetime_shift, C13_speeds_entry, C13_speeds_outcome, C17_qc_good_iff, C17_qc_good_jamaly, C17_qc_verdict, C20_normalised_fit, C23_subset_optimal, C23_subset_scale_invariant, C23_subset_success, C27_assign_one_column, C27_assign_optimal, C27_assign_optimal_same_labels, C27_assign_plan_gap, C27_assign_too_few, C27_assign_too_many, C28_assign_nan, C28_extra_columns_refuted, C29_assign_recovers_permutation, C29_prediction_labels_ignored, C32_metric_ordering, C32_metric_shapes, C32_metric_values, C33_metric_scale, C33_metric_shift, C33_metric_swap, C33_metric_triangle, C33_metric_zero, C34_series_as_arrays, C34_series_extra_rows, C34_series_metrics, C34_series_permutation, C37_vi_block_average, C37_vi_constant_sky, C37_vi_edge, C37_vi_monotone, C37_vi_self, C37_vi_shift, C37_vi_value, C41_corr_axis, C41_corr_none, C41_corr_swap, C42_corr_coeff, C42_corr_coeff_affine, C42_corr_coeff_auto, C42_corr_coeff_bounded, C42_corr_coeff_constant, C42_corr_energy, C42_corr_energy_auto, C42_corr_names, C43_corr_unbiased, C43_corr_unbiased_grows, C43_corr_unbiased_unequal_refuted, C44_delays_constant, C44_delays_loop, C44_delays_mean_zero, C44_delays_peak_dominates, C44_delays_refused, C44_xcorr_delay_best, C44_xcorr_delay_constant, C44_xcorr_delay_fails, C45_shift_delays, C45_shift_peak, C45_shift_xcorr, C46_delays_fft, C46_delays_fft_constant, C46_delays_fft_ties_refuted, C46_delays_fft_zero, C46_fft_curve_coeff_coincidence, C46_fft_curve_coeff_many, C46_fft_curve_coeff_one, C46_fft_curves, C46_fft_refused, C47_psd_errors, C47_psd_gap, C47_psd_other, C47_psd_series, C47_psd_series_ratio, C47_psd_series_refuted, C47_psd_value, C48_tf_counts, C48_tf_errors, C48_tf_names_refuted, C48_tf_series, C48_tf_value, C49_coherence_range, C49_coherence_single, C49_tf_entry_exists, C49_tf_least_squares, C49_tf_of_scaled, C49_tf_recovers_gain, C50_unwrap_laws, C54_apply_delay_group, C54_apply_delay_magnitude, C55_gaussian_missing, C55_gaussian_perm, C55_gaussian_value, C55_gaussian_zero_width, C55_plant_outcome, C55_square_single, C55_square_sites, C55_square_value, C55_triangle_order_refuted, C55_triangle_value, C56_cam_dc, C56_cam_degenerate, C56_cam_passive, C56_cam_reverse, C56_cam_scale, C57_cam_symmetric, C57_cam_symmetric_only, C57_cam_value, C57_plant_grid_odd, C57_plant_grid_symmetric, C59_marcos_degenerate, C59_marcos_magnitude, C59_marcos_monotone, C59_marcos_value, C61_default_mixture, C61_mixture_mean, C61_mixture_proper, C63_gm_cdf, C63_gm_edge, C63_gm_value, C63_solar_gmm_ok, C65_copula_cov, C66_downscale_errors, C66_downscale_noneg, C66_downscale_scale, C66_downscale_shape, C67_downscale_routing, C67_downscale_speeds, C68_multihour_errors, C68_multihour_repeats, C68_multihour_shape, C68_multihour_speeds_misread, C68_multihour_speeds_refuted, C68_multihour_value, C87_coeff_columns, C87_coeff_one_in, C87_coeff_one_out, C87_fewer_columns, C87_fewer_rows, C87_more_columns, C87_more_rows, C87_no_step, C88_psd_nonneg, C88_psd_total_power, C90_camfilter_delay, C90_camfilter_geo, C90_camfilter_invariance, C90_camfilter_no_direction, C90_camfilter_plane, C90_camfilter_sites, C94_pattern_best, C94_shift_refuted, C94_xcorr_backend_tells, C98_pulse_tf, C98_wave_tf.

### `ClassicalDedekindReals.sig_forall_dec`, `Classical_Prop.classic`, `FunctionalExtensionality.functional_extensionality_dep`

3 theorems: C104_figures_meaning, C106_lcs_outcome, C106_lcs_rows.

### `ClassicalDedekindReals.sig_forall_dec`, `ClassicalDedekindReals.sig_not_dec`, `Classical_Prop.classic`, `FunctionalExtensionality.functional_extensionality_dep`

221 theorems: C01_zone_b64_band_refuted, C01_zone_b64_close, C01_zone_b64_monotone, C01_zone_b64_range, C06_flat_antimeridian, C07_cartesian_of_polar, C07_negative_radius, C07_polar_of_cartesian, C104_cmv_qc_figures, C104_cmv_regression, C104_constant_motion_refuted, C104_figures_of_constant_motion, C104_perfect_figures_refuted, C105_cmv_dict, C105_cmv_dict_backend, C105_cmv_dict_failed, C107_predicted_all_permuted, C107_predicted_mislabelled, C108_named_exact, C108_pairs_averaged, C108_pairs_fail, C108_process_exact, C108_process_windows, C109_auto_hour, C109_pairs_crossing, C109_pairs_not_parallel, C112_width_close, C112_width_exact_refuted, C112_width_whole_seconds, C113_pool_same_as_serial, C114_demo_generator, C115_lag_map_arrivals, C115_lag_map_value, C116_one_pair, C116_reassign_exact, C117_correlation_peak, C117_demo_delay, C117_frozen_copy, C117_frozen_delay, C117_multihour_frozen, C118_cam_abreast_refuted, C118_cam_average, C118_cam_exact, C118_cam_smooths, C120_demo_fails, C120_demo_finds, C120_demo_right_plan, C120_demo_table, C120_worked_dead_sensor_refuted, C120_worked_same, C122_csi_grid_rounding, C122_hist_edges_exact, C122_layer_exact, C122_overlap_decimal_refuted, C122_overlap_shorter, C122_pixel_rounding, C123_filter_plain, C123_nan_rule, C123_outside_domain, C123_tables_refused, C126_axis_count, C126_axis_drift, C126_axis_drift_refuted, C126_plant_exact, C129_calm_values, C129_error_handling_after, C129_history_refuted, C129_protected_calls, C129_weights_events, C134_magnitude_absolute, C134_magnitude_relative, C134_magnitude_symmetric, C134_magnitude_zero, C134_magnitude_zero_refuted, C134_spacetime_float_close, C134_spacetime_float_refuted, C134_spacetime_float_shape, C134_unit_close, C135_column_order_refuted, C135_columns_en, C135_columns_missing, C135_columns_more, C135_columns_swapped, C136_iterator_motion, C136_iterator_no_first, C137_pol2rect_close, C137_project_close, C137_project_list, C137_project_reversed, C137_project_scale, C137_separation_reversed, C137_vectors_close, C138_names_clash, C138_names_fit, C138_names_multi, C138_names_refuted, C139_stored_close, C139_stored_degenerate, C139_stored_gain, C139_stored_gain_refuted, C139_stored_monotone, C139_stored_shape, C139_stored_single, C14_cmv_pair_count, C14_cmv_pairs, C15_cmv_case_insensitive, C15_cmv_options, C15_cmv_unknown_method, C16_cmv_jamaly_then_gagne, C17_cmv_verdict, C18_cmv_gagne_flag, C19_cmv_failure_exit, C19_cmv_good_only, C19_cmv_good_pairs_only, C19_cmv_report, C20_cmv_output_normalised, C20_jamaly_speed_limit, C20_normalise_b64, C20_normalise_b64_upper_refuted, C21_jamaly_recovers, C22_gagne_recovers, C23_subset_global, C30_predicted_default_cmv, C30_predicted_default_nan, C30_predicted_exact, C30_predicted_nan_cmv, C30_predicted_parallel, C30_predicted_report, C30_predicted_self_bias, C30_predicted_zero_error, C31_predicted_bad_mode, C31_predicted_selection, C31_predicted_success, C48_delays_tf_counts, C50_interp_between, C50_interp_frame_cols, C50_interp_list, C50_interp_magnitude, C50_interp_node, C50_interp_order, C50_interp_range, C51_diff_missing, C51_diff_recovers, C51_diff_value, C51_fit_recovers, C51_fit_value, C51_multi_gap, C51_multi_recovers, C51_multi_value, C51_nothing_used, C51_tf_delay_errors, C52_delays_tf_collision, C52_delays_tf_fit, C52_delays_tf_multi, C52_delays_tf_refused, C52_extras_independent, C52_mask_value, C52_mean_coh_range, C52_mean_coh_value, C53_xcorr_bounded, C53_xcorr_constant, C53_xcorr_value, C54_apply_delay_measured, C55_bump_shape, C58_apply_energy, C58_apply_flat, C58_apply_linear, C58_apply_mean, C58_apply_one_sided, C58_apply_outcome, C58_apply_shift, C58_apply_tone, C58_apply_value, C59_marcos_default_unusable, C61_sigmoid_shape, C65_cov_correlation, C70_vs_weights_edges, C70_vs_weights_value, C70_vs_zero_refuted, C71_stack_normalized, C71_stack_normalized_range, C71_stack_range, C71_stack_unequal, C71_stack_value, C84_field_all_clear_refuted, C84_field_basic, C84_field_clear_part, C84_field_errors, C84_field_original, C84_field_overcast, C84_field_succeeds, C89_gagne_value, C89_jamaly_value, C91_field_delays_defined, C91_field_delays_outcome, C91_field_delays_self, C91_field_delays_separate, C94_backends_answer, C94_pattern_delays, C94_pattern_good, C94_pattern_recovered, C94_tf_backend_gaps, C94_tf_backend_tells, C94_tf_good, C94_xcorr_good, C94_xcorr_reach, C94_xcorr_succeeds, C95_cmv_exceptions, C95_cmv_succeeds, C98_pulse_delay, C98_pure_delay_found, C98_wave_delay, C98_wave_table, C99_predicted_delays_are, C99_predicted_delays_defined, C99_predicted_delays_separate, C99_predicted_no_cmv, C99_predicted_outcome, C99_predicted_own_bias, C99_predicted_own_cmv, C99_predicted_self_delay.

### `ClassicalDedekindReals.sig_forall_dec`, `Classical_Prop.classic`, `FunctionalExtensionality.functional_extensionality_dep`, `IndefiniteDescription.constructive_indefinite_description`

1 theorems: C51_solver_exists.

## 8. Where the code departs from its documentation

Each line is a theorem about the model (named `..._refuted`, or the exact true statement beside it), found while proving.

| property | behaviour |
|---|---|
| C01 | no lower clamp on the zone; rounding puts longitudes just below a zone edge into the next zone |
| C03, C05 | the hemisphere default of `utm2latlon`/`lcs2latlon` is not the point's; an explicit zone is not passed back; `lcs2latlon` is not vectorised |
| C04 | points of one local system are projected in the reference's zone only if it is passed |
| C06 | `lla2flat` jumps at the antimeridian |
| C11 | parallel lines give non-finite coordinates, not an exception |
| C16 | one options dictionary used for jamaly and then gagne is rejected, because the first call wrote its defaults into it |
| C20 | in binary64 the reported angle can equal 2 pi |
| C25 | remaps of different entity sets do not compose |
| C28 | a NaN in an unused column of the positions changes the assignment |
| C30 | a zero error gives NaN; a site in its own reference set is pulled toward its given position by (m-1)/m |
| C31 | `[-ndownsel:-1]` drops the best reference; delays are matched by position, not label |
| C35 | ties in variability score are ranked arbitrarily |
| C40 | the data-frame path of `clearsky_index` ignores the maximum |
| C43, C44, C46, C87 | unbiased scaling with a longer second signal; constant columns under 'coeff'; mean correlation is always 0; ties between lags differ between 'loop' and 'fft'; shape mismatches |
| C47, C48 | Series input ignores `scaling`; result names can collide |
| C49 | one segment gives coherence 1 for all signals |
| C51, C52 | 'multi' returns 0 when no bin is usable and ignores everything after the first missing bin; 'diff' is NaN if any bin is missing; `freq_limit=None` raises; colliding names make 'fit' fail |
| C55, C57, C59, C60 | triangle plants depend on the order of sites; one NaN site poisons a gaussian plant; CAM filter phase has the wrong sign of the grid origin; the default Marcos filter is one-sided so `apply_filter` raises; `cleanfreq` returns None |
| C62, C68, C70, C72, C74-C76, C84 | decay parameter not monotone in wind; hourly speeds with a scalar direction fail; `vs=0`; the self-check of the clear mask rejects valid fields; cloud pixels above 1; empty series; a fully clear request raises IndexError |
| C79, C81, C83, C85, C86 | gaps longer than the limit are partly filled; a truncated download is kept; reruns duplicate rows; forward fill looks ahead by one interval |
| C89 | a zero slowness gives a NaN velocity in gagne; infinite spread is TREND in jamaly |
| C90 | `get_camfilter` converts every site in its own UTM zone |
| C92, C93 | `ensurepath` accepts a file at the path; a NaN in the second sequence of `scatter_hist` hides its range |
| C94 | jamaly's mean/peak criterion never rejects (the mean of a 'coeff' curve is 0); an incomplete or constant pair gets the spurious delay (n-1) dt with NaN figures; the correlation peak of an exactly shifted record can be at another lag |
| C97 | a download cut off in the middle makes every later run of the command line fail (`C97_main_truncated_refuted`) |
| C99 | a sensor with a gap gets coherence 0, not NaN, so mode 'coherence' counts it among its candidates |
| C100 | detrend='constant' leaves a slope in the spectrum (`C100_slope_survives_constant_refuted`) |
| C103 | `averaged_tf` accepts tables of different length: extra output rows dilute the transfer function, and coherence can exceed 1 (`C103_rows_coherence_refuted`) |
| C104 | `r_corr` = 1 and `stderr_corr` = 0 for any two passing pairs and under a common clock offset; 0 and 0 for a perfectly constant motion whose passing pairs have equal delays, the values used for a failed regression (`C104_perfect_figures_refuted`, `C104_constant_motion_refuted`) |
| C105 | after a failed run `compute_cmv` returns speed and direction 0, but the result object holds None for both (`C105_cmv_dict_failed`) |
| C02 | `latlon2utm` on an empty list returns an empty array, on an empty Series it raises ValueError (`C02_utm_length_mismatch`) |
| C106 | `latlon2lcs` with Series of targets and origins matches them by index label: two Series of equal length with different labels give only NaN (`C106_lcs_position_refuted`) |
| C107 | a prediction is NaN when the sensor already stands right along one of the CMVs relative to the points used, so correctly labelled sensors often get no prediction (`C107_predicted_mislabelled`) |
| C108 | the demo picks an inverter's combiners by `inv in nm.split('-')[1]`, a substring test: with inverters 1 and 12 one location is given twice and another is lost (`C108_process_names_refuted`) |
| C108 | when the loop stops because a map repeats or after ten rounds, the demo keeps the map and layout of the round before; the last map stands only in the history (`C108_process_history`) |
| C109 | `automate_cmv_demo.py:107` looks up `cmvs_flags[row.index(row.Index)]`, always entry 0: hours with a bad flag pass the filter if the first hour is GOOD, otherwise all hours are dropped (`C109_auto_flag_refuted`, `C109_auto_kept`) |
| C109 | an hour with fewer than two passing pairs has `method_data` None, so `automate_cmv_demo.py:86` stops with a TypeError (`C109_auto_hour`, `C109_auto_fails`) |
| C111 | `interp_nan` pads in positions but measures the open stretch in time: when the stamps jump inside a gap shorter than twice the limit, an observation behind the gap is erased (`C111_stamped_jump_refuted`) |
| C111 | `interp_nan` fills by position: on irregular stamps the filled value does not lie on the line in time (`C111_stamped_line_refuted`) |
| C110 | `flag_qc` with a flag table under other labels (for instance another time zone) silently keeps every sample (`C110_labelled_apart`) |
| C10, C90 | `compute_vectors` of labelled columns without rows raises ValueError, whereas plain arrays give an empty array (`C10_vectors_frame`) |
| C47, C48 | `averaged_psd` and `averaged_tf` of a table without columns raise ValueError (`C47_psd_errors`, `C48_tf_errors`) |
| C112 | the averaging width is truncated after a rounded product: 100 samples at 0.29 s are averaged over 28 s instead of 29 s (`C112_width_exact_refuted`); widths below one second raise ZeroDivisionError |
| C113 | a worker process killed at work (out of memory, say) makes the multi-process demo wait for ever: its task is lost and `pool.imap` has no time limit (`C113_pool_killed`) |
| C114 | `synthetic_clouds_demo.py` fails whenever an extent is a whole number of seconds of cloud motion: the last column (IndexError) or the last sample (ValueError) is missing from a field sized with `ceil`; a single sensor or sensors in line with or across the wind always fail (`C114_demo_fails`) |
| C115 | the lag map of `cmv_demo.py` silently shows 0 for sites that were not paired with the chosen reference (`C115_lag_map_value`) |
| C47 | a negative `overlap` is accepted by `averaged_psd` and skips samples between the segments (`C47_psd_gap`) |
| C116 | `field_reassignment_demo.py` can report that the remap changed when it did not: with a missing prediction `assign_positions` lists the remap in plan order, `cascade_remap` in order of names, and the lists are compared with == (`C116_reassign_answer_refuted`) |
| C118 | sites abreast of each other count once in `get_camfilter` with square sites: the filtered record is not the average over the sites of a two-dimensional plant (`C118_cam_abreast_refuted`) |
| C119 | a `tau` between 1 and 2 on one-second data silently averages nothing although averaging is on: the width is truncated to whole seconds (`C119_tau_without_effect`); with averaging off a Series of an earlier pandas release silently truncates tau (`C119_fractional_ramps`) |
| C120 | `field_demo_detailed.ipynb` ranks a sensor without coherence above all others, so the combiner itself stays among the averaged points and the answer is pulled towards the plan; `compute_predicted_position` drops such sensors (`C120_worked_dead_sensor_refuted`). With exact data and a correct plan field_demo predicts NaN for every combiner (`C120_demo_right_plan`) |
| C121 | `plant_digitization_example.ipynb` takes the values from the combiners and the index from all assets (`index=data_utm.asset_name`): with any other asset in the file it raises ValueError instead of leaving that asset out (`C121_others_refused`) |
| C117 | `downscale_multihour` starts a new cloud field every hour with the same seed: under equal conditions the records of the first hour are repeated exactly, although the times differ, and no cloud crosses the hour (`C117_multihour_restarts`) |
| C122 | An overlap is read in binary: 0.29 of a segment of 100 samples is 28 samples (`C122_overlap_decimal_refuted`) |
| C123 | One NaN in the record or in a filter row below the frequencies in use makes the whole result of `apply_filter` NaN without a message (`C123_nan_rule`) |
| C123 | Sites outside the domain silently give a cloud advection filter and a plant output of NaN (`C123_outside_domain`) |
| C123 | `apply_filter` documents a DataFrame for the record and the filter but refuses both (`C123_tables_refused`) |
| C123 | Integer positions with a float reference raise TypeError in `get_1d_plant` (`C123_plant_numbers`) |
| C124 | `ensurepath` can raise FileExistsError although the directory exists, if another process creates it after the check (`C124_ensurepath_race_refuted`) |
| C125 | `calc_quantile` fails on an index with a time zone: always with pandas 2 (plain dates as bounds, `C125_quantile_tz_strict`), and with an earlier pandas whenever night rows meet a change of the clocks (`C125_quantile_tz_change`) |
| C126 | On a non-dyadic step the axis of `get_1d_plant` drifts: with step 0.1 the far end of the default axis is off by more than 0.029 mm (`C126_axis_drift_refuted`) |
| C127 | The averaged variability metrics depend on the time zone of the index when its midnights are not multiples of the bin width (`C127_tz_free_refuted`), and fail on series that begin on a day without a single midnight (`C127_tz_no_midnight`) |
| C128 | With repeated labels the error metrics pair every row with every row under the same label, so a Series compared with its own rows in another order has an error (`C128_repeated_order_refuted`) |
| C129 | `compute_cmv` changes numpy's error handling for the rest of the session, so a caller who asked for exceptions no longer gets them (`C129_history_refuted`) |
| C70 | Above a variability score of 180 the weights are NaN, unless every scale is 1 (`C70_vs_weights_edges`) |
| C130 | On integer arrays the error metrics wrap around: an underestimate by 1 in uint16 is an error of 65535, and an error of 200 in int16 gives a negative mse and rmse NaN (`C130_int_metrics_refuted`) |
| C131 | Unlike every other function that assigns in place, cleanfreq changes the series it is given and returns nothing (`C131_arguments_refuted`, `C131_cleanfreq_in_place`) |
| C132 | While others delete, ensurepath can raise FileNotFoundError for any path of two or more components although nothing is in the way (`C132_ensurepath_any_refuted`) |
| C133 | get_1d_plant with whole-number positions raises TypeError for a float reference, and with unsigned positions loses the sites left of the reference (`C133_int_plant_refuted`) |
| C134 | Two sites do not keep their computed distance at every time: the drift is subtracted from each coordinate before the difference is taken, so a large drift absorbs the separation (`C134_spacetime_float_refuted`). Lengths below about 1e-162 come out as zero (`C134_magnitude_zero_refuted`) |
| C135 | A layout with columns N, E gives a wrong position without any error: distances read the columns by name, the final shift adds the reference row by place (`C135_columns_swapped`, `C135_column_order_refuted`). A layout with a further column raises ValueError at that shift, after all the transfer functions are computed (`C135_columns_more`) |
| C136 | A generator of reference sites, which the type `iterable` allows, is used up by the first membership tests: compute_cmv silently answers (0, 0, ALLBAD), or raises IndexError (`C136_iterator_motion`, `C136_iterator_no_first`) |
| C138 | Column names of the transfer functions are not unique even when all labels are: inputs a, a_b and outputs b_c, c give a_b_c twice, `tf["a_b_c"]` is a table and `compute_delays_tf(method='fit')` raises ValueError (`C138_names_refuted`). |
| C139 | The Marcos filter is stored as complex64, and its stored gain exceeds 1 at low frequencies (by at most 2^-23), although the ideal filter never amplifies (`C139_stored_gain_refuted`). |
| C87 | With two equal first time stamps `compute_delays` in 'loop' mode raises ValueError, but in 'fft' mode reports delay 0 for every pair (`C87_no_step`). |
