{"id": "C01", "title": "UTM zone is the 6-degree band of the longitude", "statement": "For every longitude lon with -180 <= lon <= 180, the automatically chosen UTM zone is an integer z in 1..60 whose band [-180+6(z-1), -180+6z) contains lon, except lon = 180 which is given zone 60; the zone never decreases as lon grows. In binary64 arithmetic the result is still always in 1..60 and still non-decreasing in lon, but the band statement can fail within rounding distance below a band edge.", "quantifier": "all real longitudes in [-180,180]; all binary64 longitudes for the float clauses", "why_tests_cant": "A test samples a handful of longitudes; the claim is over a continuum and its failures sit at rounding distance from 59 edges.", "anchors": ["src/solarspatialtools/spatial.py:_calc_zone"]}
{"id": "C02", "title": "latlon2utm is an element-wise, order-preserving map", "statement": "Called with equally long latitude and longitude sequences, latlon2utm returns one (E, N, zone) row per site, in input order, each equal to the scalar call on that site (with the caller's zone if one is given, else the zone of that site's own longitude; southern projection exactly when latitude < 0); pandas inputs keep their index. Sequences of different length raise ValueError, and so does an empty pandas Series (an empty list gives an empty array). A sequence together with a single number raises TypeError.", "quantifier": "all sequences of sites of any length, any explicit or automatic zone, any projection library behaviour", "why_tests_cant": "Sequence length and mixture of hemispheres/zones are unbounded.", "anchors": ["src/solarspatialtools/spatial.py:latlon2utm", "src/solarspatialtools/spatial.py:utm2latlon"]}
{"id": "C03", "title": "UTM conversion round-trips", "statement": "If the projection library's inverse undoes its forward map for a given zone and hemisphere, then utm2latlon(E, N, zone, south) of latlon2utm(lat, lon) returns (lat, lon) whenever south equals (lat < 0); using the default south=False for a southern point calls the inverse for the wrong hemisphere, so the round trip is not guaranteed.", "quantifier": "all latitudes/longitudes and zones; all projection pairs satisfying the inverse law, scalars and sequences", "why_tests_cant": "A continuum of points times two hemispheres times sixty zones.", "anchors": ["src/solarspatialtools/spatial.py:latlon2utm", "src/solarspatialtools/spatial.py:utm2latlon"]}
{"id": "C04", "title": "Local coordinate system is UTM re-zeroed at the origin", "statement": "latlon2lcs maps the origin itself to (0,0), and maps a target to its UTM position minus the origin's UTM position; displacement between two targets does not depend on the chosen origin when they share a zone. The documented zone rule (zone taken from the origin longitude if not given) does not hold for targets whose own longitude lies in another zone.", "quantifier": "all targets/origins, scalar or sequence, explicit or automatic zone", "why_tests_cant": "Zone straddling and zone overrides are a corner of an infinite input space.", "anchors": ["src/solarspatialtools/spatial.py:latlon2lcs"]}
{"id": "C05", "title": "LCS round trip and its zone precondition", "statement": "lcs2latlon(latlon2lcs(target)) returns the target when no zone is given and target and origin lie in the same zone and hemisphere, or when the given zone is the origin's own zone and hemispheres agree. When an explicit zone differs from the origin's own zone, the inverse silently mixes two zones (origin converted in its own zone, result inverted in the requested one) and the round trip fails.", "quantifier": "all targets, origins and zone arguments; all invertible projections", "why_tests_cant": "The failing combination (explicit, non-native zone) is never exercised by tests.", "anchors": ["src/solarspatialtools/spatial.py:latlon2lcs", "src/solarspatialtools/spatial.py:lcs2latlon"]}
{"id": "C06", "title": "Flat-earth projection (lla2flat) is affine, oriented and invertible", "statement": "With method 'matlab', lla2flat sends the reference to (0,0); East depends only on longitude and North only on latitude; both are linear in the angular difference with strictly positive metres-per-degree (for North always, for East whenever |latref| < 90), so it is injective and orientation preserving; the meridional radius never exceeds the transverse radius and both lie between the WGS84 extreme curvature radii. Longitudes are not wrapped: a pair of sites straddling +-180 degrees is placed almost a full earth circumference apart. An unknown method raises ValueError.", "quantifier": "all latitudes, longitudes and reference points", "why_tests_cant": "Continuum of inputs and an unwrapped seam.", "anchors": ["src/solarspatialtools/spatial.py:lla2flat"]}
{"id": "C07", "title": "Cartesian/polar round trip", "statement": "pol2rect(*rect2pol(x, y)) == (x, y) for every (x, y); rect2pol returns a radius >= 0 and an angle in (-pi, pi]; rect2pol(*pol2rect(r, t)) == (r, t) for every r > 0 and t in (-pi, pi].", "quantifier": "all real x, y, r, t", "why_tests_cant": "Continuum, with quadrant/axis case splits.", "anchors": ["src/solarspatialtools/spatial.py:rect2pol", "src/solarspatialtools/spatial.py:pol2rect", "src/solarspatialtools/spatial.py:magnitude"]}
{"id": "C08", "title": "rotate_vector is a rigid rotation", "statement": "rotate_vector(., t) preserves the dot product of any two vectors (hence lengths and angles), rotate by s then t equals rotate by s+t, rotate by -t undoes t, it adds t to the polar angle, and a column block of many points is rotated point by point.", "quantifier": "all vectors, all angles, any number of points", "why_tests_cant": "Algebraic law over a continuum.", "anchors": ["src/solarspatialtools/spatial.py:rotate_vector"]}
{"id": "C09", "title": "project_vectors gives signed lengths along a direction", "statement": "project_vectors(V, d) for non-zero d returns, for each vector in order, its signed length along d: independent of the length of d, negated when d is reversed, linear in the vector, never larger in absolute value than the vector's length, with equality exactly for parallel vectors; together with the perpendicular projection it reconstructs the vector's length (Pythagoras). Pandas index is kept; an empty list raises IndexError. unit(d) has magnitude 1.", "quantifier": "all vector lists and all non-zero direction vectors", "why_tests_cant": "Continuum and arbitrary list length.", "anchors": ["src/solarspatialtools/spatial.py:project_vectors", "src/solarspatialtools/spatial.py:unit", "src/solarspatialtools/spatial.py:dot", "src/solarspatialtools/spatial.py:magnitude"]}
{"id": "C10", "title": "compute_vectors points from the reference to each site", "statement": "compute_vectors(x, y, ref) returns, in order, site - ref for each site; adding ref back recovers the site, the difference of two rows is independent of ref, extra columns of ref beyond the first two are ignored, and a single-entry ref is subtracted from both coordinates. For labelled columns the rows keep the labels, and a table without rows raises ValueError.", "quantifier": "all site lists and references", "why_tests_cant": "Arbitrary list lengths.", "anchors": ["src/solarspatialtools/spatial.py:compute_vectors"]}
{"id": "C11", "title": "compute_intersection solves the perpendicular-tip construction", "statement": "For every row with A, B not parallel, the returned point C is the unique point lying on the line through the tip of A perpendicular to A and on the line through the tip of B perpendicular to B. Swapping A and B gives the same point. A single row on one side is paired with every row of the other; any other difference of the row counts raises ValueError. When A and B are parallel (including a zero vector) no finite point is produced: division by zero yields inf/NaN.", "quantifier": "all pairs of vectors, any number of rows", "why_tests_cant": "Continuum with a degenerate set of measure zero.", "anchors": ["src/solarspatialtools/spatial.py:compute_intersection"]}
{"id": "C12", "title": "spacetime_distances is a pseudometric", "statement": "The returned matrix is square with n_sites*n_times rows, symmetric, zero on the diagonal, non-negative and satisfies the triangle inequality.", "quantifier": "all site lists, time lists, speeds and directions", "why_tests_cant": "Universal claim over matrices of every size.", "anchors": ["src/solarspatialtools/spatial.py:spacetime_distances"]}
{"id": "C13", "title": "spacetime_distances encodes frozen cloud advection", "statement": "Entry for (site i, time k) against (site j, time l) - located at row i*n_times+k, column j*n_times+l - is the Euclidean distance between the two site positions each moved back along the cloud motion by speed times elapsed time. So it is zero exactly when site j is where the cloud over site i at time k has drifted to by time l, it is the plain site distance at equal times, speed*|dt| for one site, and it is unchanged by shifting all times or all sites.", "quantifier": "all sites, times, speeds, directions and all index pairs", "why_tests_cant": "Layout and value for every index of matrices of every size.", "anchors": ["src/solarspatialtools/spatial.py:spacetime_distances"]}
{"id": "C14", "title": "CMV pair list is complete and duplicate free", "statement": "compute_cmv analyses (outdata.allpairs) exactly the unordered pairs of distinct positions in the site list plus each site with itself, once each, in list order, n(n+1)/2 in total; with reference sites given, exactly those pairs having at least one reference member; without replacement, identity pairs are absent.", "quantifier": "all site lists and all reference sets", "why_tests_cant": "Lists of any length.", "anchors": ["src/solarspatialtools/cmv.py:_get_pairs", "src/solarspatialtools/cmv.py:compute_cmv"]}
{"id": "C15", "title": "CMV options are validated, defaulted and never overridden", "statement": "A call is rejected with ValueError exactly when the method is unknown or some option key is not an option of that method; otherwise the effective options are the caller's values where given and the documented defaults elsewhere, and no other keys.", "quantifier": "all option dictionaries and method names", "why_tests_cant": "Dictionaries over arbitrary keys.", "anchors": ["src/solarspatialtools/cmv.py:_validate_method_options", "src/solarspatialtools/cmv.py:compute_cmv"]}
{"id": "C16", "title": "CMV options dictionary aliasing across calls", "statement": "Validation writes defaults into the caller's own dictionary. Re-using the dictionary with the same method is harmless and idempotent for any number of calls; a dictionary accepted for 'gagne' remains accepted after any sequence of 'gagne' calls, but after one 'jamaly' call the same dictionary is rejected by every later 'gagne' call.", "quantifier": "all sequences of calls sharing one options dictionary", "why_tests_cant": "A property of call histories, not of a single call.", "anchors": ["src/solarspatialtools/cmv.py:_validate_method_options", "src/solarspatialtools/cmv.py:_pairwise_qc"]}
{"id": "C17", "title": "Pairwise QC decides by last failing check", "statement": "Each pair's flag is that of the last check it fails in the documented order (same site, no signal, no lag, NaN correlation, overcast, then for jamaly: variation ratio, correlation/correlation-ratio, velocity limits), and GOOD exactly when it fails none, where comparisons with NaN are false as in IEEE. In particular a GOOD jamaly pair joins two different sites, has a non-zero lag and apparent speed strictly between the limits, and no missing (NaN) delay, correlation or spacing can produce GOOD.", "quantifier": "all pair tables with finite, infinite or NaN metrics and all option values", "why_tests_cant": "NaN/inf combinations over eight ordered overwrites.", "anchors": ["src/solarspatialtools/cmv.py:_pairwise_qc"]}
{"id": "C18", "title": "Gagne correlation cascade picks the strictest sufficient threshold", "statement": "With method 'gagne' the pairs kept are the QC-passing pairs with peak correlation >= t, where t is the largest of 0.99, 0.95, 0.90 leaving at least 12 of them, or 0.90 with overall flag ALLBAD when none does; every pair below t (or NaN) is flagged LOWCORR.", "quantifier": "all correlation/flag vectors of any length", "why_tests_cant": "Any number of pairs.", "anchors": ["src/solarspatialtools/cmv.py:compute_cmv"]}
{"id": "C19", "title": "CMV reports failure exactly when fewer than two pairs pass QC", "statement": "compute_cmv returns speed 0, direction 0 and flag ALLBAD from the early exit exactly when at most one pair is GOOD, and then still returns the pair list and per-pair flags with one flag per pair; otherwise it returns an estimate computed from the GOOD pairs only.", "quantifier": "all flag vectors", "why_tests_cant": "Any number of pairs.", "anchors": ["src/solarspatialtools/cmv.py:compute_cmv"]}
{"id": "C20", "title": "CMV output is normalised to non-negative speed and angle in [0, 2 pi)", "statement": "Whatever signed speed and unbounded angle the fit produced, the returned speed is >= 0, the angle lies in [0, 2 pi) and the returned polar vector is the same Cartesian vector as the fitted one. In binary64 the half-open upper bound can fail (a tiny negative angle is returned as exactly the float 2 pi).", "quantifier": "all real fitted speeds/angles", "why_tests_cant": "Continuum.", "anchors": ["src/solarspatialtools/cmv.py:compute_cmv"]}
{"id": "C21", "title": "Jamaly CMV recovers a pure advecting pattern", "statement": "If every GOOD pair's delay equals its separation projected on a unit direction u divided by speed s != 0 (a frozen field moving with velocity s*u), the pair separations span the plane, and the one-dimensional minimiser returns a global minimiser of the velocity variance, then compute_cmv(method='jamaly') returns speed |s| and the direction of s*u, error index 0 and no TREND flag.", "quantifier": "all site layouts, all velocities, any number of pairs", "why_tests_cant": "Universal over geometries; optimisation result.", "anchors": ["src/solarspatialtools/cmv.py:compute_cmv"]}
{"id": "C22", "title": "Gagne CMV recovers a pure advecting pattern", "statement": "If every GOOD pair's delay is the projection of its separation on a non-zero slowness vector (frozen field moving with velocity v), the separations span the plane and the least-squares routine returns a minimiser of the sum of squared residuals, then compute_cmv(method='gagne') returns exactly |v| and the direction of v.", "quantifier": "all site layouts, all velocities, any number of pairs", "why_tests_cant": "Universal over geometries; optimisation result.", "anchors": ["src/solarspatialtools/cmv.py:compute_cmv"]}
{"id": "C23", "title": "optimum_subset returns distinct valid indices, blind to vector sign and length", "statement": "For n <= number of CMVs, optimum_subset returns n distinct valid positions; reversing or positively rescaling any input CMV leaves every candidate cost unchanged; lists of different lengths raise ValueError, otherwise n = 0 raises ZeroDivisionError; for any rotation angle the returned set has the best total alignment among all choices of n distinct CMVs assigned to the n evenly spaced axes.", "quantifier": "all CMV lists, all n, any global optimiser result, any optimal assignment solver", "why_tests_cant": "Combinatorial optimum over all injections.", "anchors": ["src/solarspatialtools/cmv.py:optimum_subset"]}
{"id": "C24", "title": "remap_positions moves rows simultaneously", "statement": "In remap_positions(data, remap, columns) every read is from the original data: each listed entity gets the original values of its source in the selected columns (last listing wins), every other cell is untouched, and the input is not modified; so swaps and cycles work. An unknown source (or column) raises KeyError.", "quantifier": "all tables, all remap lists (cycles, repeats, self maps), all column selections", "why_tests_cant": "Lists of any length and cycle structure.", "anchors": ["src/solarspatialtools/field.py:remap_positions"]}
{"id": "C25", "title": "cascade_remap composes remappings", "statement": "If both remaps list the same entities and are closed on them, remap_positions(data, cascade_remap(r1, r2)) equals remap_positions(remap_positions(data, r1), r2), and the result is sorted by entity. If the second remap misses an entity of the first, or sends it outside the first, KeyError is raised. Entities listed only in the second remap are silently dropped, so for partial remaps the composition law fails.", "quantifier": "all remap lists and tables", "why_tests_cant": "Composition law over arbitrary finite maps.", "anchors": ["src/solarspatialtools/field.py:cascade_remap", "src/solarspatialtools/field.py:remap_positions"]}
{"id": "C26", "title": "Remappings form a group under cascade", "statement": "On a fixed entity set, cascade_remap is associative, has the identity remap as two-sided unit, maps permutations to permutations, and every permutation has an inverse.", "quantifier": "all permutations of all finite entity sets", "why_tests_cant": "Universal algebraic law.", "anchors": ["src/solarspatialtools/field.py:cascade_remap"]}
{"id": "C27", "title": "assign_positions returns an optimal permutation", "statement": "For predictions without NaN and of the same length as the site plan, assign_positions returns each entity once as key and each plan location once as value, sorted by entity, with total prediction-to-assigned-location distance no larger than for any other one-to-one assignment; data_out is the site plan with those rows moved. Frames with fewer than two columns or too few predictions raise IndexError, a missing coordinate in the plan ValueError.", "quantifier": "all layouts/predictions of any size, any optimal assignment solver", "why_tests_cant": "Optimality over n! alternatives.", "anchors": ["src/solarspatialtools/field.py:assign_positions"]}
{"id": "C28", "title": "assign_positions keeps NaN predictions in place", "statement": "With some NaN predictions, each NaN entity maps to itself, the others are optimally permuted among themselves, and the result has one entry per plan row in plan order. The documented claim that extra columns are ignored is false: a NaN in an extra column freezes its entity.", "quantifier": "all NaN patterns", "why_tests_cant": "Exponentially many NaN patterns.", "anchors": ["src/solarspatialtools/field.py:assign_positions"]}
{"id": "C29", "title": "assign_positions recovers a relabelled layout", "statement": "If the predictions are exactly the plan positions permuted by some permutation and plan positions are distinct, assign_positions returns that permutation; in particular predictions equal to the plan give the identity. Matching is by row position: row labels of the predictions are not consulted unless NaNs are present.", "quantifier": "all layouts with distinct positions, all permutations", "why_tests_cant": "Universal over permutations.", "anchors": ["src/solarspatialtools/field.py:assign_positions"]}
{"id": "C30", "title": "Predicted position is exact for a frozen cloud field", "statement": "If the delays of the used points are those of a cloud field advecting with each of two non-parallel CMVs past a sensor truly located at X, then compute_predicted_position returns X, whichever points are used, provided the position error has a non-zero component along both CMVs. When the component along either CMV is exactly zero (in particular when the label is right) the returned position is not a number. When the reference is itself among the used points (modes 'all' and 'distance') its own zero delay pulls the estimate towards the label by the factor (m-1)/m. Parallel CMVs never give a finite position. The report lists the used points with planned, implied and error distances; delays are matched to sites by position.", "quantifier": "all layouts, all true positions, all pairs of CMVs, all selections", "why_tests_cant": "Continuum of geometries plus a degenerate set.", "anchors": ["src/solarspatialtools/field.py:compute_predicted_position", "src/solarspatialtools/spatial.py:compute_intersection"]}
{"id": "C31", "title": "Predicted position point selection", "statement": "mode 'coherence' (alias 'preavg') uses for each CMV the finite-coherence sites ranked just below the single most coherent one (normally the reference itself): ndownsel-1 of them or as many as there are; 'global_coherence' ranks by the sum of squares, NaN highest, and uses the same sites for both; 'distance' uses the min(ndownsel, n) nearest sites, reference included; 'all' uses all in order; any other mode raises ValueError. ndownsel = 1 with 'coherence' uses nothing; ndownsel = 0 uses all but the top. With valid inputs the call always succeeds.", "quantifier": "all coherence vectors, all ndownsel", "why_tests_cant": "Rank selection for arbitrary vectors.", "anchors": ["src/solarspatialtools/field.py:compute_predicted_position"]}
{"id": "C32", "title": "Error metric ordering", "statement": "For any two equally long non-empty series: rmse = sqrt(mse), |mbe| <= mae <= rmse <= max absolute error, mse = mbe^2 + variance of the error. Series of unequal lengths are refused unless one has a single value, which is then broadcast; empty series give NaN.", "quantifier": "all pairs of series of any length", "why_tests_cant": "Inequalities over all inputs.", "anchors": ["src/solarspatialtools/stats.py:rmse", "src/solarspatialtools/stats.py:mse", "src/solarspatialtools/stats.py:mae", "src/solarspatialtools/stats.py:mbe"]}
{"id": "C33", "title": "Error metric identity, symmetry and units", "statement": "mse, rmse and mae vanish exactly when the two series are equal and are symmetric in their arguments; mbe changes sign when they are swapped; all are unchanged by adding the same series to both and scale with |k| (k for mbe, k^2 for mse); rmse and mae satisfy the triangle inequality.", "quantifier": "all series of any length and all scale factors", "why_tests_cant": "Algebraic laws over all inputs.", "anchors": ["src/solarspatialtools/stats.py:rmse", "src/solarspatialtools/stats.py:mse", "src/solarspatialtools/stats.py:mae", "src/solarspatialtools/stats.py:mbe", "src/solarspatialtools/stats.py:bias_error"]}
{"id": "C34", "title": "Error metrics on pandas Series align on the index and skip missing values", "statement": "With Series inputs errors are paired by index label, not by position: permuting one input's rows does not change mse/mae/mbe; labels present in only one input are ignored; with identical index order the result equals the array result.", "quantifier": "all Series with unique labels", "why_tests_cant": "All permutations/overlaps of labels.", "anchors": ["src/solarspatialtools/stats.py:bias_error", "src/solarspatialtools/stats.py:mse", "src/solarspatialtools/stats.py:mae", "src/solarspatialtools/stats.py:mbe"]}
{"id": "C35", "title": "Variability score is max over ramps of size times exceedance", "statement": "variability_score is >= 0, is at most the largest ramp, and when all ramp sizes are distinct equals the maximum over ramps of |ramp| times the fraction of ramps strictly larger; with ties each tied ramp additionally counts (ties-1)/2 of its equals, so the documented definition is exceeded (a steady ramp scores about half its ramp rate instead of 0).", "quantifier": "all series of any length", "why_tests_cant": "Rank statistics over all inputs incl. ties.", "anchors": ["src/solarspatialtools/stats.py:variability_score"]}
{"id": "C36", "title": "Variability score invariances", "statement": "variability_score does not change when a constant is added, when the series is negated, or when it is reversed in time; it scales with |k|; it is 0 for a constant series; pct=True multiplies it by 1/10; with moving_avg and tau > 1 it equals the tau = 1 score of the block means.", "quantifier": "all series, all factors, all tau", "why_tests_cant": "Algebraic laws over all inputs.", "anchors": ["src/solarspatialtools/stats.py:variability_score"]}
{"id": "C37", "title": "Variability index bounds and invariances", "statement": "variability_index of a series against itself is 1 (sqrt(dt) with norm); it is positive; it is unchanged when constants are added to either input; it is at least 1 when the clear-sky series is constant, and grows when any ghi ramp grows; non-pandas input raises TypeError.", "quantifier": "all series with at least two samples and positive step", "why_tests_cant": "All inputs.", "anchors": ["src/solarspatialtools/stats.py:variability_index"]}
{"id": "C38", "title": "DARR is the total variation", "statement": "darr is >= 0, zero exactly for constant series (tau=1), at least |last-first| with equality exactly for monotone series, additive when series are joined at a shared sample, scales with |k|, pct=True equals darr/10, darr with tau=k (no averaging) is at most k times darr; non-pandas input raises TypeError.", "quantifier": "all series of any length", "why_tests_cant": "All inputs.", "anchors": ["src/solarspatialtools/stats.py:darr"]}
{"id": "C39", "title": "calc_quantile is causal and windowed", "statement": "calc_quantile returns one row per input timestamp, in order; the value at (day D, time t) is the linear-interpolated quantile over the non-missing values at time t on days D-n..D-1 (for midnight: D-n..D), is missing when day D-n has no data or D is later than the last day, and so never depends on data after midnight of day D or before day D-n.", "quantifier": "all daily-gridded series, windows and quantile levels", "why_tests_cant": "Windows over arbitrary calendars with gaps.", "anchors": ["src/solarspatialtools/stats.py:calc_quantile"]}
{"id": "C40", "title": "clearsky_index is bounded and sanitised", "statement": "For non-table input the result is NaN exactly when an input is non-finite, otherwise lies in [0, max_clearsky_index], equals ghi/clearsky when that ratio lies in range, and is 0 for zero clear-sky or negative ratio. For DataFrame input the bound is always 2: the max_clearsky_index argument is ignored.", "quantifier": "all numeric inputs incl. NaN/inf, all bounds >= 0", "why_tests_cant": "IEEE special values over all inputs.", "anchors": ["src/solarspatialtools/irradiance.py:clearsky_index"]}
{"id": "C41", "title": "correlation returns every lag with the stated value", "statement": "correlation(a, b, 'none') returns len(a)+len(b)-1 values with lags -(len(b)-1)..len(a)-1 in increasing order; the value at lag L is the sum over n of a[n+L]*b[n] over indices valid in both; swapping the arguments reverses the lag axis.", "quantifier": "all signal pairs of any lengths", "why_tests_cant": "All lengths and all lags.", "anchors": ["src/solarspatialtools/signalproc.py:correlation"]}
{"id": "C42", "title": "Normalised correlation is bounded by one", "statement": "With scaling 'coeff' and equally long non-constant signals every value lies in [-1,1], the zero-lag value is Pearson's coefficient, autocorrelation is 1 at lag 0, and the result is unchanged by adding constants or positive rescaling of either signal (sign flips under negative rescaling). With 'energy' autocorrelation peaks at lag 0 with value 1. Scaling names are case-insensitive, unknown names raise ValueError.", "quantifier": "all signals of any length", "why_tests_cant": "Cauchy-Schwarz over all inputs.", "anchors": ["src/solarspatialtools/signalproc.py:correlation"]}
{"id": "C43", "title": "Unbiased correlation rescales by overlap", "statement": "For equally long signals the unbiased variants equal the biased ones multiplied by N/(N-|lag|), leave lag 0 unchanged, never shrink a value's magnitude, and may exceed 1. For signals of unequal length the divisor can be zero or negative.", "quantifier": "all signals and lags", "why_tests_cant": "All lengths and lags.", "anchors": ["src/solarspatialtools/signalproc.py:correlation"]}
{"id": "C44", "title": "Cross-correlation delay is an optimal grid delay", "statement": "compute_delays (loop) and xcorr_delay return for each pair a delay that is an integer multiple of the sampling step with magnitude at most (N-1) steps, where the correlation at that lag is maximal over all lags (the largest delay among ties), so reported peak_corr >= zero_corr and >= mean_corr; with scaling 'none', a pair whose peak is below 1e-10 gets delay 0. With 'coeff', a constant signal gives NaN metrics and the spurious delay (N-1)*dt rather than 0, and mean_corr is 0 for every pair of non-constant signals.", "quantifier": "all signal tables of any size", "why_tests_cant": "All inputs.", "anchors": ["src/solarspatialtools/signalproc.py:compute_delays", "src/solarspatialtools/signalproc.py:xcorr_delay"]}
{"id": "C45", "title": "Cross-correlation delay recovers a pure shift", "statement": "If the second signal is the first delayed by s samples, the non-zero part of both fitting inside the record, the raw cross-correlation has its unique maximum at delay +s samples, for every s with |s| < N.", "quantifier": "all finite signals, all shifts", "why_tests_cant": "Universal over signals; strict Cauchy-Schwarz.", "anchors": ["src/solarspatialtools/signalproc.py:compute_delays", "src/solarspatialtools/signalproc.py:correlation"]}
{"id": "C46", "title": "FFT and loop correlation backends agree", "statement": "For every pair, the zero-padded FFT correlation equals the direct correlation at every lag after re-centring; hence mode 'fft' and mode 'loop' of compute_delays report the same peak and mean correlation and, when the maximum is unique, the same delay. With tied maxima the delays may differ, and a constant column gets delay 0 in 'fft' mode. In 'fft' mode zero_corr is not a vector. _fftcorrelate with 'coeff' accepts one pair but fails on a general number of pairs (row scaling is applied along the lag axis).", "quantifier": "all signal tables of any size", "why_tests_cant": "DFT identity for every length.", "anchors": ["src/solarspatialtools/signalproc.py:compute_delays", "src/solarspatialtools/signalproc.py:_fftcorrelate"]}
{"id": "C47", "title": "averaged_psd Series and DataFrame agree only for default scaling", "statement": "averaged_psd of a Series equals averaged_psd of the corresponding one-column DataFrame when scaling is 'density'; any other scaling argument is ignored for Series input. A table without columns raises ValueError. A negative overlap is accepted and skips samples between the segments.", "quantifier": "all series and arguments; any Welch implementation", "why_tests_cant": "Argument-passing property over all arguments.", "anchors": ["src/solarspatialtools/signalproc.py:averaged_psd"]}
{"id": "C48", "title": "averaged_tf column pairing", "statement": "averaged_tf pairs columns i with i when the counts agree, broadcasts a single column against all columns of the other side, names each result in_out accordingly, and raises ValueError for any other count combination and for tables without columns; compute_delays_tf rejects the same combinations. Column names need not be unique even for unique inputs.", "quantifier": "all column lists", "why_tests_cant": "Any number of columns.", "anchors": ["src/solarspatialtools/signalproc.py:averaged_tf", "src/solarspatialtools/signalproc.py:compute_delays_tf"]}
{"id": "C49", "title": "Coherence lies in [0,1] and the transfer function is the H1 estimate", "statement": "At every frequency with non-zero spectra coherence is between 0 and 1, equals 1 when a single segment is averaged or when the output segments are a constant complex multiple of the input segments, in which case the transfer function equals that multiple.", "quantifier": "all segment spectra, any number of segments", "why_tests_cant": "Cauchy-Schwarz over all inputs.", "anchors": ["src/solarspatialtools/signalproc.py:averaged_tf"]}
{"id": "C50", "title": "interp_tf reproduces the nodes and interpolates magnitude and phase", "statement": "interp_tf at an existing frequency returns the original complex value; between nodes the magnitude stays between the neighbouring magnitudes; phase unwrapping changes each phase only by whole turns and makes successive jumps at most pi; frequencies outside the range raise ValueError; row order of the input does not matter.", "quantifier": "all transfer functions on distinct frequencies and all query frequencies", "why_tests_cant": "Continuum of queries, arbitrary tables.", "anchors": ["src/solarspatialtools/signalproc.py:interp_tf"]}
{"id": "C51", "title": "tf_delay 'multi' is the masked-sum phase slope", "statement": "tf_delay(method='multi') returns for each column the delay at which the sum of masked phase residuals is zero, i.e. minus the masked phase sum over 2 pi times the masked frequency sum, whenever that frequency sum is non-zero; it recovers any exactly linear phase. When no bin (or only frequency zero) passes the mask it returns 0, where method 'fit' returns NaN.", "quantifier": "all phase tables and masks, any least-squares solver started at 0", "why_tests_cant": "All masks and tables.", "anchors": ["src/solarspatialtools/signalproc.py:tf_delay"]}
{"id": "C52", "title": "tf_delay masks and compute_delays_tf extras", "statement": "A frequency bin is used exactly when its coherence exceeds coh_limit (or that is None) and its frequency is below freq_limit (or that is None); reported mean_coh lies in [0,1], counting missing coherence as 0, and does not depend on coh_limit; compute_delays_tf cannot be called with freq_limit None.", "quantifier": "all coherence tables and limits", "why_tests_cant": "All inputs.", "anchors": ["src/solarspatialtools/signalproc.py:tf_delay", "src/solarspatialtools/signalproc.py:compute_delays_tf"]}
{"id": "C53", "title": "TF backend correlation metrics", "statement": "With compute_xcorr the reported peak_corr is the linear interpolation of the correlation curve at minus the estimated delay: it equals the curve at grid lags, lies between the two neighbouring grid values, never exceeds the true peak, and is NaN exactly when the delay is NaN or outside the lag range; zero_corr is the lag-0 value.", "quantifier": "all correlation curves and delays", "why_tests_cant": "Continuum of delays.", "anchors": ["src/solarspatialtools/signalproc.py:compute_delays_tf"]}
{"id": "C54", "title": "apply_delay is a unitary one-parameter group", "statement": "apply_delay keeps every magnitude, leaves zero frequency unchanged, applying d1 then d2 equals applying d1+d2, applying -d undoes d; measuring with tf_delay ('multi') a flat transfer function delayed by d returns d when consecutive phase steps stay below pi.", "quantifier": "all transfer functions and delays", "why_tests_cant": "Continuum.", "anchors": ["src/solarspatialtools/signalproc.py:apply_delay", "src/solarspatialtools/signalproc.py:tf_delay"]}
{"id": "C55", "title": "get_1d_plant places each site on the grid", "statement": "With 'square', a grid point is 1 exactly when it lies within half a width (left-closed, right-open) of some site, else 0, so the order and repetition of sites is irrelevant; with the default width each site inside the grid marks exactly one point. 'gaussian' is the sum of unit-height bumps and is permutation invariant; 'triangle' depends on site order where sites overlap. Unknown shapes raise ValueError.", "quantifier": "all site lists, grids and widths", "why_tests_cant": "All lists and grids.", "anchors": ["src/solarspatialtools/signalproc.py:get_1d_plant"]}
{"id": "C56", "title": "CAM filter has unit DC gain and is passive", "statement": "plant1d_to_camfilter of a non-negative plant with non-zero total has value exactly 1 at frequency 0 and magnitude at most 1 everywhere; reversing the cloud direction conjugates it; scaling the plant does not change it.", "quantifier": "all non-negative plants of any size, all non-zero speeds", "why_tests_cant": "DFT claims for every size.", "anchors": ["src/solarspatialtools/signalproc.py:plant1d_to_camfilter"]}
{"id": "C57", "title": "CAM filter phase reference", "statement": "For a plant with a single site at grid position x0 the filter at every frequency f is the pure delay exp(-2 pi i f x0/speed) when the grid is symmetric (2*xmin is a whole multiple of grid length); on an asymmetric grid (odd xmax) the phase has the wrong sign of the grid origin and a site at the reference is reported with a spurious delay.", "quantifier": "all grids, sites, speeds", "why_tests_cant": "All grids; hidden by even default.", "anchors": ["src/solarspatialtools/signalproc.py:plant1d_to_camfilter", "src/solarspatialtools/signalproc.py:get_1d_plant"]}
{"id": "C58", "title": "apply_filter with a flat filter is the identity", "statement": "apply_filter with a constant-1 filter covering the signal's frequencies returns the signal unchanged, a constant gain c scales it by c, the filter acts linearly on signals; a filter whose maximum frequency is below the signal's raises ValueError, as does (through interpolation) a one-sided filter applied to any signal with a negative frequency.", "quantifier": "all signals of any length", "why_tests_cant": "DFT identity for every length.", "anchors": ["src/solarspatialtools/signalproc.py:apply_filter", "src/solarspatialtools/signalproc.py:interp_tf"]}
{"id": "C59", "title": "Marcos filter is a first-order low-pass", "statement": "get_marcosfilter(s) for s > 0 has value 1 at frequency 0, magnitude 1/sqrt(1+(f/fc)^2) with fc = 0.02/sqrt(s): at most 1, decreasing in |f| and in s, half power at fc, and conjugate symmetric.", "quantifier": "all sizes and frequencies", "why_tests_cant": "Continuum.", "anchors": ["src/solarspatialtools/signalproc.py:get_marcosfilter"]}
{"id": "C60", "title": "cleanfreq edits only the middle label, in place", "statement": "cleanfreq modifies the index of the very object passed in, replaces exactly the label at position n//2 and leaves values, length and other labels alone; it returns nothing although documented to return the signal, and a second call changes nothing more. Empty input raises IndexError.", "quantifier": "all signals and call histories", "why_tests_cant": "In-place mutation over histories.", "anchors": ["src/solarspatialtools/signalproc.py:cleanfreq"]}
{"id": "C61", "title": "Copula mixture keeps the requested mean", "statement": "The mixture parameters satisfy w1+w2=1 and w1*mu1+w2*mu2 = meanCSI exactly, for every meanCSI and parameter set with w1 != 0; the sigmoid lies strictly in (0,1), is monotone for positive slope and is 1/2 at its centre; with 0 < comp[0] <= 1 both weights lie in (0,1); standard deviations are positive.", "quantifier": "all mean CSI values and parameters", "why_tests_cant": "Algebraic identity over a continuum.", "anchors": ["src/solarspatialtools/synthirrad/copula.py:_process_params", "src/solarspatialtools/synthirrad/copula.py:_sigmoid"]}
{"id": "C62", "title": "Copula decay parameter is floored", "statement": "_exponential_decay_parameter returns max(p*K*(1-K), 1e-5), element-wise for arrays; always >= 1e-5; symmetric in K and 1-K, so it is not monotone in K as documented.", "quantifier": "all K and p", "why_tests_cant": "Continuum, scalar and array paths.", "anchors": ["src/solarspatialtools/synthirrad/copula.py:_exponential_decay_parameter"]}
{"id": "C63", "title": "Discretised mixture CDF is a CDF", "statement": "For any non-empty list of evaluation points the returned cdf is non-decreasing, positive and ends at exactly 1; each increment is proportional to the pdf value. A single point always gets cdf 1.", "quantifier": "all point lists and mixtures", "why_tests_cant": "Any list length.", "anchors": ["src/solarspatialtools/synthirrad/copula.py:_gmdistribution"]}
{"id": "C64", "title": "Inverse sampling inverts the CDF and stays in [-2,2]", "statement": "_inverse_sample returns the original x at every CDF node below 1 (first index for repeated values), is non-decreasing in r when x is non-decreasing, stays within [-2,2] when all x do, returns -2 for r <= 0 and 2 for r >= 1.", "quantifier": "all cdf tables and all r", "why_tests_cant": "Continuum and arbitrary tables.", "anchors": ["src/solarspatialtools/synthirrad/copula.py:_inverse_sample"]}
{"id": "C65", "title": "Copula covariance is a correlation matrix", "statement": "The matrix handed to the sampler is symmetric with unit diagonal and entries in (0,1], decreasing with distance, and equals 1 off the diagonal exactly for space-time points connected by cloud drift.", "quantifier": "all layouts, times, cloud motions, positive decay", "why_tests_cant": "All matrix sizes.", "anchors": ["src/solarspatialtools/synthirrad/copula.py:_space_time_copula", "src/solarspatialtools/spatial.py:spacetime_distances"]}
{"id": "C66", "title": "downscale output contract", "statement": "downscale returns one row per time and one column per site; with noneg every value is >= 0; with scale the overall mean equals mean_csi exactly whenever the unscaled mean is non-zero; with both off every value lies in [-2,2]; the result is a function of the arguments and seed only.", "quantifier": "all layouts, times, parameters, seeds; any sampler", "why_tests_cant": "All sizes and random draws.", "anchors": ["src/solarspatialtools/synthirrad/copula.py:downscale"]}
{"id": "C67", "title": "downscale routes each sample to its own site and time", "statement": "The value in row t, column s of downscale's output is produced from the random variate whose covariance row describes site s at time t.", "quantifier": "all numbers of sites and times", "why_tests_cant": "Index bookkeeping for every size.", "anchors": ["src/solarspatialtools/synthirrad/copula.py:downscale", "src/solarspatialtools/spatial.py:spacetime_distances"]}
{"id": "C68", "title": "downscale_multihour concatenates hours", "statement": "downscale_multihour returns, hour after hour, the rows of downscale called with that hour's mean, times, parameters, speed and direction; its length is the sum of the hours' time counts; mismatched list lengths raise ValueError. The speed argument is validated by the type of the direction argument: a scalar direction with a list of speeds is not split by hour, and a list of directions with a scalar speed raises TypeError. All hours share one seed, so equal hours get identical samples.", "quantifier": "all hour lists and argument shapes", "why_tests_cant": "All combinations of argument forms and lengths.", "anchors": ["src/solarspatialtools/synthirrad/copula.py:downscale_multihour"]}
{"id": "C69", "title": "Interpolated random field stays within its random values", "statement": "_random_at_scale returns a field of exactly the requested size all of whose values lie between the minimum and maximum of the coarse random array (hence in [0,1)), whatever the coarse size (0 and 1 included), and reproduces the coarse corners.", "quantifier": "all sizes and random draws", "why_tests_cant": "All sizes and draws.", "anchors": ["src/solarspatialtools/synthirrad/cloudfield.py:_random_at_scale"]}
{"id": "C70", "title": "Scale weights are a convex combination", "statement": "_calc_vs_weights (0 < vs < 180, positive scales) and _calc_wavelet_weights (not all zero) return non-negative weights summing to 1, non-decreasing in scale for the former; negative vs raises ValueError; hence the unnormalised stacked field lies in [0,1].", "quantifier": "all scale lists and wavelets", "why_tests_cant": "All inputs.", "anchors": ["src/solarspatialtools/synthirrad/cloudfield.py:_calc_vs_weights", "src/solarspatialtools/synthirrad/cloudfield.py:_calc_wavelet_weights", "src/solarspatialtools/synthirrad/cloudfield.py:_stack_random_field"]}
{"id": "C71", "title": "Stacked field normalisation", "statement": "_stack_random_field rejects unequal weight/scale lists, is the weighted sum of the per-scale fields, and with normalize=True on a non-constant field has minimum exactly 0 and maximum exactly 1 and preserves order.", "quantifier": "all weights, scales, sizes and draws", "why_tests_cant": "All sizes and draws.", "anchors": ["src/solarspatialtools/synthirrad/cloudfield.py:_stack_random_field"]}
{"id": "C72", "title": "Clear mask covers the requested fraction", "statement": "_calc_clear_mask returns only 0/1 values, marks as clear a lower level set of the field, and when field values are distinct the clear fraction differs from the request by at most one pixel; requests outside [0,1] raise ValueError. The final self-check (relative tolerance 1e-3) makes it fail with AssertionError on legitimate small fields.", "quantifier": "all fields and fractions", "why_tests_cant": "Quantile over all fields.", "anchors": ["src/solarspatialtools/synthirrad/cloudfield.py:_calc_clear_mask"]}
{"id": "C73", "title": "Edges mark only transitions", "statement": "_find_edges returns zero edge strength wherever the 3x3 neighbourhood is constant; edge strength is never negative; a constant mask has no edges anywhere; complementing the mask does not change the edges.", "quantifier": "all masks of any size", "why_tests_cant": "All masks.", "anchors": ["src/solarspatialtools/synthirrad/cloudfield.py:_find_edges"]}
{"id": "C74", "title": "Lave scaling hits the target mean and respects masks", "statement": "_scale_field_lave sets every clear pixel to exactly 1 and every non-clear edge pixel in [1, ktmax], keeps cloud pixels >= 0, and its overall mean equals ktmean exactly whenever the required cloud sum is positive and the cloudy area has non-zero brightness. Cloudy pixels can exceed 1. A quantile outside [0, 1] raises ValueError.", "quantifier": "all fields, masks and targets", "why_tests_cant": "All fields and masks.", "anchors": ["src/solarspatialtools/synthirrad/cloudfield.py:_scale_field_lave"]}
{"id": "C75", "title": "Basic scaling hits the target mean or reports failure", "statement": "_scale_field_basic sets clear pixels to 1 (or at least the smoothing floor), and in the matching branch the mean equals ktmean exactly; otherwise cloud pixels follow the fixed kt1pct..1 map; cloud pixels are always >= kt1pct for kt1pct <= 1. In the matching branch cloud pixels may exceed 1 although the code comment claims otherwise. A quantile outside [0, 1] raises ValueError.", "quantifier": "all fields, masks and targets", "why_tests_cant": "All fields and masks.", "anchors": ["src/solarspatialtools/synthirrad/cloudfield.py:_scale_field_basic"]}
{"id": "C76", "title": "Positional time series are shifted copies (frozen field)", "statement": "get_positional_ts returns duration+1 consecutive samples of one field column when they fit, and fewer without warning when they do not; a target displaced along the motion by k pixels yields the same series k steps later; positions across the motion select different columns; out-of-range columns raise IndexError; negative positions wrap as Python slices do.", "quantifier": "all fields, positions, speeds, durations", "why_tests_cant": "Slice semantics for all indices.", "anchors": ["src/solarspatialtools/synthirrad/cloudfield.py:get_positional_ts"]}
{"id": "C77", "title": "Time series statistics are consistent", "statement": "get_timeseries_stats returns min <= 1st percentile, mean <= max, clear fraction in [0,1] equal to the share of samples above the threshold (missing samples count as not clear), scales 1..m with one weight per scale, weights non-negative summing to one.", "quantifier": "all series; any wavelet decomposition", "why_tests_cant": "All series.", "anchors": ["src/solarspatialtools/synthirrad/cloudfield.py:get_timeseries_stats"]}
{"id": "C78", "title": "Flag and null QC only remove data", "statement": "flag_qc and null_qc leave every kept value identical, blank exactly the samples with flag >= level (respectively value < -100; a missing flag never blanks), are idempotent and commute.", "quantifier": "all tables", "why_tests_cant": "All tables.", "anchors": ["src/solarspatialtools/dataio/hope_campaign.py:flag_qc", "src/solarspatialtools/dataio/hope_campaign.py:null_qc"]}
{"id": "C79", "title": "interp_nan never touches data far from long gaps and its gap rule", "statement": "interp_nan changes an observed sample only by blanking it, exactly when it lies `limit` samples from a position whose last `limit` samples are all still missing (and not within `limit` of either end); samples at most `limit` steps into a gap between observations get the linear interpolation of its two neighbours; leading and trailing gaps are never filled. If the column starts with an observation, every gap is shorter than 2*limit and the trailing gap shorter than limit, nothing is blanked. The documented rule that longer gaps stay missing is false: the first samples of a longer gap are filled; a gap of 2*limit or more erases observations behind it, and any leading gap erases the sample `limit` from the start. Columns shorter than 2*limit raise.", "quantifier": "all 1 Hz columns of any length and any gap pattern, any limit", "why_tests_cant": "Exponentially many gap patterns.", "anchors": ["src/solarspatialtools/dataio/hope_campaign.py:interp_nan"]}
{"id": "C80", "title": "getfiles returns exactly the matching names", "statement": "getfiles returns each directory entry whose extension equals ext exactly once (all entries when ext is None), in ascending order when sort is requested, independent of the order the OS lists them.", "quantifier": "all directory listings", "why_tests_cant": "OS order is arbitrary.", "anchors": ["src/solarspatialtools/dataio/iotools.py:getfiles"]}
{"id": "C81", "title": "Downloads resume and their crash window", "statement": "wget_fromurl after a completed run leaves every listed file present and downloads nothing on a second run; files already present are never overwritten; after a crash between files a re-run downloads exactly the missing ones. After a crash in the middle of one file the truncated file is kept and never repaired by any number of re-runs.", "quantifier": "all file lists, all crash points, any number of re-runs", "why_tests_cant": "Crash points and histories.", "anchors": ["src/solarspatialtools/dataio/iotools.py:wget_fromurl", "src/solarspatialtools/dataio/iotools.py:download"]}
{"id": "C82", "title": "dataset_to_h5 never silently mixes datasets", "statement": "dataset_to_h5 without overwrite raises and changes nothing if the target exists; with overwrite (or no target) the result is the files' rows appended in file-name order with the first file's station table, independent of any previous contents, so repeating it gives the same file. After a crash part way the target exists and a plain re-run raises, while an overwrite re-run yields the complete result.", "quantifier": "all directories, prior contents and crash points", "why_tests_cant": "Crash points and histories.", "anchors": ["src/solarspatialtools/dataio/hope_campaign.py:dataset_to_h5"]}
{"id": "C83", "title": "NRCAN process_files appends on every run", "statement": "process_files builds one column per sensor file on the first sensor's time base, whatever the order of the rows in a file, skipping latlon files; a repeated time stamp in a file makes the whole conversion fail with nothing written; since it appends to an existing target, running it k times stores k copies of the rows.", "quantifier": "all file lists and run counts", "why_tests_cant": "Histories of runs.", "anchors": ["src/solarspatialtools/dataio/nrcan_data.py:process_files"]}
{"id": "C84", "title": "The generated cloud field honours size, clear fraction and cloud enhancement", "statement": "cloudfield_timeseries returns a field of the requested size whose clear part has value exactly 1 and covers the requested fraction within the self-check tolerance; where the clear part lies depends only on the second half of the random draws; outside it, pixels at (smoothed) mask transitions are brightened into 1..ktmax and all others are one common scaling of the cloud brightness. A request without clear sky always succeeds, a request for fully clear sky always raises.", "quantifier": "all sizes, weights, scales, targets and random draws", "why_tests_cant": "Random draws and sizes are unbounded.", "anchors": ["src/solarspatialtools/synthirrad/cloudfield.py:cloudfield_timeseries"]}
{"id": "C85", "title": "The HOPE command line's file and cleaning options", "statement": "The -h5 option builds a missing target, and keeps or rebuilds an existing one as the user answers; an inconsistent dataset is mistaken for an existing target, so declining ends normally with an incomplete file. The -q option accepts exactly null, flag (level 2) and interp (null, then gaps with limit 5), raises on anything else, keeps column labels and time stamps, writes cleaned data, flags and stations independent of the old target, and keeps the target when the user declines. Interrupted right after the removal it leaves nothing; repeating it and agreeing always completes.", "quantifier": "all datasets, prior targets, answers and crash points", "why_tests_cant": "Crash points and interaction histories.", "anchors": ["src/solarspatialtools/dataio/hope_campaign.py:_main"]}
{"id": "C86", "title": "NRCAN resampling holds the last measurement", "statement": "Irregular samples are put on every multiple of 10 ms from the first sample's to the last sample's, each label holding the latest sample at or before it (missing if none). Samples already exactly 10 ms apart instead keep their values and are relabelled down to the grid, so a label can hold a later measurement.", "quantifier": "all sample times and values", "why_tests_cant": "Arbitrary irregular time stamps.", "anchors": ["src/solarspatialtools/dataio/nrcan_data.py:process_files"]}
{"id": "C87", "title": "Tables of different shapes in compute_delays", "statement": "With a different number of columns 'fft' mode raises ValueError, and so does 'coeff' unless one side has a single column; 'loop' mode with 'none' raises IndexError for extra second columns but silently reports delay 0 and zero metrics for first columns without partner. A single first column against two or more second columns raises IndexError also under 'coeff'. With a different number of rows 'loop' mode does not object: a shorter second table makes every delay (n-m) steps too large, a longer one (m-n) steps too small or an IndexError. When the first two time stamps are equal, 'loop' mode raises ValueError while 'fft' mode answers with delay 0 for every pair.", "quantifier": "all table shapes and contents", "why_tests_cant": "All shape combinations.", "anchors": ["src/solarspatialtools/signalproc.py:compute_delays"]}
{"id": "C88", "title": "Spectral densities are non-negative and account for the signal's power", "statement": "Every value averaged_psd reports is non-negative, and the one-sided densities summed over frequency times the frequency step equal the average power of the detrended, windowed segments divided by the power of the window.", "quantifier": "all signals, windows and segmentations", "why_tests_cant": "Parseval's identity over unbounded lengths.", "anchors": ["src/solarspatialtools/signalproc.py:averaged_psd"]}
{"id": "C89", "title": "What the motion fits return on any data", "statement": "Whenever compute_cmv fits and all passing pairs have finite delays: 'jamaly' never sees a zero delay, reports the apparent speed of every passing pair along the direction picked by the minimiser (which is given the variance of these speeds), returns the magnitude of their median with the direction reversed for a negative median, and flags TREND exactly when the 60%-40% quantile spread exceeds 0.4 of the median. 'gagne' turns the least-squares slowness a into speed 1/|a| along a, and into NaN when a is zero.", "quantifier": "all networks, signals, delay backends and optimisers", "why_tests_cant": "Quantifies over optimisers and arbitrary inconsistent delays.", "anchors": ["src/solarspatialtools/cmv.py:compute_cmv"]}
{"id": "C90", "title": "get_camfilter depends only on along-wind site offsets", "statement": "get_camfilter equals the one-dimensional filter of sites placed at their signed distances from the reference along the cloud direction: scaling the direction vector, translating all positions with the reference and moving sites across the wind change nothing; for square sites order and repetition are irrelevant; one site on a grid point at distance t is the pure delay t/speed (even xmax divisible by dx); a zero direction makes every value NaN. With lat/lon columns every site and the reference is converted in its own UTM zone; without either pair of columns it raises KeyError, and a plant without sites raises ValueError.", "quantifier": "all site lists, references, directions, speeds and grids", "why_tests_cant": "The invariances relate infinitely many geometries.", "anchors": ["src/solarspatialtools/signalproc.py:get_camfilter", "src/solarspatialtools/signalproc.py:get_1d_plant", "src/solarspatialtools/signalproc.py:plant1d_to_camfilter"]}
{"id": "C91", "title": "field.compute_delays compares every column with the reference, one at a time", "statement": "field.compute_delays returns one delay and one mean coherence per column of the table (the reference included), in column order, each being what the pair (reference, column) alone gives: other columns have no influence. An unknown reference raises KeyError; otherwise success depends on the reference alone. With method 'multi' the reference's own delay is exactly 0 (NaN if it has no energy) and its mean coherence is the share of bins below the frequency limit in which it has energy.", "quantifier": "all tables, references, methods, limits and numbers of averages", "why_tests_cant": "Ranges over every table and signal.", "anchors": ["src/solarspatialtools/field.py:compute_delays", "src/solarspatialtools/signalproc.py:compute_delays_tf"]}
{"id": "C92", "title": "ensurepath creates exactly the missing directories and can be resumed", "statement": "ensurepath does nothing when the path exists (as directory or file); otherwise it creates exactly the missing directories on the way, outermost first, and touches nothing else; if a file is in the way it raises and creates nothing. Interrupted after any number of creations, a second call completes the rest. A file at the path itself is accepted silently.", "quantifier": "all directory trees, paths and crash points", "why_tests_cant": "Crash points and arbitrary trees.", "anchors": ["src/solarspatialtools/dataio/iotools.py:ensurepath"]}
{"id": "C93", "title": "The histograms of scatter_hist count every sample once", "statement": "scatter_hist uses bins of width 0.25, symmetric about zero, reaching strictly beyond every value on both axes and by no more than one bin; each count is the number of samples in its bin and every sample is counted once on each axis. It raises exactly for empty or differently long sequences or a missing value in the first; a missing value in the second hides that sequence's range.", "quantifier": "all pairs of sequences", "why_tests_cant": "Ranges over all real data and gap patterns.", "anchors": ["src/solarspatialtools/visualization/vis_tools.py:scatter_hist"]}
{"id": "C94", "title": "compute_cmv end to end: from irradiance records to delays, verdicts and velocity", "statement": "With its own delay estimators in place, compute_cmv succeeds with 'xcorr' on every table of at least two rows that has a column per site. Each pair's delay is minus the first lag at which the normalised correlation of the two complete, non-constant columns is largest (0 if that is below 1e-10), its figure is that correlation, and an incomplete or constant pair gets NaN figures and is never GOOD. With the spectral estimator a pair's delay is the one compute_delays_tf gives for that pair alone, and gaps only count in rows its segments read. A jamaly pair is GOOD exactly when it joins different sites, both signals are bright and variable enough, the peak correlation reaches the limit and the apparent speed lies within the limits. If all records show one disturbance travelling with constant velocity at whole-sample delays, with the record mean at the background level, every delay is exact and the velocity is recovered exactly. Without the condition on the mean a pure shift need not be recovered.", "quantifier": "all tables, sites, time steps, references, options, windows, detrenders and solvers", "why_tests_cant": "Quantifies over all signals and optimisers; the recovery law relates infinitely many records.", "anchors": ["src/solarspatialtools/cmv.py:compute_cmv", "src/solarspatialtools/signalproc.py:compute_delays", "src/solarspatialtools/signalproc.py:compute_delays_tf"]}
{"id": "C95", "title": "compute_cmv succeeds or raises a definite exception", "statement": "compute_cmv succeeds whenever method and delay backend are known, some site is a reference site, every site has a column, the delay routine succeeds and the options are admissible. Otherwise, in this order of precedence: an unknown method or backend raises ValueError, no reference site IndexError, a site without a column KeyError, an exception of the delay routine is passed on, inadmissible options raise ValueError.", "quantifier": "all tables, positions, references, methods, options and backends", "why_tests_cant": "The order of the checks matters for every combination of defects.", "anchors": ["src/solarspatialtools/cmv.py:compute_cmv"]}
{"id": "C96", "title": "parse_file labels values, flags and stations correctly or raises", "statement": "parse_file succeeds exactly when all six variables are present, the latitude and longitude counts equal the number of stations and both value arrays have one row per time and one column per station. It then returns tables whose columns are the station ids in file order, whose stamps are the file's times, and whose entry for a time and a station is the file's value (fill values included); each station has its own coordinates. Otherwise a missing variable raises IndexError and a wrong shape ValueError, in the order in which they are read.", "quantifier": "all contents of the six variables", "why_tests_cant": "Ranges over all array shapes and contents.", "anchors": ["src/solarspatialtools/dataio/hope_campaign.py:parse_file"]}
{"id": "C97", "title": "The command line of hope_campaign: complete, repeatable, resumable", "statement": "An unknown dataset (in any letter case) raises ValueError and touches nothing. If nothing is in the way, everything is served and readable, a run finishes: the directory then holds its earlier files plus every file of the script, and with -h5 the h5 file holds all netCDF files in name order unless the user keeps an old one. With -q a second h5 file gets the cleaned values; the first one is untouched. A finished run without -m repeated with the answer no changes nothing, whatever files are then served for the same script. A run interrupted anywhere and repeated with the answer yes gives the files and the h5 file of an uninterrupted run, provided no data file was cut off in the middle; otherwise it may never finish again.", "quantifier": "all servers, scripts, directory states, user answers and crash points of every phase", "why_tests_cant": "Quantifies over crash points, histories and servers.", "anchors": ["src/solarspatialtools/dataio/hope_campaign.py:_main", "src/solarspatialtools/dataio/hope_campaign.py:dataset_to_h5", "src/solarspatialtools/dataio/hope_campaign.py:parse_file", "src/solarspatialtools/dataio/iotools.py:ensurepath"]}
{"id": "C98", "title": "A periodic signal and its delayed copy: exact transfer function and exact delays", "statement": "If one signal repeats with a period that divides the record into whole segments, and the other is the same signal arriving m samples later with gain g, then with a rectangular window and no detrending averaged_tf returns g times the pure delay m dt with coherence 1 at every frequency at which the signal has energy, and missing values elsewhere. Then tf_delay returns exactly m dt (m taken within half a period of zero) by 'multi', 'fit' and 'diff', whatever the gain, provided the signal has energy at the frequencies looked at. compute_delays_tf returns exactly these delays and mean coherence 1 for a whole table of such columns. With any window of positive weights (such as the default Hamming window) and any overlap, the delay of a train of one pulse per segment length is still exact, its coherence being the same number at all frequencies.", "quantifier": "all periodic signals, delays, positive gains, time steps, segmentations, limits and tables", "why_tests_cant": "Ranges over infinitely many real signals; numeric tests see only approximate agreement on a few.", "anchors": ["src/solarspatialtools/signalproc.py:averaged_tf", "src/solarspatialtools/signalproc.py:tf_delay", "src/solarspatialtools/signalproc.py:compute_delays_tf"]}
{"id": "C99", "title": "compute_predicted_position end to end: its own delays and velocities", "statement": "compute_predicted_position (velocities given) succeeds exactly if the reference is a listed point, both tables hold it, have one column per listed point and at least two rows, the time step is not zero, the number of averages is between 1 and the number of rows, there is a frequency limit, and delay method and mode are known. Each point's delay and coherence are those compute_delays_tf gives for the pair (reference, its column) alone; samples in rows that no Welch segment reads may be missing or hold anything, while a gap in a row that is read gives delay NaN and coherence 0. With 'multi' the reference's own delay is exactly 0, so whenever it is among the used points the estimate is pulled from the true towards the listed position by 1/m, whatever else is measured. Without given velocities, constant-velocity disturbances over all sites yield the result for the true velocities, and a table with fewer than two acceptable pairs never yields a finite position.", "quantifier": "all tables with gaps, positions, references, modes, limits, solvers and window shapes", "why_tests_cant": "Ranges over all records and gap patterns; the composition of three modules cannot be settled by samples.", "anchors": ["src/solarspatialtools/field.py:compute_predicted_position", "src/solarspatialtools/signalproc.py:compute_delays_tf", "src/solarspatialtools/cmv.py:compute_cmv"]}
{"id": "C100", "title": "Detrending removes exactly the trend, and a removed trend leaves no trace", "statement": "'linear' detrending returns the residual of the least-squares line of each segment, 'constant' the deviation from its mean; nothing else has these properties. Therefore under 'linear' adding any straight line to any of the signals changes no value of averaged_psd and averaged_tf, and under 'constant' adding any constant does not; a signal that is only a line has density zero and no transfer function. A slope does survive 'constant'.", "quantifier": "all signals, lines, windows, averages, overlaps and scalings", "why_tests_cant": "Ranges over all real signals and lines.", "anchors": ["src/solarspatialtools/signalproc.py:averaged_psd", "src/solarspatialtools/signalproc.py:averaged_tf"]}
{"id": "C101", "title": "The usual windows are sound, so the spectral functions work for all admissible arguments", "statement": "The boxcar, Hamming, Hann and Blackman windows have the documented weights, all between 0 and 1, symmetric, with positive sum and power for every length. With one of them, any detrending, 1 to n averages and an overlap in [0,1), averaged_psd always succeeds with n/navgs/2+1 non-negative values per column, and averaged_tf always succeeds with coherences between 0 and 1.", "quantifier": "all window lengths, tables, numbers of averages, overlaps, detrendings and scalings", "why_tests_cant": "Ranges over all lengths and all signals.", "anchors": ["src/solarspatialtools/signalproc.py:averaged_psd", "src/solarspatialtools/signalproc.py:averaged_tf"]}
{"id": "C102", "title": "A sinusoid reads half its squared amplitude", "statement": "Under 'spectrum' a sinusoid of amplitude A with a whole number of cycles per segment reads exactly A^2/2 at its own frequency and exactly zero at every frequency farther away than the window's side bins, whatever the phase, overlap, number of averages, and usual window; under 'density' it reads that divided by the window's noise bandwidth.", "quantifier": "all amplitudes, phases, frequencies, segment lengths, overlaps and usual windows", "why_tests_cant": "Ranges over all real sinusoids; rounding hides exact zeros in tests.", "anchors": ["src/solarspatialtools/signalproc.py:averaged_psd"]}
{"id": "C103", "title": "averaged_tf on tables of different numbers of rows", "statement": "If the tables have different numbers of rows, the transfer function is the cross spectrum over the segments of the longer table, rows missing in the shorter one counting as zero, divided by the input's own spectrum. With equal numbers of rows it is the ordinary estimate. Extra output rows, for example, dilute a pure gain g to g times the ratio of the numbers of segments, and the reported coherence may then exceed 1. An output shorter than a segment is accepted when the numbers of frequencies agree or one of them is 1.", "quantifier": "all pairs of tables, row counts, windows, detrendings and segmentations", "why_tests_cant": "Ranges over all pairs of lengths.", "anchors": ["src/solarspatialtools/signalproc.py:averaged_tf"]}
{"id": "C104", "title": "The regression and per-pair figures of a jamaly fit", "statement": "In every successful jamaly fit whose passing pairs have finite delays, r_corr and stderr_corr are the correlation magnitude and the slope's standard error of the best straight line through the passing pairs' (delay, distance along the reported direction) points, 0 and 0 if all delays are equal; ngood is their number. They do not depend on which way round the direction is read. If the pairs follow one constant motion with at least two different delays, r_corr is 1 and stderr_corr is 0. The converse fails: a common clock offset, or any two pairs, give perfect figures too; and a perfectly constant motion with equal delays gives 0 and 0. Beside them stand, for every pair, the variation ratios of its two signals and one minus mean over peak correlation.", "quantifier": "all runs of compute_cmv with method jamaly, over all delay estimators, minimisers, tables, positions and options", "why_tests_cant": "Ranges over all point sets and all runs; a test sees a few numbers and cannot tell the estimator's meaning.", "anchors": ["src/solarspatialtools/cmv.py:compute_cmv"]}
{"id": "C105", "title": "The dictionary of a cloud-motion result", "statement": "WindspeedData.to_dict always has the same eleven entries in the same order and loses nothing: results with equal dictionaries are equal. After a run with fewer than two passing pairs exactly the pairs, their flags and the overall flag are set, wind_speed and wind_angle being None although the run returned 0 and 0. After any other run the returned speed and direction are there; pairs, flags, lags, correlations and distances have one entry per pair; the zero-lag correlations are there for both delay backends, coherences only for 'tf'. method_data of jamaly has its nine entries, velocity (and ngood) counting the passing pairs, r_qc and var_s all pairs.", "quantifier": "all runs of compute_cmv over all tables, positions, options, methods, backends and solvers", "why_tests_cant": "Ranges over all runs, including every combination of passing and failing pairs.", "anchors": ["src/solarspatialtools/cmv.py:WindspeedData.to_dict", "src/solarspatialtools/cmv.py:compute_cmv"]}
{"id": "C106", "title": "latlon2lcs measures each target from its own origin", "statement": "With sequences of targets and/or origins, every answered row equals the one-point call for that target and its own origin: the origin with the same index label when both are pandas Series, the only origin when the origins are a one-entry array or a number, otherwise the origin at the same position. A row is NaN exactly when the target has no origin of its own. The answer has the targets' shape and index (the origins' for a single target). The call fails exactly when a point set is not well formed or the shapes do not fit: TypeError for a number given together with a sequence, ValueError otherwise. Series of the same length with different labels are not matched by position: all answers are NaN.", "quantifier": "all target and origin shapes, lengths, indexes, zones and projections", "why_tests_cant": "Ranges over all combinations of shapes, lengths and index labels.", "anchors": ["src/solarspatialtools/spatial.py:latlon2lcs"]}
{"id": "C107", "title": "Predictions in a field with many wrong labels", "statement": "Suppose the delays compute_predicted_position uses are the true travel times of the cloud pattern between the sensors' true positions, and the CMVs are not parallel. Then, however many plan positions are wrong, the predicted position misses the sensor's true position by exactly minus the mean displacement (true minus listed) of the points used, measured along each CMV; it is NaN exactly when the sensor's own displacement along a CMV equals that mean. In mode 'all', if the true positions are the listed positions in another order, the prediction is exactly the true position of the sensor, or NaN when the sensor already stands right along one of the CMVs.", "quantifier": "Every set of listed and true positions, every pair of non-parallel CMVs, every delay estimator whose used delays are exact, every mode and number of points.", "why_tests_cant": "The error of a prediction depends on all listed positions at once; a test fixes one plant and one set of wrong labels.", "anchors": ["src/solarspatialtools/field.py:compute_predicted_position"]}
{"id": "C108", "title": "Reassigning a whole plant round by round", "statement": "The workflow of field_demo_full_process (predict every combiner from the current layout, assign per inverter, cascade onto the map so far, rearrange the plan, until a map repeats or ten rounds have passed) always ends within ten rounds. If no inverter's name occurs inside another's and every prediction succeeds, the final map is one-to-one on the plan's combiners, moves none across inverters, and the final layout is exactly the plan rearranged by it. If each round's prediction for a combiner is strictly nearest to the plan location it truly occupies (or NaN while it is already there), the true map is found in at most two rounds with nothing left to change; with mode 'all', exact delays and CMV pairs that tell the locations of an inverter apart this is so however the labels are permuted within the inverters. Inverter names that contain one another break the one-to-one property; names of equal length never do. A combiner's inverter is the part of its name between the first two hyphens; a name without a hyphen stops the workflow with IndexError before anything is predicted.", "quantifier": "all plans, names, predictors, assignment solvers, permutations of the labels, delay estimators and CMV pairs", "why_tests_cant": "Ranges over every history of rounds, every permutation of the labels and every plan.", "anchors": ["demos/field_demo_full_process.py", "src/solarspatialtools/field.py:compute_predicted_position", "src/solarspatialtools/field.py:assign_positions", "src/solarspatialtools/field.py:cascade_remap", "src/solarspatialtools/field.py:remap_positions"]}
{"id": "C109", "title": "Automatic selection of cloud-motion vectors", "statement": "In the automated workflow (automate_cmv_demo and the pair choice of field_demo_full_process): the hours looked at are the ones with the largest median variability score. Each hour's row holds the speed and direction compute_cmv returned, the number of passing pairs and r_corr; an hour with fewer than two passing pairs stops the workflow with a TypeError. An hour is kept exactly when it has enough passing pairs and its r_corr is not below the limit, provided the first hour is flagged GOOD; the other hours' own flags are never looked at, and if the first hour is not GOOD none is kept. The chosen hours are n different kept ones, the best aligned with n evenly spaced axes for the rotation settled on. A pair of CMVs is used exactly when their lines of motion cross at more than the required angle; none is parallel and a zero CMV is in no pair.", "quantifier": "all tables of scores, sorts, runs of compute_cmv, limits, assignment solvers, optimisers and sets of CMVs", "why_tests_cant": "Ranges over all tables and all runs; a test on one campaign sees a first hour that is GOOD.", "anchors": ["demos/automate_cmv_demo.py", "demos/field_demo_full_process.py", "src/solarspatialtools/cmv.py:compute_cmv", "src/solarspatialtools/cmv.py:optimum_subset", "src/solarspatialtools/spatial.py:unit"]}
{"id": "C110", "title": "Flag-based cleaning goes by label", "statement": "flag_qc keeps the rows and columns of the data, blanks a sample exactly when the flag table holds a flag of at least the level under the same time and the same sensor, and keeps every other sample, including those without a flag; the order of the rows and columns of the flag table and anything it holds under other labels do not matter.", "quantifier": "all data and flag tables with unique labels, in any order and with labels missing on either side, all levels", "why_tests_cant": "tests use a flag table that was read together with the data and lines up with it; alignment failures show only on tables that differ", "anchors": ["src/solarspatialtools/dataio/hope_campaign.py:flag_qc"]}
{"id": "C111", "title": "Filling of gaps on irregular time stamps", "statement": "interp_nan succeeds exactly when the limit is positive, every column has at least twice as many samples and the stamps never go down or never go up; it then fills by position, not by time, blanks exactly the samples that lie limit positions from a sample whose time window is mostly missing, agrees with its 1 Hz behaviour on stamps one second apart, and loses nothing when the columns start and end with an observation and no gap exceeds the limit. Its 1 Hz guarantee for longer gaps does not carry over to stamps that jump.", "quantifier": "all columns, all limits, all time stamps including repeated, decreasing and irregular ones", "why_tests_cant": "the window counts samples in time while the padding counts positions; only particular jumps make them disagree", "anchors": ["src/solarspatialtools/dataio/hope_campaign.py:interp_nan"]}
{"id": "C112", "title": "Averaging width in floating point", "statement": "The averaging width int(tau * step) that variability_score, variability_index and darr derive from an index with equal steps is exactly tau steps when the step is a whole number of seconds; otherwise rounding changes it by at most one second, and only when tau steps are within 2^-19 s of a whole number of seconds. It is not always the whole number of seconds that tau steps make: 100 steps of 0.29 s are averaged over 28 s.", "quantifier": "all tau and steps (in nanoseconds) up to tau * step = 2^32 s, binary64 arithmetic", "why_tests_cant": "Whether a product of rounded numbers falls below an integer depends on the single pair of values; tests use steps of whole seconds.", "anchors": ["src/solarspatialtools/stats.py:variability_score", "src/solarspatialtools/stats.py:variability_index", "src/solarspatialtools/stats.py:darr"]}
{"id": "C113", "title": "Reassigning a plant in parallel processes: the same result under every schedule", "statement": "The multi-process workflow (field_demo_full_process_multithread) ends with exactly the outcome of the one-process workflow, the same values or the same exception, for every number of worker processes and every order in which they fetch and deliver their tasks. Every schedule has at most three moves per combiner and one more per round, and as long as no worker is killed it can only come to rest when the round is complete. If a worker process is killed at work its task is lost: the workflow then waits for ever, but never gives a wrong result.", "quantifier": "all plans, predictors, numbers of workers, interleavings of the workers with the main process, failing predictions and killed workers", "why_tests_cant": "The number of interleavings grows exponentially with the tasks; tests see one of them.", "anchors": ["demos/field_demo_full_process_multithread.py:main", "demos/field_demo_full_process_multithread.py:multipool_helper", "src/solarspatialtools/field.py:compute_predicted_position"]}
{"id": "C114", "title": "Sensor series sampled from a synthetic cloud field", "statement": "The sampling of synthetic_clouds_demo (rotate the sensors into the wind, turn distances into seconds with the cloud speed, generate a field of the size they ask for, read one row of pixels per sensor) gives every sensor a full series exactly when neither the extent along the wind nor the extent across it is a whole number of seconds of cloud motion; otherwise it stops with ValueError (along) or IndexError (across), so a single sensor and sensors exactly in line always fail. Sample k of a sensor is the field at (distance to the most downwind sensor / speed, truncated) + k. Of two sensors in the same field row the downwind one records the same values later, by their along-wind separation over the speed up to less than one second, exactly when that is whole. Moving all sensors together changes nothing.", "quantifier": "all layouts, cloud speeds and directions, durations, and all field generators that deliver the requested size", "why_tests_cant": "Truncation makes single boundary values of distance over speed fail; a test uses one layout and one cloud speed.", "anchors": ["demos/synthetic_clouds_demo.py", "src/solarspatialtools/synthirrad/cloudfield.py:cloudfield_timeseries", "src/solarspatialtools/spatial.py:rotate_vector"]}
{"id": "C115", "title": "Lags of all sites relative to one of them", "statement": "The lag map of cmv_demo holds one row per site in table order: 0 for the reference, the lag of the pair for a site listed after the reference, the negated lag for a site listed before it, and 0 for a site that was not paired with it. If the lags are differences of arrival times the map is every site's arrival time relative to the reference whatever the order of the sites. A CMV without usable pairs gives a TypeError, a reference that is not a site an extra row of 0.", "quantifier": "all site tables, references, pair lists compute_cmv can report and all lags", "why_tests_cant": "Depends on the position of the reference in the table; a test has one table and one reference.", "anchors": ["demos/cmv_demo.py", "src/solarspatialtools/cmv.py:compute_cmv", "src/solarspatialtools/cmv.py:WindspeedData"]}
{"id": "C116", "title": "Reassigning the combiners of one inverter", "statement": "The three rounds of field_reassignment_demo, if the predictions can be computed, give three one-to-one remaps of the chosen combiners among themselves; combiners of other inverters stay where the plan has them in every layout, whatever their names. The first remap is a best reassignment of the plan, each later one a best reassignment of the layout of the round before expressed in terms of the original plan, so that moving the plan by it is moving the previous layout by the new reassignment. If the second 'Has the remap stayed the same?' is answered Yes, any number of further rounds changes nothing. If every prediction is nearest to the combiner's true location within the inverter (or missing while the combiner is right), in particular with exact delays, non-parallel CMVs that tell the locations apart and mode 'all', the true reassignment is found in the first round. The first answer is right when it is Yes, but can be No although nothing changed, after a round with a missing prediction. A failing prediction stops the demo with its exception, an unknown combiner with KeyError. The chosen combiners are those whose name has one of the given inverters between its first two hyphens, and a name without a hyphen anywhere in the plan gives IndexError.", "quantifier": "all plans, choices of combiners, predictors, assignment solvers, permutations of the labels within the inverter", "why_tests_cant": "Ranges over every plan, every predictor and every permutation; the wrong answer needs a missing prediction and names out of order.", "anchors": ["demos/field_reassignment_demo.py", "src/solarspatialtools/field.py:compute_predicted_position", "src/solarspatialtools/field.py:assign_positions", "src/solarspatialtools/field.py:cascade_remap", "src/solarspatialtools/field.py:remap_positions"]}
{"id": "C117", "title": "Downscaled series: sites along the cloud motion are delayed copies", "statement": "For every sampler that draws from the Gaussian with the covariance it is given (a factor of the covariance applied to some variates), downscale records at a site, when the clouds arrive from an upwind site, exactly the clear-sky index that site recorded before, with or without scale and noneg. On evenly spaced times the downwind series is the upwind series shifted by a whole number of rows when the distance is that many steps of cloud motion; in synthetic_copula_demo by 30 rows (450 s). Between any two sites the correlation never exceeds the value given by their distance across the motion, and reaches it exactly at the delay needed for their distance along the motion (0 for a site abreast). Over several hours (downscale_multihour) the copies hold within every hour, but the cloud field does not go on into the next one: under equal conditions every hour repeats the records of the first, however far the clouds have moved.", "quantifier": "all site layouts, times, cloud speeds and directions, mean clear-sky indices, proper parameter sets, options, seeds and Gaussian samplers", "why_tests_cant": "A statement about every draw and every pair of sites and times; a test sees one seed and one layout.", "anchors": ["src/solarspatialtools/synthirrad/copula.py:downscale", "src/solarspatialtools/synthirrad/copula.py:space_time_copula", "src/solarspatialtools/spatial.py:spacetime_distances", "demos/synthetic_copula_demo.py"]}
{"id": "C118", "title": "The cloud advection model is exact in a periodic frozen field, and always smooths", "statement": "The prediction of signalproc_demo (reference record filtered with get_camfilter of the plant) equals the average of the records of the sites exactly when the cloud field is frozen, repeats with the record, reaches the sites at different whole numbers of samples, and the filter contains the frequencies of the record (spatial domain a whole number of record lengths, grid no coarser than the motion per sample). Otherwise each delay counts once: sites abreast of each other are not counted twice, so the prediction is not the average over the sites. Whatever the plant, if the clouds move at least two grid steps per sample and one site is on the grid, filtering succeeds, keeps length and mean and never increases the deviation from the mean; so does the Marcos filter on the same frequencies.", "quantifier": "all plants, references, directions, speeds of either sign, grids, records and plant sizes s > 0", "why_tests_cant": "Ranges over every layout and every record; a test compares one plant and one day.", "anchors": ["demos/signalproc_demo.py", "src/solarspatialtools/signalproc.py:get_camfilter", "src/solarspatialtools/signalproc.py:plant1d_to_camfilter", "src/solarspatialtools/signalproc.py:get_1d_plant", "src/solarspatialtools/signalproc.py:apply_filter", "src/solarspatialtools/signalproc.py:get_marcosfilter"]}
{"id": "C119", "title": "Variability metrics with a fractional number of timesteps", "statement": "variability_score, darr and variability_index accept any numeric tau. A whole number given as a float means what the integer means. With averaging on and tau > 1 the data are averaged over bins of the whole seconds contained in tau median steps and the metric of the averages is returned; fewer than two samples raise ValueError and less than one second ZeroDivisionError. On a grid of d seconds tau = T/d averages over exactly T seconds for every whole T above d, while every tau with tau*d < d+1 (tau below 2 for one-second data) gives the value of tau = 1. Without averaging a fractional tau is refused for a DataFrame; a Series of an earlier pandas release uses its whole part.", "quantifier": "all series, time stamps, real tau, and options of the three metrics", "why_tests_cant": "Ranges over every real tau and every index; a test tries a few whole numbers.", "anchors": ["src/solarspatialtools/stats.py:variability_score", "src/solarspatialtools/stats.py:variability_index", "src/solarspatialtools/stats.py:darr", "demos/signalproc_demo.py"]}
{"id": "C120", "title": "Predicting the combiners of a plant one by one, and the worked example", "statement": "field_demo fills one row per combiner in plan order: planned and predicted position for the combiners in the chosen range, nothing for the others; the first combiner that cannot be predicted stops it with its exception. With delays that are true travel times and each record most coherent with itself, a single misplaced combiner is shown at its true place (if the error has a part along both CMVs), and a correct plan gives no prediction at all (NaN) rather than the planned places. The steps worked out by hand in field_demo_detailed give the position compute_predicted_position returns with mode 'coherence', and the same exceptions, if all coherences are finite, and the distance printed is that between planned and predicted position; with a dead sensor in the table they do not.", "quantifier": "all plans, ranges of combiners, data, delay estimators, non-zero CMVs, sort routines and numbers of points", "why_tests_cant": "Ranges over every plan and every estimator; a test compares one plant.", "anchors": ["demos/field_demo.py", "demos/field_demo_detailed.ipynb", "src/solarspatialtools/field.py:compute_predicted_position", "src/solarspatialtools/field.py:compute_delays", "src/solarspatialtools/spatial.py:compute_intersection", "src/solarspatialtools/spatial.py:unit"]}
{"id": "C121", "title": "Digitised outlines become a table of combiner centroids", "statement": "plant_digitization_example projects every outline about the least longitude and least latitude of any corner. If every asset is a combiner the table has one row per asset, in order: its own name with the centroid of its own outline. If any other asset was digitised there is no table but a ValueError, although the notebook says other assets are filtered out. The centroid of an outline with area is made up of its triangles from any point, pieces weighted with their areas; it follows every move, turn, mirroring or stretching of the outline, does not depend on the first corner, the drawing direction or the order of the pieces, lies in the convex hull of the corners if each piece can be seen from one corner, and is the middle of a rectangle. Moving the plant in longitude leaves the table unchanged for a projection that uses differences of longitude.", "quantifier": "all lists of assets, outlines of any number of pieces and corners, projections and affine maps", "why_tests_cant": "Ranges over every outline; the only data file has ten rectangles that are all combiners, so the failing case is never met.", "anchors": ["demos/plant_digitization_example.ipynb"]}
{"id": "C122", "title": "Sizes obtained by truncation survive rounding", "statement": "Several sizes are the whole part of a binary64 product or quotient. For every overlap in [0,1) averaged_psd and averaged_tf get a segment overlap shorter than the segment, so the segments always advance; it is the exact whole part, or the next whole number when the product is within a relative 2^-53 of it, and half a segment is exact. The pixel that a sensor of get_positional_ts reads never decreases with the position, is exact at whole pixels, and is elsewhere the exact one or the next within the same margin. Layers of the cloud field with whole-number scales have exact sizes. The histogram edges of scatter_hist are exact multiples of 0.25, symmetric, strictly beyond every sample and by at most one bin. The grid on which downscale tabulates clear-sky indices has 400 increasing points within 1e-12 of -2 + i/100. A fraction is read in binary: 0.29 of 100 samples is 28.", "quantifier": "all segment lengths, binary64 overlaps in [0,1), positions, positive speeds, field sizes up to 2^53, scales up to 1000 and sample magnitudes up to 2^40", "why_tests_cant": "An off-by-one from rounding shows only for particular pairs of numbers; a test tries a few.", "anchors": ["src/solarspatialtools/signalproc.py:averaged_psd", "src/solarspatialtools/signalproc.py:averaged_tf", "src/solarspatialtools/synthirrad/cloudfield.py:get_positional_ts", "src/solarspatialtools/synthirrad/cloudfield.py:_stack_random_field", "src/solarspatialtools/visualization/vis_tools.py:scatter_hist", "src/solarspatialtools/synthirrad/copula.py:downscale"]}
{"id": "C123", "title": "Missing values, tables and whole numbers in the filter functions", "statement": "apply_filter on a record and a filter that may hold NaN raises nothing for NaN. One missing sample in the record makes every sample of the result NaN. A NaN row in the filter makes every sample NaN as soon as one frequency of the record is not read from two rows below it; otherwise the result is the one of any filter with numbers in place of the gaps. A frequency of the record outside the filter raises ValueError. Square sites that all lie more than half a step outside the domain of get_camfilter give, without an exception, a filter of NaN and from it a plant output of NaN. Tables are never accepted, neither for the record nor for the filter, although the documentation names them. Whole-number positions with a reference position of type float raise TypeError in get_1d_plant; every other mixture gives the plant of the same numbers.", "quantifier": "all records and filters with any pattern of NaN, all steps, frequencies, site sets, speeds, directions and domains, and all lists of numbers of either kind", "why_tests_cant": "Ranges over every pattern of gaps and every geometry; the unit tests have no NaN, no site outside the domain and no integer positions.", "anchors": ["src/solarspatialtools/signalproc.py:apply_filter", "src/solarspatialtools/signalproc.py:interp_tf", "src/solarspatialtools/signalproc.py:get_camfilter", "src/solarspatialtools/signalproc.py:get_1d_plant", "src/solarspatialtools/signalproc.py:plant1d_to_camfilter"]}
{"id": "C124", "title": "Creating a directory while other processes create directories", "statement": "ensurepath checks and then creates, and other processes may create directories between any two of its system calls. Whatever they create, nothing that existed is lost, and only directories on the way to the path, or those of the others, appear. If no file is in the way, the directory and everything above it exist when the call ends, and the call either returns or raises FileExistsError; it raises only if the path was missing and another process created that very path after the check, so a race on a parent does no harm. For every missing path there is an order of events in which it does raise. A file in the way makes the call fail in every order of events, and it then creates nothing. Alone it does what C92 says.", "quantifier": "all well-formed trees, paths of any depth, and all finite or infinite sequences of directories created by others between the system calls", "why_tests_cant": "A race shows only in particular interleavings, which a test does not control.", "anchors": ["src/solarspatialtools/dataio/iotools.py:ensurepath"]}
{"id": "C125", "title": "Daily quantiles on an index with a time zone", "statement": "calc_quantile on an index with a time zone never returns a wrong number: whatever comes back is the result of C39 for the clock readings of the zone, under the instants of the input. But it often fails. With a pandas that refuses to slice such an index by plain dates (version 2 on) it raises TypeError as soon as one window fits, in any zone, UTC included. With an earlier pandas it does what it does without a time zone, errors included, if the midnights of the windows and the readings to be given out occur exactly once, as they do in a zone without clock changes. Two rows with one reading in a window (clocks put back), or a reading to be given out which the last day of a window does not have exactly once (clocks put forward or back), make it fail. If no window fits, everything is missing. Zones that put their clocks forward at any time, or back within one day, are covered.", "quantifier": "all clocks whose days follow each other and whose single midnights begin their day, all ordered indexes, values with gaps, window lengths and levels, and both ways of slicing", "why_tests_cant": "Depends on the zone, the dates and the time of day; the tests use an index without a time zone.", "anchors": ["src/solarspatialtools/stats.py:calc_quantile"]}
{"id": "C126", "title": "The plant axis and its sites in floating point", "statement": "get_1d_plant computes its axis and its sites in binary64 arithmetic. When the grid step, the site width, the reference and the centers are multiples of a power of two (whole metres, halves, quarters, the default step of 1) and not astronomically large, the axis and the plant are exactly those of real arithmetic, for square and triangular sites. For every other positive step the number of points is the exact one or one less, the latter only when the span is within a relative 2^-53 above a whole number of steps; the point with number i is within (i+4) 2^(e-52) of its nominal place on an axis of half-width at most 2^e, so the error grows along the axis; and the points are strictly increasing as long as twice that error is below the step. The growth is real: with a step of 0.1 on the default axis the far end is off by more than 0.029 mm.", "quantifier": "All centers, references, widths, steps and axis lengths in the stated ranges, every point of the axis.", "why_tests_cant": "Rounding depends on the step and on the position along an axis of up to millions of points; tests use steps for which nothing is rounded.", "anchors": ["src/solarspatialtools/signalproc.py:get_1d_plant"]}
{"id": "C127", "title": "Averaged variability metrics on an index with a time zone", "statement": "When variability_score, variability_index and darr average over tau timesteps on an index with a time zone, the bins are equally long in absolute time and counted from the instant at which the clock of the zone shows midnight of the first sample's day; a change of the clocks later in the series does not move them. So the metrics are those of the clock readings without a time zone, with the offset of that first midnight kept throughout. They do not depend on the zone if midnights fall on whole multiples of the bin width, as with widths that divide all offsets and the day; otherwise they do: half-hourly samples averaged over hours give DARR 8 in UTC and 4 in a zone five and a half hours ahead. If the zone skips or repeats midnight of the first day, averaging fails.", "quantifier": "all clocks (with the theorem on clock readings for zones with at most one change), all time series with gaps, real tau, both values of pct and norm", "why_tests_cant": "Depends on the zone, on the date of its clock changes and on the bin width; the tests use an index without a time zone.", "anchors": ["src/solarspatialtools/stats.py:variability_score", "src/solarspatialtools/stats.py:variability_index", "src/solarspatialtools/stats.py:darr"]}
{"id": "C128", "title": "Error metrics on Series with repeated labels", "statement": "When labels repeat, rmse, mse, mae and mbe of two Series raise nothing. On identical indexes rows are paired by position; on any other indexes every row is paired with every row of the other Series under the same label, and labels of only one Series are ignored. The metrics are those of the arrays of these pairs, less the pairs with a gap. With unique labels this is C34. With repeated labels row order matters: a Series compared with its own rows in another order has an error.", "quantifier": "all pairs of Series over any ordered labels, with any repetition, order and gaps", "why_tests_cant": "Ranges over every pattern of repeated labels; the tests compare arrays and Series on one index.", "anchors": ["src/solarspatialtools/stats.py:rmse", "src/solarspatialtools/stats.py:mse", "src/solarspatialtools/stats.py:mae", "src/solarspatialtools/stats.py:mbe", "src/solarspatialtools/stats.py:bias_error"]}
{"id": "C129", "title": "Error handling of numpy across calls", "statement": "compute_cmv tells numpy to ignore division by zero and invalid operations, and this stays so for the rest of the session. After any sequence of caller settings (np.seterr), blocks (np.errstate) and calls, division by zero and invalid operations are handled as the last setting or the last compute_cmv call with known method and backend says, also if that call failed; overflow and underflow as the caller set them; blocks, averaged_tf and refused calls leave nothing behind, so a call wrapped in np.errstate has no lasting effect. compute_cmv and averaged_tf themselves return the same, without warnings, under every error handling. The weights for a variability score give neither warning nor exception for scores strictly between 0 and 180 under any error handling; at 0 and 180 a division by zero and above 180 an invalid operation is reported the way the session has it. As long as nobody asks for exceptions the values of all calls are independent of the history. With exceptions asked for they are not: the weights for a variability score of 180 raise FloatingPointError before, and not after, a call of compute_cmv.", "quantifier": "all sessions of any length with blocks nested to any depth, all initial error handling, all names, scores, scales, spectra and pair delays", "why_tests_cant": "A history property: it concerns what one call does to later, unrelated calls.", "anchors": ["src/solarspatialtools/cmv.py:compute_cmv", "src/solarspatialtools/signalproc.py:averaged_tf", "src/solarspatialtools/synthirrad/cloudfield.py:_calc_vs_weights"]}
{"id": "C130", "title": "Error metrics on integer arrays", "statement": "On numpy arrays of a machine integer type the differences, absolute values and squares inside mbe, mae, mse and rmse keep that type and wrap around. Each stored error is the exact one if the type can hold it, and otherwise off by a multiple of 2^bits. If every error fits, mbe is right; if the absolute values fit, mae; if the squares fit, mse and rmse. In a signed type errors up to B in size are safe when B^2 < 2^(bits-1). In an unsigned type every estimate below its baseline value adds 2^bits to the sum of the errors, so mbe is never negative and mae equals mbe. In uint16 an underestimate by 1 counts as 65535; in int16 an error of 200 gives a negative mse and an rmse of NaN.", "quantifier": "all integer types of any width, signed or not, all arrays of any length including the broadcasting of one-entry arrays", "why_tests_cant": "The result depends on the type and on whether any single difference or square leaves its range; tests use floats.", "anchors": ["src/solarspatialtools/stats.py:rmse", "src/solarspatialtools/stats.py:mse", "src/solarspatialtools/stats.py:mae", "src/solarspatialtools/stats.py:mbe", "src/solarspatialtools/stats.py:bias_error", "src/solarspatialtools/stats.py:squared_error", "src/solarspatialtools/stats.py:absolute_error"]}
{"id": "C131", "title": "Arguments are left unchanged by the functions that assign in place", "statement": "flag_qc, null_qc, interp_nan, remap_positions, assign_positions (its returned table) and get_1d_plant assign cells in place, but only in objects they have made themselves. After the call, whether it returned or raised, every object that existed before holds the value it had, even when two arguments are the same object; the result is a new object holding what the call computes from the arguments as passed in (so a remap with swaps and cycles reads the original rows). In a session of any number of cleaning calls, on originals and on earlier results, every result still holds at the end what its call computes from its arguments, so the order of calls on the same data does not matter. cleanfreq is the exception: it changes exactly the object passed in.", "quantifier": "all stores of objects, arguments (also shared), tables, remap lists, plants and sequences of calls", "why_tests_cant": "A unit test compares the returned value and seldom the arguments; aliasing, exceptions half way and sequences of calls are unbounded", "anchors": ["src/solarspatialtools/dataio/hope_campaign.py:flag_qc", "src/solarspatialtools/dataio/hope_campaign.py:null_qc", "src/solarspatialtools/dataio/hope_campaign.py:interp_nan", "src/solarspatialtools/field.py:remap_positions", "src/solarspatialtools/field.py:assign_positions", "src/solarspatialtools/signalproc.py:get_1d_plant", "src/solarspatialtools/signalproc.py:cleanfreq"]}
{"id": "C132", "title": "Creating a directory while other processes create and delete at will", "statement": "Other processes may do anything to the file tree between the system calls of ensurepath. Whatever they do, the call ends after at most two system calls per path component and one more. It removes and replaces nothing: it only adds directories that are missing at that moment below an existing directory, all on the way to the path, from the outside in and none twice. When it ends, the path exists if it returned and also if it raised FileExistsError; after any other exception something above the path is not a directory at that moment. A call that made a directory and returned has made the path itself last. For every path of two or more components there is an order of events in which it raises although no file was in the way; for one component there is none. If the others only create directories it is the call of C124.", "quantifier": "all trees, all paths of any depth, all behaviours of the other processes at every system call", "why_tests_cant": "The behaviour depends on what happens between system calls; a test sees one schedule", "anchors": ["src/solarspatialtools/dataio/iotools.py:ensurepath"]}
{"id": "C133", "title": "Whole numbers as site positions in get_1d_plant", "statement": "Site positions given as whole numbers stay machine integers and the reference is subtracted in place. If the reference is a whole number too and every distance to it fits the integer type, the plant is the one of the same positions written as floats; with the default reference this is always so. A reference written as a float, even 0.0, makes the call raise TypeError whatever the other arguments. In an unsigned type every site left of the reference appears 2^bits further right, so it is usually lost from the plant.", "quantifier": "all integer types of any width, signed or not, all positions, references, widths, shapes and grids", "why_tests_cant": "The outcome depends on the type of the array and of the reference, not on their values; tests use floats", "anchors": ["src/solarspatialtools/signalproc.py:get_1d_plant"]}
{"id": "C134", "title": "Distances survive floating point", "statement": "Computed in float64, magnitude is the Euclidean length to within a little over two rounding units whenever the squares of the components stay in the range of a double, it is zero only for the zero vector then, and without that condition it is off by at most two rounding units and 2^-500; it does not change at all when a component changes sign or the components are swapped. unit is the exact unit vector to 2^-51 per component. spacetime_distances returns a matrix that is exactly symmetric, exactly zero on the diagonal and nowhere negative, and for sites and drifts within 2^20 metres every entry is the exact distance between the drifted sites to 2^-26 metre. Not true: that two sites keep the same computed distance at every time, or that a nonzero vector always has a nonzero length.", "quantifier": "all float64 vectors, all lists of sites and times, all cloud speeds and directions", "why_tests_cant": "a test compares a few distances to a tolerance; the error bound and the exact symmetry have to hold for every site, time and speed", "anchors": ["src/solarspatialtools/spatial.py:magnitude", "src/solarspatialtools/spatial.py:unit", "src/solarspatialtools/spatial.py:spacetime_distances"]}
{"id": "C135", "title": "Columns of the layout in compute_predicted_position", "statement": "With a layout whose columns are exactly E and N in this order, compute_predicted_position behaves as the properties on the predicted position say. With any further column after E and N it raises ValueError wherever the two-column table gives an answer; without a column E or N it never succeeds. With the columns in the order N, E it runs, selects the same points and reports the same delays, but the position it returns is off by (N - E, E - N) of the reference, because the planned distances read the columns by name and the final shift by place. Not true: that the order of the columns does not matter.", "quantifier": "all layouts, data frames, references, cloud motion vectors, modes, delay estimators and sorts", "why_tests_cant": "the tests only use tables with columns E and N in this order", "anchors": ["src/solarspatialtools/field.py:compute_predicted_position"]}
{"id": "C136", "title": "References given as a one-shot iterator", "statement": "compute_cmv documents reference_id as an iterable. If it is an iterator that can be read only once (a generator, map or filter object) over distinct sites, the pair list is at most the first site paired with itself: compute_cmv then does exactly what it does on a layout of that site alone and, when it returns, returns speed 0, direction 0 and the flag ALLBAD; if the first site is not among the references it raises IndexError. With repetitions every pair kept is one the list would keep, and there are at most as many as references. Not true: that an iterator of references is as good as the list of them.", "quantifier": "all layouts, time series, iterators, methods, options and delay backends", "why_tests_cant": "the tests pass strings and lists; the loss depends on how far each membership test reads the iterator", "anchors": ["src/solarspatialtools/cmv.py:compute_cmv", "src/solarspatialtools/cmv.py:_get_pairs"]}
{"id": "C137", "title": "Projections survive floating point", "statement": "Computed in float64, project_vectors gives the exact projection to within sixteen rounding units of the length of the projected vector, whatever the vector and whatever direction of ordinary size; the length of the direction is ignored up to the same errors. Reversing the vector or the direction only changes the sign of the result, exactly, and so does exchanging the two ends of a pair in compute_vectors; a site has the zero vector to itself. pol2rect is exact to a little over two rounding units of the radius.", "quantifier": "all float64 vectors, directions, points, radii and angles", "why_tests_cant": "a test compares a few projections to a tolerance; the bound and the exact antisymmetry have to hold for all", "anchors": ["src/solarspatialtools/spatial.py:project_vectors", "src/solarspatialtools/spatial.py:compute_vectors", "src/solarspatialtools/spatial.py:pol2rect", "src/solarspatialtools/spatial.py:unit"]}
{"id": "C138", "title": "Reading a pair by name in averaged_tf's tables", "statement": "Columns of averaged_tf's results are named in_out. When one table has a single column and the other distinct labels, or both have equally many columns and the labels of one are distinct and free of underscores, tf[\"in_out\"] is one column: what averaged_tf gives for that input and output on their own; and compute_delays_tf with method 'fit' gives each pair the delay it has on its own. Distinct labels alone are not enough: (a, b_c) and (a_b, c) are both called a_b_c. Then tf[\"a_b_c\"] is a table of several columns and method 'fit' raises. Method 'multi' does not depend on the labels at all.", "quantifier": "all tables, labels, windows, overlaps and limits", "why_tests_cant": "The clash depends on the spelling of labels chosen by the user; tests use a few well-behaved names.", "anchors": ["src/solarspatialtools/signalproc.py:averaged_tf", "src/solarspatialtools/signalproc.py:compute_delays_tf"]}
{"id": "C139", "title": "The Marcos filter as stored in single precision", "statement": "get_marcosfilter stores complex64. For s > 0 each part of each stored value is within 2^-24 of itself (plus 2^-149) of the ideal one-pole response; the real part is in [0, 1], the imaginary part in [-1/2, 1/2] and not positive for f >= 0; the value at 0 is exactly 1; values at f and -f are conjugate; the real part does not grow with |f| or plant size. The gain is at most 1 + 2^-23, but it is not at most 1: well below the cut-off the stored gain exceeds 1. s = 0 gives exactly 1 everywhere, s < 0 NaN.", "quantifier": "all plant sizes and frequency lists", "why_tests_cant": "Rounding to single precision acts on every frequency and size; tests compare a few values with a tolerance.", "anchors": ["src/solarspatialtools/signalproc.py:get_marcosfilter"]}
