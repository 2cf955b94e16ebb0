# Formal model of rubin_sim: design

Target: lsst/rubin_sim at the commit in /repo (Python, read as text only).
Tool: Rocq/Coq 8.16.1, project in `rocq/` (`-Q theories Verif`).

## 1. How the model is laid out

For each area `X` of the code there are up to four files in `rocq/theories/`:

* `X_Model.v`  – Gallina transcription of the Python functions, branch by branch. Every definition carries
  a comment with file and lines. No proofs.
* `X_Spec.v`   – small independent vocabulary used to state the properties (no model helper is used there
  except the result types).
* `X_Proofs.v` – lemmas.
* `X_Props.v`  – only the property theorems (`exact lemma.` + `Print Assumptions`) and, beside each one, an
  `Example` showing that its hypotheses are met by a concrete non-trivial case.

Names: `C09_oned_partition` is a theorem for property C09. Suffix `_partial`: only part of the property is
proved (the comment says what is missing). Suffix `_refuted`: the property text is false of the code; the
theorem exhibits a witness. Where the text is refuted we also prove the strongest true variant we found.

## 2. Modelling conventions

* **Python exceptions are values**: `result A := Ok a | Err e` with an enumerated exception type.
* **Numbers.** Python floats that are only compared, added and subtracted are modelled by `Z` ("ticks"): any
  finite collection of finite floats is a set of integer multiples of one power of two, so comparisons are
  exact; *rounding of the float additions/subtractions is not modelled*. Where division, log or square root
  occur we use `Q` or the stdlib reals `R`. NaN/inf is modelled explicitly (`option`) where the code tests for
  it, and otherwise excluded (said in the comment).
* **numpy/pandas/database primitives** (argsort, searchsorted, digitize, groupby, cumsum, SQL SELECT/INSERT,
  transactions) are modelled by short list functions with the documented behaviour. `argsort` with
  unspecified tie order is modelled as *any* permutation that sorts the data: theorems quantify over it.
* **Oracles**: clocks, random draws, hash functions, metrics' `run`, failures of the database, crash points are
  universally quantified parameters (Section variables closed by the Section, or arguments).
* Printing, logging, plotting, warnings are not modelled (warnings only when a property is about them).

## 3. Plan per property

| id | model / proof plan |
|----|--------------------|
| C01 | `Bundle_Model`: `find_compatible_lists` over an arbitrary compatibility test; induction on the bundle list. |
| C02 | Same model; expected refuted (the inner `break` is ignored). Prove what holds: head of the group is compatible with all. |
| C03 | Refuted in general; proved when compatibility is an equivalence on the bundles. |
| C04 | `check_compatible` with `list.sort()` returning None: refuted. |
| C05, C06 | `run_cached`/`run_uncached` over the list of slices with an ordered association list as OrderedDict; simulation invariant. |
| C07 | Masked-array model of `_run_compatible`. |
| C08 | Induction over the list. |
| C09-C12, C14 | `Slicer_Model` on argsort/searchsorted; membership characterisation by counting lemma. |
| C13 | `nd_eq` model; refuted with two 2-d slicers; what equality does imply is proved. |
| C15-C17 | `TimeSlicer_Model`. C15, C16 refuted, with the true off-by-one law proved. C17 proved. |
| C18 | Iterator state machine; induction over histories of `iter`/`next`. |
| C19 | Reals. |
| C20, C21, C23, C24, C25, C27 | list models over `Z` ticks, counts in `nat`/`Q`. |
| C22 | `Q` model; refuted (4/3 for dates [0,1,1]); order independence and the true bound proved. |
| C26 | sorted list model, `Z` counts. |
| C28-C31 | `ResultsDb_Model`: tables as lists of rows, `step` per API call, invariants over `fold_left`; busy oracle for C31. |
| C32 | schema as list of column names, rename maps. |
| C33 | `TrackingDb_Model`. |
| C34 | list-of-ascii model of the replace chain. |
| C35, C36, C37, C38, C39, C43, C47, C48 | `Archive_Model`: tables, transactions, pool, interleavings, crash points. |
| C40, C41 | `Prenight_Model`, fold over rows with a clock oracle. |
| C42 | records with keyed yaml fields. |
| C44, C45 | civil calendar over `Z` (days <-> y/m/d), proved for all days. |
| C46 | `Z`/`R` model with random draw as argument. |
| C49 | stacker/column closure on finite graphs. |
| C50 | index model of `np.where` on a subset; refuted, true for single-filter tables. |
| C51, C52 | ticks model. |
| C53, C54 | `Q`/`Z` model. |
| C55 | column store model of stackers; refuted, with the non-interference condition proved. |

| C56-C60 | `Group_Model`, `Stacker_Model`, `Slicer_Model`, `TimeSlicer_Model`: further properties of the same models. |
| C61-C76 | metrics over `Z`, `Q` or `R` lists (`GapMetrics_Model`, `StatMetrics_Model`, `Depth_Model`, `Vector_Model`). |
| C77-C83 | histories of calls with failure and interleaving oracles (`ResultsDb_Model`, `TrackingDb_Model`). |
| C84-C94 | archive, calendar and prenight models, histories of SQL statements. |
| C95-C104 | stackers and utilities. |
| C105-C126 | technical, visit group and transient metrics. |
| C127-C154 | moving object metrics, summary metrics and bundle groups. |
| C155-C173 | astrometry and moving object magnitudes over `R`. |
| C174-C205 | `phot_utils`: resampling, photometry, signal to noise, `Sed` and `Bandpass` as objects with state, over `R`. |
| C206-C210 | `moving_objects/chebyshev_utils.py`: series and constrained fits over `R`, the matrix inverse an argument; end values from the constraint rows, optimality from the normal equations, invertibility by counting (double) roots. |
| C211-C215 | `cheby_fits.py`, `cheby_values.py`: segment lengths, times and segments as integers in units of the last decimal place, fits and residual tests as arguments; tiling by induction over the depth of subdivision with invariants of the loop; positions over `R` on top of C206-C210; looking up over tables of segments. |
| C216-C224 | `orbits.py`, `ooephemerides.py`: tables as lists of named columns of numbers, text and NaN with row labels; set_orbits as a function giving the object, the caller's table and the exception; pyoorb, the random numbers and the parsing of words as arguments; files as lines of words. |
| C225-C235 | `base_obs.py`, `direct_obs.py`, paths of `make_lsst_obs.py`: trailing losses as real functions; visits, ephemerides and objects as records; angular separation, camera, ephemerides of pyoorb, int() and colours as arguments; the rough grid, the two selections, the nearest-neighbour search and the rows as list functions. |
| C236-C242 | `selfcal/solver.py`: observations as records with integer identifiers and real magnitudes; the products of differences with 64-bit wrap-around; the sort and lsqr as arguments; the sparse matrix as a list of triples; the object as a record, run giving the object or the exception. |
| C243-C247 | `selfcal/generate_catalog.py`, `star_tools.py`, `offsets.py` but OffsetClouds: stars and visits as records of reals, the k-d tree as a test of the distance, offsets as functions giving arrays of numbers or of named columns, random numbers and the projection as arguments. |
| C248-C258 | `satellite_constellations/*.py` but `sun_alt_limits`: TLEs as lists of characters, numbers as integers of the last place (rounding an argument), satellites as an abstract type with positions, altitudes and illumination as functions of time, the almanac as a function from indices to nights. |
| C259-C265 | `maf/slicers/base_spatial_slicer.py`, `user_points_slicer.py`, `healpix_slicer.py`, `healpix_subset_slicer.py`, saving, restoring and JSON output of `base_slicer.py`, construction and comparison of `one_d_slicer.py`: angles as reals; the k-d tree is a test of the chord and an arbitrary order; the camera, healpix and galactic coordinates are arguments. |
| C266-C276 | `maf/metrics/`: `area_summary_metrics.py`, `coverage_metric.py`, `cumulative_metric.py`, `kuiper_metrics.py`, `snr_weight.py`, `schedview_metrics.py`, `chip_vendor_metric.py`, `color_slope_metrics.py`, `agn_time_lag_metric.py`: values, times and depths as reals, nights as integers, a missing value as None; histograms, interpolation and sorting are written out; `int_binned_stat` groups by identifier. |
| C277-C279 | `maf/metrics/incremental_template_metric.py`: depths, seeings and times as reals, nights as integers; sorting, the percentile with linear interpolation and the selection of visits are written out; the season function and effective wavelengths are arguments. |
| C280-C289 | `maf/metrics/`: `exgal_m5.py`, `weak_lensing_systematics_metric.py`, `uniformity_metrics.py`, `surfb_metric.py`: depths, dust and times as reals, NaN as None; a slice is a list of visits with named text columns; the extinction coefficients and instrumental zero points are arguments; the one-row shape of the depth array is written out; the signal to noise ratio is stated in the specification. |
| C290-C301 | `skybrightness/`: `utils.py` (wrap_ra, robust_rms), `twilight_func.py`, `interp_components.py` (index and weights, single, airglow, moon, zodiacal and twilight components in magnitudes, single components as spectra, id2intid/intid2id), `sky_model.py` (points, set_params, sum of the components, return_mags): reals, NaN as None; tables one filter at a time; templates, sun and moon positions, healpix neighbours and Sed.calc_mag are arguments; interpolation is specified as the broken line through the table. |
| C302-C308 | `maf/maps/`: `ebv_hp.py`, `dust_map.py`, `ebv_3d_hp.py`, `dust_map_3d.py`, `stellar_density_map.py`, `trilegal_map.py`, `galactic_plane_priority_maps.py`, `base_map.py` (equality), `maf_utils.radec2pix`, the loop over unique maps of `metric_bundle_group.py` and `_run_maps`: the attributes that the functions keep between calls are explicit state; files, healpix pixels, neighbours and distances on the sphere are arguments; reals. |
| C309-C319 | `maf/metrics/`: `crowding_metric.py`, `star_density.py`, `sky_sat_metric.py`, `use_metrics.py`, `dcr_metric.py`, `brown_dwarf_metric.py`, `qso_number_counts_metric.py`, `periodic_detect_metric.py`, the blocks and midnights of `hourglass_metric.py`; `maf_contrib/`: `intervals_between_obs_metric.py`, `num_obs_in_survey_time_overlap_metric.py`: reals and lists, luminosity functions and tables any lists, splines, survival functions and magnitudes of templates any functions; induction over the lists, monotonicity of broken lines and of the signal to noise, least squares by completing the square |
| C320-C326 | Altitude and azimuth, coordinate columns, area labels, NEO distances, meridian depth, photometric parameters, dust values, zero points and stellar colours as real functions (`Param_Model`); spherical identities, induction over pixel lists and strings, first element of a filtered list, convexity of the exponential for the dust, tables by cases. |
| C327-C333 | Plane_Model: Galactic plane footprint, time per band, visit intervals and season gaps; structure function uncertainty; lensed supernovae; supernova cadence. Lists of visits with times, depths and exposure times over R; points as dictionaries; the season gaps metric returns the visits as it leaves them. Proofs by induction over the visits, gaps and bins; the mean and median are characterised independently (Average, Percentile) |
| C334-C340 | Runs_Model: comparison of runs. Tables as labelled lists of rows with cells in option R (missing or not finite); merging of repeated labels, baseline, flags, selection by label, grouping, downloading onto a disk of contents by path, names as strings. Values are characterised by position (Stands, Compared, Sub, LastAt) independently of the model; proofs by induction over rows, columns, labels and characters |
| C341-C352 | Pop_Model: population metrics (kilonovae, tidal disruption events, X-ray binaries), generated events, gaps between pairs of bands and the presto criterion. Light curves as tables per band with linear interpolation; detections are sublists of the visits; outbursts as a real function whose exponent is completed to a square; gaps as inductively defined lists up to permutation. Proofs by induction over visits and tables, real analysis of exp and ln. |
| C353-C360 | Web_Model: the pages of a run (sorting, selecting, statistics, plots and their layout), the list of runs with its cache, and the helpers of the batches. Rows as records, texts as ASCII strings ordered by code; np.sort as insertion sort by lexicographic keys with the metric number last; np.unique as a sorted list without repetitions; the tracker as a state with a time stamp, rows and pages. Proofs by induction over rows, uniqueness of sorted lists, an invariant over requests. What numpy cuts off at column widths is not modelled. |
| C361-C367 | Micro_Model: the light curves of microlensing events, their derivatives, the time of the most information, the Fisher matrix and the three modes of the metric. Numbers are reals; x**(3/2) is Rpower; a slice point is a dictionary of numbers; np.linalg.inv is an argument. Proved: the square of the curve as 1 + 4 / (x (x + 4)), derivatives by the rules of the standard library, the maximum by the tangent of x (x + 4) and (1 + 2 r)^3 >= 27 r^2, ordered pairs as twice the unordered ones and bands as a partition, the quadratic form of the matrix as a sum of squares. Not modelled: generate_microlensing_slicer, NaN and infinities, inversions before the last band's. |
| C368-C374 | Ascii_Model: TransientAsciiSEDMetric with its state from slice to slice. Times are integers, the duration of the transient a whole number of shifts; the magnitudes of sncosmo are a function of epoch and band; signal to noise ratios are reals; np.searchsorted on epochs is an argument of which only what it does for a sequence in order is assumed. Proved: the slices of the sorted visits are the transients, and the Boolean criteria are the documented ones, by counting and by induction over lists; order, permutation and monotonicity through sets of pairs that are counted. The KeyError, the state and the last detection by witnesses. |
| C375-C384 | Handler_Model: PlotHandler of maf/plots/plot_handler.py. plot_dicts are lists of keys and values (None, texts, numbers, pairs); the order in which Python goes through a set of texts and the random colours are arguments. Texts are cut as Python does, with the space as the only white space. Resolution of settings, check of conflicts, joint names, labels, titles, colours and what is drawn are proved for all bundles; names are specified by the parts they are made of. |
| C385-C396 | Period_Model: PeriodicStar, PeriodicStarMetric.run and PeriodicStarModulationMetric.run over the reals, the fit, the normal and the uniform random numbers being arguments. C385 by the period of sine; C386 by relating the model's filters to counts over an independently stated condition on the fit of each trial, with the data given to it; C388, C391, C392 by counting bands without repetition; C389 by monotony of the conditions; C390 by induction on visits and trials; C393 by the shift of the minimum; C394 by monotony of the logarithm; C395 by induction on the subruns; C396 by the integer part |
| C397-C402 | Uniform_Model: _match with any sorting order, the statistics of PhotometricSelfCalUniformityMetric.run (catalogue, solver, pixels of stars and latitudes of pixels being arguments), its columns, and DepthLimitedNumGalMetric.run on the footprint metric of Lens_Model. C397 by induction on the solutions with the property of searchsorted on sorted arrays; C398, C399 by uniqueness of the percentile and its behaviour under affine maps; C400 by relating filters to counts; C401, C402 by cases |
| C403-C407 | Young_Model: the distance to which young stars are seen and their density (young_stellar_objects_metric.py) | the distance as the minimum over bands of the inverse of the magnitude; monotonicity of the coadded depth; signs of the exponent |
| C408-C416 | Starcount_Model: star counts of a model of the Galaxy (star_count_metric.py, star_count_mass_metric.py, star_counts/) | telescoping sums over shells and masses; monotonicity of exp, sqrt and powers; the derivative of a power; exceptions followed through the calls |
| C417-C421 | Bars_Model: the plots of binned data (oned_plotters.py, nd_plotters.py) | the line as a list of steps over the bins that are not masked; the limits by cases; attributes and keys that are missing |
| C422-C424 | Twod_Model: the plots of two-dimensional values (two_d_plotters.py) | the bins as half-open intervals of real edges; sums over the values by induction; the mask and the default label as state handed from call to call |
| C425-C429 | Moplot_Model: the plots of moving objects against orbits (mo_plotters.py) and of area against visits (special_plotters.py) | the sorted line by induction; options as a dictionary with KeyError; bins by counting edges; places out of range as IndexError |
| C430-C432 | Hplot_Model: the plot against H (mo_plotters.py) and the summary histogram (special_plotters.py) | edges as an arithmetic progression, bins by counting edges; columns and cumulative sums by induction; options as names |
| C206 on | see the table in section 6. |

Section 6 has the outcome for every property, MANIFEST.json its status.

## 4. Trusted base

* Coq 8.16.1 kernel (and `vm_compute`).
* The assumptions that `Print Assumptions` lists for each theorem (section 7).
* The reading of the Python source: every definition cites the lines it transcribes. The code is not executed.
* The behaviour of numpy, pandas, SQLAlchemy, psycopg2, PostgreSQL described in the comments.
* Floating point: arithmetic is exact in the model. A theorem about a metric says what the formula of the code gives, not
  how far rounding moves it. Where rounding decides a branch (grids made with arange, equality tests) the note says so.

Not modelled: plotting and its handlers, the templates of the web pages (`maf/web/templates`), batches of bundles (`maf/batches` except `common.py`) and their
summaries, the run comparison tools, downloading of data (`data/`), the sky brightness data files, the fit of the twilight and its spectra,
orbit propagation and ephemerides (pyoorb itself), the scheduler and model observatory of rubin_scheduler, healpix geometry and
k-d trees (a slice is given as the list of its visits), the tomography models, and the supernova light curve fits.
Metrics in `maf_contrib` are modelled only where section 5 lists them.

<!-- generated by tools/design.py from here on -->

## 5. Areas of the model

The header comment of each model file says what it transcribes and what it leaves out:

* **Archive_Model.v** – Model of the visit sequence archive: rubin_sim/sim_archive/vseqmetadata.py, vseqarchive.py and sql/make_vseqmeta.sql. Tables are lists of rows; uuids are numbers; the database itself is taken to do what SQL says. Points in time are seconds (Z), days are day numbers (Z).
* **Ascii_Model.v** – Model of maf_contrib/transient_ascii_sed_metric.py (TransientAsciiSEDMetric). Times are integers in small units; the duration of the transient is num_phases_to_run times [unit], so that the shifts of the phases are integers too; the duration of the survey is in the same unit (the code has it in years). The magnitudes that sncosmo gives for the redshifted spectrum are a function of the time since the start of the transient and of the band. np.searchsorted, where it may be called with a first argument which is not in order, is an argument.
* **Astrom_Model.v** – Model of the astrometric metrics: rubin_sim/maf/utils/astrometry_utils.py, rubin_sim/maf/metrics/calibration_metrics.py. Numbers are real numbers [R] (exact; rounding, overflow and infinities of floats are not modelled except where said). The constants 0.4, 0.04 and 0.5 are written 2/5, 1/25 and 1/2.
* **Bars_Model.v** – Model of the plots of binned data: rubin_sim/maf/plots/oned_plotters.py (OneDBinnedData) and nd_plotters.py (TwoDSubsetData, OneDSubsetData). A plot is the line that is handed to matplotlib and the limits that are set; labels, colours and matplotlib itself are left out. Numbers are real numbers (exact).
* **Bundle_Model.v** – Model of rubin_sim/maf/metric_bundles/metric_bundle_group.py (grouping of bundles, the per-slice loop with its cache, masking)
* **Calendar_Model.v** – Model of the observing-day code: maf/stackers/date_stackers.py, sim_archive/util.py (dayobs_to_date), sim_archive/vseqarchive.py (compute_nightly_stats), sim_archive/sim_archive.py (make_sim_archive_dir, fetch_sim_for_nights, fetch_obsloctap_visits) and the parts of Python's datetime that they use. A time is a number of microseconds of UTC since MJD 0 (Z), without leap seconds; an MJD is that time in days, exactly (the code holds it in a float).
* **ChebyEph_Model.v** – Model of the fit of the positions of one object over one segment and of its evaluation (rubin_sim/moving_objects/cheby_fits.py, cheby_values.py), in exact real arithmetic.
* **ChebySeg_Model.v** – Model of rubin_sim/moving_objects/cheby_fits.py: segment lengths, the division of the time span into segments and their subdivision, and of cheby_values.py: which segment answers for which object and time. All times that ChebyFits rounds to n_decimal places are integers, in units of the last decimal place ("ticks"); ephemeris times are integers in units of a tick over 4 * ngran. Floating point rounding of the ephemeris times is not modelled.
* **Cheby_Model.v** – Model of rubin_sim/moving_objects/chebyshev_utils.py: the evaluation of Chebyshev series and the constrained fit. Numbers are real numbers [R] (exact; rounding of floats is not modelled). Arrays of points are handled element by element, so [chebeval] is modelled for one point. A matrix is a function of row and column; np.linalg.inv is an argument.
* **Crowd_Model.v** – Model of metrics about crowding, star counts and quasars, of brown dwarfs, differential refraction and periodic stars, of visits in windows and of the hourglass: rubin_sim/maf/metrics/{crowding_metric,star_density,sky_sat_metric,use_metrics, dcr_metric,brown_dwarf_metric,qso_number_counts_metric,periodic_detect_metric,hourglass_metric}.py and maf_contrib/{intervals_between_obs_metric,num_obs_in_survey_time_overlap_metric}.py. Numbers are reals (rounding and overflow are not modelled); NaN is [None] where it can be a result.
* **Depth_Model.v** – Model of the metrics about depth and of accumulated (vector) metrics: rubin_sim/maf/metrics/{simple_metrics,vector_metrics,optimal_m5_metric}.py, maf/utils/{maf_utils,opsim_utils}.py, maf/stackers/teff_stacker.py. Magnitudes are real numbers [R] (exact; float rounding and overflow are not modelled; the constants 0.8 and 1.25 are written 4/5 and 5/4).
* **DirectObs_Model.v** – Model of rubin_sim/moving_objects/base_obs.py (trailing losses, footprints, settings) and of direct_obs.py: DirectObs.run. Numbers are reals (binary rounding is not modelled). The angular separation and the camera footprint of rubin_scheduler, the ephemerides of pyoorb and the colours of the spectra are arguments.
* **GapMetrics_Model.v** – Model of the metrics about gaps between visits: rubin_sim/maf/metrics/{tgaps,cadence_metrics,visit_groups_metric,season_metrics}.py. Times are [Z] ticks (float rounding of sums and differences is not modelled), nights are [Z]. [None] stands for [self.badval] (a masked value).
* **Group_Model.v** – Model of how a MetricBundleGroup runs stackers over a shared table and collects reduced bundles (maf/metric_bundles/metric_bundle_group.py), and of small utilities of maf/utils.
* **Handler_Model.v** – Model of maf/plots/plot_handler.py (PlotHandler, apply_zp_norm). A plot_dict is a list of keys and values; of values there are None, strings, numbers and pairs of numbers. White space is the space. The order in which Python goes through a set of strings is an argument [iter]; so are the random colours.
* **Hplot_Model.v** – Model of the plot of metric values against H, rubin_sim/maf/plots/mo_plotters.py (MetricVsH), and of the summary histogram, rubin_sim/maf/plots/special_plotters.py (SummaryHistogram). A plot is the line that is handed to matplotlib. Numbers are real numbers (exact).
* **Lens_Model.v** – Model of the dust-corrected depth and weak-lensing metrics, rubin_sim/maf/metrics/{exgal_m5, weak_lensing_systematics_metric, uniformity_metrics, surfb_metric}.py. Depths, dust and times are real numbers (rounding and overflow are not modelled); a float that may be NaN is an [option R], [None] being NaN.
* **Maps_Model.v** – Model of the maps that add information to slice points: rubin_sim/maf/maps/*.py. Numbers are reals (rounding is not modelled). Files, directories, healpy's ang2pix, get_interp_val and reorder, and the tree of the TRILEGAL map are arguments; warnings and printing are left out. Function attributes (eb_vhp.nside ...) are a state that is passed along.
* **Micro_Model.v** – Model of rubin_sim/maf/maf_contrib/microlensing_metric.py: the light curves of microlensing events, their derivatives and information, and the metric. Numbers are reals: rounding, overflow and infinities are not modelled; [ln] of a number that is not positive stands for NaN, and the theorems keep away from it, as from a distance 0 between lens and source. Visits are worked on one by one and not one band after the other: the values are the same.
* **MoGroup_Model.v** – Model of maf/metric_bundles/mo_metric_bundle.py and maf/slicers/mo_slicer.py: how moving object metrics are grouped and run. Column values, H values and metric values are integers; metrics and stackers are arbitrary functions. The random numbers of the visibility stacker, output files and plots are not modelled.
* **MoMag_Model.v** – Model of the moving object stackers: rubin_sim/maf/stackers/mo_stackers.py and mo_phase.py. Numbers are real numbers [R] (exact; rounding, NaN and infinities of floats are not modelled). Decimal constants are written as fractions. The columns have their default names.
* **MoObs_Model.v** – Model of maf/metrics/mo_metrics.py: the moving object metrics. Times, nights, signal to noise ratios, magnitudes and angles are integers (ticks). The argument of a metric is the list of observations of one object, after the stackers; the H value and, except for the orbit position, the orbit are not used by the code. The value None is badval where badval is not a number.
* **MoSum_Model.v** – Model of maf/metrics/mo_summary_metrics.py: the summary metrics of moving objects. Values are rationals. Powers of ten are an argument [pow10]; keyword arguments are association lists. Division by zero, nan or inf in numpy, is 0 as in Q: the theorems exclude it.
* **Moplot_Model.v** – Model of the plots of moving object metrics against orbits and H, rubin_sim/maf/plots/mo_plotters.py, and of the plot of the area against the number of visits, rubin_sim/maf/plots/special_plotters.py (FOPlot). A plot is what is handed to matplotlib. Numbers are real numbers (exact).
* **OrbitsIO_Model.v** – Model of rubin_sim/moving_objects/orbits.py: update_orbits and read_orbits, and of ooephemerides.py: packing orbits for pyoorb, unpacking them, and the conversion of pyoorb's ephemeris arrays. pyoorb itself and pandas.read_csv's parsing of numbers are arguments.
* **Orbits_Model.v** – Model of rubin_sim/moving_objects/orbits.py: the Orbits object - setting and validating orbits, default columns, the choice of spectra, comparison, indexing and iteration. A DataFrame is a list of row labels and a list of named columns; numbers are reals (binary rounding is not modelled), a cell may also hold text or NaN. Column names are taken to be distinct.
* **Param_Model.v** – Model of coordinate conversion and further stackers, of photometric parameters, dust values, predicted zero points and magnitudes of stars: rubin_sim/maf/stackers/{coord_stackers,sdss_stackers,label_stackers,neo_dist_stacker, m5_optimal_stacker}.py, phot_utils/{photometric_parameters,predicted_zeropoints}.py and maf/utils/stellar_mags.py. Numbers are reals: rounding and overflow are not modelled.
* **Period_Model.v** – Model of the two metrics of periodic stars: rubin_sim/maf/maf_contrib/periodic_star_metric.py and periodic_star_modulation_metric.py. Numbers are real numbers (exact; the rounding of floats is not modelled). The fit ([curve_fit] of scipy), the normal random numbers ([np.random.randn]) and the uniform ones ([random.uniform]) are arguments.
* **Phot_Model.v** – Model of the photometry of spectra: rubin_sim/phot_utils/sed.py, bandpass.py, physical_parameters.py, signaltonoise.py. Numbers are real numbers [R] (exact; rounding, overflow and infinities are not modelled); a result that may be NaN is an [option R], with [None] for NaN.
* **Plane_Model.v** – Model of the Galactic plane metrics, of the structure function uncertainty and of the two supernova metrics without light curves: rubin_sim/maf/metrics/{galactic_plane_metrics,galplane_time_sampling_metrics,agnstructure,sn_sl_metric,sn_cadence_metric}.py. Numbers are reals: rounding (the float16 of agnstructure.py:119 included) and NaN inputs are not modelled.
* **Pop_Model.v** – Model of the population metrics of kilonovae, tidal disruption events and X-ray binaries and of two metrics of pairs of visits: rubin_sim/maf/maf_contrib/{kne_metrics,tdes_pop_metric,xrb_metrics,filter_pair_t_gaps_metric,presto_color_kne_pop_metric}.py. Numbers are reals: rounding, infinities and NaN inputs are not modelled, except that [None] is NaN where said. The visits of a slice are worked on one by one and not one band after the other: the values are the same, only which of two different exceptions comes first is not.
* **Prenight_Model.v** – Model of the prenight simulation tools: sim_archive/prenightindex.py, sim_archive/prenight.py, and find_latest_prenight_sim_for_nights of sim_archive/prototype.py and sim_archive/sim_archive.py. Times are microseconds (Z) as in Calendar_Model.
* **Resample_Model.v** – Model of the resampling of spectra: rubin_sim/phot_utils/spectral_resampling.py, and the grids of rubin_sim/phot_utils/sed.py and rubin_sim/phot_utils/bandpass.py. Numbers are real numbers [R] (exact; rounding of floats is not modelled); a value that may be NaN is an [option R], with [None] for NaN. Spectra are one-dimensional and carry no uncertainties ([spec_errs] is None).
* **ResultsDb_Model.v** – Model of rubin_sim/maf/db/results_db.py (ResultsDb). A table is the list of its rows. An [Integer] primary key of SQLite that is not given is one more than the largest key in the table (1 for an empty table); keys near 2^63 are not modelled. SQLAlchemy sends the INSERTs of a flush before the DELETEs. Column values are strings; [None] is SQL NULL ([filter_by(col=None)] is rendered as IS NULL, so it matches).
* **Runs_Model.v** – Model of the comparison of runs: rubin_sim/maf/run_comparison/{summary_plots,radar_plot,archive,gather_summaries}.py. A cell is [None] when it is not a finite number (missing, NaN or the result of a division by zero); the cells that are read are finite or missing. Rounding is not modelled.
* **SatConst_Model.v** – Model of rubin_sim/satellite_constellations: sat_utils.py, model_observatory.py and basis_function.py. Texts are lists of characters. Quantities with units are reals in degrees, km and days. The rounding of "{:8.4f}".format is an argument, and so are the random numbers, positions and illumination of satellites (skyfield), the almanac, distances and pixels.
* **Sed_Model.v** – Model of the class Sed as an object with state, of the state of Bandpass, of dust, redshift and renormalization: rubin_sim/phot_utils/sed.py and bandpass.py. Numbers are real numbers (exact); [None] is NaN in an array.
* **SelfCat_Model.v** – Model of rubin_sim/selfcal/generate_catalog.py, star_tools.py and offsets.py (NoOffset, OffsetSys, OffsetSNR). Numbers are reals. The projection of rubin_scheduler is an argument, and so are random numbers. The k-d tree is a test of the distance; the order of the stars that it finds is that of the stars. Progress output is not modelled.
* **SelfSolve_Model.v** – Model of rubin_sim/selfcal/solver.py: LsqrSolver. Magnitudes are reals; star and patch numbers are int64, whose products wrap. scipy's lsqr is an argument.
* **Sky_Model.v** – Model of the sky brightness: rubin_sim/skybrightness/{sky_model,interp_components,twilight_func,utils}.py. Numbers are reals (rounding is not modelled), NaN and infinity are written out where they occur. The templates, the positions of sun and moon (astropy), the healpix neighbours and the magnitude of a spectrum are arguments. A template table is handled one column (filter or wavelength) at a time.
* **Slicer_Model.v** – Model of the binning slicers and of slicer iteration: rubin_sim/maf/slicers/{one_d_slicer,nd_slicer,movie_slicer,base_slicer}.py. Column values and bin edges are [Z] ticks; NaN is not modelled.
* **Small_Model.v** – Small metrics: the area summaries, year coverage, cumulative counts, Kuiper statistic, SNR weighting, age, chip vendors, colour-and-slope counts and the AGN time lag. Floats that are compared, added, divided or exponentiated are real numbers; a value that may be NaN is an [option R]. Source: rubin_sim/maf/metrics/*.py as cited at each definition. No proofs here.
* **Spatial_Model.v** – Model of the spatial slicers (rubin_sim/maf/slicers/base_spatial_slicer.py, user_points_slicer.py, healpix_slicer.py and healpix_subset_slicer.py), of saving, restoring and JSON output of a slicer (base_slicer.py) and of the construction and comparison of OneDSlicer. Angles are reals. The k-d tree of rubin_scheduler is a test of the distance and an arbitrary order; the camera footprint, healpix (pixel centres, valid nsides) and galactic coordinates are arguments. Negative indices of slices are not modelled.
* **Stacker_Model.v** – Model of the stackers: the column bookkeeping of maf/stackers/get_col_info.py and MetricBundle._find_req_cols, and the calculations of SaturationStacker, HourAngleStacker, OverheadStacker, Dcr2Stacker, NFollowStacker, NoteRootStacker and CoaddStacker.
* **Starcount_Model.v** – Model of the star counts of a model of the Galaxy: rubin_sim/maf/maf_contrib/star_count_metric.py, star_count_mass_metric.py and rubin_sim/maf/maf_contrib/star_counts/{starcount,stellardensity,coords,starcount_bymass}.py. Numbers are real numbers (exact). Distances are in parsec and not negative. The galactic coordinates of a position, the absolute magnitude of a mass (spec_type.py, abs_mag.py) and scipy's solver are arguments.
* **StatMetrics_Model.v** – Model of statistics metrics: rubin_sim/maf/metrics/{simple_metrics,cadence_metrics,summary_metrics}.py. Data values are [Z] ticks; quotients are exact rationals [Q] (float rounding is not modelled).
* **Technical_Model.v** – Model of maf/metrics/technical_metrics.py, string_count_metric.py, phase_gap_metric.py (PhaseGapMetric), pair_metric.py and the campaign metrics of season_metrics.py. Times are integers (ticks); conversions between days, minutes and seconds are dropped.
* **Template_Model.v** – Model of the template-creation metric, rubin_sim/maf/metrics/incremental_template_metric.py. Magnitudes, seeing and times are real numbers (float rounding and overflow are not modelled); constants such as 0.6 are written as fractions. [n_images_in_template] is [S k], at least one.
* **TimeSlicer_Model.v** – Model of rubin_sim/maf/slicers/time_interval_slicers.py. Times are [Z] ticks (exact arithmetic): [day] ticks per day, [intv] ticks per interval.
* **TrackingDb_Model.v** – Model of rubin_sim/maf/db/tracking_db.py (TrackingDb) and maf/utils/output_utils.py (name_sanitize). The table is the list of its rows; an id that is not given is one more than the largest id (SQLite INTEGER PRIMARY KEY without AUTOINCREMENT).
* **Transient_Model.v** – Model of maf/metrics/transient_metrics.py (TransientMetric). Times, magnitudes and slopes are integers in small units; the transient duration is n_phase_check times [unit], so that all phase shifts are integers too; the survey duration is given in the same unit of time (the code has it in years). The light curves of the visits are grouped by number directly, where the code sorts by time and uses searchsorted, which gives the same groups.
* **Twod_Model.v** – Model of the plots of two-dimensional metric values, rubin_sim/maf/plots/two_d_plotters.py. A plot is what is handed to matplotlib; colours, titles and matplotlib itself are left out.
* **Uniform_Model.v** – Model of the uniformity of the photometric self-calibration, rubin_sim/maf/maf_contrib/selfcal_uniformity_metric.py, and of the number of galaxies in the extragalactic footprint, rubin_sim/maf/maf_contrib/depth_limited_num_gal_metric.py. Magnitudes are real numbers (exact). The catalogue of observed stars, the solver, the pixel of a star and the Galactic latitude of a pixel are arguments.
* **Vector_Model.v** – Model of the vector metrics of rubin_sim/maf/metrics/vector_metrics.py that need no real numbers. Bin values (nights) and bin edges are [Z] ticks.
* **VisitGroups_Model.v** – Model of maf/metrics/visit_groups_metric.py (PairMetric is in Technical_Model) and of the order of reduce functions: maf/metrics/base_metric.py:168-176, maf/metric_bundles/metric_bundle.py:707-747. Times and nights are integers; the 1e-10 slack on delta_tmin is dropped. Numbers of visits are in half visits, as the code counts halves.
* **Web_Model.v** – Model of the pages about a MAF run and of the lists of runs, rubin_sim/maf/web/{maf_run_results,maf_tracking}.py, and of the helpers of rubin_sim/maf/batches/common.py. Texts are lists of ASCII characters, ordered by their codes as numpy and Python do. display_order and the values of statistics are integers standing for floats, which are only compared or passed on. What numpy cuts off at the width of a column is not modelled.
* **Young_Model.v** – Model of the metric of young stars, rubin_sim/maf/maf_contrib/young_stellar_objects_metric.py. Numbers are real numbers (exact). The limit by crowding (CrowdingM5Metric.run), the area of a pixel and the numerical integral (scipy's quad) are arguments.

## 6. Per property: where it is proved and what was found

`_refuted` marks a text that is false of the code (the theorem gives a witness); `_partial` a part or a restricted form. The way of proof is the same throughout unless the note says otherwise: the Python function is transcribed, the property is stated over its result for all inputs, and proved by induction over lists, histories or loops.

| id | property | status | file | theorems | note |
|----|----|----|----|----|----|
| C01 | Every requested metric bundle is scheduled for calculation | proved | Bundle_Props | every_bundle_scheduled |  |
| C02 | Bundles calculated together are mutually compatible | partial | Bundle_Props | groups_mutually_compatible_refuted, group_members_partial | The full statement is false of the code: the result of the comparison with the members after the first is computed and dropped (metric_bundle_group.py:196-206). Proved: constraint and slicer agree in a group, stackers agree with those of the first member. |
| C03 | Each bundle is calculated exactly once | partial | Bundle_Props | calculated_once_refuted, calculated_once_partial | The full statement is false of the code: there is no break after a list is extended, so a bundle can join several groups. Proved when no two bundles have conflicting stackers. |
| C04 | Bundles that need different maps are not merged | partial | Bundle_Props | maps_compared_refuted, compatibility_ignores_maps | The full statement is false of the code: list.sort() returns None, so the comparison at metric_bundle_group.py:168 never sees the maps. |
| C05 | The slice cache does not change metric results | proved | Bundle_Props | cache_transparent, cache_any_metric_refuted | Proved for metrics that depend on the set of visits only; shown false for slice-point dependent or order dependent metrics (the refutation theorem delimits the hypothesis). |
| C06 | The slice cache stays within its configured size | proved | Bundle_Props | cache_invariant |  |
| C07 | Masking of metric values | proved | Bundle_Props | masking, calculation_completes |  |
| C08 | Turning a list of bundles into a dictionary loses nothing | proved | Bundle_Props | make_bundles_dict |  |
| C09 | OneDSlicer slices partition the visits inside the bins | proved | Slicer_Props | oned_slice_content, oned_partition |  |
| C10 | OneDSlicer last bin is closed | partial | Slicer_Props | last_bin_closed_refuted, last_edge_always_lost, auto_bins_lose_maximum | False of the code, although documented (one_d_slicer.py:38-39): proved that visits at the last edge are never delivered, and that with bins chosen from the data the largest values are always lost (exact arithmetic). |
| C11 | NDSlicer puts each visit in at most one cell | proved | Slicer_Props | nd_cell_content, nd_each_visit_once |  |
| C12 | NDSlicer bins are half-open | partial | Slicer_Props | nd_half_open_refuted | False of the code, although documented (nd_slicer.py:28): the last cell of each dimension has no upper limit (see C11 for the exact law). |
| C13 | Equal NDSlicers slice the same way | partial | Slicer_Props | nd_equality_refuted, nd_equality_partial, nd_equality_total_refuted | False of the code: only the left edges of the first n_d cells are compared; comparison can also raise IndexError. |
| C14 | MovieSlicer frames | proved | Slicer_Props | movie_cumulative, movie_frames_partition, movie_frame_content |  |
| C15 | TimeIntervalSlicer slices hold the visits of their interval | partial | TimeSlicer_Props | interval_content_refuted, slice_holds_previous_interval, last_interval_lost | False of the code: np.digitize numbers bins from 1, so slice i holds the interval before the announced one and the last interval is lost. The exact law is proved. |
| C16 | VisitIntervalSlicer labels each slice with its own visit | partial | TimeSlicer_Props | visit_interval_label_refuted, each_visit_once, visit_interval_label_partial, results_aligned | Label refuted for unsorted data; proved: each visit in exactly one slice, labels right for data in strict time order, stored results aligned for any order. |
| C17 | BlockIntervalSlicer blocks | proved | TimeSlicer_Props | blocks, block_announced_interval |  |
| C18 | Iterating a slicer visits each slice once, in order | proved | Slicer_Props | iteration_complete |  |
| C19 | Coadded depth | proved | Depth_Props | coadd_flux, single_visit, order_independent, more_visits_deeper, at_least_deepest, equal_visits, two_steps, metric |  |
| C20 | TgapsMetric counts every gap once | proved | GapMetrics_Props | all_gaps, consecutive_gaps, consecutive_sum, percent_range, percent_count |  |
| C21 | PairFraction counts visits that have a partner | partial | GapMetrics_Props | pair_fraction_refuted, zero_min_gap_refuted, pair_fraction_half_open, pair_fraction_partial | Full statement refuted: the window is [min_gap, max_gap) towards later visits and (min, max] is not symmetric, and with min_gap=0 each visit pairs with itself. The half-open law is proved for all inputs with min_gap>0, and the full statement when no two visits are exactly max_gap or min_gap apart. |
| C22 | UniformityMetric lies between 0 and 1 | partial | StatMetrics_Props | uniformity_range_refuted, uniformity_partial, order_independent, same_time | The range [0,1] is false of the code (value 4/3 shown); proved: range [0, 2-2/n], zero exactly for evenly spaced visits, order independence, 1 for simultaneous visits. |
| C23 | Intra-night and inter-night gaps | proved | GapMetrics_Props | intra_night, inter_night, adjacent_nights, all_gaps_once |  |
| C24 | Seasons partition the visits | proved | GapMetrics_Props | season_runs |  |
| C25 | FracAbove and FracBelow are complementary | partial | StatMetrics_Props | frac_complement_refuted, frac_complement_partial | False when a value equals the cutoff (it is counted on both sides); the excess is proved to be exactly the number of such values. |
| C26 | fO metrics | proved | StatMetrics_Props | fonv, fonv_too_few, npix, foarea, fonv_foarea, zero_area_refuted | Proved for a positive area; C26_zero_area_refuted shows that area 0 is answered for the whole map. |
| C27 | Counting metrics agree with each other | proved | StatMetrics_Props | count_unique, subset_total |  |
| C28 | One results row per metric | proved | ResultsDb_Props | one_row_per_metric, stable_distinct_ids, returned_row, rows_never_change |  |
| C29 | At most one display row per metric | proved | ResultsDb_Props | one_display_per_metric, overwrite_replaces, no_overwrite_keeps |  |
| C30 | Plots are recorded once | proved | ResultsDb_Props | plots, recorded_once |  |
| C31 | Summary statistics are all recorded | partial | ResultsDb_Props | ntry_zero_refuted, summary_recorded_partial, scalar_recorded, caught_errors_refuted | False for ntry = 0 (nothing is recorded, no error). Proved for every ntry > 0 when database errors are SQLAlchemy's own exception class (which the except clause does not catch, see C77). If the errors were of the caught class, rows would be dropped silently because the counter of tries is shared by the rows (C31_caught_errors_refuted). |
| C32 | Results database schema migration is reversible | partial | ResultsDb_Props | downgrade_upgrade, upgrade_old, up_to_date_untouched, very_old_refuted | Proved for the current and the 0.10-1.0 schema with any extra columns. False of the very old schema (metricMetadata): the upgrade raises after renaming half of the columns, and the next opening takes the result for an up-to-date database. |
| C33 | Tracking database has one entry per directory | proved | TrackingDb_Props | one_entry, readd, add_new, delete |  |
| C34 | Sanitised names are safe and stable | proved | TrackingDb_Props | sanitized_safe, safe_unchanged, others_kept |  |
| C35 | Tags behave as a set | proved | Archive_Props | tags_are_a_set, tag_idempotent, untag, others_unaffected |  |
| C36 | Concurrent tagging stores a tag once | partial | Archive_Props | stored_once_refuted, concurrent_tagging_partial, sequential | Refuted: the test and the insert are separate transactions and the table has no key, so two clients can both insert. Proved: at most one copy per client, is_tagged holds when a client has finished, the view shows the tag once, untag removes all copies; non-overlapping clients store it once. |
| C37 | Recorded file hash matches the archived file | partial | Archive_Props | hash_matches_refuted, same_name_refuted, hash_matches_partial, one_call, interrupted_refuted | Refuted: add_file writes the file before register_file rejects a duplicate; two file types with one file name share a location; an interrupted update leaves the old hash. Proved when all calls succeed and names are not shared between types. |
| C38 | Recording a simulation is atomic | partial | Archive_Props | atomic_refuted, failed_call_refuted, atomic_partial | Refuted: INSERT and UPDATE are separate commits, so a stop or a rejected UPDATE leaves a simulation without provenance. Proved: provenance is all or nothing, other rows unchanged, atomic when no provenance is given. |
| C39 | Half-specified conda environment is rejected | partial | Archive_Props | half_specified_refuted, half_specified_partial | Refuted: `h is None != j is None` is a chained comparison that is never true. Proved: what happens instead. |
| C40 | The latest eligible prenight simulation is selected | proved | Prenight_Props | latest_selected, for_nights |  |
| C41 | The prototype archive search returns the newest simulation | partial | Prenight_Props | newest_refuted, undominated_partial | Refuted: execution date and daily index are compared one after the other, so a simulation of a later day with a smaller index is skipped. Proved: found exactly when one covers the nights, never dominated by another candidate, newest when all candidates are of one day. |
| C42 | Exported simulation metadata can be imported again | partial | Archive_Props | dates_lost_refuted, no_observations_refuted, round_trip_partial | Refuted: export writes simulation_dates, import reads simulated_dates; import needs a file of type observations. Proved: label, telescope, tags, scheduler version and files survive when there is an observations file. |
| C43 | Database connections are returned | partial | Archive_Props | returned_refuted, reconnect_refuted, returned_partial, query_returns | Refuted: insert_nightly_stats takes a connection through a new engine and never returns it (five calls exhaust the pool), and a reconnecting reader also keeps the old one. Proved: all other calls return their connection, also when they raise. |
| C44 | All code agrees on the observing day | proved | Calendar_Props | day_obs_agree, one_day |  |
| C45 | Integer day_obs round trip | partial | Calendar_Props | int_round_trip, only_dates, column_refuted | Proved for Python integers. A numpy integer, which is what the dayObs column holds, is not an int for the match statement and raises AssertionError (C45_column_refuted). |
| C46 | Anomalous overhead respects its minimum | proved | Prenight_Props | minimum_overhead, slew_part |  |
| C47 | Daily ids identify simulations | partial | Archive_Props | daily_ids, stable_partial, renumbered_refuted, ties_refuted | Proved that ids are 1..n without repetition; refuted for stability in general (older creation times renumber, equal times are ordered arbitrarily); stability proved for newer simulations with distinct times. |
| C48 | Tag filter of sims_on_nights | partial | Archive_Props | sims_on_nights_partial, no_tags_refuted | Refuted for empty tags: the query template has a bare percent sign, every call raises. Proved for non-empty tags. |
| C49 | Columns needed by a bundle are requested or added | proved | Stacker_Props | columns_provided, defaults_are_sources |  |
| C50 | Saturated visits are the ones invalidated | partial | Stacker_Props | nan_iff_saturated_refuted, saturated_are_nan, nan_iff_saturated_partial | The positions of saturated visits within one filter are used as positions in the whole table: with several filters a visit that is fine gets NaN. Saturated visits themselves always get NaN. |
| C51 | Hour angle range | proved | Stacker_Props | hour_angle_range |  |
| C52 | Overhead is only reported within a night | proved | Stacker_Props | overhead, bounded |  |
| C53 | Optimal bin count stays in range | proved | Group_Props | bins_in_range, no_spread |  |
| C54 | Benchmarks scale with survey length | partial | Group_Props | visits_scale, total_scales_refuted | The visits of each band scale; nvisitsTotal is not scaled, and is not the sum over the bands (design 825 against 824, stretch 1000 against 1030). |
| C55 | A metric's result does not depend on the other bundles of the group | partial | Group_Props | independent_of_others_partial, independent_of_others_refuted, rows_refuted | The table is shared: a column already present is reused, so an inner stacker of a later bundle uses values computed with the settings of an earlier one; and CoaddStacker shortens the table for all bundles that follow. |
| C56 | Every reduced bundle is kept and summarised | partial | Group_Props | all_reduced_kept_refuted, all_reduced_kept_partial | The key of a reduced bundle is metric name + reduce name when that is free; the test looks at the dictionary as it was before the loop, so two bundles of the same metric (other slicer or constraint info) collide and one is lost. |
| C57 | Stackers run after the stackers that provide their columns | partial | Stacker_Props | inputs_first_refuted, inputs_first_partial | Default stackers are appended in the order in which they are discovered, so a stacker that needs the column of a default stacker runs before it. |
| C58 | Nested loops over one slicer | partial | Slicer_Props | nested_loops_refuted | False of the code for every slicer with more than one slice. |
| C59 | Setting a time slicer up again replaces its contents | partial | TimeSlicer_Props | resetup_refuted | False of the code: sim_idxs.update keeps old keys. |
| C60 | Time intervals without visits are masked | partial | TimeSlicer_Props | empty_interval_masked_refuted | False of the code: an empty slice is delivered as [[]], whose indexing has length 1. |
| C61 | Histogram of gaps between nights for every slice | partial | GapMetrics_Props | nightgaps_refuted, nightgaps_partial | False when all visits fall in one night: np.concatenate of an empty list raises ValueError. Proved for two or more nights. |
| C62 | Largest gap covers the survey | proved | GapMetrics_Props | max_gap, max_gap_defined |  |
| C63 | Fraction of visits with a template | proved | GapMetrics_Props | template_exists |  |
| C64 | GeneralUniformityMetric measures evenness | partial | StatMetrics_Props | general_uniformity_refuted, general_uniformity_range_refuted, general_uniformity_partial | False of the code unless min_value is 0: values are divided by max_value, not by the range. |
| C65 | CountBeyondThreshold counts values between the thresholds | partial | StatMetrics_Props | count_beyond_refuted, count_beyond_partial | False of the code: with both thresholds and two or more values `and` of arrays raises ValueError. Proved for one threshold or one value. |
| C66 | RapidRevisitUniformityMetric lies in [0,1] | partial | StatMetrics_Props | rapid_revisit_range_refuted, rapid_revisit_partial | The bound 1 is false of the code; bound 2-2/n proved. |
| C67 | Angular range is the smallest arc | proved | StatMetrics_Props | smallest_arc, rotation_invariant, beyond_turn_refuted | Proved for angles that span less than one turn (documented input); C67_beyond_turn_refuted shows why that is needed. |
| C68 | Coadded depth of a band without visits is the bad value | partial | Depth_Props | no_visit_in_band_refuted, no_visit_in_band_partial | False of the code: the sum over no visits gives log10(0) = -inf, not badval (simple_metrics.py:108-111). Proved: exactly when -inf and when badval occur. |
| C69 | Expected coadded depth equals the measured one | proved | Depth_Props | calc_coadded_depth, missing_band |  |
| C70 | Effective exposure times add up | proved | Depth_Props | teff_additive, teff_fiducial |  |
| C71 | Accumulated visit counts | partial | Vector_Props | accumulate_count_refuted, accumulate_count_partial, single_visit_refuted | False of the code: searchsorted(side='right') is used directly as an index into the accumulated array, so each bin counts one visit after the edge (vector_metrics.py:79-88). Proved: the exact off-by-one law; a slice with one visit always gives badval. |
| C72 | Accumulated metrics are causal | partial | Depth_Props, Vector_Props | accumulate_m5_partial, accumulate_refuted, accumulate_partial | False of the code: the first visit after the edge is included. Proved: the exact law. |
| C73 | Depth histogram | proved | Depth_Props | histogram_m5 |  |
| C74 | Galaxy counts do not depend on other bands | partial | Depth_Props | ngal_other_bands_refuted, ngal_one_band_partial | False of the code: the dust cut uses the band of the first visit of the slice (scaling_metrics.py:59). Proved when all visits are in the band. |
| C75 | OptimalM5Metric counts missing visits | proved | Depth_Props | optimal_m5, optimal_m5_flux, optimal_m5_nonneg |  |
| C76 | AccumulateUniformityMetric range | proved | Vector_Props | accumulate_uniformity |  |
| C77 | A locked results database is retried | partial | ResultsDb_Props | retry_refuted, never_retried_partial | False of the code: the except clause names sqlite3.OperationalError (results_db.py:15,606) but SQLAlchemy raises sqlalchemy.exc.OperationalError, so nothing is retried. |
| C78 | The (auto) mark is removed from captions | partial | ResultsDb_Props | auto_caption_refuted, auto_caption_partial | False of the code: str.replace(.., 1) removes the first '(auto)'. Proved for captions with no other occurrence. |
| C79 | Parallel runs record a metric once | partial | ResultsDb_Props | parallel_runs_refuted, sequential_partial | False of the code: the query and the insert are separate and there is no unique constraint. Proved for processes that run one after the other. |
| C80 | Standard summary names are clean | partial | ResultsDb_Props | summary_name_refuted, summary_name_partial | False of the code: the result of name.replace(',', '') is dropped (results_db.py:737). Proved: no blank at the ends, every other character comes from the parts. |
| C81 | Re-adding a run is atomic | partial | TrackingDb_Props | readd_atomic_refuted, other_runs_partial | False of the code: the delete is committed before the new row (tracking_db.py:174-176). Proved: other entries are present in all states. |
| C82 | Run ids are not reused | partial | TrackingDb_Props | ids_reused_refuted, new_id_fresh_partial | False of the code: SQLite gives max(id)+1. Proved: the id is larger than that of all present runs. |
| C83 | Different names stay different | partial | TrackingDb_Props | sanitized_distinct_refuted, safe_distinct_partial | False of the code by construction. Proved for names that are already safe. |
| C84 | Saved conda environments are kept | proved | Archive_Props | conda_env_saved |  |
| C85 | All nightly statistics of a night are reported | partial | Archive_Props | night_stats_partial, night_stats_refuted | Refuted: the statistics are aggregated in an object keyed by the value name only, although the table also distinguishes accumulated rows. Proved when no accumulated rows are stored. |
| C86 | Setting the URL of a visit sequence affects that sequence only | proved | Archive_Props | visits_url |  |
| C87 | Comments are all visible | partial | Archive_Props | get_comments, view_comments_partial, view_comments_refuted | get_comments proved; the simulation view keys comments by time, so equal times lose one (refuted); proved for distinct times. |
| C88 | Filtering visits by night range keeps exactly the nights asked for | proved | Calendar_Props | night_range_filter, order_kept |  |
| C89 | The night texts used as defaults are the observing day | partial | Calendar_Props | shifted_text_refuted, shifted_text_partial | False in the last half millisecond before noon UTC, because the ISO text is rounded to milliseconds before it is cut. The exact law is proved. |
| C90 | A prenight simulation covers the requested nights | partial | Prenight_Props | sim_interval, past_end, before_almanac_refuted | The first half is proved for regular almanacs; the last half is refuted: a day_obs before the first night of the almanac gives a negative index, and a night from the end of the almanac is returned. |
| C91 | A simulation can be found in the nightly index by creation day and daily id | partial | Prenight_Props | lookup_refuted, lookup_partial | Refuted: when the index of one telescope is missing the empty DataFrame has no columns and AttributeError is raised. Proved when all indices exist. |
| C92 | All documented forms of day_obs mean the same night | partial | Prenight_Props | day_obs_forms_partial, iso_text_refuted | Refuted: get_sim_metadata with a day_obs rejects every YYYY-MM-DD text. Proved for the other forms. |
| C93 | The age limit means the same in both searches | partial | Prenight_Props | age_limits_refuted, age_limits_partial | Refuted: one search rounds the age down to whole days. Proved: the query implies the selection, and the selection implies the query with one more day. |
| C94 | A non-zero slew_loc shifts the overhead | partial | Prenight_Props | slew_loc_refuted, slew_loc_partial | Refuted for a negative slew_loc with slew_scale 0, which is ignored. Proved when slew_loc or slew_scale is positive and the draw is at least -1. |
| C95 | A column made by a bundle's stackers is not asked of the database | partial | Stacker_Props | stacker_columns_not_queried_refuted, new_class_refuted, stacker_columns_not_queried_partial | ColInfo zips columns with units: Dcr2Stacker declares 4 columns and 2 units, so dec_dcr_var and ra_dec_dcr_cov are requested from the database. The registry is read once when the bundle module is imported, so columns of stackers defined later are requested as well. |
| C96 | A stacker given by the user decides its column | partial | Stacker_Props | given_stacker_decides_refuted, given_stacker_decides_partial | appMag, SNR and vis are made by several classes; the class registered last is added by default next to the given one and runs after it. |
| C97 | DCR second moments are consistent | proved | Stacker_Props | dcr2_moments |  |
| C98 | Dcr2Stacker uses the stackers it is given | partial | Stacker_Props | given_inner_stackers_refuted, given_inner_stackers_partial | The given zenith distance stacker is stored as self.ztacker; _run then raises AttributeError. |
| C99 | Follow-up observatories are counted once | proved | Stacker_Props | follow_up_count |  |
| C100 | Note root is what precedes the first comma | partial | Stacker_Props | note_root_partial, note_root_refuted | The column is <U50: roots that differ after 50 characters become equal. |
| C101 | Co-adding visits keeps totals | partial | Stacker_Props | coadd_keeps_totals_refuted, coadd_keeps_totals_partial | Visits within 1e-5 deg of several distinct positions are counted once for each. |
| C102 | Saturation inputs can be given separately | partial | Stacker_Props | saturation_inputs_refuted, saturation_inputs_partial | zeropoints given and km not given raises UnboundLocalError (k_atm is only set when the zeropoints are looked up). |
| C103 | Percentile clipping keeps the percentage asked for | partial | Group_Props | clipping_partial, clipping_refuted | With the default 95% none of two data points is kept; the proved bound is p% of the n-1 intervals between data, less one. |
| C104 | Visits of a night collapse to one row per filter | partial | Group_Props | one_row_per_night_refuted, mjd_column_refuted, one_row_per_night_partial | Filter names of several characters are split into characters, and the sort is always by observationStartMJD, so another mjd_col raises ValueError. |
| C105 | Changes of state are counted in time order | proved | Technical_Props | n_changes, row_order |  |
| C106 | The shortest time between changes of state | partial | Technical_Props | min_time_refuted, min_time_partial | The time from the first visit to the first change takes part as if the first visit were a change. |
| C107 | Fast changes of state are counted | partial | Technical_Props | faster_refuted, faster_partial | The first change counts when it is within the cutoff of the first visit. |
| C108 | The busiest window of changes | proved | Technical_Props | max_within |  |
| C109 | The open shutter fraction is a fraction | proved | Technical_Props | open_shutter |  |
| C110 | The open shutter fraction from visit times is a fraction | partial | Technical_Props | brute_osf_refuted, brute_osf_partial | Exposures before a long gap (and the last one) are in the numerator only, so two visits can give more than one. |
| C111 | Texts are counted completely | partial | Technical_Props | string_count_refuted, string_count_partial, clip | A column with both the empty text and the text blank raises ValueError. |
| C112 | Reduce functions made for the texts apply to every slice | partial | Technical_Props | reduce_refuted, reduce_partial | Reduce functions accumulate over slices and raise ValueError for a slice without that text. |
| C113 | Phase gaps are the longest stretches of phase without visits | partial | Technical_Props | phase_gap_partial, phase_gap_refuted, single_period_refuted | Equal smallest and largest periods leave zeros for the other periods, so the mean gap is too small; one period over a proper range gives a NaN period. |
| C114 | Pairs of visits are counted | partial | Technical_Props | pairs_refuted, pairs_partial | Pairs of occupied time bins are counted; several visits in one bin count once, and when match_min rounds to zero bins every occupied bin pairs with itself. |
| C115 | Campaign length and frequency summarise the seasons | partial | Technical_Props | frequency_refuted, frequency_partial, campaign_length | A season with a single night enters the mean as separation zero. |
| C116 | Visits of a night in pairs | partial | VisitGroups_Props | at_most_visits_refuted, pair_in_range_refuted, mirror_refuted, night_partial, small_nights_partial, recorded_partial | A night with exactly two visits counts two however far apart they are; a short gap between two good ones adds half a visit to the visits already counted (4.5 for 4 visits); the result depends on the direction of time. |
| C117 | The best window of nights | proved | VisitGroups_Props | nights_in_window, visits_in_window, monotone |  |
| C118 | Lunations with a group | proved | VisitGroups_Props | lunations |  |
| C119 | The longest sequence of lunations with groups | partial | VisitGroups_Props | sequence_refuted, sequence_partial | For windows shorter than a lunation, any night before the first group of a period ends the sequence. |
| C120 | Every reduce function can be applied | partial | VisitGroups_Props | reduce_refuted, reduce_partial | VisitGroupsMetric, TripletBandMetric and GRBTransientMetric replace the order by one with other keys, so reducing their bundles raises KeyError. |
| C121 | The fraction of transients detected is a fraction | partial | Transient_Props | fraction_refuted, fraction_phases_refuted, fraction_partial | With count_method full a last incomplete light curve is detected but not counted as possible, and with several phases one is subtracted from the possible ones for each phase but never from those detected. |
| C122 | The survey start can be given | partial | Transient_Props | survey_start_refuted, first_visit_partial | With survey_start given the local variable is never assigned: UnboundLocalError. |
| C123 | Transients are counted by the documented criteria | partial | Transient_Props | criteria_refuted, criteria_partial, complete_partial | With n_pre_peak and several bands or sections the criteria are added up, so extra bands make up for missing visits before the peak. |
| C124 | Phases within a light curve follow the time | partial | Transient_Props | phase_refuted, phase_partial | The number of the light curve ignores the phase shift, so phases wrap around inside a light curve. |
| C125 | Deeper visits never lower the fraction | proved | Transient_Props | deeper |  |
| C126 | The light curve is brightest at its peak | proved | Transient_Props | peak |  |
| C127 | Counts of detections of a moving object agree | proved | MoObs_Props | no_singles, singles_left_out, arc | n_obs_no_singles needs nights that are not negative: np.bincount raises ValueError otherwise (modelled). |
| C128 | A stricter limit or fewer observations never give more detections | proved | MoObs_Props | limit_monotone, more_observations |  |
| C129 | Discovery opportunities are the nights that start a full window | partial | MoObs_Props | opportunities, tracklet_nights, window_refuted | Finding: the window holds t_window + 1 nights (nights are compared with <= t_window), so two nights t_window apart count; refuted for the window of t_window nights, exact count proved for the window used.  Order of time is assumed. |
| C130 | The discovery time is that of the first opportunity | partial | MoObs_Props | first_opportunity_partial, any_order_refuted | Finding: vis_sort is applied twice to the same arrays; for observations not in order of time the indices refer to the wrong order and the discovery time is wrong (refuted).  Proved for observations in order of time. |
| C131 | A further observation never costs an opportunity | partial | MoObs_Props | further_observation_refuted, other_nights_partial, pairs_partial | Finding: when the detections of a night span more than t_max only successive groups of n_obs_per_night are looked at, so one more detection can remove a tracklet (refuted).  Proved for observations on other nights, and for pairs at least t_min apart. |
| C132 | The number of observations of an opportunity | partial | MoObs_Props | observations_refuted, one_less_partial | Finding: DiscoveryNObsMetric is end - start of inclusive indices, one less than the number of detections (refuted; exact relation proved). |
| C133 | Every child metric of the discovery metric can be made | partial | MoObs_Props | velocity_refuted, time_partial | Finding: DiscoveryVelocityMetric reads parent_discovery_metric.snrLimit, which DiscoveryMetric does not have: AttributeError always. |
| C134 | Magic discovery counts nights followed by enough detections | partial | MoObs_Props2 | magic_partial, any_order_refuted | Finding: nights are sorted before the indices of the detections are applied, so with observations not in order of nights other observations are counted (refuted).  The window is half open here, unlike in DiscoveryMetric. |
| C135 | Trailed discovery is at the first night with enough trailed detections | partial | MoObs_Props2 | trailed_partial, fast, time_refuted, never_refuted | Findings: the time is that of the first observation of the night, detected or trailed or not; an object with detections none of which is trailed gets 0 instead of badval. |
| C136 | The fraction of the survey with chances to see activity | partial | MoObs_Props2 | full_refuted, fraction_partial, more | Finding: the number of windows is the number of bin edges, one more than the number of windows, so the fraction is always below 1 (refuted; detections every night give (m - 1)/m). |
| C137 | The colour flag tells which bands have enough detections | partial | MoObs_Props2 | bands, more, limit, detections_refuted | Finding: an observation with SNR equal to the limit is a detection for the other metrics but has weight 0 here (refuted).  The weight has to be exceeded, the docstring says at least. |
| C138 | The outer solar system flag counts light curves and a colour | proved | MoObs_Props2 | flag, more |  |
| C139 | Instantaneous colours come from pairs close in time | partial | MoObs_Props2 | found_refuted, missed_refuted, following_partial | Findings: an observation in band two before all of band one gives a negative difference and counts as a pair at any distance; an observation in band one shortly after one in band two is missed.  Proved when every observation in band two follows one in band one. |
| C140 | Light curve inversion needs coverage in longitude and phase | partial | MoObs_Props2 | conditions_partial, coverage_refuted | Finding: the range of longitudes is taken from the values not centred, so longitudes 355, 5, 5 count as covering 350 degrees (refuted).  Conditions as computed are proved; longitudes and phases are whole degrees. |
| C141 | Known objects are found at an observation that allowed it | proved | MoObs_Props2 | known | Random numbers are a list of arguments; np.random.rand is not modelled otherwise. |
| C142 | Integrating over H is a weighted mean | partial | MoSum_Props | weighted_mean, monotone, power_law, anchor_free, single_refuted, single_partial | A single H value raises IndexError in every distribution. For the anchor theorem the law of powers is assumed for the exponents that occur. |
| C143 | Completeness is the fraction of objects that reach the threshold | partial | MoSum_Props | differential, threshold, cumulative, masked_refuted, masked_partial | Masked values are read as 0, so with threshold <= 0 objects without observations count as found. |
| C144 | The size distribution index of completeness is used | partial | MoSum_Props | index_partial, index_refuted | hindex is passed as Hindex, which power_law_dndh swallows in **kwargs: the default 0.33 is always used. |
| C145 | Completeness by magnitude bin without cloning | partial | MoSum_Props2 | by_magnitude_refuted, values_partial, span_refuted, span_partial | The histogram is taken of the metric values instead of the H values; with an H range below min_hrange the bins start half of it below the least H and may end before the largest. |
| C146 | Completeness at a time counts the objects discovered by then | partial | MoSum_Props2 | differential, cumulative, early_refuted, default_refuted, init_partial, rerun_refuted, rerun_partial | Discoveries before the first time are never counted; hval=None without metric_name raises TypeError in the constructor; the first run stores the H it chose, which changes later runs; hindex is not used. |
| C147 | Values at a magnitude are interpolated | proved | MoSum_Props2 | value, no_value, mean |  |
| C148 | Expected numbers of objects grow with the magnitude limit | partial | MoSum_Props2 | total, parameters_refuted, parameters_partial, pha_refuted, distributions_partial, more_faint | TotalNumberSSO passes the keyword arguments both to the distribution and to BaseMoMetric.__init__, which rejects hindex, no and ho; pha_dndh_grav always raises TypeError (np.diff[...]). |
| C149 | Moving object bundles run together only without conflict | partial | MoGroup_Props | partition, no_conflict, fewest_lists_refuted, fewest_lists_partial | Only the last list is considered for a bundle, so a bundle compatible with an earlier list still starts a new one. |
| C150 | The values of a moving object bundle do not depend on the others | partial | MoGroup_Props | independent_partial, independent_refuted | Every list runs the stackers of all bundles of the group, so of two stackers of one class with other settings the later one wins in both lists. |
| C151 | Masked values of moving object metrics | proved | MoGroup_Props | masked |  |
| C152 | Making a moving object bundle | partial | MoGroup_Props | summaries, stackers, label_refuted, label_partial | The label looks for slicer.obsfile; the attribute is obs_file, so it is always noObs. |
| C153 | The slices of the moving object slicer | partial | MoGroup_Props | slices, setup_refuted, setup_partial, equality, equal_shape_refuted | setup_slicer sets only all_obs; slicing before subset_obs raises AttributeError, and without an observation file TypeError. A slicer cloned over exactly the H values of the orbits equals one that is not cloned although the shapes differ. |
| C154 | Every moving object bundle is run exactly once | proved | MoGroup_Props | once |  |
| C155 | Signal to noise and position errors | proved | Astrom_Props | depth, decreasing, five_sigma, default, precision |  |
| C156 | The uncertainty of a fitted slope is the best possible | proved | Astrom_Props | best, nan, more, invariant |  |
| C157 | The uncertainty of proper motions | partial | Astrom_Props | more, best, order, normalized_refuted, normalized_order_refuted, normalized_partial | The normalised value takes the first half of the rows as the early epoch: with different errors per visit it depends on the row order and can exceed 1. |
| C158 | The uncertainty of parallaxes | proved | Astrom_Props2 | information, infinite, more, normalized | An empty slice raises IndexError. |
| C159 | Coverage of the parallax ellipse | partial | Astrom_Props2 | radius, run, angles_refuted, faint_refuted, angles_partial | theta_range: line 378 computes ((theta + pi) % 2) * pi instead of modulo 2 pi, so visits at angles 0 and 2 rad do not count as spanning 1.5 rad; without visits above the limit np.min of nothing raises ValueError. |
| C160 | Degeneracy of parallax and refraction | proved | Astrom_Props2 | range, degenerate, scale | curve_fit itself is not modelled: the value is that of the exact weighted least squares solution. |
| C161 | Distances from the field centre | partial | Astrom_Props2 | distance, reduce, units_refuted | The values are in degrees although the default units of the metric are radians. |
| C162 | Signal to noise of moving objects | proved | MoMag_Props | snr |  |
| C163 | One definition of signal to noise | partial | MoMag_Props | same_refuted, stretch_partial, factor_partial | Line 432 has 10**(0.5 (m-m5)) where m52snr (and the LSST formula) has 10**(0.4 (m-m5)): SNR is too high for bright objects and too low for faint ones, by 10**0.1 per magnitude for gamma 0.04. |
| C164 | Visibility of moving objects | proved | MoMag_Props | flag, completeness |  |
| C165 | Brighter clones are at least as visible | partial | MoMag_Props | brighter_refuted, brighter_partial | One generator serves all clones, so each clone has other random numbers; true when the numbers are the same. |
| C166 | Reproducible visibility | partial | MoMag_Props | order_refuted, position_partial | The generator is created once per stacker and advances by the number of rows of every frame; only that number matters. |
| C167 | Magnitudes of asteroids follow H | proved | MoMag_Props2 | shift, empty |  |
| C168 | Magnitudes of comets | proved | MoMag_Props2 | comet, band | The phase function of the coma is a scipy spline, taken as an arbitrary positive function. |
| C169 | The coma magnitude has the stated units | partial | MoMag_Props2 | formula_partial, formula_refuted | Line 350 multiplies km by 1000 and calls it cm: the coma is exactly 10 magnitudes too bright. |
| C170 | The kind of magnitude asked for | partial | MoMag_Props2 | unknown_refuted, memory_refuted, types_partial | A misspelt magtype silently uses the column appMag as it is, or uninitialised memory when there is none. |
| C171 | Comet types given by a dictionary | partial | MoMag_Props2 | key_refuted, dict_partial | The code looks for Afrho1_const; the documented afrho1_const raises ValueError. |
| C172 | Ecliptic coordinates | proved | MoMag_Props2 | ecliptic, points |  |
| C173 | Phase functions | proved | MoMag_Props2 | log_linear, hg |  |
| C174 | Resampling takes the mean over each bin | proved | Resample_Props | mean |  |
| C175 | Resampling conserves light | proved | Resample_Props | conserved, total |  |
| C176 | Resampling makes no new extremes | proved | Resample_Props | between, flat, linear |  |
| C177 | Resampling onto the own grid changes nothing | proved | Resample_Props | same, twice |  |
| C178 | A spectrum that covers the new wavelengths gives numbers there | partial | Resample_Props2 | covers_refuted, coarse, covers_partial | refuted: on the grid 1,3,5 a spectrum at 1,2,3,4,5 has NaN at both ends, as the outer bins of the new grid reach beyond those of the spectrum; C178_coarse shows this for every grid with coarser outer steps, C178_covers_partial the case of steps that are not coarser. |
| C179 | Spectra and bandpasses share their grids | partial | Resample_Props2 | grids, same_refuted, same_partial, again | C179_same_refuted: Sed adds a whole step to the maximum and Bandpass half a step, so the grids differ in length for a range that is not a whole number of steps; C179_same_partial the equality for whole numbers of steps. |
| C180 | The flux in a bandpass is the weighted mean | proved | Phot_Props | mean, between, sum, scale |  |
| C181 | Magnitudes of flat sources | proved | Phot_Props | flat, brighter |  |
| C182 | Normalizing gives the magnitude asked for | proved | Phot_Props | norm |  |
| C183 | Magnitudes and fluxes are inverse | proved | Phot_Props | inverse |  |
| C184 | A cleared Sed is like a new one | partial | Phot_Props | cleared_refuted, cleared_partial | refuted: a new Sed has the zeropoint -2.5 log10 3631 = -8.90012..., a cleared one -8.9; C184_cleared_partial bounds the difference by 0.0002 mag. |
| C185 | Counts are photons times exposure over gain | partial | Phot_Props2 | photons_refuted, photons_partial, linear | C185_photons_refuted: the width of the first bin is used for all, so an uneven grid gives wrong counts; C185_photons_partial the uniform grids; C185_linear holds on all. |
| C186 | calc_ergs integrates flux times throughput | partial | Phot_Props2 | ergs_refuted, ergs_partial | refuted on uneven grids, as only the first step is used; C186_ergs_partial for uniform grids. |
| C187 | The instrumental zeropoint is one count per second | partial | Phot_Props2 | per_second_refuted, per_visit, outside | refuted: the zeropoint is the magnitude of one count in the whole visit (C187_per_visit); C187_outside: NaN when the bins of the bandpass leave 300-1150 nm. |
| C188 | Effective wavelengths lie in the bandpass | proved | Phot_Props2 | effective |  |
| C189 | At the five sigma depth the signal to noise is five | partial | Phot_Props3 | gain, five_refuted, deeper | refuted: the square root has 625/4/gain where the quadratic gives 625/4/gain^2; C189_gain: the signal to noise is 5 exactly when gain = 1 and above 5 for the default 2.3. |
| C190 | A sky scaled to a depth has this depth | partial | Phot_Props3 | snr, depth_partial, depth_refuted | C190_snr holds; C190_depth_refuted: calc_m5 does not return the depth unless gain = 1 (C190_depth_partial), for the same reason as C189. |
| C191 | Signal to noise from depth and from counts agree | proved | Phot_Props3 | agree |  |
| C192 | Signal to noise falls with magnitude | proved | Phot_Props3 | snr, gamma |  |
| C193 | Errors of magnitudes | proved | Phot_Props3 | error, systematic |  |
| C194 | Astrometric error has a floor | proved | Phot_Props3 | floor |  |
| C195 | The two seeings | proved | Phot_Props3 | seeing |  |
| C196 | The two forms of a spectrum agree | proved | Sed_Props | same_light, measure, multiply |  |
| C197 | The response of a bandpass is never stale | proved | Sed_Props | response |  |
| C198 | A call that raises changes nothing | partial | Sed_Props | refuted, partial, bandpass | Refuted: a set_sed that raises for the length of its arrays leaves a Sed without fluxes. Every other method of Sed keeps the spectrum when it raises, and so does set_bandpass. |
| C199 | Redshifts | partial | Sed_Props | undo, refuted, redshift_partial, compose_partial, energy, object | Refuted for blueshifts: z<0 divides the wavelengths by 1-z instead of multiplying by 1+z (z=-0.5 gives a factor 2/3, not 1/2). Proved for z>=0; undoing and conservation of energy hold for every z. |
| C200 | Dust dims by the extinction of the law | partial | Sed_Props2 | dims, add, zero, refuted, refuses_partial, nothing | Refuted: with r_v=3.1 given explicitly, contradicting a_v and ebv are taken instead of refused. For every other r_v they are refused. |
| C201 | The dust laws | partial | Sed_Props2 | visual, refuted, dims_partial, outside | Refuted: exactly at 5.9 inverse microns the law has a gap and no extinction. Positive at every other wavelength of the range (polynomials bounded by interval arithmetic inside the proof). |
| C202 | Renormalizing gives the value asked for | proved | Sed_Props2 | value, gap, succeeds, refuses |  |
| C203 | The documented calls of Sed work | partial | Sed_Props2 | refuted, write_refuted, product_partial | Refuted: PhysicalParameters has no wavelenstep, so the defaults raise AttributeError; there is no method fnutoflambda; write_sed(print_fnu=True) indexes a pair and raises IndexError after two lines. The product with a step given and equal wavelengths is right. |
| C204 | Many fluxes at once are the fluxes one by one | partial | Sed_Props2 | refuted, flux_partial, ends_partial, setup_refuted, setup_partial | Refuted: the sum counts the two ends in full, so a response that is not zero there gives too much (twice as much on a grid of two points); and the array is sized with another grid than the bandpasses', so that ranges which are not whole numbers of steps raise ValueError. The exact difference is proved, equality when the response vanishes at the ends, and that the array is set up for whole numbers of steps. |
| C205 | The cache returns the spectrum of the file | proved | Sed_Props2 | cache |  |
| C206 | A Chebyshev series is evaluated as defined | proved | Cheby_Props | series_value, velocity, mask, interval | Exact real arithmetic. |
| C207 | A fit passes through its end points | proved | Cheby_Props | ends_exact, pieces_meet | np.linalg.inv is any function that returns a right inverse or raises; exact real arithmetic. |
| C208 | A fit with velocities also has the given slopes at its ends | proved | Cheby_Props | end_slopes, pieces_smooth |  |
| C209 | A fit is the least squares one | proved | Cheby_Props | least_squares, least_squares_velocities, polynomials_recovered | np.linalg.inv is any function that returns a right inverse or raises. |
| C210 | Which fits are possible and what is reported | partial | Cheby_Props | residuals, one_solution, accepted_sizes, other_sizes, documented_sizes_refuted, inverse_exists | Refuted for the documented sizes: with dxdt, n_poly of 2 and 3 raises RuntimeError (documented as allowed). For every accepted size the system is proved to have one solution, and with elimination in exact arithmetic as the inverse the fit never raises. |
| C211 | The segment length fits the time span and meets the tolerance | partial | ChebySeg_Props | length_partial, given_kept, whole_refuted, error_kinds, documented_error_refuted | Refuted: a length is accepted if a multiple of it comes within ten units of the last decimal place below the span (with n_decimal=0, length 7 for a span of 30), so it need not fit a whole number of times; and a failing search raises ZeroDivisionError (length rounded to 0.0) or AttributeError (DataFrame.as_matrix was removed from pandas), never the ValueError meant, and nothing is listed as failed. The stopping rules are proved for every behaviour of the residuals. Times are integers in units of the last decimal place; binary rounding is not modelled. |
| C212 | Segments tile the time span | partial | ChebySeg_Props | tiling_partial, near_partial, end_refuted, gap_refuted, short_refuted, failed_refuted | Proved when every length chosen fits a whole number of times; without subdivision for every length, with the end within half an ephemeris step of t_end. Refuted otherwise: with span 30, length 7, ngran 64 the segments end at 29.96875; a subdivided piece can leave such a gap inside the span; with span 31 and length 10 the last piece has 7 points, too few for the fit, and RuntimeError ends the whole calculation; a piece that cannot be subdivided raises AttributeError for everything instead of being listed as failed (C211). |
| C213 | Evaluated positions match the fitted ephemeris | partial | ChebyEph_Props | ends_partial, within_tolerance, turns_partial, turns_refuted, range_refuted | Proved: both ends exact up to a turn in right ascension (velocities if cos(dec) is not 0), the residual compared with the tolerance is the largest distance at the ephemeris times, and tracks within an arc of less than 90 degrees are brought to one turn. Refuted: tracks within 120 degrees (265, 350, 5 becomes 265, -10, 5), and right ascensions evaluated may be negative since nothing brings them back to 0-360. Also seen: resids['vmag'] stores the residual of geo_dist. |
| C214 | Every object is evaluated with its own segment | partial | ChebySeg_Props | own_segments_partial, all_objects_partial, missing_segment_refuted, gap_refuted, unknown_refuted | Proved for tables in which each object asked for has one segment at each time. Refuted: if one object lacks a segment its row gets the next object's value and label, also for the other times; a time in a gap gives zeros; an unknown id is not refused, since the array that is checked is the caller's, overwritten in place. |
| C215 | Times outside the segments | partial | ChebySeg_Props | outside_partial, documented_refuted | Refuted for the documented ValueError: the entries are NaN. Proved for mixtures of times inside and outside. |
| C216 | Equality of Orbits | partial | Orbits_Props | ids_partial, elements_refuted, length_refuted, length_error | Proved: only format and obj_id columns decide (the loop over the columns returns after the first). Refuted: objects with different elements compare equal; an object of one row equals one with two rows of the same obj_id; otherwise different lengths raise ValueError. __neq__ is not the name python calls, != is derived from __eq__. |
| C217 | set_orbits validates and completes a table | partial | Orbits_Props | accepts, stored, epoch_refuted, error_kinds, missing_refuted | Proved which tables are accepted and what is stored. Refuted: only the first epoch is checked (a table with a later epoch in JD is accepted), and a table without epoch raises KeyError, not ValueError. |
| C218 | Spectra are assigned by distance | partial | Orbits_Props2 | probability_partial, parabolic, distance, cartesian_refuted, again_refuted | Proved for Keplerian and cometary elements (parabolic orbits are always S: division by zero). Refuted: for Cartesian elements the distance from the Sun is used instead, and assigning again draws new random numbers, so that spectra are not reproducible from the seed of the first call. |
| C219 | Rows of Orbits | partial | Orbits_Props2 | rows_partial, stated_refuted, epoch_refuted | Proved for tables without a stated FORMAT and with all epochs in range. Refuted: the format of a row is found from its columns anew, so that an object of format KEP with a column q gives rows of format COM; a row with an epoch out of range raises although the object was accepted. |
| C220 | Effects of set_orbits beside the result | partial | Orbits_Props2 | rejected_partial, rejected_refuted, unlabelled_refuted, given_partial, given_refuted, twice_partial, twice_refuted, alias_refuted | Refuted: a refused table leaves the new format with the old orbits; a column FORMAT is deleted from the caller's table; setting the stored table again may change the format; a table that needs nothing added is stored itself, not a copy. Proved: the orbits stay, the values of the caller's table stay, without a stated FORMAT setting again changes nothing. |
| C221 | Packing for pyoorb and updating | partial | OrbitsIO_Props | packed, roundtrip, update_partial, keeps, H_refuted, label_refuted | Proved: layout, round trip, obj_id and spectrum kept when row labels agree. Refuted: H and g are taken from the new table (20 and 0.15 if it has none) although the documentation says they stay in place; an object taken from row 1 or later of a larger one has another label than the unpacked table, and obj_id and spectrum become NaN. |
| C222 | Ephemerides are labelled correctly | partial | OrbitsIO_Props | values, checks, request, propagation, err_refuted, axis_refuted | Proved: every value is in its documented place. Refuted: the error code of pyoorb is ignored for basic ephemerides; by_object=True gives columns whose first axis is the number of objects, although the documentation says number of times. pyoorb itself is an argument. |
| C223 | Finding the header of an orbit file | partial | OrbitsIO_Props2 | header, no_header, blank_refuted, blank_error, delim_refuted | Proved for files with and without header. Refuted: a blank line before the data raises IndexError; the search for the header splits lines at white space whatever delim is, so that a file with a delimiter and no white space cannot be read. Lines with too many or too few words and skiprows are not modelled. |
| C224 | Standard column names | partial | OrbitsIO_Props2, OrbitsIO_Props3 | names_partial, ambiguous_partial, lost_refuted, values_partial, inclination_refuted | Proved but for two names. Refuted: S3MID and objid(int) are not recognised (a missing comma joins the two strings), so that the identifiers are replaced by running numbers; negative inclinations are accepted (the ValueError is built but not raised). |
| C225 | Trailing losses | proved | DirectObs_Props | rest, nonnegative, grows |  |
| C226 | Detection suffers more than signal to noise | partial | DirectObs_Props | slow_partial, greater_refuted | Refuted: with velocity * texp / (24 * seeing) below 0.702 (0.39 degrees a day for 30 s and 0.7 arcsec, so most of the main belt) the loss at detection is the smaller of the two; proved: exactly from there on it is the greater. |
| C227 | Circular and camera footprints | proved | DirectObs_Props | exact, units, unknown | The test of the camera is an argument, one visit at a time; angular separation is an argument. |
| C228 | Rectangular footprints | partial | DirectObs_Props | plain_partial, wrap_refuted, radians_refuted | Proved for visits in degrees and right ascensions that differ by at most 180 degrees. Refuted: an object on the other side of right ascension 0 is lost; visits in radians are compared with positions in degrees. |
| C229 | Rows of DirectObs are right | proved | DirectObs_Props2 | rows, succeeds | Ephemerides, colours and separation are arguments; ephemerides are taken one time at a time. Text longer than 40 characters is cut (statement made for shorter ones). Which of several errors is raised first is not modelled. |
| C230 | Nothing is missed if objects are slow enough | proved | DirectObs_Props2, DirectObs_Props3 | complete, circle, needed | For separations with the triangle inequality; proved of the angle between directions (great_circle). C230_needed: an object of 40 degrees a day at the centre of a visit is missed with the default settings. |
| C231 | Pre-computed positions | proved | DirectObs_Props2 | complete, succeeds, fallback |  |
| C232 | Pre-computed positions do not change the result | partial | DirectObs_Props3 | circle_partial, rectangle_refuted | Proved for the circle and slow objects. Refuted: with the rectangle of 5 by 3 degrees (half widths) the limit is still r_fov + pre_comp_tol = 3.83 degrees, so that an object at rest 4 degrees from the centre is found only without pre-computed positions. |
| C233 | Kinds of ephemerides and identifiers | partial | DirectObs_Props3 | full_refuted, text_refuted, cut_refuted, basic_partial | Proved for basic ephemerides and for identifiers that are integers or read as integers. Refuted: full ephemerides raise ValueError at the first object near a visit; text raises ValueError (the column is of type int); numbers that are no integers are cut, so that two objects get the same identifier. |
| C234 | info records the footprint | partial | DirectObs_Props3 | known_partial, info_refuted | Refuted: for an unknown name (such as circular, the name in the documentation) info keeps the unknown name and no radius, while a circle is used. Proved for the three known names. |
| C235 | Observations are written to the output directory | partial | DirectObs_Props3 | absolute_partial, relative_refuted | Refuted: out_dir is prepended twice, so that out_dir=out gives out/out/file. Proved for absolute directories. |
| C236 | Cleaning keeps the largest usable part | partial | SelfSolve_Props | core_partial, single_refuted, overflow_refuted | Proved for identifiers less than 2^32 apart and arrays of more or fewer than one observation. Refuted: a single observation is kept; identifiers 2^32 apart overflow the product of differences, so that stars seen once are kept. |
| C237 | No star or patch hangs on its own | partial | SelfSolve_Props | pairs_partial, same_star_refuted | Proved without repeated pairs of star and patch. Refuted: a star twice in one patch is kept alone with it. |
| C238 | Running numbers stand for the right stars and patches | proved | SelfSolve_Props | numbers | Under the conditions of C236. Sorting by a column is an argument. |
| C239 | The solution is the best one | proved | SelfSolve_Props | optimal | Under the conditions of C236; lsqr is an argument. Numbers are reals. |
| C240 | Zero points are recovered | partial | SelfSolve_Props | differences_partial, balanced, absolute_refuted | Proved: differences are right if the cleaned observations hang together. Refuted: the zero points themselves are not; with the solution of least norm, which lsqr gives, zero points sum up to the same as the magnitudes (C240_balanced), so that perfect observations of stars of 20 and 21 mag get zero points of 10.25. |
| C241 | run does not fail | partial | SelfSolve_Props | succeeds_partial, empty_refuted | Proved: fails exactly if nothing is left, with ValueError; refuted by two observations that share nothing. |
| C242 | The caller's observations are left alone | partial | SelfSolve_Props | values_partial, order_refuted, again_refuted | Proved: the array is only reordered. Refuted: it is sorted in place; a second run raises AttributeError. |
| C243 | The catalogue has the stars of the field | proved | SelfCat_Props | visits, field | The k-d tree is a test of the distance, and the order of its results is taken to be that of the stars. Numbers are reals. |
| C244 | Patches are squares of the focal plane of a visit | partial | SelfCat_Props | squares_partial, visits_partial, radius_refuted, edge_refuted | Proved for stars less than 1.8 degrees from the centre, for the gnomonic projection. Refuted: radius_fov is not handed on to assign_patches, so that with radius_fov=4 a star 3.6 degrees north of visit 1 gets the patch of a star at the centre of visit 2; a star at exactly 1.8 degrees gets a patch of the next visit too. |
| C245 | Offsets add up | partial | SelfCat_Props | sum_partial, both, same_name_refuted, no_offset_refuted | Proved for offsets that have different names and give numbers. Refuted: of two offsets of one class only the last counts; with NoOffset generate_catalog raises TypeError. OffsetClouds is not modelled. |
| C246 | Uncertainties | proved | SelfCat_Props | uncertainty, depth |  |
| C247 | When there is a catalogue | proved | SelfCat_Props | succeeds, fails, sound | An offset that gives one number for all stars is not modelled. |
| C248 | TLEs are well formed | partial | SatConst_Props | lines, constellation_partial, many_refuted | Proved for numbers below 100000. Refuted for constellations of more than 92000 satellites: numbers start at 8000 and the 92001st has six digits, so that its lines have 70 characters. Rounding to decimals is an argument, such that integers of the last place stay. |
| C249 | A constellation has the satellites asked for | proved | SatConst_Props | count, named, names, distinct |  |
| C250 | Satellites are spread evenly | partial | SatConst_Props | planes, anomaly_refuted | Proved except for shells with one satellite per plane. Refuted: mean anomalies above 360 degrees occur. |
| C251 | Higher satellites are slower | proved | SatConst_Props | kepler |  |
| C252 | Streaks are counted per pointing | proved | SatConst_Props2 | streaks, alone |  |
| C253 | check_pointings does not fail | partial | SatConst_Props2 | succeeds_partial, single_refuted, short_refuted, empty_refuted | Proved for exposures longer than 1.5 dt. Refuted: exposures between dt/2 and 1.5 dt raise ValueError if a satellite is near (a line of one point); shorter ones have no streaks whatever the satellites do; a constellation without satellites raises ValueError. |
| C254 | Only satellites that can be seen leave streaks | partial | SatConst_Props2 | seen_partial, never_seen_refuted | Proved if no satellite rises, sets, or enters or leaves the shadow during the exposure. Refuted: a satellite that is up in the dark at the start, and lit but set at the end, is counted though it is never seen. |
| C255 | Satellites of a constellation | partial | SatConst_Props2 | visible, fov_refuted, loads | Refuted for the field of view: fov of the constructor is not used by any method; check_pointings has its own fov_radius. Reading of TLEs (skyfield) is an argument, taken to accept all well formed ones. |
| C256 | Satellite maps | proved | SatConst_Props3 | maps, exist | What skyfield says of a satellite at a time, and the pixels, are arguments. |
| C257 | The maps are those of tonight | partial | SatConst_Props3 | maps_partial, default_refuted, nside_refuted, night_refuted | Proved for nights with different numbers, none -1. Refuted: without a constellation (the default) the constructor raises AttributeError; nside is not handed on to the parent; on a night numbered -1 there are no maps. Other conditions of the observatory are not modelled. |
| C258 | Satellites of the near future are avoided | proved | SatConst_Props3 | value | Smoothing and degrading of maps are arguments. |
| C259 | A spatial slice has exactly the visits that cover its point | partial | Spatial_Props | points, healpix, rotation_refuted | Holds. But setup_slicer needs the rotSkyPos column even if use_camera is False (C259_rotation_refuted); the documentation says it is only used with the camera. Negative indices are not modelled. |
| C260 | The information about a slice is that of its point | partial | Spatial_Props | info, position, bins_refuted | Refuted for information that is not per slice but has as many elements as there are slices, e.g. the bins of a stellar density map with as many user points as bins: each slice gets one bin (C260_bins_refuted). |
| C261 | A HealpixSubsetSlicer gives the slices of the HealpixSlicer for the chosen pixels | proved | Spatial_Props | subset, mask, circle |  |
| C262 | Spatial slicers that compare equal slice in the same way, and equality is symmetric | partial | Spatial_Props, Spatial_Props2 | alike_partial, symmetric_partial, degrees_refuted, camera_refuted, symmetric_refuted | Refuted: equality does not look at lat_lon_deg, camera_radius and camera_footprint_file (C262_degrees_refuted, C262_camera_refuted), and a UserPointsSlicer compares only the keys of the other one, so that one with maps run equals one without but not conversely (C262_symmetric_refuted). Proved: with those three the same, equal slicers slice in the same way; symmetry for healpix slicers. |
| C263 | Metric values and their slicer survive saving and reading | partial | Spatial_Props2 | restored, equal, slices, init_refuted | Values, mask, fill value, points etc. are restored. Refuted otherwise: use_camera, rot_sky_pos_col_name, lat_lon_deg, camera_radius, camera_footprint_file and use_cache are not saved; C263_equal says exactly when the restored slicer is equal and C263_slices when it slices in the same way. slicer_init of UserPointsSlicer holds radians whereas the constructor takes degrees (C263_init_refuted). |
| C264 | JSON output lists position and value of every valid slice | partial | Spatial_Props3 | spatial, spatial_plain, bins, int_refuted, bins_refuted, restored_refuted | Refuted for integers (C264_int_refuted: `not a or b`), for bins without a mask (C264_bins_refuted) and for values that read_data restored from an unmasked array (C264_restored_refuted: their mask is nomask). |
| C265 | OneDSlicer takes what it is given and equality is an equivalence | partial | Spatial_Props3 | given_refuted, symmetric, bins_partial, itself_refuted | Refuted: bins given with bin_min, bin_max or bin_size raise AttributeError (warnings.warning, C265_given_refuted); before setup a slicer without all of bin_min, bin_max and bin_size is not equal to itself (C265_itself_refuted). |
| C266 | AreaSummaryMetric returns the value that the best part of the sky of the asked area reaches | partial | Small_Props | area, defined, short_refuted | C266_short_refuted: with fewer valid pixels than the area needs, the worst valid value is returned as if it covered the area (no warning). Negative areas are not modelled; a custom reduce_func is not modelled. |
| C267 | AreaThresholdMetric returns the area of the valid pixels inside the bounds | partial | Small_Props | area, monotone, all_refuted, whole | C267_all_refuted: with both bounds None every pixel counts, also the masked ones, so adding a bound that every value meets makes the area smaller. |
| C268 | YearCoverageMetric counts the years in which a point is visited | partial | Small_Props | bins, years, every, name_refuted | C268_name_refuted: **kwargs is accepted and dropped, so a given metric_name has no effect. Night 3652 counts for the last year because numpy's last bin is closed. |
| C269 | CumulativeMetric gives the number of visits up to each night | partial | Small_Props2 | count_partial, default_partial, before_refuted, between_refuted | C269_before_refuted: before the first visit the count is 1. C269_between_refuted: on nights without visits the value is interpolated (one and a half visits). Missing from the partial theorems: exactly those points. |
| C270 | KuiperMetric measures how unevenly angles are spread | partial | Small_Props2 | invariant, range, delta, one_refuted, uniform, defined | C270_one_refuted: n equal angles give 1 - 1/n, and a single visit gives 0, as the empirical distribution is compared only from above; C270_delta shows that this largest value is reached exactly by equal angles. |
| C271 | SnrWeightedMetric is an average weighted with the signal to noise | proved | Small_Props2 | formula, reference, between, mean |  |
| C272 | AgeMetric is the time since the previous visit | partial | Small_Props2 | age_partial, future_refuted | C272_future_refuted: a visit after the reference time hides the earlier ones and gives a negative age that is not masked. |
| C273 | ChipVendorMetric tells which vendors' chips see a point | partial | Small_Props2 | vendor_partial, none_refuted | C273_none_refuted: a point on no chip gives 3. |
| C274 | ColorSlopeMetric counts nights with a colour and a slope | partial | Small_Props3 | nights, columns_refuted, simultaneous_refuted | C274_columns_refuted: filter_col and time_col are not passed to the checker, which reads band and observationStartMJD. C274_simultaneous_refuted: visits at the same moment in two bands are not a colour. |
| C275 | ColorSlope2NightMetric counts pairs of nights with a colour and a slope | partial | Small_Props3 | pairs, double_refuted | C275_double_refuted: a night that has both by itself is counted twice, with the night before and with the night after. |
| C276 | AgnTimeLagMetric compares the lag with the sampling of the visits that are deep enough | partial | Small_Props3 | cutoff_refuted, mean, min, bad, repeat_refuted | C276_cutoff_refuted: the branches for g and r are never reached, so neither the cuts nor the depths (nor dust) have an effect. C276_repeat_refuted: two visits at one time give an infinite value with calc_type min. calc_type max and gcd are modelled; only the mask and threshold are proved for them. log=True is not modelled. |
| C277 | TemplateTime makes the template of the first good enough visits | partial | Template_Props | inputs, none, enough, any_refuted, order | A template is not guaranteed by any number of visits with the default percentiles 50 and 50 (C277_any_refuted): the better half in seeing and the deeper half can be disjoint. With percentiles adding up to more than 100 it is (C277_enough). |
| C278 | TemplateTime splits the visits into those before and those with a template | partial | Template_Props2 | with, disjoint, all_refuted, band_refuted | Visits in the template night after the template is complete are in neither group (C278_all_refuted). A visit in another band changes thresholds and template: bands are not separated (C278_band_refuted). |
| C279 | TemplateTime reports the depth and seeing of the template and of the difference images | partial | Template_Props2 | template, difference, fraction, fraction_refuted | Without later images the fraction is not a number (C279_fraction_refuted). |
| C280 | ExgalM5 returns the co-added depth behind the dust | partial | Lens_Props | depth, order_refuted | For several bands the extinction coefficient is that of the first visit, so the value depends on the order (C280_order_refuted). |
| C281 | ExgalM5WithCuts returns the depth where dust, coverage and depth pass | partial | Lens_Props | cuts, column_refuted | filter_col is not passed to the inner ExgalM5, which reads the column 'band': ValueError for other names (C281_column_refuted). |
| C282 | WeakLensingNvisits counts the visits long enough where the survey is deep enough | proved | Lens_Props | count, more |  |
| C283 | RIZDetectionCoaddExposureTime sums the exposure time of the detection bands | partial | Lens_Props | total, dust, bands_refuted, minimal_refuted | min_bands is stored and never read (C283_bands_refuted). The minimum is exclusive: a visit of exactly min_expTime is left out (C283_minimal_refuted). |
| C284 | NestedRIZExptimeExgalM5Metric returns the depth and the riz exposure time | partial | Lens_Props | pair_partial, riz_refuted, dusty_refuted | The exposure time is given the i-band visits only (C284_riz_refuted) and has bad value -666 whatever the metric's (C284_dusty_refuted). |
| C285 | SingleLinearMultibandModelMetric evaluates a linear model of the depths | partial | Lens_Props2 | value_partial, one_partial, default_refuted, missing_refuted | depths has one row, so depths[i] -= mean for the second band is IndexError: the default mean depths make every model of two or more bands raise (C285_default_refuted). With a mean depth a numeric bad value of a missing band is used as a depth (C285_missing_refuted). Formula proved without mean depths, and for one band with its mean. |
| C286 | NestedLinearMultibandModelMetric evaluates one linear model per bin | partial | Lens_Props2 | values_partial, length, unused_refuted, mean_refuted | A mean depth of any band but u raises IndexError (C286_mean_refuted). NaN of a missing band spoils models that do not use it (C286_unused_refuted). Formula proved where all six bands have visits, without mean depths and cuts. |
| C287 | MultibandExgalM5 returns the six dust-corrected depths | proved | Lens_Props2 | bands |  |
| C288 | surface_brightness_limit_approx returns the surface brightness that reaches nsigma | partial | Lens_Props3 | bounds, reach_refuted, margin, warning_refuted, brightest, unique | The returned value never reaches nsigma (C288_reach_refuted); it is off by a factor of at most sqrt 3 in signal to noise and at most 2.5 log10 2 = 0.75 magnitudes (C288_bounds, C288_margin), more than the 0.38 of the warning (C288_warning_refuted). |
| C289 | SurfaceBrightLimitMetric co-adds the surface brightness limits of visits in one band | partial | Lens_Props3 | value, bands_refuted, katm_refuted, given_refuted | The ValueError for several bands is constructed but not raised (C289_bands_refuted). zpt without k_atm: TypeError (C289_katm_refuted); k_atm without zpt is overwritten (C289_given_refuted). |
| C290 | Angles of the sky model are brought into their range | proved | Sky_Props | wrap, azimuth |  |
| C291 | Sky components that depend on the airmass are interpolated between their templates | partial | Sky_Props | inside_partial, outside | For magnitudes above zero (an interpolated magnitude of exactly zero is reported as no flux). |
| C292 | Interpolated sky spectra lie between the neighbouring templates | partial | Sky_Props | spectrum_partial, zero_refuted, one_refuted | Finding: spectra are interpolated in log10 with 0 standing for zero flux, so next to a template without flux the result is brighter than both neighbours (as if the zero were a one), and a template flux of exactly 1 becomes 0. Proved for templates between 0 and 1. |
| C293 | The airglow is interpolated in airmass and solar flux | partial | Sky_Props | airglow_partial, outside | For positive magnitudes. |
| C294 | Moonlight and zodiacal light are weighted means of interpolated pixels | partial | Sky_Props | moon_partial, bounds_partial, none, zodiacal_partial, edge_refuted | Finding: below the range of moonSunSep the code extrapolates the line through the first and the last entry (index -1) instead of using the edge, as its comment says. The healpix neighbours and weights are arguments. Proved inside the table for mean magnitudes other than zero. |
| C295 | The twilight depends on the sun as its parameters say | partial | Sky_Props2 | slope_partial, brighter_partial, azimuth_partial, zenith, range_partial | With positive ratio and dark sky flux; one filter; the fitted parameters are arguments. |
| C296 | The sky brightness of a point is the sum of the components that are switched on | partial | Sky_Props2 | total_partial, positive_partial, new, limit_refuted, switch_refuted | Findings: for airmass_limit <= 2.5 the rows of the valid points are used as indices of all points, so a valid point can lose its flux (set to zero) if another point is beyond the limit and a third beyond a template; a component off at construction cannot be switched on later (KeyError). Proved for magnitudes, limits above 2.5 or components positive everywhere. Components are functions of point and filter. |
| C297 | return_mags gives the magnitude of the total flux | partial | Sky_Props3 | mags_partial, scale, clamp_refuted | Finding: the documented clamping of airmasses above 3 does not happen; beyond the templates the flux is zero and the magnitude infinite. Proved for magnitudes (mags=True) and limits above 2.5. |
| C298 | set_params with the computed conditions gives the same sky | partial | Sky_Props3 | params_partial, separation_refuted, radians_partial | Finding: set_params computes moon_targ_sep from the moon azimuth before conversion from degrees. The points agree; the positions of sun and moon are arguments. |
| C299 | return_mags reports the points that were set last | partial | Sky_Props3 | spectra_refuted, unset, stale_refuted | Findings: on an object with mags=False return_mags after set_params raises AttributeError (it loops over self.ra); set_params without a valid point only warns and return_mags then returns what is left of the previous call, with its number of points. |
| C300 | Identifiers are converted to integers and back without loss | partial | Sky_Props4 | round_trip, back, unknown_refuted | Finding: an integer that is not in the table comes back as 0, like identifier 0. |
| C301 | Helper functions of the twilight fits | partial | Sky_Props4 | layout_partial, pixels_refuted, rms_partial, missing | Finding: simple_twi takes the offset of the constants from the largest pixel present in the data, so without data of the last pixel it reads another pixel's magnitude as constant. Rounding is not modelled. |
| C302 | The dust map gives each position its own value whatever was read before | proved | Maps_Props | history, pixels, positions, interpolated, arguments, dustmap | Finding: the test whether a map was read looks for the attribute dustmap while dustMap is stored, so the file is read again at every call; the results are right for that reason. |
| C303 | The 3-d dust map gives rows of the file asked for | partial | Maps_Props | one_map_partial, first_map_stays, other_resolution, map_asked_refuted, twice_refuted | Finding: the test looks for the attribute map_file while mapFile is stored, so the first map read in a process is used ever after, whatever file or resolution later calls name; values of other maps are silently those of the first (C303_map_asked_refuted), and a call repeated may differ from itself (C303_twice_refuted). Proved: as long as one file is read. |
| C304 | get_x_at_nearest_y gives the tabulated point nearest to the goal | proved | Maps_Props2 | point, answers, map |  |
| C305 | distance_at_dmag gives the distance at which an object is dimmed by dmag | partial | Maps_Props2 | within, beyond, before, monotone, point_in_map_partial, point_in_map_refuted, run | Finding: for a single sight line the largest extinction, for a map the last one is used beyond the map, so the two differ where the dust does not increase. Proved equal where the last entry has the most dust. |
| C306 | The star density maps give each slice point the luminosity function of its place | proved | Maps_Props3 | stars, same_resolution, trilegal |  |
| C307 | The galactic plane priority maps are found by filter and science map | partial | Maps_Props3 | names, names_differ, keys, values_partial, resolution, directory_ignored, retry, directory_refuted | Finding: GalacticPlanePriorityMap's map_path has no effect, because the maps of the default directory are read when the object is made and kept (likewise use_alt_maps after a first read). A read that fails leaves the maps unusable until the process ends: later calls raise AttributeError. Proved for one directory. |
| C308 | Every map that a bundle of a group asks for is applied to the slice points | partial | Maps_Props4 | which, keys, applied_partial, applied_refuted, stellar_map | Finding: maps are compared by their key names only, so of two maps with the same names but different settings (another nside, another directory, or the stellar density and TRILEGAL maps of one filter) only the first is run, and bundles that asked for the other silently get its values. Proved: for maps with different names, for position-only maps, whose keys are not shared; C308_which says which maps are run. |
| C309 | The crowding error is that of all stars as faint or fainter, for the seeing | proved | Crowd_Props | error, tables, seeing, zero_point, more_stars |  |
| C310 | CrowdingM5Metric gives the faintest magnitude whose crowding error is below the limit | partial | Crowd_Props | quiet, below, best, more_visits, next_partial, faintest_refuted | Finding: the errors are one shorter than the magnitudes (the first bin is dropped in _comp_crowd_error) but are indexed alike, so the limit is one bin too bright: C310_faintest_refuted shows a fainter magnitude with an error below the limit. C310_next_partial is what holds. |
| C311 | NstarsMetric counts the stars brighter than the shallower of depth and crowding limit | partial | Crowd_Props2 | depth_partial, depth_refuted, count, more_visits, range | Finding: the magnitude limit multiplies by 1.09 where it should divide, so at that magnitude the error is 1.09 squared, about 1.19, times the one asked for (C311_depth_refuted). The crowding limit is one bin too bright as in C310. |
| C312 | Crowding uncertainty and star density at a magnitude are interpolated in the map | proved | Crowd_Props2 | uncertainty, density, deeper, arguments | Finding: StarDensityMetric(rmagLimit=...), which the code handles with a deprecation warning, raises TypeError in the base class before (C312_arguments). |
| C313 | SkySaturationMetric counts saturated visits and UseMetric classifies a visit by its reason | partial | Crowd_Props2 | saturated, use, not_science, slice_refuted | Finding: metrics get arrays of visits from every slicer, for which UseMetric.run raises AttributeError (or ValueError with science_programs, except one row of another programme): C313_slice_refuted. It works on a single record only. |
| C314 | DcrPrecisionMetric combines the visits by their airmass and their error only | proved | Crowd_Props3 | precision, angle, more_visits, order, flat | Spectra other than flat are looked up with rubin_scheduler.utils.stellarMags, which is not part of this repository (the function here is maf.utils.stellar_mags); if that package has no such name the constructor raises AttributeError. Not judged. |
| C315 | BDParallaxMetric gives the distance at which the parallax reaches the signal to noise asked for | partial | Crowd_Props3 | snr, too_far, between, beyond, types_partial, types_refuted, volume | Finding: the entry of L3 in bd_colors ends with a comma and is a tuple, so BDParallaxMetric(mags=bd_colors('L3')) raises TypeError (C315_types_refuted). Proved for all other types. At least two distances. |
| C316 | QSONumberCountsMetric counts the quasars of the table between its redshifts and magnitudes | partial | Crowd_Props4 | cumulative, count, additive, dust, band, empty_refuted, zmax | Finding: a point without visits in the band raises ValueError instead of badval (C316_empty_refuted). The spline is only assumed to give the table at its nodes; the last redshift and magnitude of the table are not nodes, so they are not covered. |
| C317 | PeriodicDetectMetric counts the stars whose light curve a constant does not fit | proved | Crowd_Props4 | best, range, stars, constant, monotone, order | The survival function of the F distribution is any function; that it is one below zero and decreasing is assumed where needed. C317_constant and C317_monotone are conditional on that. |
| C318 | Visits in survey windows are counted, and the intervals between them taken window by window | partial | Crowd_Props5 | count, overlap_refuted, order, intervals_order, nonneg, mean, empty, unknown | Finding: a visit inside two overlapping windows is counted twice (C318_overlap_refuted); C318_count is proved for windows that do not overlap. Conversion of dates is outside of the model. |
| C319 | HourglassMetric divides the visits into blocks and assigns each the nearest midnight | proved | Crowd_Props5 | blocks, inside, midnight |  |
| C320 | Horizontal coordinates are the true ones | proved | Param_Props | altitude, azimuth, altonly, determined | Horizontal coordinates for all positions; calc_lmst of rubin_scheduler is an argument. At the zenith, the nadir and the poles the division by zero is not modelled (the theorem asks for a non-zero cosine). |
| C321 | Coordinate columns hold the position of each visit in the announced unit | partial | Param_Props | galactic_refuted, galactic_partial, galactic_radians, ecliptic, sun, present, sdss | The Galactic stacker announces degrees by default but stores radians (refuted); with degrees=False it is right. The ecliptic stacker converts. astropy's conversions and Time are arguments; EclipticStacker calls Time(mjd) without a format, which astropy refuses for plain numbers, so subtract_sun_lon cannot work as written with current astropy - noted, not asserted. |
| C322 | Visits are labelled by area or by deep drilling field | partial | Param_Props2 | deep_partial, deep_refuted, area, every, all_sky_refuted, all_sky_partial | Refuted in part: the label column has 15 characters, so longer field names are cut and may coincide; a field of view without any pixel centre (large pixels) gives 0/0 and NULL even for a footprint of the whole sky. Proved for names up to 15 characters and a field of view with at least one pixel. The pixels of the field of view (healpy) are an argument. |
| C323 | The asteroid distance is the first at which it is too faint, placed on the right side of the sun | partial | Param_Props2 | distance, deeper_refuted, deeper_partial, triangle, position, side, mirror_refuted, depth | Refuted in part: an asteroid visible at all trial distances is reported at distance 0, so a deeper visit may report less; the side of the sun depends only on whether the azimuth exceeds pi (radians) or 180, chosen by the smallest azimuth: with azimuths 0..360 degrees they are compared with pi, and the sun's azimuth plays no role. The distance, the triangle and the position relative to earth and sun are proved. |
| C324 | The depth on the meridian is never shallower | partial | Param_Props3 | deeper, unknown, columns_refuted, twilight_refuted, seeing_refuted | Never shallower is proved. Refuted: the depth column is missing from the required columns; the sun's altitude (degrees, like the declination) is compared with radians(-18), so twilight is treated as dark; the seeing term is a tenth of 2.5 log10 of airmass^0.6. |
| C325 | Photometric parameters and dust values are what was asked for or the standard ones | partial | Param_Props3 | standard, other, any_refuted, dust_dims, dust_partial, dust_grey, dust_refuted | Parameters proved; the comment that 'any' is the default for unknown bands is false (refuted). r_x E(B-V) is the extinction at E(B-V)=1 (reference 1) or for grey dust; beyond it overestimates, below it underestimates (proved by convexity); with another reference r_x is not per unit of E(B-V) (refuted). The grid of wavelengths is any list of (throughput, extinction); the setters, which always raise, are not modelled. |
| C326 | Zero points and stellar colours are consistent | partial | Param_Props3 | bands, counts, airmass, hardware, stars, sequence, zy_refuted, types | All proved except that later types are redder in z-y (A to F is not; refuted). |
| C327 | The Galactic plane footprint counts the deep visits and the priority they serve | partial | Plane_Props | count, masked, more, timescales, list_refuted | Proved, except: the thresholds for a plain list of timescales (not an array) are refuted as stated (a list is not divided by a number). The key of the priority map and the per-band priorities are read from the slice point. |
| C328 | The exposure times per band are compared with the desired shares | partial | Plane_Props | shares, value, bands_refuted, bands_partial | Shares and values proved for all inputs; the six reductions exist only for the bands listed (refuted for the others, proved for the listed ones). |
| C329 | Visit intervals are scored by how well they resolve each timescale | proved | Plane_Props2 | decay, intervals, timescales, order | Proved for all inputs. The tau weights and reduce functions per timescale only pick entries. |
| C330 | Season gaps are scored against the expected gap, using deep visits, without side effects | partial | Plane_Props2 | gaps, limit_refuted, visits_refuted, visits_partial, map_refuted | Refuted: the magnitude limit is never used; the times of the shared visits are sorted in place without their other columns, so that metrics that run later on the same point see wrong times; the priority map is not asked for (KeyError when no other metric asks). Proved: the value's bounds and when it is 1; visits in order of time are left alone. calc_season is any function of time; find_season_edges is simplified to neighbours in different seasons. |
| C331 | The structure function uncertainty lies between the photometric noise and its worst case | partial | Plane_Props3 | bounds, pairs, order_partial, order_refuted, all_gaps, weight_refuted | Bounds, pairs and all gaps against neighbours proved. Refuted: given weights are not stored (AttributeError); with several bands the first visit's dust is used for all, so the order matters (proved for one band or without dust). The rounding of the gaps to float16, which turns gaps above 65504 days infinite and merges close ones, is not modelled. |
| C332 | The expected lensed supernovae follow from area, seasons and cadence | partial | Plane_Props4 | formula, order, masked, seasons, number_refuted | Refuted: a season of one night with enough bands gives a total that is not a number. Formula, order, masking and seasons proved; visits but nothing deep gives a masked value while no visits give 0. collapse_night is not part of the model: its output is the input here; a mjd column of another name is not modelled (the name is fixed in one place). |
| C333 | The supernova cadence is the days per visit | partial | Plane_Props4 | columns_refuted, last_refuted, one_day_refuted, cadence_partial | Refuted: the visits' column "filter" is read but "band" is asked for, so with the requested columns every call fails; the last day's visits are never counted and visits within one day give 0. Proved: with that column present, cadence times the visits before the last day is the number of days before it. ra and dec are read but not asked for and lim_sn defaults to None; the look-up in lim_sn is not modelled. |
| C334 | Runs are normalised by a baseline so that above 1 means better | partial | Runs_Props, Runs_Props2, Runs_Props3 | value, errors, baseline, better, better_refuted, zero_refuted, units, transposed, again, list | Refuted for a negative baseline (the larger value is shown as worse) and for a baseline value of zero (the metric is lost, the baseline itself is not 1). Everything else proved, for lists of runs the baseline is the median of the values present. Infinite values in the input and rounding are not modelled; metrics repeated in a table with subsets are outside the model's faithfulness (pandas alignment). |
| C335 | Radar normalisation agrees with the normalised summaries | partial | Runs_Props4 | errors, value, plain, reverse_refuted | Refuted: reversing a column that is not in magnitudes has no effect at all, so smaller values are not shown as better. Agreement proved otherwise; a column is inverted and reversed at most once and not both. |
| C336 | A selection of summaries is exactly what was asked for | partial | Runs_Props5 | values, choice, errors, once_refuted | Refuted: in the default order a run of two of the families asked for is returned twice. Reading the file (csv or hdf) is not modelled. |
| C337 | The tables of runs by family and by run hold the same information | partial | Runs_Props6 | families, runs, once_partial, once_refuted, lost_refuted | Refuted: a run described differently in two families has two rows in get_runs, each with a single description (documented as one row with a list), and a run without an address is not there at all. Order of the rows of get_runs not modelled. |
| C338 | Summary statistics of several databases are gathered without loss | partial | Runs_Props7 | name, table, missing, distinct_refuted, lost_refuted | Refuted: statistics of different metrics may get the same name, and one of them is lost; a directory without a database only causes a warning and then stops the whole call, leaving a new empty file. Order of rows and columns and databases without statistics not modelled. |
| C339 | Downloading runs never overwrites unless told to | proved | Runs_Props6 | files, again | The documented return value (a table of the runs) is not what is returned (their file names); proved of what is returned. Two runs with one path, and absolute paths that leave the directory, are covered. Failures of the network and of creating directories are not modelled. |
| C340 | The lines between families count their runs | partial | Runs_Props6 | lines, table_partial, single_refuted | Refuted for the table by family: a family of a single run counts as many lines as its name has characters. Proved for families of two runs or more and for the table of descriptions. |
| C341 | The brightness of a simulated transient follows its light curve, dust and distance | proved | Pop_Props | read, within, brightness, dust, distance, outside | Rounding, infinities and NaN not modelled; distances are positive; reading the files is not modelled. |
| C342 | Kilonova detection counts mean what they say | partial | Pop_Props2, Pop_Props3 | counts, more, deeper, total, zero_refuted, order | Refuted for a threshold of 0 detections: a slice without detections is then an error. Everything else proved. |
| C343 | Fast kilonovae are selected by a significant rate | partial | Pop_Props4 | meaning, bands, more_refuted | Refuted: one more visit may undo a selection (a fainter point whose error is larger takes the place of the first). The default thresholds are built in. |
| C344 | Kilonova models are selected by their parameters | partial | Pop_Props5 | says, listed, all, once_refuted, other_refuted | Refuted: a file that fits two of the sets is listed twice, and a file of another kind makes every request a KeyError. Number parsing is an arbitrary function. |
| C345 | Tidal disruption events are characterised by their detections | partial | Pop_Props6 | meaning, points_refuted, ten_days_refuted, stricter_refuted | Documented otherwise, and refuted: pts_needed detections are not enough before the peak (strictly more are asked for); the three bands are asked for within 5 days of the peak, not 10; an event can have some_color_pu without some_color. |
| C346 | The quality of a tidal disruption event light curve is its rate of detections | partial | Pop_Props6 | score, one_partial, scale_refuted, empty_range | Refuted: one detection every other night scores a half, not 1 as documented. Proved: the score is the number of detections per day. A window of length 0 is a ZeroDivisionError. |
| C347 | An X-ray binary outburst rises fast and decays | proved | Pop_Props7 | peak, rise, brightest, peak_inside | Exact real arithmetic; the magnitude at the very start is infinite. Times outside the outburst are magnitude 99. |
| C348 | The time range in which an outburst can be seen is exact on its grid | proved | Pop_Props7 | range | The grid of 10000 times is a parameter: any increasing list of times. |
| C349 | The answers about an outburst mean what they say | partial | Pop_Props7, Pop_Props8 | answers, times_ignored, reported, possible_refuted | Refuted: an outburst may be detected (and early) though possible_to_detect is false, because the visits are deeper than the assumed depths, or see it between the times of the grid; its mean time between detections is then NaN and not the bad value. The times of the detections have no influence on the mean time between them, only their number. |
| C350 | Generated kilonovae are within what was asked for | partial | Pop_Props8 | distance, volume_refuted, files, found, missing_refuted, time | Refuted: the events are not in proportion to the volume (the exponent is that of a density growing with the distance); with fewer files than announced (308 by default) some events have no light curve and the metric stops with an IndexError. The random number generator is not modelled. |
| C351 | Gaps between visits are counted once each and in the right bin | partial | Pop_Props9 | same, different, symmetric, nearest_same, nearest_different, missing_band_refuted, bins, merit, sum, order, swap, infinite_refuted, more_refuted | Refuted: with only nearest gaps, a field with visits in one band of a pair and none in the other is a ValueError; equal numbers in all bins, after clipping, make the figure infinite; more gaps can make it smaller. Infinite sums are one value in the model. Repeated values in the gaps to the nearest visits are characterised as a set. |
| C352 | The presto cadence needs two bands and a repetition | partial | Pop_Props8 | meaning, more, three_refuted, all_different | Refuted: three detections in three bands, which give two colours, are never a detection. The rest of the metric (score and lookup table) is not modelled. |
| C353 | The pages of a run show every metric in its place | partial | Web_Props | by_name, by_order, database_order, group, subgroup, groups, texts, statistics, plot_type, unique, names_and_labels, names_order_refuted | Refuted for the list of metric names, which is sorted although the documentation says it preserves the order of the metrics. |
| C354 | The form to choose metrics shows what was chosen | partial | Web_Props2 | select_partial, select_refuted, data_file, json_refuted, json_fails, titles_refuted, titles, caption | Proved for group and subgroup names without an underscore (a plus in a subgroup is not sent as such). Refuted otherwise: the box of the group 'A_B' shows the metrics of the group 'A'. JSON can never be fetched: output_json is called with an argument simDataName that it does not have, and the result would be read with a method that does not exist. The title of the label is 'InfoL abel' for a metric and 'Info Label' for a blank. |
| C355 | Summary statistics are listed in a fixed order with their values | proved | Web_Props2 | names, all_names, order, values, of_metric |  |
| C356 | Each plot is listed once under its type | proved | Web_Props3 | types, files, sky_maps |  |
| C357 | Sky maps are laid out by band | partial | Web_Props3 | rows, grid, display_order, all_shown, once_refuted | Refuted for 'shown once': a file whose name has the marks of two bands, as _u_g_, is shown twice. |
| C358 | Constraints per band select the visits of the band | proved | Web_Props4 | labels, constraints, bands, one_band, labels_differ |  |
| C359 | Renaming a column in metric names changes only the column | partial | Web_Props4 | replaced, kept, dropped_partial, dropped_refuted, distinct_refuted, fractions | Refuted for an empty new name: rstrip removes any of the letters of the column, so 'Rms airmass' becomes 'R', and two metrics may get the same name. Proved when the last letter before the blank is not a letter of the column. |
| C360 | The list of runs follows the tracking database | partial | Web_Props4 | page_refuted, start_refuted, list | Proved when each change of the database changes its time stamp and none happens while it is read. Refuted otherwise: within the resolution of the stamp, and when the file changes during the first reading, in which case the old list is kept under the new stamp. |
| C361 | The light curve of a lens is that of a point lens | proved | Micro_Props | point_lens, symmetric, brighter, blend |  |
| C362 | The derivatives of light curves are derivatives | partial | Micro_Props | derivatives, fluxes, peak, order_refuted | Refuted for the order: the first is the derivative by the peak time and the third that by the crossing time, although the comment in fisher_matrix says the reverse. |
| C363 | The time of the most information about the crossing time is a maximum | partial | Micro_Props2 | maximum, size, monotone, scales, constant_snr_refuted | Proved for a constant error of the flux. Refuted for a constant signal to noise ratio, which the documentation mentions: the relative change is larger a little earlier. |
| C364 | An event is detected if enough of its points stand out | partial | Micro_Props3, Micro_Props4 | detected, more, order, one_per_band, all_pairs, errors, depth_refuted, missed_refuted | Refuted: not points above the depth are counted but pairs of visits of the same band whose magnitudes differ by more than detect_sigma of their errors, so that n visits may count as n (n - 1) / 2 and one visit per band never counts. This is proved instead, for detect_sigma not negative. With both sides and 'optimal' there is a TypeError. |
| C365 | The number of points of an event is that near its peak | partial | Micro_Props3, Micro_Props4 | counts, two_crossing_times_refuted, peak_refuted | Refuted: visits later than one crossing time are not counted, nor is one exactly at the peak. Proved with these changes. |
| C366 | The information of all visits determines the uncertainty of the crossing time | partial | Micro_Props5, Micro_Props6, Micro_Props7 | symmetric, nonnegative, information, no_fluxes, fluxes_refuted, other_bands, result, crossing_time_refuted, bands | Refuted in three ways: the rows and columns of the fluxes are zero, since they are assigned to temporary arrays; only the visits of the band that is last in the alphabet are used, for each band anew; and the variance used is that of the peak time. This is proved instead, the result for visits of one band and for any function that inverts. |
| C367 | An event is brightest at its peak | partial | Micro_Props6 | mean_brighter, own_fainter, own_refuted, kept, overwrites, blending_factors_ignored | Proved for mean magnitudes. Refuted for events with magnitudes of their own: the logarithm is taken twice, so that they are faintest at the peak as long as they are fainter than magnitude 0. Their magnitudes stay in the dictionary of mean magnitudes for later events. A blending factor under the documented name blending_factors is ignored. |
| C368 | A transient given by a spectrum is counted by the documented criteria | proved | Ascii_Props | criteria |  |
| C369 | The bands must be had within the limit of time | partial | Ascii_Props, Ascii_Props3 | never_more_partial, later_partial, last_refuted, restricts | Refuted: the last detection of a transient never counts towards the bands, since the end of the interval is limited to the number of detections less one, and is excluded; two detections in two bands within the limit are not enough. Proved: the limit never adds a transient; with one phase not more are counted than documented, and for visits at different times exactly those whose bands are had within the limit by detections that are followed by another one. With more phases the epochs of a transient are not in order where they are searched. |
| C370 | The value at a point of the sky does not depend on the points before it | partial | Ascii_Props2 | given, first_partial, alone_refuted | Refuted when no survey_start is given: the first visit of the first slice is kept for all later slices. Proved with a survey_start given, and otherwise that all slices are evaluated with the start of the first one. |
| C371 | Not more transients are found than are possible | partial | Ascii_Props2 | possible_partial, bound_refuted, fraction_refuted | Refuted: the value is the number of transients, not a fraction as the documentation of run says; and when the last visit is at the end of a survey of a whole number of light curves there is one more than possible for each phase. Proved: the bound for visits before the end of the survey, and with one more per phase otherwise. |
| C372 | Deeper visits never lose a transient given by a spectrum | partial | Ascii_Props2 | deeper_partial | Proved without a limit of time on the bands, and with a limit for one phase and visits at different times. |
| C373 | The light curves returned tell which transients were detected | partial | Ascii_Props3 | flags, zero_partial, place_refuted, zero_refuted | Proved for the order of the flags. Refuted for the places, when a transient has no visits, and for the start from 0, when there is more than one phase; with one phase the ids are counted from the transient of the first visit. |
| C374 | Bands without a threshold are left out | partial | Ascii_Props2 | covered, left_out_refuted | Refuted: a visit in a band without a threshold raises a KeyError. Proved: this is exactly when a slice with visits raises. |
| C375 | Bundles of a joint plot come in the order of their bands | partial | Handler_Props | order_partial, sorted_refuted | Refuted: the place in the order of bands is used as a place in the list so far, so that y before z stays, and of two bundles in u one ends up after g. Proved: no bundle is lost; bundles given in the order of the bands, one per band, keep it, as do bundles whose names have no band. |
| C376 | Settings of a plot are resolved in the documented order | partial | Handler_Props | resolution_partial, label_refuted | Refuted for the labels of the axes: those generated replace what was set in the handler before. Proved for all keys that need not agree; for the labels of axes with the two sources exchanged. A list of dictionaries that is too short raises. |
| C377 | Bundles in one plot have the same limits and title | partial | Handler_Props2 | agree_partial, pair_refuted, colour_refuted, again_refuted | Proved: agreement in one subplot; numbers and texts that agree are kept; different titles are replaced by the generated one. Refuted: the limits of an axis, a pair, are lost even for a single bundle; different limits of colours become None since keys are compared with the endings Max and Min that they do not have; after this the handler raises when used again. |
| C378 | The description of a joint plot | partial | Handler_Props3 | bands, restricted_refuted | Proved for one description and for bands. Refuted: a bundle whose description restricts that of another by a further phrase makes the handler raise an IndexError. |
| C379 | The joint name of metrics | partial | Handler_Props3 | bands_partial, order_refuted | Proved for names with the same number of words, each of which is shared or a band. Refuted otherwise: words that differ are joined in the order of a set. |
| C380 | Labels of the legend tell bundles apart | partial | Handler_Props4 | distinct_partial, space_refuted | Refuted: parts are joined by spaces and may have spaces. Proved when runs and descriptions have none, or when only one of the three varies. |
| C381 | The title says what bundles have in common | proved | Handler_Props4 | title |  |
| C382 | Bundles are drawn in the colours of their bands | partial | Handler_Props4 | bands_partial, quotes_refuted | Proved for constraints with the band in double quotes. Refuted for single quotes: the colours are random. |
| C383 | A joint plot is shown after its bundles | partial | Handler_Props4 | place_partial, after_refuted | Refuted: orders 3 and 4 give 4, 4 and 3 give 5. Proved: not before any bundle, at most one after the last. |
| C384 | A plot draws the bundles with values | proved | Handler_Props4 | drawn |  |
| C385 | The light curve of a periodic star | proved | Period_Props | sine, bounds, periodic, two_bands |  |
| C386 | The value of PeriodicStarMetric is the share of good fits | proved | Period_Props | share, range |  |
| C387 | Points with too few visits are marked | proved | Period_Props | few, only |  |
| C388 | Bands without visits do not count | proved | Period_Props | unseen |  |
| C389 | Wider tolerances recover no fewer stars | proved | Period_Props | tolerances |  |
| C390 | PeriodicStarMetric gives a value for every slice | partial | Period_Props2 | total, default_refuted, band | Proved with a slice point. Refuted for the default of run, slice_point=None, which raises AttributeError for any slice with enough visits. |
| C391 | Perfect and failing fits | proved | Period_Props2 | exact, failed |  |
| C392 | Names of bands may have more than the letter | partial | Period_Props2 | long, names_refuted | Refuted: such visits are fitted as those of the band, since only the first letter is kept, but the band is then treated as one without visits, and the value is 0. |
| C393 | Distance and start of the survey | proved | Period_Props2 | distance, start |  |
| C394 | The photometric error of a star | proved | Period_Props2 | positive, fainter, depth |  |
| C395 | The share of stars recovered in short spans | partial | Period_Props3 | zero, share_refuted, few | Refuted: the number of parameters is compared with np.size of the light curve object, which is 1, so that every fit is replaced by infinities. Proved: for all visits, random numbers and fits the value is 0 if the visits span at least one interval, and NaN (0/0) if not. |
| C396 | Each visit is in one subrun | partial | Period_Props3 | subruns_partial, border_refuted, tail_refuted | Refuted: a visit at the border of two subruns is in both, and visits after the last whole interval are in none. Proved: each other visit is in exactly one. |
| C397 | Stars are compared with their own solutions | partial | Uniform_Props | match, unique, none_refuted | Proved if there are stars and solutions. Refuted if no star has a solution: the maximum of an empty array raises ValueError. |
| C398 | The map of residuals | proved | Uniform_Props | zeropoint, residuals, pixels |  |
| C399 | The scatter of the residuals | proved | Uniform_Props | scatter, scaling |  |
| C400 | The fractions of outliers | partial | Uniform_Props | full, high_partial, high_refuted | Proved for all pixels. Refuted for high latitude: the number of outliers there is divided by the number of all pixels, so that the value is too low whenever there are outliers and pixels at low latitude. Proved: it is the share among all pixels. |
| C401 | The metric asks for the columns it reads | partial | Uniform_Props | needed, declared_refuted | Refuted: observationid, fieldra and fielddec are asked for, observationId, fieldRA and fieldDec are read, and a column of numpy is found by its exact name. Proved: which columns are needed. |
| C402 | Galaxies are counted in the footprint only | partial | Uniform_Props | footprint, badval_refuted | Proved for the default bad value. Refuted for any other: the footprint metric keeps its own bad value -666, to which the given one is compared, so that galaxies are counted everywhere. |
| C403 | The distance to which young stars are seen | partial | Young_Props, Young_Props2 | reach_partial, map_partial | Proved for the two-dimensional dust map (use_2D_extinction) if every band has visits. For the default three-dimensional map proved that the distance is the smallest of those the map gives for the dimming to the limit in each band; missing: the map gives the nearest of its distances (C305). |
| C404 | More visits see farther | proved | Young_Props, Young_Props2 | visits, bands, map | Proved for both dust maps; for the three-dimensional one with growing distances and dust that does not decrease. |
| C405 | Where young stars cannot be seen | partial | Young_Props, Young_Props2 | missing, limit, map_partial, map_refuted | Proved for the two-dimensional dust map, and the latitude for both. Refuted for the default three-dimensional map: a band without visits gives the first distance of the map, which is positive, so that stars are counted; proved that this is the value. |
| C406 | The density of young stars | proved | Young_Props | positive, latitude, symmetric, number | The numerical integral is an argument of the model. |
| C407 | Young stars are in the disk of the Galaxy | partial | Young_Props3 | plane_partial, off_plane_partial, refuted | Proved in the galactic plane, and off the plane for the height. Refuted off the plane: the distance from the axis leaves out the cosine of the latitude, so that stars above the Sun towards the center are counted as nearer to it and too numerous. |
| C408 | StarCountMetric counts stars | partial | Starcount_Props | refuted, function_refuted | Refuted: the import binds the module starcount, not the function, so that every run raises TypeError (or IndexError); the function raises AttributeError, as eq_gal3 uses a unit that astropy does not have. What it would count is C413. |
| C409 | StarCountMassMetric counts stars | partial | Starcount_Props | refuted | Refuted: the function given to the solver returns nothing, so that every run with a known band raises TypeError. |
| C410 | The shells of the star counts | proved | Starcount_Props | shells, total |  |
| C411 | Cylindrical coordinates in the Galaxy | partial | Starcount_Props | place, angle_refuted | Proved for the distance and the height. Refuted for the angle: it is taken at the Sun, not at the center (and is not used). |
| C412 | The density of stars in the Galaxy | proved | Starcount_Props2 | positive, falls, local, scales |  |
| C413 | Counts lie within the bounds of the density | proved | Starcount_Props2 | bounds | The galactic coordinates are an argument, as eq_gal3 raises (C408). |
| C414 | Shares of masses | proved | Starcount_Props2 | integral, shares, positive |  |
| C415 | The error of a magnitude | proved | Starcount_Props2 | floor, fainter, depth, total |  |
| C416 | Distances from magnitudes | proved | Starcount_Props2 | modulus |  |
| C417 | The line of binned data | proved | Bars_Props | unmasked, filled |  |
| C418 | Values without a mask are drawn | partial | Bars_Props | refuted | Refuted: without a mask the places of the values to show are those of a single true value, so that the first bin only is drawn. |
| C419 | The limits of the plot of binned data | partial | Bars_Props | given, clip, zero_refuted, zero_partial | Proved for given limits and percentiles. Refuted for 0: masked bins count as their fill value, so that with values of 0 and a masked bin the axis does not start at 0. Proved if nothing is masked and no value is negative. |
| C420 | The plot of binned data needs a OneDSlicer only | partial | Bars_Props | inputs, colour_refuted | Proved for other slicers. Refuted for the options: the colour has no default, and without it the plot raises KeyError. |
| C421 | Plots of an NDSlicer | partial | Bars_Props | refuted, inputs | Proved for other slicers and missing axes. Refuted otherwise: both plots read the attribute nD, which an NDSlicer does not have (it is n_d), and raise AttributeError for all values. |
| C422 | The histogram of visits in groups shows all visits | partial | Twod_Props | bar, all_below, total_partial, largest_refuted, masked_refuted | Proved for each number of visits below the largest, and the heights add up to all visits but those of the largest groups. Refuted for the largest number: the last edge of the bins is half a visit below it, so that these visits are never shown. Refuted for masked values, which are counted. |
| C423 | Plotting leaves the metric values alone | partial | Twod_Props | unchanged_partial, masked_partial, refuted, nomask_refuted | Proved without color_min. Refuted with it: the values below are masked in the array of the metric bundle, which changes later statistics; proved that exactly these are masked. An array without a mask raises TypeError. |
| C424 | The label of a two-dimensional plot | partial | Twod_Props | user, kind, again_refuted | Proved for the label of the user and for Healpix and User slicers. Refuted for others: the label is written to the defaults of the plotter and is kept for the next plot. |
| C425 | The area with at least some number of visits | proved | Moplot_Props | curve, points |  |
| C426 | Plots against orbits need no options | partial | Moplot_Props | width_refuted, value_refuted | Refuted: the options hwidth and hval are read, while the defaults are called Hwidth and h_val; without them each call raises KeyError. C426_case is the same call with both options, which works. |
| C427 | The H of a plot against orbits | partial | Moplot_Props | cloned, median, own_refuted | Proved for cloned H and for the median. Refuted if each object has its own H and one is asked for: the option read is hvals, KeyError. |
| C428 | The bins of a plot against orbits | partial | Moplot_Props | all, values, own_refuted, value_refuted | Proved if there is a value for each object. Refuted if each object has its own H: the values of the objects chosen are looked up by the places of all objects, so that the plot raises IndexError, and the bins before that show values of other objects. |
| C429 | The points of a plot against orbits | partial | Moplot_Props | cloned_partial, background_refuted, own_refuted | Proved for cloned H with the foreground points. Refuted without these (the colorbar is missing) and if each object has its own H and not all are chosen (sizes differ). |
| C430 | Metric values against H | partial | Hplot_Props | bins_partial, close_refuted | Proved if the H span a magnitude or more (masked values take part with the bad value, as the theorem says). Refuted for H within a magnitude: the bins then end half a magnitude above the smallest H, and all objects beyond are shown at the last point. |
| C431 | The options of the plot against H | partial | Hplot_Props | color_refuted, user_refuted, given_partial | Proved if both options are given. Refuted: linestyle is written to the dictionary of the user, and color has no default, KeyError. |
| C432 | The summary histogram | partial | Hplot_Props | heights, line, bins_refuted, empty | Proved for given bins. Refuted for the default: bins is None, TypeError. |

## 7. Assumptions of each theorem

As listed by `Print Assumptions` (all are axioms of the standard library; there are none of our own).

**Closed under the global context** (526 theorems): C01_every_bundle_scheduled, C02_groups_mutually_compatible_refuted, C02_group_members_partial, C03_calculated_once_refuted, C03_calculated_once_partial, C04_maps_compared_refuted, C04_compatibility_ignores_maps, C05_cache_transparent, C05_cache_any_metric_refuted, C06_cache_invariant, C07_masking, C07_calculation_completes, C08_make_bundles_dict, C09_oned_slice_content, C09_oned_partition, C10_last_bin_closed_refuted, C10_last_edge_always_lost, C10_auto_bins_lose_maximum, C11_nd_cell_content, C11_nd_each_visit_once, C12_nd_half_open_refuted, C13_nd_equality_refuted, C13_nd_equality_partial, C13_nd_equality_total_refuted, C14_movie_cumulative, C14_movie_frames_partition, C14_movie_frame_content, C15_interval_content_refuted, C15_slice_holds_previous_interval, C15_last_interval_lost, C16_visit_interval_label_refuted, C16_each_visit_once, C16_visit_interval_label_partial, C16_results_aligned, C17_blocks, C17_block_announced_interval, C18_iteration_complete, C20_all_gaps, C20_consecutive_gaps, C20_consecutive_sum, C20_percent_range, C20_percent_count, C21_pair_fraction_refuted, C21_zero_min_gap_refuted, C21_pair_fraction_half_open, C21_pair_fraction_partial, C22_uniformity_range_refuted, C22_uniformity_partial, C22_order_independent, C22_same_time, C23_intra_night, C23_inter_night, C23_adjacent_nights, C23_all_gaps_once, C24_season_runs, C25_frac_complement_refuted, C25_frac_complement_partial, C26_fonv, C26_fonv_too_few, C26_npix, C26_foarea, C26_fonv_foarea, C26_zero_area_refuted, C27_count_unique, C27_subset_total, C28_one_row_per_metric, C28_stable_distinct_ids, C28_returned_row, C28_rows_never_change, C29_one_display_per_metric, C29_overwrite_replaces, C29_no_overwrite_keeps, C30_plots, C30_recorded_once, C31_ntry_zero_refuted, C31_summary_recorded_partial, C31_scalar_recorded, C31_caught_errors_refuted, C32_downgrade_upgrade, C32_upgrade_old, C32_up_to_date_untouched, C32_very_old_refuted, C33_one_entry, C33_readd, C33_add_new, C33_delete, C34_sanitized_safe, C34_safe_unchanged, C34_others_kept, C35_tags_are_a_set, C35_tag_idempotent, C35_untag, C35_others_unaffected, C36_stored_once_refuted, C36_concurrent_tagging_partial, C36_sequential, C37_hash_matches_refuted, C37_same_name_refuted, C37_hash_matches_partial, C37_one_call, C37_interrupted_refuted, C38_atomic_refuted, C38_failed_call_refuted, C38_atomic_partial, C39_half_specified_refuted, C39_half_specified_partial, C40_latest_selected, C40_for_nights, C41_newest_refuted, C41_undominated_partial, C42_dates_lost_refuted, C42_no_observations_refuted, C42_round_trip_partial, C43_returned_refuted, C43_reconnect_refuted, C43_returned_partial, C43_query_returns, C44_day_obs_agree, C44_one_day, C45_int_round_trip, C45_only_dates, C45_column_refuted, C46_minimum_overhead, C46_slew_part, C47_daily_ids, C47_stable_partial, C47_renumbered_refuted, C47_ties_refuted, C48_sims_on_nights_partial, C48_no_tags_refuted, C49_columns_provided, C49_defaults_are_sources, C50_nan_iff_saturated_refuted, C50_saturated_are_nan, C50_nan_iff_saturated_partial, C51_hour_angle_range, C52_overhead, C52_bounded, C53_bins_in_range, C53_no_spread, C54_visits_scale, C54_total_scales_refuted, C55_independent_of_others_partial, C55_independent_of_others_refuted, C55_rows_refuted, C56_all_reduced_kept_refuted, C56_all_reduced_kept_partial, C57_inputs_first_refuted, C57_inputs_first_partial, C58_nested_loops_refuted, C59_resetup_refuted, C60_empty_interval_masked_refuted, C61_nightgaps_refuted, C61_nightgaps_partial, C62_max_gap, C62_max_gap_defined, C63_template_exists, C64_general_uniformity_refuted, C64_general_uniformity_range_refuted, C64_general_uniformity_partial, C65_count_beyond_refuted, C65_count_beyond_partial, C66_rapid_revisit_range_refuted, C66_rapid_revisit_partial, C67_smallest_arc, C67_rotation_invariant, C67_beyond_turn_refuted, C71_accumulate_count_refuted, C71_accumulate_count_partial, C71_single_visit_refuted, C72_accumulate_refuted, C72_accumulate_partial, C76_accumulate_uniformity, C77_retry_refuted, C77_never_retried_partial, C78_auto_caption_refuted, C78_auto_caption_partial, C79_parallel_runs_refuted, C79_sequential_partial, C80_summary_name_refuted, C80_summary_name_partial, C81_readd_atomic_refuted, C81_other_runs_partial, C82_ids_reused_refuted, C82_new_id_fresh_partial, C83_sanitized_distinct_refuted, C83_safe_distinct_partial, C84_conda_env_saved, C85_night_stats_partial, C85_night_stats_refuted, C86_visits_url, C87_get_comments, C87_view_comments_partial, C87_view_comments_refuted, C88_night_range_filter, C88_order_kept, C89_shifted_text_refuted, C89_shifted_text_partial, C90_sim_interval, C90_past_end, C90_before_almanac_refuted, C91_lookup_refuted, C91_lookup_partial, C92_day_obs_forms_partial, C92_iso_text_refuted, C93_age_limits_refuted, C93_age_limits_partial, C94_slew_loc_refuted, C94_slew_loc_partial, C95_stacker_columns_not_queried_refuted, C95_new_class_refuted, C95_stacker_columns_not_queried_partial, C96_given_stacker_decides_refuted, C96_given_stacker_decides_partial, C98_given_inner_stackers_refuted, C98_given_inner_stackers_partial, C99_follow_up_count, C100_note_root_partial, C100_note_root_refuted, C101_coadd_keeps_totals_refuted, C101_coadd_keeps_totals_partial, C102_saturation_inputs_refuted, C102_saturation_inputs_partial, C103_clipping_partial, C103_clipping_refuted, C104_one_row_per_night_refuted, C104_mjd_column_refuted, C104_one_row_per_night_partial, C105_n_changes, C105_row_order, C106_min_time_refuted, C106_min_time_partial, C107_faster_refuted, C107_faster_partial, C108_max_within, C109_open_shutter, C110_brute_osf_refuted, C110_brute_osf_partial, C111_string_count_refuted, C111_string_count_partial, C111_clip, C112_reduce_refuted, C112_reduce_partial, C113_phase_gap_partial, C113_phase_gap_refuted, C113_single_period_refuted, C114_pairs_refuted, C114_pairs_partial, C115_frequency_refuted, C115_frequency_partial, C115_campaign_length, C116_at_most_visits_refuted, C116_pair_in_range_refuted, C116_mirror_refuted, C116_night_partial, C116_small_nights_partial, C116_recorded_partial, C117_nights_in_window, C117_visits_in_window, C117_monotone, C118_lunations, C119_sequence_refuted, C119_sequence_partial, C120_reduce_refuted, C120_reduce_partial, C121_fraction_refuted, C121_fraction_phases_refuted, C121_fraction_partial, C122_survey_start_refuted, C122_first_visit_partial, C123_criteria_refuted, C123_criteria_partial, C123_complete_partial, C124_phase_refuted, C124_phase_partial, C125_deeper, C126_peak, C127_no_singles, C127_singles_left_out, C127_arc, C128_limit_monotone, C128_more_observations, C129_opportunities, C129_tracklet_nights, C129_window_refuted, C130_first_opportunity_partial, C130_any_order_refuted, C131_further_observation_refuted, C131_other_nights_partial, C131_pairs_partial, C132_observations_refuted, C132_one_less_partial, C133_velocity_refuted, C133_time_partial, C134_magic_partial, C134_any_order_refuted, C135_trailed_partial, C135_fast, C135_time_refuted, C135_never_refuted, C136_full_refuted, C136_fraction_partial, C136_more, C137_bands, C137_more, C137_limit, C137_detections_refuted, C138_flag, C138_more, C139_found_refuted, C139_missed_refuted, C139_following_partial, C140_conditions_partial, C140_coverage_refuted, C141_known, C142_weighted_mean, C142_monotone, C142_power_law, C142_anchor_free, C142_single_refuted, C142_single_partial, C143_differential, C143_threshold, C143_cumulative, C143_masked_refuted, C143_masked_partial, C144_index_partial, C144_index_refuted, C145_by_magnitude_refuted, C145_values_partial, C145_span_refuted, C145_span_partial, C146_differential, C146_cumulative, C146_early_refuted, C146_default_refuted, C146_init_partial, C146_rerun_refuted, C146_rerun_partial, C147_value, C147_no_value, C147_mean, C148_total, C148_parameters_refuted, C148_parameters_partial, C148_pha_refuted, C148_distributions_partial, C148_more_faint, C149_partition, C149_no_conflict, C149_fewest_lists_refuted, C149_fewest_lists_partial, C150_independent_partial, C150_independent_refuted, C151_masked, C152_summaries, C152_stackers, C152_label_refuted, C152_label_partial, C153_slices, C153_setup_refuted, C153_setup_partial, C153_equality, C153_equal_shape_refuted, C154_once, C167_empty, C198_bandpass, C205_cache, C211_length_partial, C211_given_kept, C211_whole_refuted, C211_error_kinds, C211_documented_error_refuted, C212_tiling_partial, C212_near_partial, C212_end_refuted, C212_gap_refuted, C212_short_refuted, C212_failed_refuted, C214_own_segments_partial, C214_all_objects_partial, C214_missing_segment_refuted, C214_gap_refuted, C214_unknown_refuted, C215_outside_partial, C215_documented_refuted, C223_header, C223_no_header, C223_blank_refuted, C223_blank_error, C223_delim_refuted, C224_names_partial, C224_ambiguous_partial, C224_lost_refuted, C235_absolute_partial, C235_relative_refuted, C237_pairs_partial, C241_empty_refuted, C242_values_partial, C248_lines, C264_int_refuted, C265_given_refuted, C268_bins, C268_name_refuted, C273_vendor_partial, C273_none_refuted, C296_new, C300_round_trip, C300_back, C300_unknown_refuted, C307_names, C307_names_differ, C308_which, C308_keys, C308_applied_partial, C312_arguments, C313_saturated, C313_use, C313_not_science, C313_slice_refuted, C314_flat, C321_present, C324_columns_refuted, C336_values, C336_choice, C336_errors, C337_families, C337_runs, C337_once_partial, C337_once_refuted, C337_lost_refuted, C338_name, C338_table, C338_missing, C339_files, C339_again, C340_lines, C340_table_partial, C340_single_refuted, C344_says, C352_meaning, C352_more, C352_three_refuted, C352_all_different, C353_by_name, C353_by_order, C353_database_order, C353_group, C353_subgroup, C353_groups, C353_texts, C353_statistics, C353_plot_type, C353_unique, C353_names_and_labels, C353_names_order_refuted, C354_select_partial, C354_select_refuted, C354_data_file, C354_json_refuted, C354_json_fails, C354_titles_refuted, C354_titles, C354_caption, C355_names, C355_all_names, C355_order, C355_values, C355_of_metric, C356_types, C356_files, C356_sky_maps, C357_rows, C357_grid, C357_display_order, C357_all_shown, C357_once_refuted, C358_labels, C358_constraints, C358_bands, C358_one_band, C358_labels_differ, C359_replaced, C359_kept, C359_dropped_partial, C359_dropped_refuted, C359_distinct_refuted, C359_fractions, C360_page_refuted, C360_start_refuted, C360_list, C367_kept, C367_overwrites, C375_order_partial, C375_sorted_refuted, C376_resolution_partial, C376_label_refuted, C377_agree_partial, C377_pair_refuted, C377_colour_refuted, C377_again_refuted, C378_bands, C378_restricted_refuted, C379_bands_partial, C379_order_refuted, C380_distinct_partial, C380_space_refuted, C381_title, C382_bands_partial, C382_quotes_refuted, C383_place_partial, C383_after_refuted, C384_drawn, C397_match, C397_unique, C397_none_refuted, C401_needed, C401_declared_refuted, C408_function_refuted, C421_refuted, C421_inputs, C423_nomask_refuted, C431_color_refuted, C431_user_refuted, C431_given_partial, C432_empty

**`ClassicalDedekindReals.sig_forall_dec`** (14 theorems): C170_unknown_refuted, C171_key_refuted, C171_dict_partial, C222_propagation, C236_core_partial, C236_single_refuted, C236_overflow_refuted, C237_same_star_refuted, C238_numbers, C242_order_refuted, C336_once_refuted, C338_distinct_refuted, C432_line, C432_bins_refuted

**`ClassicalDedekindReals.sig_forall_dec`, `FunctionalExtensionality.functional_extensionality_dep`** (234 theorems): C174_mean, C175_conserved, C175_total, C176_between, C176_flat, C176_linear, C177_same, C177_twice, C178_covers_refuted, C178_coarse, C178_covers_partial, C179_grids, C179_same_refuted, C179_same_partial, C179_again, C180_mean, C180_between, C180_sum, C180_scale, C185_photons_refuted, C185_photons_partial, C185_linear, C186_ergs_refuted, C186_ergs_partial, C188_effective, C195_seeing, C197_response, C199_undo, C199_refuted, C199_redshift_partial, C199_compose_partial, C199_energy, C200_refuted, C200_refuses_partial, C200_nothing, C202_value, C202_gap, C202_succeeds, C202_refuses, C203_refuted, C203_write_refuted, C203_product_partial, C204_refuted, C204_flux_partial, C204_ends_partial, C204_setup_refuted, C204_setup_partial, C206_velocity, C206_mask, C206_interval, C210_one_solution, C210_inverse_exists, C213_turns_partial, C213_turns_refuted, C216_ids_partial, C216_elements_refuted, C216_length_refuted, C216_length_error, C233_cut_refuted, C239_optimal, C240_differences_partial, C240_balanced, C240_absolute_refuted, C241_succeeds_partial, C242_again_refuted, C255_visible, C256_maps, C256_exist, C258_value, C262_symmetric_partial, C265_symmetric, C265_bins_partial, C265_itself_refuted, C268_years, C268_every, C269_count_partial, C269_default_partial, C269_before_refuted, C269_between_refuted, C270_invariant, C270_range, C270_delta, C270_one_refuted, C270_uniform, C270_defined, C272_age_partial, C272_future_refuted, C274_nights, C274_columns_refuted, C274_simultaneous_refuted, C275_pairs, C275_double_refuted, C276_cutoff_refuted, C276_mean, C276_min, C276_bad, C276_repeat_refuted, C283_total, C283_dust, C283_bands_refuted, C283_minimal_refuted, C296_switch_refuted, C301_rms_partial, C301_missing, C304_point, C304_answers, C304_map, C306_trilegal, C312_density, C312_deeper, C315_types_partial, C315_types_refuted, C316_cumulative, C316_count, C316_additive, C316_dust, C316_band, C316_empty_refuted, C316_zmax, C318_count, C318_overlap_refuted, C318_order, C318_nonneg, C319_blocks, C319_inside, C319_midnight, C322_deep_partial, C322_deep_refuted, C322_area, C322_every, C322_all_sky_refuted, C322_all_sky_partial, C323_distance, C323_deeper_refuted, C323_deeper_partial, C323_side, C323_depth, C326_stars, C326_sequence, C326_zy_refuted, C326_types, C327_count, C327_masked, C327_more, C327_timescales, C327_list_refuted, C328_shares, C328_value, C328_bands_refuted, C328_bands_partial, C331_pairs, C333_columns_refuted, C333_last_refuted, C333_one_day_refuted, C333_cadence_partial, C334_value, C334_errors, C334_baseline, C334_better, C334_better_refuted, C334_zero_refuted, C334_units, C334_transposed, C334_again, C334_list, C335_errors, C335_value, C335_plain, C335_reverse_refuted, C338_lost_refuted, C341_read, C341_within, C344_listed, C344_all, C344_once_refuted, C344_other_refuted, C346_one_partial, C350_files, C350_found, C350_time, C351_same, C351_different, C351_symmetric, C351_nearest_same, C351_nearest_different, C351_missing_band_refuted, C351_bins, C396_subruns_partial, C396_border_refuted, C398_zeropoint, C398_residuals, C398_pixels, C399_scatter, C399_scaling, C400_full, C400_high_partial, C400_high_refuted, C417_unmasked, C417_filled, C418_refuted, C419_given, C419_clip, C419_zero_refuted, C419_zero_partial, C420_inputs, C420_colour_refuted, C422_bar, C422_all_below, C422_total_partial, C422_largest_refuted, C422_masked_refuted, C423_unchanged_partial, C423_masked_partial, C423_refuted, C424_user, C424_kind, C424_again_refuted, C425_curve, C425_points, C426_width_refuted, C426_value_refuted, C427_cloned, C427_median, C427_own_refuted, C428_all, C428_values, C428_own_refuted, C428_value_refuted, C429_cloned_partial, C429_background_refuted, C429_own_refuted, C430_bins_partial, C430_close_refuted, C432_heights

**`ClassicalDedekindReals.sig_forall_dec`, `ClassicalDedekindReals.sig_not_dec`, `FunctionalExtensionality.functional_extensionality_dep`** (178 theorems): C97_dcr2_moments, C155_precision, C156_best, C156_nan, C156_more, C156_invariant, C159_radius, C160_range, C160_degenerate, C160_scale, C206_series_value, C207_ends_exact, C207_pieces_meet, C208_end_slopes, C208_pieces_smooth, C209_least_squares, C209_least_squares_velocities, C209_polynomials_recovered, C210_residuals, C210_accepted_sizes, C210_other_sizes, C210_documented_sizes_refuted, C213_ends_partial, C213_within_tolerance, C213_range_refuted, C217_accepts, C217_stored, C217_epoch_refuted, C217_error_kinds, C217_missing_refuted, C218_probability_partial, C218_parabolic, C218_distance, C218_cartesian_refuted, C218_again_refuted, C219_rows_partial, C219_stated_refuted, C219_epoch_refuted, C220_rejected_partial, C220_rejected_refuted, C220_unlabelled_refuted, C220_given_partial, C220_given_refuted, C220_twice_partial, C220_twice_refuted, C220_alias_refuted, C221_packed, C221_roundtrip, C221_update_partial, C221_keeps, C221_H_refuted, C221_label_refuted, C222_values, C222_checks, C222_request, C222_err_refuted, C222_axis_refuted, C224_values_partial, C224_inclination_refuted, C227_exact, C227_units, C227_unknown, C228_plain_partial, C228_wrap_refuted, C234_known_partial, C248_many_refuted, C249_count, C249_named, C249_names, C249_distinct, C252_streaks, C252_alone, C253_succeeds_partial, C253_single_refuted, C253_short_refuted, C253_empty_refuted, C254_seen_partial, C254_never_seen_refuted, C255_fov_refuted, C257_maps_partial, C257_default_refuted, C257_nside_refuted, C257_night_refuted, C259_rotation_refuted, C260_info, C260_position, C260_bins_refuted, C261_subset, C261_mask, C261_circle, C262_alike_partial, C262_symmetric_refuted, C263_restored, C263_equal, C263_slices, C263_init_refuted, C264_spatial, C264_spatial_plain, C264_bins, C264_bins_refuted, C264_restored_refuted, C266_area, C266_defined, C267_area, C267_monotone, C267_all_refuted, C267_whole, C290_wrap, C290_azimuth, C301_layout_partial, C301_pixels_refuted, C302_history, C302_pixels, C302_positions, C302_interpolated, C302_arguments, C302_dustmap, C303_one_map_partial, C303_first_map_stays, C303_other_resolution, C303_map_asked_refuted, C303_twice_refuted, C306_stars, C306_same_resolution, C307_keys, C307_values_partial, C307_resolution, C307_directory_ignored, C307_retry, C307_directory_refuted, C308_applied_refuted, C308_stellar_map, C315_volume, C318_intervals_order, C318_mean, C318_empty, C318_unknown, C320_determined, C321_galactic_refuted, C321_galactic_partial, C321_galactic_radians, C321_ecliptic, C321_sun, C321_sdss, C325_standard, C325_other, C325_any_refuted, C329_order, C330_visits_refuted, C330_visits_partial, C330_map_refuted, C332_order, C332_masked, C332_number_refuted, C351_merit, C351_sum, C351_order, C351_swap, C351_infinite_refuted, C351_more_refuted, C361_point_lens, C361_symmetric, C361_brighter, C361_blend, C362_fluxes, C363_size, C363_monotone, C363_scales, C385_sine, C385_bounds, C385_periodic, C385_two_bands, C406_positive, C406_symmetric, C407_plane_partial, C407_off_plane_partial, C408_refuted, C412_scales

**`ClassicalDedekindReals.sig_forall_dec`, `ClassicalDedekindReals.sig_not_dec`, `Classical_Prop.classic`, `FunctionalExtensionality.functional_extensionality_dep`** (416 theorems): C19_coadd_flux, C19_single_visit, C19_order_independent, C19_more_visits_deeper, C19_at_least_deepest, C19_equal_visits, C19_two_steps, C19_metric, C68_no_visit_in_band_refuted, C68_no_visit_in_band_partial, C69_calc_coadded_depth, C69_missing_band, C70_teff_additive, C70_teff_fiducial, C72_accumulate_m5_partial, C73_histogram_m5, C74_ngal_other_bands_refuted, C74_ngal_one_band_partial, C75_optimal_m5, C75_optimal_m5_flux, C75_optimal_m5_nonneg, C155_depth, C155_decreasing, C155_five_sigma, C155_default, C157_more, C157_best, C157_order, C157_normalized_refuted, C157_normalized_order_refuted, C157_normalized_partial, C158_information, C158_infinite, C158_more, C158_normalized, C159_run, C159_angles_refuted, C159_faint_refuted, C159_angles_partial, C161_distance, C161_reduce, C161_units_refuted, C162_snr, C163_same_refuted, C163_stretch_partial, C163_factor_partial, C164_flag, C164_completeness, C165_brighter_refuted, C165_brighter_partial, C166_order_refuted, C166_position_partial, C167_shift, C168_comet, C168_band, C169_formula_partial, C169_formula_refuted, C170_memory_refuted, C170_types_partial, C172_ecliptic, C172_points, C173_log_linear, C173_hg, C181_flat, C181_brighter, C182_norm, C183_inverse, C184_cleared_refuted, C184_cleared_partial, C187_per_second_refuted, C187_per_visit, C187_outside, C189_gain, C189_five_refuted, C189_deeper, C190_snr, C190_depth_partial, C190_depth_refuted, C191_agree, C192_snr, C192_gamma, C193_error, C193_systematic, C194_floor, C196_same_light, C196_measure, C196_multiply, C198_refuted, C198_partial, C199_object, C200_dims, C200_add, C200_zero, C201_visual, C201_refuted, C201_dims_partial, C201_outside, C225_rest, C225_nonnegative, C225_grows, C226_slow_partial, C226_greater_refuted, C228_radians_refuted, C229_rows, C229_succeeds, C230_complete, C230_circle, C230_needed, C231_complete, C231_succeeds, C231_fallback, C232_circle_partial, C232_rectangle_refuted, C233_full_refuted, C233_text_refuted, C233_basic_partial, C234_info_refuted, C243_visits, C243_field, C244_squares_partial, C244_visits_partial, C244_radius_refuted, C244_edge_refuted, C245_sum_partial, C245_both, C245_same_name_refuted, C245_no_offset_refuted, C246_uncertainty, C246_depth, C247_succeeds, C247_fails, C247_sound, C248_constellation_partial, C250_planes, C250_anomaly_refuted, C251_kepler, C255_loads, C259_points, C259_healpix, C262_degrees_refuted, C262_camera_refuted, C266_short_refuted, C271_formula, C271_reference, C271_between, C271_mean, C277_inputs, C277_none, C277_enough, C277_any_refuted, C277_order, C278_with, C278_disjoint, C278_all_refuted, C278_band_refuted, C279_template, C279_difference, C279_fraction, C279_fraction_refuted, C280_depth, C280_order_refuted, C281_cuts, C281_column_refuted, C282_count, C282_more, C284_pair_partial, C284_riz_refuted, C284_dusty_refuted, C285_value_partial, C285_one_partial, C285_default_refuted, C285_missing_refuted, C286_values_partial, C286_length, C286_unused_refuted, C286_mean_refuted, C287_bands, C288_bounds, C288_reach_refuted, C288_margin, C288_warning_refuted, C288_brightest, C288_unique, C289_value, C289_bands_refuted, C289_katm_refuted, C289_given_refuted, C291_inside_partial, C291_outside, C292_spectrum_partial, C292_zero_refuted, C292_one_refuted, C293_airglow_partial, C293_outside, C294_moon_partial, C294_bounds_partial, C294_none, C294_zodiacal_partial, C294_edge_refuted, C295_slope_partial, C295_brighter_partial, C295_azimuth_partial, C295_zenith, C295_range_partial, C296_total_partial, C296_positive_partial, C296_limit_refuted, C297_mags_partial, C297_scale, C297_clamp_refuted, C298_params_partial, C298_separation_refuted, C298_radians_partial, C299_spectra_refuted, C299_unset, C299_stale_refuted, C305_within, C305_beyond, C305_before, C305_monotone, C305_point_in_map_partial, C305_point_in_map_refuted, C305_run, C309_error, C309_tables, C309_seeing, C309_zero_point, C309_more_stars, C310_quiet, C310_below, C310_best, C310_more_visits, C310_next_partial, C310_faintest_refuted, C311_depth_partial, C311_depth_refuted, C311_count, C311_more_visits, C311_range, C312_uncertainty, C314_precision, C314_angle, C314_more_visits, C314_order, C315_snr, C315_too_far, C315_between, C315_beyond, C317_best, C317_range, C317_stars, C317_constant, C317_monotone, C317_order, C320_altitude, C320_azimuth, C320_altonly, C323_triangle, C323_position, C323_mirror_refuted, C324_deeper, C324_unknown, C324_twilight_refuted, C324_seeing_refuted, C325_dust_dims, C325_dust_partial, C325_dust_grey, C325_dust_refuted, C326_bands, C326_counts, C326_airmass, C326_hardware, C329_decay, C329_intervals, C329_timescales, C330_gaps, C330_limit_refuted, C331_bounds, C331_order_partial, C331_order_refuted, C331_all_gaps, C331_weight_refuted, C332_formula, C332_seasons, C341_brightness, C341_dust, C341_distance, C341_outside, C342_counts, C342_more, C342_deeper, C342_total, C342_zero_refuted, C342_order, C343_meaning, C343_bands, C343_more_refuted, C345_meaning, C345_points_refuted, C345_ten_days_refuted, C345_stricter_refuted, C346_score, C346_scale_refuted, C346_empty_range, C347_peak, C347_rise, C347_brightest, C347_peak_inside, C348_range, C349_answers, C349_times_ignored, C349_reported, C349_possible_refuted, C350_distance, C350_volume_refuted, C350_missing_refuted, C362_derivatives, C362_peak, C362_order_refuted, C363_maximum, C363_constant_snr_refuted, C364_detected, C364_more, C364_order, C364_one_per_band, C364_all_pairs, C364_errors, C364_depth_refuted, C364_missed_refuted, C365_counts, C365_two_crossing_times_refuted, C365_peak_refuted, C366_symmetric, C366_nonnegative, C366_information, C366_no_fluxes, C366_fluxes_refuted, C366_other_bands, C366_result, C366_crossing_time_refuted, C366_bands, C367_mean_brighter, C367_own_fainter, C367_own_refuted, C367_blending_factors_ignored, C368_criteria, C369_never_more_partial, C369_later_partial, C369_last_refuted, C369_restricts, C370_given, C370_first_partial, C370_alone_refuted, C371_possible_partial, C371_bound_refuted, C371_fraction_refuted, C372_deeper_partial, C373_flags, C373_zero_partial, C373_place_refuted, C373_zero_refuted, C374_covered, C374_left_out_refuted, C386_share, C386_range, C387_few, C387_only, C388_unseen, C389_tolerances, C390_total, C390_default_refuted, C390_band, C391_exact, C391_failed, C392_long, C392_names_refuted, C393_distance, C393_start, C394_positive, C394_fainter, C394_depth, C395_zero, C395_share_refuted, C395_few, C396_tail_refuted, C402_footprint, C402_badval_refuted, C403_reach_partial, C403_map_partial, C404_visits, C404_bands, C404_map, C405_missing, C405_limit, C405_map_partial, C405_map_refuted, C406_latitude, C406_number, C407_refuted, C409_refuted, C410_shells, C410_total, C411_place, C411_angle_refuted, C412_positive, C412_falls, C412_local, C413_bounds, C414_integral, C414_shares, C414_positive, C415_floor, C415_fainter, C415_depth, C415_total, C416_modulus
