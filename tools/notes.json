{
 "C02": {
  "note": "The full statement is false of the code: the result of the comparison with the members after the first is computed and dropped (metric_bundle_group.py:196-206). Proved: constraint and slicer agree in a group, stackers agree with those of the first member."
 },
 "C03": {
  "note": "The full statement is false of the code: there is no break after a list is extended, so a bundle can join several groups. Proved when no two bundles have conflicting stackers."
 },
 "C04": {
  "note": "The full statement is false of the code: list.sort() returns None, so the comparison at metric_bundle_group.py:168 never sees the maps."
 },
 "C05": {
  "note": "Proved for metrics that depend on the set of visits only; shown false for slice-point dependent or order dependent metrics (the refutation theorem delimits the hypothesis).",
  "status": "proved"
 },
 "C10": {
  "note": "False of the code, although documented (one_d_slicer.py:38-39): proved that visits at the last edge are never delivered, and that with bins chosen from the data the largest values are always lost (exact arithmetic)."
 },
 "C100": {
  "note": "The column is <U50: roots that differ after 50 characters become equal."
 },
 "C101": {
  "note": "Visits within 1e-5 deg of several distinct positions are counted once for each."
 },
 "C102": {
  "note": "zeropoints given and km not given raises UnboundLocalError (k_atm is only set when the zeropoints are looked up)."
 },
 "C103": {
  "note": "With the default 95% none of two data points is kept; the proved bound is p% of the n-1 intervals between data, less one."
 },
 "C104": {
  "note": "Filter names of several characters are split into characters, and the sort is always by observationStartMJD, so another mjd_col raises ValueError."
 },
 "C106": {
  "note": "The time from the first visit to the first change takes part as if the first visit were a change."
 },
 "C107": {
  "note": "The first change counts when it is within the cutoff of the first visit."
 },
 "C110": {
  "note": "Exposures before a long gap (and the last one) are in the numerator only, so two visits can give more than one."
 },
 "C111": {
  "note": "A column with both the empty text and the text blank raises ValueError."
 },
 "C112": {
  "note": "Reduce functions accumulate over slices and raise ValueError for a slice without that text."
 },
 "C113": {
  "note": "Equal smallest and largest periods leave zeros for the other periods, so the mean gap is too small; one period over a proper range gives a NaN period."
 },
 "C114": {
  "note": "Pairs of occupied time bins are counted; several visits in one bin count once, and when match_min rounds to zero bins every occupied bin pairs with itself."
 },
 "C115": {
  "note": "A season with a single night enters the mean as separation zero."
 },
 "C116": {
  "note": "A night with exactly two visits counts two however far apart they are; a short gap between two good ones adds half a visit to the visits already counted (4.5 for 4 visits); the result depends on the direction of time."
 },
 "C119": {
  "note": "For windows shorter than a lunation, any night before the first group of a period ends the sequence."
 },
 "C12": {
  "note": "False of the code, although documented (nd_slicer.py:28): the last cell of each dimension has no upper limit (see C11 for the exact law)."
 },
 "C120": {
  "note": "VisitGroupsMetric, TripletBandMetric and GRBTransientMetric replace the order by one with other keys, so reducing their bundles raises KeyError."
 },
 "C121": {
  "note": "With count_method full a last incomplete light curve is detected but not counted as possible, and with several phases one is subtracted from the possible ones for each phase but never from those detected."
 },
 "C122": {
  "note": "With survey_start given the local variable is never assigned: UnboundLocalError."
 },
 "C123": {
  "note": "With n_pre_peak and several bands or sections the criteria are added up, so extra bands make up for missing visits before the peak."
 },
 "C124": {
  "note": "The number of the light curve ignores the phase shift, so phases wrap around inside a light curve."
 },
 "C127": {
  "note": "n_obs_no_singles needs nights that are not negative: np.bincount raises ValueError otherwise (modelled)."
 },
 "C129": {
  "note": "Finding: the window holds t_window + 1 nights (nights are compared with <= t_window), so two nights t_window apart count; refuted for the window of t_window nights, exact count proved for the window used.  Order of time is assumed."
 },
 "C13": {
  "note": "False of the code: only the left edges of the first n_d cells are compared; comparison can also raise IndexError."
 },
 "C130": {
  "note": "Finding: vis_sort is applied twice to the same arrays; for observations not in order of time the indices refer to the wrong order and the discovery time is wrong (refuted).  Proved for observations in order of time."
 },
 "C131": {
  "note": "Finding: when the detections of a night span more than t_max only successive groups of n_obs_per_night are looked at, so one more detection can remove a tracklet (refuted).  Proved for observations on other nights, and for pairs at least t_min apart."
 },
 "C132": {
  "note": "Finding: DiscoveryNObsMetric is end - start of inclusive indices, one less than the number of detections (refuted; exact relation proved)."
 },
 "C133": {
  "note": "Finding: DiscoveryVelocityMetric reads parent_discovery_metric.snrLimit, which DiscoveryMetric does not have: AttributeError always."
 },
 "C134": {
  "note": "Finding: nights are sorted before the indices of the detections are applied, so with observations not in order of nights other observations are counted (refuted).  The window is half open here, unlike in DiscoveryMetric."
 },
 "C135": {
  "note": "Findings: the time is that of the first observation of the night, detected or trailed or not; an object with detections none of which is trailed gets 0 instead of badval."
 },
 "C136": {
  "note": "Finding: the number of windows is the number of bin edges, one more than the number of windows, so the fraction is always below 1 (refuted; detections every night give (m - 1)/m)."
 },
 "C137": {
  "note": "Finding: an observation with SNR equal to the limit is a detection for the other metrics but has weight 0 here (refuted).  The weight has to be exceeded, the docstring says at least."
 },
 "C139": {
  "note": "Findings: an observation in band two before all of band one gives a negative difference and counts as a pair at any distance; an observation in band one shortly after one in band two is missed.  Proved when every observation in band two follows one in band one."
 },
 "C140": {
  "note": "Finding: the range of longitudes is taken from the values not centred, so longitudes 355, 5, 5 count as covering 350 degrees (refuted).  Conditions as computed are proved; longitudes and phases are whole degrees."
 },
 "C141": {
  "note": "Random numbers are a list of arguments; np.random.rand is not modelled otherwise."
 },
 "C142": {
  "note": "A single H value raises IndexError in every distribution. For the anchor theorem the law of powers is assumed for the exponents that occur."
 },
 "C143": {
  "note": "Masked values are read as 0, so with threshold <= 0 objects without observations count as found."
 },
 "C144": {
  "note": "hindex is passed as Hindex, which power_law_dndh swallows in **kwargs: the default 0.33 is always used."
 },
 "C145": {
  "note": "The histogram is taken of the metric values instead of the H values; with an H range below min_hrange the bins start half of it below the least H and may end before the largest."
 },
 "C146": {
  "note": "Discoveries before the first time are never counted; hval=None without metric_name raises TypeError in the constructor; the first run stores the H it chose, which changes later runs; hindex is not used."
 },
 "C148": {
  "note": "TotalNumberSSO passes the keyword arguments both to the distribution and to BaseMoMetric.__init__, which rejects hindex, no and ho; pha_dndh_grav always raises TypeError (np.diff[...])."
 },
 "C149": {
  "note": "Only the last list is considered for a bundle, so a bundle compatible with an earlier list still starts a new one."
 },
 "C15": {
  "note": "False of the code: np.digitize numbers bins from 1, so slice i holds the interval before the announced one and the last interval is lost. The exact law is proved."
 },
 "C150": {
  "note": "Every list runs the stackers of all bundles of the group, so of two stackers of one class with other settings the later one wins in both lists."
 },
 "C152": {
  "note": "The label looks for slicer.obsfile; the attribute is obs_file, so it is always noObs."
 },
 "C153": {
  "note": "setup_slicer sets only all_obs; slicing before subset_obs raises AttributeError, and without an observation file TypeError. A slicer cloned over exactly the H values of the orbits equals one that is not cloned although the shapes differ."
 },
 "C157": {
  "note": "The normalised value takes the first half of the rows as the early epoch: with different errors per visit it depends on the row order and can exceed 1."
 },
 "C158": {
  "note": "An empty slice raises IndexError."
 },
 "C159": {
  "note": "theta_range: line 378 computes ((theta + pi) % 2) * pi instead of modulo 2 pi, so visits at angles 0 and 2 rad do not count as spanning 1.5 rad; without visits above the limit np.min of nothing raises ValueError."
 },
 "C16": {
  "note": "Label refuted for unsorted data; proved: each visit in exactly one slice, labels right for data in strict time order, stored results aligned for any order."
 },
 "C160": {
  "note": "curve_fit itself is not modelled: the value is that of the exact weighted least squares solution."
 },
 "C161": {
  "note": "The values are in degrees although the default units of the metric are radians."
 },
 "C163": {
  "note": "Line 432 has 10**(0.5 (m-m5)) where m52snr (and the LSST formula) has 10**(0.4 (m-m5)): SNR is too high for bright objects and too low for faint ones, by 10**0.1 per magnitude for gamma 0.04."
 },
 "C165": {
  "note": "One generator serves all clones, so each clone has other random numbers; true when the numbers are the same."
 },
 "C166": {
  "note": "The generator is created once per stacker and advances by the number of rows of every frame; only that number matters."
 },
 "C168": {
  "note": "The phase function of the coma is a scipy spline, taken as an arbitrary positive function."
 },
 "C169": {
  "note": "Line 350 multiplies km by 1000 and calls it cm: the coma is exactly 10 magnitudes too bright."
 },
 "C170": {
  "note": "A misspelt magtype silently uses the column appMag as it is, or uninitialised memory when there is none."
 },
 "C171": {
  "note": "The code looks for Afrho1_const; the documented afrho1_const raises ValueError."
 },
 "C178": {
  "note": "refuted: on the grid 1,3,5 a spectrum at 1,2,3,4,5 has NaN at both ends, as the outer bins of the new grid reach beyond those of the spectrum; C178_coarse shows this for every grid with coarser outer steps, C178_covers_partial the case of steps that are not coarser."
 },
 "C179": {
  "note": "C179_same_refuted: Sed adds a whole step to the maximum and Bandpass half a step, so the grids differ in length for a range that is not a whole number of steps; C179_same_partial the equality for whole numbers of steps."
 },
 "C184": {
  "note": "refuted: a new Sed has the zeropoint -2.5 log10 3631 = -8.90012..., a cleared one -8.9; C184_cleared_partial bounds the difference by 0.0002 mag."
 },
 "C185": {
  "note": "C185_photons_refuted: the width of the first bin is used for all, so an uneven grid gives wrong counts; C185_photons_partial the uniform grids; C185_linear holds on all."
 },
 "C186": {
  "note": "refuted on uneven grids, as only the first step is used; C186_ergs_partial for uniform grids."
 },
 "C187": {
  "note": "refuted: the zeropoint is the magnitude of one count in the whole visit (C187_per_visit); C187_outside: NaN when the bins of the bandpass leave 300-1150 nm."
 },
 "C189": {
  "note": "refuted: the square root has 625/4/gain where the quadratic gives 625/4/gain^2; C189_gain: the signal to noise is 5 exactly when gain = 1 and above 5 for the default 2.3."
 },
 "C190": {
  "note": "C190_snr holds; C190_depth_refuted: calc_m5 does not return the depth unless gain = 1 (C190_depth_partial), for the same reason as C189."
 },
 "C198": {
  "note": "Refuted: a set_sed that raises for the length of its arrays leaves a Sed without fluxes. Every other method of Sed keeps the spectrum when it raises, and so does set_bandpass."
 },
 "C199": {
  "note": "Refuted for blueshifts: z<0 divides the wavelengths by 1-z instead of multiplying by 1+z (z=-0.5 gives a factor 2/3, not 1/2). Proved for z>=0; undoing and conservation of energy hold for every z."
 },
 "C200": {
  "note": "Refuted: with r_v=3.1 given explicitly, contradicting a_v and ebv are taken instead of refused. For every other r_v they are refused."
 },
 "C201": {
  "note": "Refuted: exactly at 5.9 inverse microns the law has a gap and no extinction. Positive at every other wavelength of the range (polynomials bounded by interval arithmetic inside the proof)."
 },
 "C203": {
  "note": "Refuted: PhysicalParameters has no wavelenstep, so the defaults raise AttributeError; there is no method fnutoflambda; write_sed(print_fnu=True) indexes a pair and raises IndexError after two lines. The product with a step given and equal wavelengths is right."
 },
 "C204": {
  "note": "Refuted: the sum counts the two ends in full, so a response that is not zero there gives too much (twice as much on a grid of two points); and the array is sized with another grid than the bandpasses', so that ranges which are not whole numbers of steps raise ValueError. The exact difference is proved, equality when the response vanishes at the ends, and that the array is set up for whole numbers of steps."
 },
 "C206": {
  "note": "Exact real arithmetic."
 },
 "C207": {
  "note": "np.linalg.inv is any function that returns a right inverse or raises; exact real arithmetic."
 },
 "C209": {
  "note": "np.linalg.inv is any function that returns a right inverse or raises."
 },
 "C21": {
  "note": "Full statement refuted: the window is [min_gap, max_gap) towards later visits and (min, max] is not symmetric, and with min_gap=0 each visit pairs with itself. The half-open law is proved for all inputs with min_gap>0, and the full statement when no two visits are exactly max_gap or min_gap apart."
 },
 "C210": {
  "note": "Refuted for the documented sizes: with dxdt, n_poly of 2 and 3 raises RuntimeError (documented as allowed). For every accepted size the system is proved to have one solution, and with elimination in exact arithmetic as the inverse the fit never raises."
 },
 "C211": {
  "note": "Refuted: a length is accepted if a multiple of it comes within ten units of the last decimal place below the span (with n_decimal=0, length 7 for a span of 30), so it need not fit a whole number of times; and a failing search raises ZeroDivisionError (length rounded to 0.0) or AttributeError (DataFrame.as_matrix was removed from pandas), never the ValueError meant, and nothing is listed as failed. The stopping rules are proved for every behaviour of the residuals. Times are integers in units of the last decimal place; binary rounding is not modelled."
 },
 "C212": {
  "note": "Proved when every length chosen fits a whole number of times; without subdivision for every length, with the end within half an ephemeris step of t_end. Refuted otherwise: with span 30, length 7, ngran 64 the segments end at 29.96875; a subdivided piece can leave such a gap inside the span; with span 31 and length 10 the last piece has 7 points, too few for the fit, and RuntimeError ends the whole calculation; a piece that cannot be subdivided raises AttributeError for everything instead of being listed as failed (C211)."
 },
 "C213": {
  "note": "Proved: both ends exact up to a turn in right ascension (velocities if cos(dec) is not 0), the residual compared with the tolerance is the largest distance at the ephemeris times, and tracks within an arc of less than 90 degrees are brought to one turn. Refuted: tracks within 120 degrees (265, 350, 5 becomes 265, -10, 5), and right ascensions evaluated may be negative since nothing brings them back to 0-360. Also seen: resids['vmag'] stores the residual of geo_dist."
 },
 "C214": {
  "note": "Proved for tables in which each object asked for has one segment at each time. Refuted: if one object lacks a segment its row gets the next object's value and label, also for the other times; a time in a gap gives zeros; an unknown id is not refused, since the array that is checked is the caller's, overwritten in place."
 },
 "C215": {
  "note": "Refuted for the documented ValueError: the entries are NaN. Proved for mixtures of times inside and outside."
 },
 "C216": {
  "note": "Proved: only format and obj_id columns decide (the loop over the columns returns after the first). Refuted: objects with different elements compare equal; an object of one row equals one with two rows of the same obj_id; otherwise different lengths raise ValueError. __neq__ is not the name python calls, != is derived from __eq__."
 },
 "C217": {
  "note": "Proved which tables are accepted and what is stored. Refuted: only the first epoch is checked (a table with a later epoch in JD is accepted), and a table without epoch raises KeyError, not ValueError."
 },
 "C218": {
  "note": "Proved for Keplerian and cometary elements (parabolic orbits are always S: division by zero). Refuted: for Cartesian elements the distance from the Sun is used instead, and assigning again draws new random numbers, so that spectra are not reproducible from the seed of the first call."
 },
 "C219": {
  "note": "Proved for tables without a stated FORMAT and with all epochs in range. Refuted: the format of a row is found from its columns anew, so that an object of format KEP with a column q gives rows of format COM; a row with an epoch out of range raises although the object was accepted."
 },
 "C22": {
  "note": "The range [0,1] is false of the code (value 4/3 shown); proved: range [0, 2-2/n], zero exactly for evenly spaced visits, order independence, 1 for simultaneous visits."
 },
 "C220": {
  "note": "Refuted: a refused table leaves the new format with the old orbits; a column FORMAT is deleted from the caller's table; setting the stored table again may change the format; a table that needs nothing added is stored itself, not a copy. Proved: the orbits stay, the values of the caller's table stay, without a stated FORMAT setting again changes nothing."
 },
 "C221": {
  "note": "Proved: layout, round trip, obj_id and spectrum kept when row labels agree. Refuted: H and g are taken from the new table (20 and 0.15 if it has none) although the documentation says they stay in place; an object taken from row 1 or later of a larger one has another label than the unpacked table, and obj_id and spectrum become NaN."
 },
 "C222": {
  "note": "Proved: every value is in its documented place. Refuted: the error code of pyoorb is ignored for basic ephemerides; by_object=True gives columns whose first axis is the number of objects, although the documentation says number of times. pyoorb itself is an argument."
 },
 "C223": {
  "note": "Proved for files with and without header. Refuted: a blank line before the data raises IndexError; the search for the header splits lines at white space whatever delim is, so that a file with a delimiter and no white space cannot be read. Lines with too many or too few words and skiprows are not modelled."
 },
 "C224": {
  "note": "Proved but for two names. Refuted: S3MID and objid(int) are not recognised (a missing comma joins the two strings), so that the identifiers are replaced by running numbers; negative inclinations are accepted (the ValueError is built but not raised)."
 },
 "C226": {
  "note": "Refuted: with velocity * texp / (24 * seeing) below 0.702 (0.39 degrees a day for 30 s and 0.7 arcsec, so most of the main belt) the loss at detection is the smaller of the two; proved: exactly from there on it is the greater."
 },
 "C227": {
  "note": "The test of the camera is an argument, one visit at a time; angular separation is an argument."
 },
 "C228": {
  "note": "Proved for visits in degrees and right ascensions that differ by at most 180 degrees. Refuted: an object on the other side of right ascension 0 is lost; visits in radians are compared with positions in degrees."
 },
 "C229": {
  "note": "Ephemerides, colours and separation are arguments; ephemerides are taken one time at a time. Text longer than 40 characters is cut (statement made for shorter ones). Which of several errors is raised first is not modelled."
 },
 "C230": {
  "note": "For separations with the triangle inequality; proved of the angle between directions (great_circle). C230_needed: an object of 40 degrees a day at the centre of a visit is missed with the default settings."
 },
 "C232": {
  "note": "Proved for the circle and slow objects. Refuted: with the rectangle of 5 by 3 degrees (half widths) the limit is still r_fov + pre_comp_tol = 3.83 degrees, so that an object at rest 4 degrees from the centre is found only without pre-computed positions."
 },
 "C233": {
  "note": "Proved for basic ephemerides and for identifiers that are integers or read as integers. Refuted: full ephemerides raise ValueError at the first object near a visit; text raises ValueError (the column is of type int); numbers that are no integers are cut, so that two objects get the same identifier."
 },
 "C234": {
  "note": "Refuted: for an unknown name (such as circular, the name in the documentation) info keeps the unknown name and no radius, while a circle is used. Proved for the three known names."
 },
 "C235": {
  "note": "Refuted: out_dir is prepended twice, so that out_dir=out gives out/out/file. Proved for absolute directories."
 },
 "C236": {
  "note": "Proved for identifiers less than 2^32 apart and arrays of more or fewer than one observation. Refuted: a single observation is kept; identifiers 2^32 apart overflow the product of differences, so that stars seen once are kept."
 },
 "C237": {
  "note": "Proved without repeated pairs of star and patch. Refuted: a star twice in one patch is kept alone with it."
 },
 "C238": {
  "note": "Under the conditions of C236. Sorting by a column is an argument."
 },
 "C239": {
  "note": "Under the conditions of C236; lsqr is an argument. Numbers are reals."
 },
 "C240": {
  "note": "Proved: differences are right if the cleaned observations hang together. Refuted: the zero points themselves are not; with the solution of least norm, which lsqr gives, zero points sum up to the same as the magnitudes (C240_balanced), so that perfect observations of stars of 20 and 21 mag get zero points of 10.25."
 },
 "C241": {
  "note": "Proved: fails exactly if nothing is left, with ValueError; refuted by two observations that share nothing."
 },
 "C242": {
  "note": "Proved: the array is only reordered. Refuted: it is sorted in place; a second run raises AttributeError."
 },
 "C243": {
  "note": "The k-d tree is a test of the distance, and the order of its results is taken to be that of the stars. Numbers are reals."
 },
 "C244": {
  "note": "Proved for stars less than 1.8 degrees from the centre, for the gnomonic projection. Refuted: radius_fov is not handed on to assign_patches, so that with radius_fov=4 a star 3.6 degrees north of visit 1 gets the patch of a star at the centre of visit 2; a star at exactly 1.8 degrees gets a patch of the next visit too."
 },
 "C245": {
  "note": "Proved for offsets that have different names and give numbers. Refuted: of two offsets of one class only the last counts; with NoOffset generate_catalog raises TypeError. OffsetClouds is not modelled."
 },
 "C247": {
  "note": "An offset that gives one number for all stars is not modelled."
 },
 "C248": {
  "note": "Proved for numbers below 100000. Refuted for constellations of more than 92000 satellites: numbers start at 8000 and the 92001st has six digits, so that its lines have 70 characters. Rounding to decimals is an argument, such that integers of the last place stay."
 },
 "C25": {
  "note": "False when a value equals the cutoff (it is counted on both sides); the excess is proved to be exactly the number of such values."
 },
 "C250": {
  "note": "Proved except for shells with one satellite per plane. Refuted: mean anomalies above 360 degrees occur."
 },
 "C253": {
  "note": "Proved for exposures longer than 1.5 dt. Refuted: exposures between dt/2 and 1.5 dt raise ValueError if a satellite is near (a line of one point); shorter ones have no streaks whatever the satellites do; a constellation without satellites raises ValueError."
 },
 "C254": {
  "note": "Proved if no satellite rises, sets, or enters or leaves the shadow during the exposure. Refuted: a satellite that is up in the dark at the start, and lit but set at the end, is counted though it is never seen."
 },
 "C255": {
  "note": "Refuted for the field of view: fov of the constructor is not used by any method; check_pointings has its own fov_radius. Reading of TLEs (skyfield) is an argument, taken to accept all well formed ones."
 },
 "C256": {
  "note": "What skyfield says of a satellite at a time, and the pixels, are arguments."
 },
 "C257": {
  "note": "Proved for nights with different numbers, none -1. Refuted: without a constellation (the default) the constructor raises AttributeError; nside is not handed on to the parent; on a night numbered -1 there are no maps. Other conditions of the observatory are not modelled."
 },
 "C258": {
  "note": "Smoothing and degrading of maps are arguments."
 },
 "C259": {
  "note": "Holds. But setup_slicer needs the rotSkyPos column even if use_camera is False (C259_rotation_refuted); the documentation says it is only used with the camera. Negative indices are not modelled."
 },
 "C26": {
  "note": "Proved for a positive area; C26_zero_area_refuted shows that area 0 is answered for the whole map.",
  "status": "proved"
 },
 "C260": {
  "note": "Refuted for information that is not per slice but has as many elements as there are slices, e.g. the bins of a stellar density map with as many user points as bins: each slice gets one bin (C260_bins_refuted)."
 },
 "C262": {
  "note": "Refuted: equality does not look at lat_lon_deg, camera_radius and camera_footprint_file (C262_degrees_refuted, C262_camera_refuted), and a UserPointsSlicer compares only the keys of the other one, so that one with maps run equals one without but not conversely (C262_symmetric_refuted). Proved: with those three the same, equal slicers slice in the same way; symmetry for healpix slicers."
 },
 "C263": {
  "note": "Values, mask, fill value, points etc. are restored. Refuted otherwise: use_camera, rot_sky_pos_col_name, lat_lon_deg, camera_radius, camera_footprint_file and use_cache are not saved; C263_equal says exactly when the restored slicer is equal and C263_slices when it slices in the same way. slicer_init of UserPointsSlicer holds radians whereas the constructor takes degrees (C263_init_refuted)."
 },
 "C264": {
  "note": "Refuted for integers (C264_int_refuted: `not a or b`), for bins without a mask (C264_bins_refuted) and for values that read_data restored from an unmasked array (C264_restored_refuted: their mask is nomask)."
 },
 "C265": {
  "note": "Refuted: bins given with bin_min, bin_max or bin_size raise AttributeError (warnings.warning, C265_given_refuted); before setup a slicer without all of bin_min, bin_max and bin_size is not equal to itself (C265_itself_refuted)."
 },
 "C266": {
  "note": "C266_short_refuted: with fewer valid pixels than the area needs, the worst valid value is returned as if it covered the area (no warning). Negative areas are not modelled; a custom reduce_func is not modelled."
 },
 "C267": {
  "note": "C267_all_refuted: with both bounds None every pixel counts, also the masked ones, so adding a bound that every value meets makes the area smaller."
 },
 "C268": {
  "note": "C268_name_refuted: **kwargs is accepted and dropped, so a given metric_name has no effect. Night 3652 counts for the last year because numpy's last bin is closed."
 },
 "C269": {
  "note": "C269_before_refuted: before the first visit the count is 1. C269_between_refuted: on nights without visits the value is interpolated (one and a half visits). Missing from the partial theorems: exactly those points."
 },
 "C270": {
  "note": "C270_one_refuted: n equal angles give 1 - 1/n, and a single visit gives 0, as the empirical distribution is compared only from above; C270_delta shows that this largest value is reached exactly by equal angles."
 },
 "C272": {
  "note": "C272_future_refuted: a visit after the reference time hides the earlier ones and gives a negative age that is not masked."
 },
 "C273": {
  "note": "C273_none_refuted: a point on no chip gives 3."
 },
 "C274": {
  "note": "C274_columns_refuted: filter_col and time_col are not passed to the checker, which reads band and observationStartMJD. C274_simultaneous_refuted: visits at the same moment in two bands are not a colour."
 },
 "C275": {
  "note": "C275_double_refuted: a night that has both by itself is counted twice, with the night before and with the night after."
 },
 "C276": {
  "note": "C276_cutoff_refuted: the branches for g and r are never reached, so neither the cuts nor the depths (nor dust) have an effect. C276_repeat_refuted: two visits at one time give an infinite value with calc_type min. calc_type max and gcd are modelled; only the mask and threshold are proved for them. log=True is not modelled."
 },
 "C277": {
  "note": "A template is not guaranteed by any number of visits with the default percentiles 50 and 50 (C277_any_refuted): the better half in seeing and the deeper half can be disjoint. With percentiles adding up to more than 100 it is (C277_enough)."
 },
 "C278": {
  "note": "Visits in the template night after the template is complete are in neither group (C278_all_refuted). A visit in another band changes thresholds and template: bands are not separated (C278_band_refuted)."
 },
 "C279": {
  "note": "Without later images the fraction is not a number (C279_fraction_refuted)."
 },
 "C280": {
  "note": "For several bands the extinction coefficient is that of the first visit, so the value depends on the order (C280_order_refuted)."
 },
 "C281": {
  "note": "filter_col is not passed to the inner ExgalM5, which reads the column 'band': ValueError for other names (C281_column_refuted)."
 },
 "C283": {
  "note": "min_bands is stored and never read (C283_bands_refuted). The minimum is exclusive: a visit of exactly min_expTime is left out (C283_minimal_refuted)."
 },
 "C284": {
  "note": "The exposure time is given the i-band visits only (C284_riz_refuted) and has bad value -666 whatever the metric's (C284_dusty_refuted)."
 },
 "C285": {
  "note": "depths has one row, so depths[i] -= mean for the second band is IndexError: the default mean depths make every model of two or more bands raise (C285_default_refuted). With a mean depth a numeric bad value of a missing band is used as a depth (C285_missing_refuted). Formula proved without mean depths, and for one band with its mean."
 },
 "C286": {
  "note": "A mean depth of any band but u raises IndexError (C286_mean_refuted). NaN of a missing band spoils models that do not use it (C286_unused_refuted). Formula proved where all six bands have visits, without mean depths and cuts."
 },
 "C288": {
  "note": "The returned value never reaches nsigma (C288_reach_refuted); it is off by a factor of at most sqrt 3 in signal to noise and at most 2.5 log10 2 = 0.75 magnitudes (C288_bounds, C288_margin), more than the 0.38 of the warning (C288_warning_refuted)."
 },
 "C289": {
  "note": "The ValueError for several bands is constructed but not raised (C289_bands_refuted). zpt without k_atm: TypeError (C289_katm_refuted); k_atm without zpt is overwritten (C289_given_refuted)."
 },
 "C291": {
  "note": "For magnitudes above zero (an interpolated magnitude of exactly zero is reported as no flux)."
 },
 "C292": {
  "note": "Finding: spectra are interpolated in log10 with 0 standing for zero flux, so next to a template without flux the result is brighter than both neighbours (as if the zero were a one), and a template flux of exactly 1 becomes 0. Proved for templates between 0 and 1."
 },
 "C293": {
  "note": "For positive magnitudes."
 },
 "C294": {
  "note": "Finding: below the range of moonSunSep the code extrapolates the line through the first and the last entry (index -1) instead of using the edge, as its comment says. The healpix neighbours and weights are arguments. Proved inside the table for mean magnitudes other than zero."
 },
 "C295": {
  "note": "With positive ratio and dark sky flux; one filter; the fitted parameters are arguments."
 },
 "C296": {
  "note": "Findings: for airmass_limit <= 2.5 the rows of the valid points are used as indices of all points, so a valid point can lose its flux (set to zero) if another point is beyond the limit and a third beyond a template; a component off at construction cannot be switched on later (KeyError). Proved for magnitudes, limits above 2.5 or components positive everywhere. Components are functions of point and filter."
 },
 "C297": {
  "note": "Finding: the documented clamping of airmasses above 3 does not happen; beyond the templates the flux is zero and the magnitude infinite. Proved for magnitudes (mags=True) and limits above 2.5."
 },
 "C298": {
  "note": "Finding: set_params computes moon_targ_sep from the moon azimuth before conversion from degrees. The points agree; the positions of sun and moon are arguments."
 },
 "C299": {
  "note": "Findings: on an object with mags=False return_mags after set_params raises AttributeError (it loops over self.ra); set_params without a valid point only warns and return_mags then returns what is left of the previous call, with its number of points."
 },
 "C300": {
  "note": "Finding: an integer that is not in the table comes back as 0, like identifier 0."
 },
 "C301": {
  "note": "Finding: simple_twi takes the offset of the constants from the largest pixel present in the data, so without data of the last pixel it reads another pixel's magnitude as constant. Rounding is not modelled."
 },
 "C302": {
  "note": "Finding: the test whether a map was read looks for the attribute dustmap while dustMap is stored, so the file is read again at every call; the results are right for that reason."
 },
 "C303": {
  "note": "Finding: the test looks for the attribute map_file while mapFile is stored, so the first map read in a process is used ever after, whatever file or resolution later calls name; values of other maps are silently those of the first (C303_map_asked_refuted), and a call repeated may differ from itself (C303_twice_refuted). Proved: as long as one file is read."
 },
 "C305": {
  "note": "Finding: for a single sight line the largest extinction, for a map the last one is used beyond the map, so the two differ where the dust does not increase. Proved equal where the last entry has the most dust."
 },
 "C307": {
  "note": "Finding: GalacticPlanePriorityMap's map_path has no effect, because the maps of the default directory are read when the object is made and kept (likewise use_alt_maps after a first read). A read that fails leaves the maps unusable until the process ends: later calls raise AttributeError. Proved for one directory."
 },
 "C308": {
  "note": "Finding: maps are compared by their key names only, so of two maps with the same names but different settings (another nside, another directory, or the stellar density and TRILEGAL maps of one filter) only the first is run, and bundles that asked for the other silently get its values. Proved: for maps with different names, for position-only maps, whose keys are not shared; C308_which says which maps are run."
 },
 "C31": {
  "note": "False for ntry = 0 (nothing is recorded, no error). Proved for every ntry > 0 when database errors are SQLAlchemy's own exception class (which the except clause does not catch, see C77). If the errors were of the caught class, rows would be dropped silently because the counter of tries is shared by the rows (C31_caught_errors_refuted)."
 },
 "C310": {
  "note": "Finding: the errors are one shorter than the magnitudes (the first bin is dropped in _comp_crowd_error) but are indexed alike, so the limit is one bin too bright: C310_faintest_refuted shows a fainter magnitude with an error below the limit. C310_next_partial is what holds."
 },
 "C311": {
  "note": "Finding: the magnitude limit multiplies by 1.09 where it should divide, so at that magnitude the error is 1.09 squared, about 1.19, times the one asked for (C311_depth_refuted). The crowding limit is one bin too bright as in C310."
 },
 "C312": {
  "note": "Finding: StarDensityMetric(rmagLimit=...), which the code handles with a deprecation warning, raises TypeError in the base class before (C312_arguments)."
 },
 "C313": {
  "note": "Finding: metrics get arrays of visits from every slicer, for which UseMetric.run raises AttributeError (or ValueError with science_programs, except one row of another programme): C313_slice_refuted. It works on a single record only."
 },
 "C314": {
  "note": "Spectra other than flat are looked up with rubin_scheduler.utils.stellarMags, which is not part of this repository (the function here is maf.utils.stellar_mags); if that package has no such name the constructor raises AttributeError. Not judged."
 },
 "C315": {
  "note": "Finding: the entry of L3 in bd_colors ends with a comma and is a tuple, so BDParallaxMetric(mags=bd_colors('L3')) raises TypeError (C315_types_refuted). Proved for all other types. At least two distances."
 },
 "C316": {
  "note": "Finding: a point without visits in the band raises ValueError instead of badval (C316_empty_refuted). The spline is only assumed to give the table at its nodes; the last redshift and magnitude of the table are not nodes, so they are not covered."
 },
 "C317": {
  "note": "The survival function of the F distribution is any function; that it is one below zero and decreasing is assumed where needed. C317_constant and C317_monotone are conditional on that."
 },
 "C318": {
  "note": "Finding: a visit inside two overlapping windows is counted twice (C318_overlap_refuted); C318_count is proved for windows that do not overlap. Conversion of dates is outside of the model."
 },
 "C32": {
  "note": "Proved for the current and the 0.10-1.0 schema with any extra columns. False of the very old schema (metricMetadata): the upgrade raises after renaming half of the columns, and the next opening takes the result for an up-to-date database."
 },
 "C320": {
  "note": "Horizontal coordinates for all positions; calc_lmst of rubin_scheduler is an argument. At the zenith, the nadir and the poles the division by zero is not modelled (the theorem asks for a non-zero cosine)."
 },
 "C321": {
  "note": "The Galactic stacker announces degrees by default but stores radians (refuted); with degrees=False it is right. The ecliptic stacker converts. astropy's conversions and Time are arguments; EclipticStacker calls Time(mjd) without a format, which astropy refuses for plain numbers, so subtract_sun_lon cannot work as written with current astropy - noted, not asserted."
 },
 "C322": {
  "note": "Refuted in part: the label column has 15 characters, so longer field names are cut and may coincide; a field of view without any pixel centre (large pixels) gives 0/0 and NULL even for a footprint of the whole sky. Proved for names up to 15 characters and a field of view with at least one pixel. The pixels of the field of view (healpy) are an argument."
 },
 "C323": {
  "note": "Refuted in part: an asteroid visible at all trial distances is reported at distance 0, so a deeper visit may report less; the side of the sun depends only on whether the azimuth exceeds pi (radians) or 180, chosen by the smallest azimuth: with azimuths 0..360 degrees they are compared with pi, and the sun's azimuth plays no role. The distance, the triangle and the position relative to earth and sun are proved."
 },
 "C324": {
  "note": "Never shallower is proved. Refuted: the depth column is missing from the required columns; the sun's altitude (degrees, like the declination) is compared with radians(-18), so twilight is treated as dark; the seeing term is a tenth of 2.5 log10 of airmass^0.6."
 },
 "C325": {
  "note": "Parameters proved; the comment that 'any' is the default for unknown bands is false (refuted). r_x E(B-V) is the extinction at E(B-V)=1 (reference 1) or for grey dust; beyond it overestimates, below it underestimates (proved by convexity); with another reference r_x is not per unit of E(B-V) (refuted). The grid of wavelengths is any list of (throughput, extinction); the setters, which always raise, are not modelled."
 },
 "C326": {
  "note": "All proved except that later types are redder in z-y (A to F is not; refuted)."
 },
 "C327": {
  "note": "Proved, except: the thresholds for a plain list of timescales (not an array) are refuted as stated (a list is not divided by a number). The key of the priority map and the per-band priorities are read from the slice point."
 },
 "C328": {
  "note": "Shares and values proved for all inputs; the six reductions exist only for the bands listed (refuted for the others, proved for the listed ones)."
 },
 "C329": {
  "note": "Proved for all inputs. The tau weights and reduce functions per timescale only pick entries."
 },
 "C330": {
  "note": "Refuted: the magnitude limit is never used; the times of the shared visits are sorted in place without their other columns, so that metrics that run later on the same point see wrong times; the priority map is not asked for (KeyError when no other metric asks). Proved: the value's bounds and when it is 1; visits in order of time are left alone. calc_season is any function of time; find_season_edges is simplified to neighbours in different seasons."
 },
 "C331": {
  "note": "Bounds, pairs and all gaps against neighbours proved. Refuted: given weights are not stored (AttributeError); with several bands the first visit's dust is used for all, so the order matters (proved for one band or without dust). The rounding of the gaps to float16, which turns gaps above 65504 days infinite and merges close ones, is not modelled."
 },
 "C332": {
  "note": "Refuted: a season of one night with enough bands gives a total that is not a number. Formula, order, masking and seasons proved; visits but nothing deep gives a masked value while no visits give 0. collapse_night is not part of the model: its output is the input here; a mjd column of another name is not modelled (the name is fixed in one place)."
 },
 "C333": {
  "note": "Refuted: the visits' column \"filter\" is read but \"band\" is asked for, so with the requested columns every call fails; the last day's visits are never counted and visits within one day give 0. Proved: with that column present, cadence times the visits before the last day is the number of days before it. ra and dec are read but not asked for and lim_sn defaults to None; the look-up in lim_sn is not modelled."
 },
 "C334": {
  "note": "Refuted for a negative baseline (the larger value is shown as worse) and for a baseline value of zero (the metric is lost, the baseline itself is not 1). Everything else proved, for lists of runs the baseline is the median of the values present. Infinite values in the input and rounding are not modelled; metrics repeated in a table with subsets are outside the model's faithfulness (pandas alignment)."
 },
 "C335": {
  "note": "Refuted: reversing a column that is not in magnitudes has no effect at all, so smaller values are not shown as better. Agreement proved otherwise; a column is inverted and reversed at most once and not both."
 },
 "C336": {
  "note": "Refuted: in the default order a run of two of the families asked for is returned twice. Reading the file (csv or hdf) is not modelled."
 },
 "C337": {
  "note": "Refuted: a run described differently in two families has two rows in get_runs, each with a single description (documented as one row with a list), and a run without an address is not there at all. Order of the rows of get_runs not modelled."
 },
 "C338": {
  "note": "Refuted: statistics of different metrics may get the same name, and one of them is lost; a directory without a database only causes a warning and then stops the whole call, leaving a new empty file. Order of rows and columns and databases without statistics not modelled."
 },
 "C339": {
  "note": "The documented return value (a table of the runs) is not what is returned (their file names); proved of what is returned. Two runs with one path, and absolute paths that leave the directory, are covered. Failures of the network and of creating directories are not modelled."
 },
 "C340": {
  "note": "Refuted for the table by family: a family of a single run counts as many lines as its name has characters. Proved for families of two runs or more and for the table of descriptions."
 },
 "C341": {
  "note": "Rounding, infinities and NaN not modelled; distances are positive; reading the files is not modelled."
 },
 "C342": {
  "note": "Refuted for a threshold of 0 detections: a slice without detections is then an error. Everything else proved."
 },
 "C343": {
  "note": "Refuted: one more visit may undo a selection (a fainter point whose error is larger takes the place of the first). The default thresholds are built in."
 },
 "C344": {
  "note": "Refuted: a file that fits two of the sets is listed twice, and a file of another kind makes every request a KeyError. Number parsing is an arbitrary function."
 },
 "C345": {
  "note": "Documented otherwise, and refuted: pts_needed detections are not enough before the peak (strictly more are asked for); the three bands are asked for within 5 days of the peak, not 10; an event can have some_color_pu without some_color."
 },
 "C346": {
  "note": "Refuted: one detection every other night scores a half, not 1 as documented. Proved: the score is the number of detections per day. A window of length 0 is a ZeroDivisionError."
 },
 "C347": {
  "note": "Exact real arithmetic; the magnitude at the very start is infinite. Times outside the outburst are magnitude 99."
 },
 "C348": {
  "note": "The grid of 10000 times is a parameter: any increasing list of times."
 },
 "C349": {
  "note": "Refuted: an outburst may be detected (and early) though possible_to_detect is false, because the visits are deeper than the assumed depths, or see it between the times of the grid; its mean time between detections is then NaN and not the bad value. The times of the detections have no influence on the mean time between them, only their number."
 },
 "C350": {
  "note": "Refuted: the events are not in proportion to the volume (the exponent is that of a density growing with the distance); with fewer files than announced (308 by default) some events have no light curve and the metric stops with an IndexError. The random number generator is not modelled."
 },
 "C351": {
  "note": "Refuted: with only nearest gaps, a field with visits in one band of a pair and none in the other is a ValueError; equal numbers in all bins, after clipping, make the figure infinite; more gaps can make it smaller. Infinite sums are one value in the model. Repeated values in the gaps to the nearest visits are characterised as a set."
 },
 "C352": {
  "note": "Refuted: three detections in three bands, which give two colours, are never a detection. The rest of the metric (score and lookup table) is not modelled."
 },
 "C353": {
  "note": "Refuted for the list of metric names, which is sorted although the documentation says it preserves the order of the metrics."
 },
 "C354": {
  "note": "Proved for group and subgroup names without an underscore (a plus in a subgroup is not sent as such). Refuted otherwise: the box of the group 'A_B' shows the metrics of the group 'A'. JSON can never be fetched: output_json is called with an argument simDataName that it does not have, and the result would be read with a method that does not exist. The title of the label is 'InfoL abel' for a metric and 'Info Label' for a blank."
 },
 "C357": {
  "note": "Refuted for 'shown once': a file whose name has the marks of two bands, as _u_g_, is shown twice."
 },
 "C359": {
  "note": "Refuted for an empty new name: rstrip removes any of the letters of the column, so 'Rms airmass' becomes 'R', and two metrics may get the same name. Proved when the last letter before the blank is not a letter of the column."
 },
 "C36": {
  "note": "Refuted: the test and the insert are separate transactions and the table has no key, so two clients can both insert. Proved: at most one copy per client, is_tagged holds when a client has finished, the view shows the tag once, untag removes all copies; non-overlapping clients store it once."
 },
 "C360": {
  "note": "Proved when each change of the database changes its time stamp and none happens while it is read. Refuted otherwise: within the resolution of the stamp, and when the file changes during the first reading, in which case the old list is kept under the new stamp."
 },
 "C362": {
  "note": "Refuted for the order: the first is the derivative by the peak time and the third that by the crossing time, although the comment in fisher_matrix says the reverse."
 },
 "C363": {
  "note": "Proved for a constant error of the flux. Refuted for a constant signal to noise ratio, which the documentation mentions: the relative change is larger a little earlier."
 },
 "C364": {
  "note": "Refuted: not points above the depth are counted but pairs of visits of the same band whose magnitudes differ by more than detect_sigma of their errors, so that n visits may count as n (n - 1) / 2 and one visit per band never counts. This is proved instead, for detect_sigma not negative. With both sides and 'optimal' there is a TypeError."
 },
 "C365": {
  "note": "Refuted: visits later than one crossing time are not counted, nor is one exactly at the peak. Proved with these changes."
 },
 "C366": {
  "note": "Refuted in three ways: the rows and columns of the fluxes are zero, since they are assigned to temporary arrays; only the visits of the band that is last in the alphabet are used, for each band anew; and the variance used is that of the peak time. This is proved instead, the result for visits of one band and for any function that inverts."
 },
 "C367": {
  "note": "Proved for mean magnitudes. Refuted for events with magnitudes of their own: the logarithm is taken twice, so that they are faintest at the peak as long as they are fainter than magnitude 0. Their magnitudes stay in the dictionary of mean magnitudes for later events. A blending factor under the documented name blending_factors is ignored."
 },
 "C369": {
  "note": "Refuted: the last detection of a transient never counts towards the bands, since the end of the interval is limited to the number of detections less one, and is excluded; two detections in two bands within the limit are not enough. Proved: the limit never adds a transient; with one phase not more are counted than documented, and for visits at different times exactly those whose bands are had within the limit by detections that are followed by another one. With more phases the epochs of a transient are not in order where they are searched."
 },
 "C37": {
  "note": "Refuted: add_file writes the file before register_file rejects a duplicate; two file types with one file name share a location; an interrupted update leaves the old hash. Proved when all calls succeed and names are not shared between types."
 },
 "C370": {
  "note": "Refuted when no survey_start is given: the first visit of the first slice is kept for all later slices. Proved with a survey_start given, and otherwise that all slices are evaluated with the start of the first one."
 },
 "C371": {
  "note": "Refuted: the value is the number of transients, not a fraction as the documentation of run says; and when the last visit is at the end of a survey of a whole number of light curves there is one more than possible for each phase. Proved: the bound for visits before the end of the survey, and with one more per phase otherwise."
 },
 "C372": {
  "note": "Proved without a limit of time on the bands, and with a limit for one phase and visits at different times."
 },
 "C373": {
  "note": "Proved for the order of the flags. Refuted for the places, when a transient has no visits, and for the start from 0, when there is more than one phase; with one phase the ids are counted from the transient of the first visit."
 },
 "C374": {
  "note": "Refuted: a visit in a band without a threshold raises a KeyError. Proved: this is exactly when a slice with visits raises."
 },
 "C375": {
  "note": "Refuted: the place in the order of bands is used as a place in the list so far, so that y before z stays, and of two bundles in u one ends up after g. Proved: no bundle is lost; bundles given in the order of the bands, one per band, keep it, as do bundles whose names have no band."
 },
 "C376": {
  "note": "Refuted for the labels of the axes: those generated replace what was set in the handler before. Proved for all keys that need not agree; for the labels of axes with the two sources exchanged. A list of dictionaries that is too short raises."
 },
 "C377": {
  "note": "Proved: agreement in one subplot; numbers and texts that agree are kept; different titles are replaced by the generated one. Refuted: the limits of an axis, a pair, are lost even for a single bundle; different limits of colours become None since keys are compared with the endings Max and Min that they do not have; after this the handler raises when used again."
 },
 "C378": {
  "note": "Proved for one description and for bands. Refuted: a bundle whose description restricts that of another by a further phrase makes the handler raise an IndexError."
 },
 "C379": {
  "note": "Proved for names with the same number of words, each of which is shared or a band. Refuted otherwise: words that differ are joined in the order of a set."
 },
 "C38": {
  "note": "Refuted: INSERT and UPDATE are separate commits, so a stop or a rejected UPDATE leaves a simulation without provenance. Proved: provenance is all or nothing, other rows unchanged, atomic when no provenance is given."
 },
 "C380": {
  "note": "Refuted: parts are joined by spaces and may have spaces. Proved when runs and descriptions have none, or when only one of the three varies."
 },
 "C382": {
  "note": "Proved for constraints with the band in double quotes. Refuted for single quotes: the colours are random."
 },
 "C383": {
  "note": "Refuted: orders 3 and 4 give 4, 4 and 3 give 5. Proved: not before any bundle, at most one after the last."
 },
 "C39": {
  "note": "Refuted: `h is None != j is None` is a chained comparison that is never true. Proved: what happens instead."
 },
 "C390": {
  "note": "Proved with a slice point. Refuted for the default of run, slice_point=None, which raises AttributeError for any slice with enough visits."
 },
 "C392": {
  "note": "Refuted: such visits are fitted as those of the band, since only the first letter is kept, but the band is then treated as one without visits, and the value is 0."
 },
 "C395": {
  "note": "Refuted: the number of parameters is compared with np.size of the light curve object, which is 1, so that every fit is replaced by infinities. Proved: for all visits, random numbers and fits the value is 0 if the visits span at least one interval, and NaN (0/0) if not."
 },
 "C396": {
  "note": "Refuted: a visit at the border of two subruns is in both, and visits after the last whole interval are in none. Proved: each other visit is in exactly one."
 },
 "C397": {
  "note": "Proved if there are stars and solutions. Refuted if no star has a solution: the maximum of an empty array raises ValueError."
 },
 "C400": {
  "note": "Proved for all pixels. Refuted for high latitude: the number of outliers there is divided by the number of all pixels, so that the value is too low whenever there are outliers and pixels at low latitude. Proved: it is the share among all pixels."
 },
 "C401": {
  "note": "Refuted: observationid, fieldra and fielddec are asked for, observationId, fieldRA and fieldDec are read, and a column of numpy is found by its exact name. Proved: which columns are needed."
 },
 "C402": {
  "note": "Proved for the default bad value. Refuted for any other: the footprint metric keeps its own bad value -666, to which the given one is compared, so that galaxies are counted everywhere."
 },
 "C403": {
  "note": "Proved for the two-dimensional dust map (use_2D_extinction) if every band has visits. For the default three-dimensional map proved that the distance is the smallest of those the map gives for the dimming to the limit in each band; missing: the map gives the nearest of its distances (C305)."
 },
 "C404": {
  "note": "Proved for both dust maps; for the three-dimensional one with growing distances and dust that does not decrease."
 },
 "C405": {
  "note": "Proved for the two-dimensional dust map, and the latitude for both. Refuted for the default three-dimensional map: a band without visits gives the first distance of the map, which is positive, so that stars are counted; proved that this is the value."
 },
 "C406": {
  "note": "The numerical integral is an argument of the model."
 },
 "C407": {
  "note": "Proved in the galactic plane, and off the plane for the height. Refuted off the plane: the distance from the axis leaves out the cosine of the latitude, so that stars above the Sun towards the center are counted as nearer to it and too numerous."
 },
 "C408": {
  "note": "Refuted: the import binds the module starcount, not the function, so that every run raises TypeError (or IndexError); the function raises AttributeError, as eq_gal3 uses a unit that astropy does not have. What it would count is C413."
 },
 "C409": {
  "note": "Refuted: the function given to the solver returns nothing, so that every run with a known band raises TypeError."
 },
 "C41": {
  "note": "Refuted: execution date and daily index are compared one after the other, so a simulation of a later day with a smaller index is skipped. Proved: found exactly when one covers the nights, never dominated by another candidate, newest when all candidates are of one day."
 },
 "C411": {
  "note": "Proved for the distance and the height. Refuted for the angle: it is taken at the Sun, not at the center (and is not used)."
 },
 "C413": {
  "note": "The galactic coordinates are an argument, as eq_gal3 raises (C408)."
 },
 "C418": {
  "note": "Refuted: without a mask the places of the values to show are those of a single true value, so that the first bin only is drawn."
 },
 "C419": {
  "note": "Proved for given limits and percentiles. Refuted for 0: masked bins count as their fill value, so that with values of 0 and a masked bin the axis does not start at 0. Proved if nothing is masked and no value is negative."
 },
 "C42": {
  "note": "Refuted: export writes simulation_dates, import reads simulated_dates; import needs a file of type observations. Proved: label, telescope, tags, scheduler version and files survive when there is an observations file."
 },
 "C420": {
  "note": "Proved for other slicers. Refuted for the options: the colour has no default, and without it the plot raises KeyError."
 },
 "C421": {
  "note": "Proved for other slicers and missing axes. Refuted otherwise: both plots read the attribute nD, which an NDSlicer does not have (it is n_d), and raise AttributeError for all values."
 },
 "C422": {
  "note": "Proved for each number of visits below the largest, and the heights add up to all visits but those of the largest groups. Refuted for the largest number: the last edge of the bins is half a visit below it, so that these visits are never shown. Refuted for masked values, which are counted."
 },
 "C423": {
  "note": "Proved without color_min. Refuted with it: the values below are masked in the array of the metric bundle, which changes later statistics; proved that exactly these are masked. An array without a mask raises TypeError."
 },
 "C424": {
  "note": "Proved for the label of the user and for Healpix and User slicers. Refuted for others: the label is written to the defaults of the plotter and is kept for the next plot."
 },
 "C426": {
  "note": "Refuted: the options hwidth and hval are read, while the defaults are called Hwidth and h_val; without them each call raises KeyError. C426_case is the same call with both options, which works."
 },
 "C427": {
  "note": "Proved for cloned H and for the median. Refuted if each object has its own H and one is asked for: the option read is hvals, KeyError."
 },
 "C428": {
  "note": "Proved if there is a value for each object. Refuted if each object has its own H: the values of the objects chosen are looked up by the places of all objects, so that the plot raises IndexError, and the bins before that show values of other objects."
 },
 "C429": {
  "note": "Proved for cloned H with the foreground points. Refuted without these (the colorbar is missing) and if each object has its own H and not all are chosen (sizes differ)."
 },
 "C43": {
  "note": "Refuted: insert_nightly_stats takes a connection through a new engine and never returns it (five calls exhaust the pool), and a reconnecting reader also keeps the old one. Proved: all other calls return their connection, also when they raise."
 },
 "C430": {
  "note": "Proved if the H span a magnitude or more (masked values take part with the bad value, as the theorem says). Refuted for H within a magnitude: the bins then end half a magnitude above the smallest H, and all objects beyond are shown at the last point."
 },
 "C431": {
  "note": "Proved if both options are given. Refuted: linestyle is written to the dictionary of the user, and color has no default, KeyError."
 },
 "C432": {
  "note": "Proved for given bins. Refuted for the default: bins is None, TypeError."
 },
 "C45": {
  "note": "Proved for Python integers. A numpy integer, which is what the dayObs column holds, is not an int for the match statement and raises AssertionError (C45_column_refuted)."
 },
 "C47": {
  "note": "Proved that ids are 1..n without repetition; refuted for stability in general (older creation times renumber, equal times are ordered arbitrarily); stability proved for newer simulations with distinct times."
 },
 "C48": {
  "note": "Refuted for empty tags: the query template has a bare percent sign, every call raises. Proved for non-empty tags."
 },
 "C50": {
  "note": "The positions of saturated visits within one filter are used as positions in the whole table: with several filters a visit that is fine gets NaN. Saturated visits themselves always get NaN."
 },
 "C54": {
  "note": "The visits of each band scale; nvisitsTotal is not scaled, and is not the sum over the bands (design 825 against 824, stretch 1000 against 1030)."
 },
 "C55": {
  "note": "The table is shared: a column already present is reused, so an inner stacker of a later bundle uses values computed with the settings of an earlier one; and CoaddStacker shortens the table for all bundles that follow."
 },
 "C56": {
  "note": "The key of a reduced bundle is metric name + reduce name when that is free; the test looks at the dictionary as it was before the loop, so two bundles of the same metric (other slicer or constraint info) collide and one is lost."
 },
 "C57": {
  "note": "Default stackers are appended in the order in which they are discovered, so a stacker that needs the column of a default stacker runs before it."
 },
 "C58": {
  "note": "False of the code for every slicer with more than one slice."
 },
 "C59": {
  "note": "False of the code: sim_idxs.update keeps old keys."
 },
 "C60": {
  "note": "False of the code: an empty slice is delivered as [[]], whose indexing has length 1."
 },
 "C61": {
  "note": "False when all visits fall in one night: np.concatenate of an empty list raises ValueError. Proved for two or more nights."
 },
 "C64": {
  "note": "False of the code unless min_value is 0: values are divided by max_value, not by the range."
 },
 "C65": {
  "note": "False of the code: with both thresholds and two or more values `and` of arrays raises ValueError. Proved for one threshold or one value."
 },
 "C66": {
  "note": "The bound 1 is false of the code; bound 2-2/n proved."
 },
 "C67": {
  "note": "Proved for angles that span less than one turn (documented input); C67_beyond_turn_refuted shows why that is needed.",
  "status": "proved"
 },
 "C68": {
  "note": "False of the code: the sum over no visits gives log10(0) = -inf, not badval (simple_metrics.py:108-111). Proved: exactly when -inf and when badval occur."
 },
 "C71": {
  "note": "False of the code: searchsorted(side='right') is used directly as an index into the accumulated array, so each bin counts one visit after the edge (vector_metrics.py:79-88). Proved: the exact off-by-one law; a slice with one visit always gives badval."
 },
 "C72": {
  "note": "False of the code: the first visit after the edge is included. Proved: the exact law."
 },
 "C74": {
  "note": "False of the code: the dust cut uses the band of the first visit of the slice (scaling_metrics.py:59). Proved when all visits are in the band."
 },
 "C77": {
  "note": "False of the code: the except clause names sqlite3.OperationalError (results_db.py:15,606) but SQLAlchemy raises sqlalchemy.exc.OperationalError, so nothing is retried."
 },
 "C78": {
  "note": "False of the code: str.replace(.., 1) removes the first '(auto)'. Proved for captions with no other occurrence."
 },
 "C79": {
  "note": "False of the code: the query and the insert are separate and there is no unique constraint. Proved for processes that run one after the other."
 },
 "C80": {
  "note": "False of the code: the result of name.replace(',', '') is dropped (results_db.py:737). Proved: no blank at the ends, every other character comes from the parts."
 },
 "C81": {
  "note": "False of the code: the delete is committed before the new row (tracking_db.py:174-176). Proved: other entries are present in all states."
 },
 "C82": {
  "note": "False of the code: SQLite gives max(id)+1. Proved: the id is larger than that of all present runs."
 },
 "C83": {
  "note": "False of the code by construction. Proved for names that are already safe."
 },
 "C85": {
  "note": "Refuted: the statistics are aggregated in an object keyed by the value name only, although the table also distinguishes accumulated rows. Proved when no accumulated rows are stored."
 },
 "C87": {
  "note": "get_comments proved; the simulation view keys comments by time, so equal times lose one (refuted); proved for distinct times."
 },
 "C89": {
  "note": "False in the last half millisecond before noon UTC, because the ISO text is rounded to milliseconds before it is cut. The exact law is proved."
 },
 "C90": {
  "note": "The first half is proved for regular almanacs; the last half is refuted: a day_obs before the first night of the almanac gives a negative index, and a night from the end of the almanac is returned.",
  "status": "partial"
 },
 "C91": {
  "note": "Refuted: when the index of one telescope is missing the empty DataFrame has no columns and AttributeError is raised. Proved when all indices exist."
 },
 "C92": {
  "note": "Refuted: get_sim_metadata with a day_obs rejects every YYYY-MM-DD text. Proved for the other forms."
 },
 "C93": {
  "note": "Refuted: one search rounds the age down to whole days. Proved: the query implies the selection, and the selection implies the query with one more day."
 },
 "C94": {
  "note": "Refuted for a negative slew_loc with slew_scale 0, which is ignored. Proved when slew_loc or slew_scale is positive and the draw is at least -1."
 },
 "C95": {
  "note": "ColInfo zips columns with units: Dcr2Stacker declares 4 columns and 2 units, so dec_dcr_var and ra_dec_dcr_cov are requested from the database. The registry is read once when the bundle module is imported, so columns of stackers defined later are requested as well."
 },
 "C96": {
  "note": "appMag, SNR and vis are made by several classes; the class registered last is added by default next to the given one and runs after it."
 },
 "C98": {
  "note": "The given zenith distance stacker is stored as self.ztacker; _run then raises AttributeError."
 }
}