{
 "claims": [
  {
   "property": "C01",
   "status": "proved",
   "theorems": [
    "C01_every_bundle_scheduled"
   ],
   "note": ""
  },
  {
   "property": "C02",
   "status": "partial",
   "theorems": [
    "C02_groups_mutually_compatible_refuted",
    "C02_group_members_partial"
   ],
   "note": "The full statement is false of the code: the result of the comparison with the members after the first is computed and dropped (metric_bundle_group.py:196-206). Proved: constraint and slicer agree in a group, stackers agree with those of the first member."
  },
  {
   "property": "C03",
   "status": "partial",
   "theorems": [
    "C03_calculated_once_refuted",
    "C03_calculated_once_partial"
   ],
   "note": "The full statement is false of the code: there is no break after a list is extended, so a bundle can join several groups. Proved when no two bundles have conflicting stackers."
  },
  {
   "property": "C04",
   "status": "partial",
   "theorems": [
    "C04_maps_compared_refuted",
    "C04_compatibility_ignores_maps"
   ],
   "note": "The full statement is false of the code: list.sort() returns None, so the comparison at metric_bundle_group.py:168 never sees the maps."
  },
  {
   "property": "C05",
   "status": "proved",
   "theorems": [
    "C05_cache_transparent",
    "C05_cache_any_metric_refuted"
   ],
   "note": "Proved for metrics that depend on the set of visits only; shown false for slice-point dependent or order dependent metrics (the refutation theorem delimits the hypothesis)."
  },
  {
   "property": "C06",
   "status": "proved",
   "theorems": [
    "C06_cache_invariant"
   ],
   "note": ""
  },
  {
   "property": "C07",
   "status": "proved",
   "theorems": [
    "C07_masking",
    "C07_calculation_completes"
   ],
   "note": ""
  },
  {
   "property": "C08",
   "status": "proved",
   "theorems": [
    "C08_make_bundles_dict"
   ],
   "note": ""
  },
  {
   "property": "C09",
   "status": "proved",
   "theorems": [
    "C09_oned_slice_content",
    "C09_oned_partition"
   ],
   "note": ""
  },
  {
   "property": "C10",
   "status": "partial",
   "theorems": [
    "C10_last_bin_closed_refuted",
    "C10_last_edge_always_lost",
    "C10_auto_bins_lose_maximum"
   ],
   "note": "False of the code, although documented (one_d_slicer.py:38-39): proved that visits at the last edge are never delivered, and that with bins chosen from the data the largest values are always lost (exact arithmetic)."
  },
  {
   "property": "C11",
   "status": "proved",
   "theorems": [
    "C11_nd_cell_content",
    "C11_nd_each_visit_once"
   ],
   "note": ""
  },
  {
   "property": "C12",
   "status": "partial",
   "theorems": [
    "C12_nd_half_open_refuted"
   ],
   "note": "False of the code, although documented (nd_slicer.py:28): the last cell of each dimension has no upper limit (see C11 for the exact law)."
  },
  {
   "property": "C13",
   "status": "partial",
   "theorems": [
    "C13_nd_equality_refuted",
    "C13_nd_equality_partial",
    "C13_nd_equality_total_refuted"
   ],
   "note": "False of the code: only the left edges of the first n_d cells are compared; comparison can also raise IndexError."
  },
  {
   "property": "C14",
   "status": "proved",
   "theorems": [
    "C14_movie_cumulative",
    "C14_movie_frames_partition",
    "C14_movie_frame_content"
   ],
   "note": ""
  },
  {
   "property": "C15",
   "status": "partial",
   "theorems": [
    "C15_interval_content_refuted",
    "C15_slice_holds_previous_interval",
    "C15_last_interval_lost"
   ],
   "note": "False of the code: np.digitize numbers bins from 1, so slice i holds the interval before the announced one and the last interval is lost. The exact law is proved."
  },
  {
   "property": "C16",
   "status": "partial",
   "theorems": [
    "C16_visit_interval_label_refuted",
    "C16_each_visit_once",
    "C16_visit_interval_label_partial",
    "C16_results_aligned"
   ],
   "note": "Label refuted for unsorted data; proved: each visit in exactly one slice, labels right for data in strict time order, stored results aligned for any order."
  },
  {
   "property": "C17",
   "status": "proved",
   "theorems": [
    "C17_blocks",
    "C17_block_announced_interval"
   ],
   "note": ""
  },
  {
   "property": "C18",
   "status": "proved",
   "theorems": [
    "C18_iteration_complete"
   ],
   "note": ""
  },
  {
   "property": "C19",
   "status": "proved",
   "theorems": [
    "C19_coadd_flux",
    "C19_single_visit",
    "C19_order_independent",
    "C19_more_visits_deeper",
    "C19_at_least_deepest",
    "C19_equal_visits",
    "C19_two_steps",
    "C19_metric"
   ],
   "note": ""
  },
  {
   "property": "C20",
   "status": "proved",
   "theorems": [
    "C20_all_gaps",
    "C20_consecutive_gaps",
    "C20_consecutive_sum",
    "C20_percent_range",
    "C20_percent_count"
   ],
   "note": ""
  },
  {
   "property": "C21",
   "status": "partial",
   "theorems": [
    "C21_pair_fraction_refuted",
    "C21_zero_min_gap_refuted",
    "C21_pair_fraction_half_open",
    "C21_pair_fraction_partial"
   ],
   "note": "Full statement refuted: the window is [min_gap, max_gap) towards later visits and (min, max] is not symmetric, and with min_gap=0 each visit pairs with itself. The half-open law is proved for all inputs with min_gap>0, and the full statement when no two visits are exactly max_gap or min_gap apart."
  },
  {
   "property": "C22",
   "status": "partial",
   "theorems": [
    "C22_uniformity_range_refuted",
    "C22_uniformity_partial",
    "C22_order_independent",
    "C22_same_time"
   ],
   "note": "The range [0,1] is false of the code (value 4/3 shown); proved: range [0, 2-2/n], zero exactly for evenly spaced visits, order independence, 1 for simultaneous visits."
  },
  {
   "property": "C23",
   "status": "proved",
   "theorems": [
    "C23_intra_night",
    "C23_inter_night",
    "C23_adjacent_nights",
    "C23_all_gaps_once"
   ],
   "note": ""
  },
  {
   "property": "C24",
   "status": "proved",
   "theorems": [
    "C24_season_runs"
   ],
   "note": ""
  },
  {
   "property": "C25",
   "status": "partial",
   "theorems": [
    "C25_frac_complement_refuted",
    "C25_frac_complement_partial"
   ],
   "note": "False when a value equals the cutoff (it is counted on both sides); the excess is proved to be exactly the number of such values."
  },
  {
   "property": "C26",
   "status": "proved",
   "theorems": [
    "C26_fonv",
    "C26_fonv_too_few",
    "C26_npix",
    "C26_foarea",
    "C26_fonv_foarea",
    "C26_zero_area_refuted"
   ],
   "note": "Proved for a positive area; C26_zero_area_refuted shows that area 0 is answered for the whole map."
  },
  {
   "property": "C27",
   "status": "proved",
   "theorems": [
    "C27_count_unique",
    "C27_subset_total"
   ],
   "note": ""
  },
  {
   "property": "C28",
   "status": "proved",
   "theorems": [
    "C28_one_row_per_metric",
    "C28_stable_distinct_ids",
    "C28_returned_row",
    "C28_rows_never_change"
   ],
   "note": ""
  },
  {
   "property": "C29",
   "status": "proved",
   "theorems": [
    "C29_one_display_per_metric",
    "C29_overwrite_replaces",
    "C29_no_overwrite_keeps"
   ],
   "note": ""
  },
  {
   "property": "C30",
   "status": "proved",
   "theorems": [
    "C30_plots",
    "C30_recorded_once"
   ],
   "note": ""
  },
  {
   "property": "C31",
   "status": "partial",
   "theorems": [
    "C31_ntry_zero_refuted",
    "C31_summary_recorded_partial",
    "C31_scalar_recorded",
    "C31_caught_errors_refuted"
   ],
   "note": "False for ntry = 0 (nothing is recorded, no error). Proved for every ntry > 0 when database errors are SQLAlchemy's own exception class (which the except clause does not catch, see C77). If the errors were of the caught class, rows would be dropped silently because the counter of tries is shared by the rows (C31_caught_errors_refuted)."
  },
  {
   "property": "C32",
   "status": "partial",
   "theorems": [
    "C32_downgrade_upgrade",
    "C32_upgrade_old",
    "C32_up_to_date_untouched",
    "C32_very_old_refuted"
   ],
   "note": "Proved for the current and the 0.10-1.0 schema with any extra columns. False of the very old schema (metricMetadata): the upgrade raises after renaming half of the columns, and the next opening takes the result for an up-to-date database."
  },
  {
   "property": "C33",
   "status": "proved",
   "theorems": [
    "C33_one_entry",
    "C33_readd",
    "C33_add_new",
    "C33_delete"
   ],
   "note": ""
  },
  {
   "property": "C34",
   "status": "proved",
   "theorems": [
    "C34_sanitized_safe",
    "C34_safe_unchanged",
    "C34_others_kept"
   ],
   "note": ""
  },
  {
   "property": "C35",
   "status": "proved",
   "theorems": [
    "C35_tags_are_a_set",
    "C35_tag_idempotent",
    "C35_untag",
    "C35_others_unaffected"
   ],
   "note": ""
  },
  {
   "property": "C36",
   "status": "partial",
   "theorems": [
    "C36_stored_once_refuted",
    "C36_concurrent_tagging_partial",
    "C36_sequential"
   ],
   "note": "Refuted: the test and the insert are separate transactions and the table has no key, so two clients can both insert. Proved: at most one copy per client, is_tagged holds when a client has finished, the view shows the tag once, untag removes all copies; non-overlapping clients store it once."
  },
  {
   "property": "C37",
   "status": "partial",
   "theorems": [
    "C37_hash_matches_refuted",
    "C37_same_name_refuted",
    "C37_hash_matches_partial",
    "C37_one_call",
    "C37_interrupted_refuted"
   ],
   "note": "Refuted: add_file writes the file before register_file rejects a duplicate; two file types with one file name share a location; an interrupted update leaves the old hash. Proved when all calls succeed and names are not shared between types."
  },
  {
   "property": "C38",
   "status": "partial",
   "theorems": [
    "C38_atomic_refuted",
    "C38_failed_call_refuted",
    "C38_atomic_partial"
   ],
   "note": "Refuted: INSERT and UPDATE are separate commits, so a stop or a rejected UPDATE leaves a simulation without provenance. Proved: provenance is all or nothing, other rows unchanged, atomic when no provenance is given."
  },
  {
   "property": "C39",
   "status": "partial",
   "theorems": [
    "C39_half_specified_refuted",
    "C39_half_specified_partial"
   ],
   "note": "Refuted: `h is None != j is None` is a chained comparison that is never true. Proved: what happens instead."
  },
  {
   "property": "C40",
   "status": "proved",
   "theorems": [
    "C40_latest_selected",
    "C40_for_nights"
   ],
   "note": ""
  },
  {
   "property": "C41",
   "status": "partial",
   "theorems": [
    "C41_newest_refuted",
    "C41_undominated_partial"
   ],
   "note": "Refuted: execution date and daily index are compared one after the other, so a simulation of a later day with a smaller index is skipped. Proved: found exactly when one covers the nights, never dominated by another candidate, newest when all candidates are of one day."
  },
  {
   "property": "C42",
   "status": "partial",
   "theorems": [
    "C42_dates_lost_refuted",
    "C42_no_observations_refuted",
    "C42_round_trip_partial"
   ],
   "note": "Refuted: export writes simulation_dates, import reads simulated_dates; import needs a file of type observations. Proved: label, telescope, tags, scheduler version and files survive when there is an observations file."
  },
  {
   "property": "C43",
   "status": "partial",
   "theorems": [
    "C43_returned_refuted",
    "C43_reconnect_refuted",
    "C43_returned_partial",
    "C43_query_returns"
   ],
   "note": "Refuted: insert_nightly_stats takes a connection through a new engine and never returns it (five calls exhaust the pool), and a reconnecting reader also keeps the old one. Proved: all other calls return their connection, also when they raise."
  },
  {
   "property": "C44",
   "status": "proved",
   "theorems": [
    "C44_day_obs_agree",
    "C44_one_day"
   ],
   "note": ""
  },
  {
   "property": "C45",
   "status": "partial",
   "theorems": [
    "C45_int_round_trip",
    "C45_only_dates",
    "C45_column_refuted"
   ],
   "note": "Proved for Python integers. A numpy integer, which is what the dayObs column holds, is not an int for the match statement and raises AssertionError (C45_column_refuted)."
  },
  {
   "property": "C46",
   "status": "proved",
   "theorems": [
    "C46_minimum_overhead",
    "C46_slew_part"
   ],
   "note": ""
  },
  {
   "property": "C47",
   "status": "partial",
   "theorems": [
    "C47_daily_ids",
    "C47_stable_partial",
    "C47_renumbered_refuted",
    "C47_ties_refuted"
   ],
   "note": "Proved that ids are 1..n without repetition; refuted for stability in general (older creation times renumber, equal times are ordered arbitrarily); stability proved for newer simulations with distinct times."
  },
  {
   "property": "C48",
   "status": "partial",
   "theorems": [
    "C48_sims_on_nights_partial",
    "C48_no_tags_refuted"
   ],
   "note": "Refuted for empty tags: the query template has a bare percent sign, every call raises. Proved for non-empty tags."
  },
  {
   "property": "C49",
   "status": "proved",
   "theorems": [
    "C49_columns_provided",
    "C49_defaults_are_sources"
   ],
   "note": ""
  },
  {
   "property": "C50",
   "status": "partial",
   "theorems": [
    "C50_nan_iff_saturated_refuted",
    "C50_saturated_are_nan",
    "C50_nan_iff_saturated_partial"
   ],
   "note": "The positions of saturated visits within one filter are used as positions in the whole table: with several filters a visit that is fine gets NaN. Saturated visits themselves always get NaN."
  },
  {
   "property": "C51",
   "status": "proved",
   "theorems": [
    "C51_hour_angle_range"
   ],
   "note": ""
  },
  {
   "property": "C52",
   "status": "proved",
   "theorems": [
    "C52_overhead",
    "C52_bounded"
   ],
   "note": ""
  },
  {
   "property": "C53",
   "status": "proved",
   "theorems": [
    "C53_bins_in_range",
    "C53_no_spread"
   ],
   "note": ""
  },
  {
   "property": "C54",
   "status": "partial",
   "theorems": [
    "C54_visits_scale",
    "C54_total_scales_refuted"
   ],
   "note": "The visits of each band scale; nvisitsTotal is not scaled, and is not the sum over the bands (design 825 against 824, stretch 1000 against 1030)."
  },
  {
   "property": "C55",
   "status": "partial",
   "theorems": [
    "C55_independent_of_others_partial",
    "C55_independent_of_others_refuted",
    "C55_rows_refuted"
   ],
   "note": "The table is shared: a column already present is reused, so an inner stacker of a later bundle uses values computed with the settings of an earlier one; and CoaddStacker shortens the table for all bundles that follow."
  },
  {
   "property": "C56",
   "status": "partial",
   "theorems": [
    "C56_all_reduced_kept_refuted",
    "C56_all_reduced_kept_partial"
   ],
   "note": "The key of a reduced bundle is metric name + reduce name when that is free; the test looks at the dictionary as it was before the loop, so two bundles of the same metric (other slicer or constraint info) collide and one is lost."
  },
  {
   "property": "C57",
   "status": "partial",
   "theorems": [
    "C57_inputs_first_refuted",
    "C57_inputs_first_partial"
   ],
   "note": "Default stackers are appended in the order in which they are discovered, so a stacker that needs the column of a default stacker runs before it."
  },
  {
   "property": "C58",
   "status": "partial",
   "theorems": [
    "C58_nested_loops_refuted"
   ],
   "note": "False of the code for every slicer with more than one slice."
  },
  {
   "property": "C59",
   "status": "partial",
   "theorems": [
    "C59_resetup_refuted"
   ],
   "note": "False of the code: sim_idxs.update keeps old keys."
  },
  {
   "property": "C60",
   "status": "partial",
   "theorems": [
    "C60_empty_interval_masked_refuted"
   ],
   "note": "False of the code: an empty slice is delivered as [[]], whose indexing has length 1."
  },
  {
   "property": "C61",
   "status": "partial",
   "theorems": [
    "C61_nightgaps_refuted",
    "C61_nightgaps_partial"
   ],
   "note": "False when all visits fall in one night: np.concatenate of an empty list raises ValueError. Proved for two or more nights."
  },
  {
   "property": "C62",
   "status": "proved",
   "theorems": [
    "C62_max_gap",
    "C62_max_gap_defined"
   ],
   "note": ""
  },
  {
   "property": "C63",
   "status": "proved",
   "theorems": [
    "C63_template_exists"
   ],
   "note": ""
  },
  {
   "property": "C64",
   "status": "partial",
   "theorems": [
    "C64_general_uniformity_refuted",
    "C64_general_uniformity_range_refuted",
    "C64_general_uniformity_partial"
   ],
   "note": "False of the code unless min_value is 0: values are divided by max_value, not by the range."
  },
  {
   "property": "C65",
   "status": "partial",
   "theorems": [
    "C65_count_beyond_refuted",
    "C65_count_beyond_partial"
   ],
   "note": "False of the code: with both thresholds and two or more values `and` of arrays raises ValueError. Proved for one threshold or one value."
  },
  {
   "property": "C66",
   "status": "partial",
   "theorems": [
    "C66_rapid_revisit_range_refuted",
    "C66_rapid_revisit_partial"
   ],
   "note": "The bound 1 is false of the code; bound 2-2/n proved."
  },
  {
   "property": "C67",
   "status": "proved",
   "theorems": [
    "C67_smallest_arc",
    "C67_rotation_invariant",
    "C67_beyond_turn_refuted"
   ],
   "note": "Proved for angles that span less than one turn (documented input); C67_beyond_turn_refuted shows why that is needed."
  },
  {
   "property": "C68",
   "status": "partial",
   "theorems": [
    "C68_no_visit_in_band_refuted",
    "C68_no_visit_in_band_partial"
   ],
   "note": "False of the code: the sum over no visits gives log10(0) = -inf, not badval (simple_metrics.py:108-111). Proved: exactly when -inf and when badval occur."
  },
  {
   "property": "C69",
   "status": "proved",
   "theorems": [
    "C69_calc_coadded_depth",
    "C69_missing_band"
   ],
   "note": ""
  },
  {
   "property": "C70",
   "status": "proved",
   "theorems": [
    "C70_teff_additive",
    "C70_teff_fiducial"
   ],
   "note": ""
  },
  {
   "property": "C71",
   "status": "partial",
   "theorems": [
    "C71_accumulate_count_refuted",
    "C71_accumulate_count_partial",
    "C71_single_visit_refuted"
   ],
   "note": "False of the code: searchsorted(side='right') is used directly as an index into the accumulated array, so each bin counts one visit after the edge (vector_metrics.py:79-88). Proved: the exact off-by-one law; a slice with one visit always gives badval."
  },
  {
   "property": "C72",
   "status": "partial",
   "theorems": [
    "C72_accumulate_m5_partial",
    "C72_accumulate_refuted",
    "C72_accumulate_partial"
   ],
   "note": "False of the code: the first visit after the edge is included. Proved: the exact law."
  },
  {
   "property": "C73",
   "status": "proved",
   "theorems": [
    "C73_histogram_m5"
   ],
   "note": ""
  },
  {
   "property": "C74",
   "status": "partial",
   "theorems": [
    "C74_ngal_other_bands_refuted",
    "C74_ngal_one_band_partial"
   ],
   "note": "False of the code: the dust cut uses the band of the first visit of the slice (scaling_metrics.py:59). Proved when all visits are in the band."
  },
  {
   "property": "C75",
   "status": "proved",
   "theorems": [
    "C75_optimal_m5",
    "C75_optimal_m5_flux",
    "C75_optimal_m5_nonneg"
   ],
   "note": ""
  },
  {
   "property": "C76",
   "status": "proved",
   "theorems": [
    "C76_accumulate_uniformity"
   ],
   "note": ""
  },
  {
   "property": "C77",
   "status": "partial",
   "theorems": [
    "C77_retry_refuted",
    "C77_never_retried_partial"
   ],
   "note": "False of the code: the except clause names sqlite3.OperationalError (results_db.py:15,606) but SQLAlchemy raises sqlalchemy.exc.OperationalError, so nothing is retried."
  },
  {
   "property": "C78",
   "status": "partial",
   "theorems": [
    "C78_auto_caption_refuted",
    "C78_auto_caption_partial"
   ],
   "note": "False of the code: str.replace(.., 1) removes the first '(auto)'. Proved for captions with no other occurrence."
  },
  {
   "property": "C79",
   "status": "partial",
   "theorems": [
    "C79_parallel_runs_refuted",
    "C79_sequential_partial"
   ],
   "note": "False of the code: the query and the insert are separate and there is no unique constraint. Proved for processes that run one after the other."
  },
  {
   "property": "C80",
   "status": "partial",
   "theorems": [
    "C80_summary_name_refuted",
    "C80_summary_name_partial"
   ],
   "note": "False of the code: the result of name.replace(',', '') is dropped (results_db.py:737). Proved: no blank at the ends, every other character comes from the parts."
  },
  {
   "property": "C81",
   "status": "partial",
   "theorems": [
    "C81_readd_atomic_refuted",
    "C81_other_runs_partial"
   ],
   "note": "False of the code: the delete is committed before the new row (tracking_db.py:174-176). Proved: other entries are present in all states."
  },
  {
   "property": "C82",
   "status": "partial",
   "theorems": [
    "C82_ids_reused_refuted",
    "C82_new_id_fresh_partial"
   ],
   "note": "False of the code: SQLite gives max(id)+1. Proved: the id is larger than that of all present runs."
  },
  {
   "property": "C83",
   "status": "partial",
   "theorems": [
    "C83_sanitized_distinct_refuted",
    "C83_safe_distinct_partial"
   ],
   "note": "False of the code by construction. Proved for names that are already safe."
  },
  {
   "property": "C84",
   "status": "proved",
   "theorems": [
    "C84_conda_env_saved"
   ],
   "note": ""
  },
  {
   "property": "C85",
   "status": "partial",
   "theorems": [
    "C85_night_stats_partial",
    "C85_night_stats_refuted"
   ],
   "note": "Refuted: the statistics are aggregated in an object keyed by the value name only, although the table also distinguishes accumulated rows. Proved when no accumulated rows are stored."
  },
  {
   "property": "C86",
   "status": "proved",
   "theorems": [
    "C86_visits_url"
   ],
   "note": ""
  },
  {
   "property": "C87",
   "status": "partial",
   "theorems": [
    "C87_get_comments",
    "C87_view_comments_partial",
    "C87_view_comments_refuted"
   ],
   "note": "get_comments proved; the simulation view keys comments by time, so equal times lose one (refuted); proved for distinct times."
  },
  {
   "property": "C88",
   "status": "proved",
   "theorems": [
    "C88_night_range_filter",
    "C88_order_kept"
   ],
   "note": ""
  },
  {
   "property": "C89",
   "status": "partial",
   "theorems": [
    "C89_shifted_text_refuted",
    "C89_shifted_text_partial"
   ],
   "note": "False in the last half millisecond before noon UTC, because the ISO text is rounded to milliseconds before it is cut. The exact law is proved."
  },
  {
   "property": "C90",
   "status": "partial",
   "theorems": [
    "C90_sim_interval",
    "C90_past_end",
    "C90_before_almanac_refuted"
   ],
   "note": "The first half is proved for regular almanacs; the last half is refuted: a day_obs before the first night of the almanac gives a negative index, and a night from the end of the almanac is returned."
  },
  {
   "property": "C91",
   "status": "partial",
   "theorems": [
    "C91_lookup_refuted",
    "C91_lookup_partial"
   ],
   "note": "Refuted: when the index of one telescope is missing the empty DataFrame has no columns and AttributeError is raised. Proved when all indices exist."
  },
  {
   "property": "C92",
   "status": "partial",
   "theorems": [
    "C92_day_obs_forms_partial",
    "C92_iso_text_refuted"
   ],
   "note": "Refuted: get_sim_metadata with a day_obs rejects every YYYY-MM-DD text. Proved for the other forms."
  },
  {
   "property": "C93",
   "status": "partial",
   "theorems": [
    "C93_age_limits_refuted",
    "C93_age_limits_partial"
   ],
   "note": "Refuted: one search rounds the age down to whole days. Proved: the query implies the selection, and the selection implies the query with one more day."
  },
  {
   "property": "C94",
   "status": "partial",
   "theorems": [
    "C94_slew_loc_refuted",
    "C94_slew_loc_partial"
   ],
   "note": "Refuted for a negative slew_loc with slew_scale 0, which is ignored. Proved when slew_loc or slew_scale is positive and the draw is at least -1."
  },
  {
   "property": "C95",
   "status": "partial",
   "theorems": [
    "C95_stacker_columns_not_queried_refuted",
    "C95_new_class_refuted",
    "C95_stacker_columns_not_queried_partial"
   ],
   "note": "ColInfo zips columns with units: Dcr2Stacker declares 4 columns and 2 units, so dec_dcr_var and ra_dec_dcr_cov are requested from the database. The registry is read once when the bundle module is imported, so columns of stackers defined later are requested as well."
  },
  {
   "property": "C96",
   "status": "partial",
   "theorems": [
    "C96_given_stacker_decides_refuted",
    "C96_given_stacker_decides_partial"
   ],
   "note": "appMag, SNR and vis are made by several classes; the class registered last is added by default next to the given one and runs after it."
  },
  {
   "property": "C97",
   "status": "proved",
   "theorems": [
    "C97_dcr2_moments"
   ],
   "note": ""
  },
  {
   "property": "C98",
   "status": "partial",
   "theorems": [
    "C98_given_inner_stackers_refuted",
    "C98_given_inner_stackers_partial"
   ],
   "note": "The given zenith distance stacker is stored as self.ztacker; _run then raises AttributeError."
  },
  {
   "property": "C99",
   "status": "proved",
   "theorems": [
    "C99_follow_up_count"
   ],
   "note": ""
  },
  {
   "property": "C100",
   "status": "partial",
   "theorems": [
    "C100_note_root_partial",
    "C100_note_root_refuted"
   ],
   "note": "The column is <U50: roots that differ after 50 characters become equal."
  },
  {
   "property": "C101",
   "status": "partial",
   "theorems": [
    "C101_coadd_keeps_totals_refuted",
    "C101_coadd_keeps_totals_partial"
   ],
   "note": "Visits within 1e-5 deg of several distinct positions are counted once for each."
  },
  {
   "property": "C102",
   "status": "partial",
   "theorems": [
    "C102_saturation_inputs_refuted",
    "C102_saturation_inputs_partial"
   ],
   "note": "zeropoints given and km not given raises UnboundLocalError (k_atm is only set when the zeropoints are looked up)."
  },
  {
   "property": "C103",
   "status": "partial",
   "theorems": [
    "C103_clipping_partial",
    "C103_clipping_refuted"
   ],
   "note": "With the default 95% none of two data points is kept; the proved bound is p% of the n-1 intervals between data, less one."
  },
  {
   "property": "C104",
   "status": "partial",
   "theorems": [
    "C104_one_row_per_night_refuted",
    "C104_mjd_column_refuted",
    "C104_one_row_per_night_partial"
   ],
   "note": "Filter names of several characters are split into characters, and the sort is always by observationStartMJD, so another mjd_col raises ValueError."
  },
  {
   "property": "C105",
   "status": "proved",
   "theorems": [
    "C105_n_changes",
    "C105_row_order"
   ],
   "note": ""
  },
  {
   "property": "C106",
   "status": "partial",
   "theorems": [
    "C106_min_time_refuted",
    "C106_min_time_partial"
   ],
   "note": "The time from the first visit to the first change takes part as if the first visit were a change."
  },
  {
   "property": "C107",
   "status": "partial",
   "theorems": [
    "C107_faster_refuted",
    "C107_faster_partial"
   ],
   "note": "The first change counts when it is within the cutoff of the first visit."
  },
  {
   "property": "C108",
   "status": "proved",
   "theorems": [
    "C108_max_within"
   ],
   "note": ""
  },
  {
   "property": "C109",
   "status": "proved",
   "theorems": [
    "C109_open_shutter"
   ],
   "note": ""
  },
  {
   "property": "C110",
   "status": "partial",
   "theorems": [
    "C110_brute_osf_refuted",
    "C110_brute_osf_partial"
   ],
   "note": "Exposures before a long gap (and the last one) are in the numerator only, so two visits can give more than one."
  },
  {
   "property": "C111",
   "status": "partial",
   "theorems": [
    "C111_string_count_refuted",
    "C111_string_count_partial",
    "C111_clip"
   ],
   "note": "A column with both the empty text and the text blank raises ValueError."
  },
  {
   "property": "C112",
   "status": "partial",
   "theorems": [
    "C112_reduce_refuted",
    "C112_reduce_partial"
   ],
   "note": "Reduce functions accumulate over slices and raise ValueError for a slice without that text."
  },
  {
   "property": "C113",
   "status": "partial",
   "theorems": [
    "C113_phase_gap_partial",
    "C113_phase_gap_refuted",
    "C113_single_period_refuted"
   ],
   "note": "Equal smallest and largest periods leave zeros for the other periods, so the mean gap is too small; one period over a proper range gives a NaN period."
  },
  {
   "property": "C114",
   "status": "partial",
   "theorems": [
    "C114_pairs_refuted",
    "C114_pairs_partial"
   ],
   "note": "Pairs of occupied time bins are counted; several visits in one bin count once, and when match_min rounds to zero bins every occupied bin pairs with itself."
  },
  {
   "property": "C115",
   "status": "partial",
   "theorems": [
    "C115_frequency_refuted",
    "C115_frequency_partial",
    "C115_campaign_length"
   ],
   "note": "A season with a single night enters the mean as separation zero."
  },
  {
   "property": "C116",
   "status": "partial",
   "theorems": [
    "C116_at_most_visits_refuted",
    "C116_pair_in_range_refuted",
    "C116_mirror_refuted",
    "C116_night_partial",
    "C116_small_nights_partial",
    "C116_recorded_partial"
   ],
   "note": "A night with exactly two visits counts two however far apart they are; a short gap between two good ones adds half a visit to the visits already counted (4.5 for 4 visits); the result depends on the direction of time."
  },
  {
   "property": "C117",
   "status": "proved",
   "theorems": [
    "C117_nights_in_window",
    "C117_visits_in_window",
    "C117_monotone"
   ],
   "note": ""
  },
  {
   "property": "C118",
   "status": "proved",
   "theorems": [
    "C118_lunations"
   ],
   "note": ""
  },
  {
   "property": "C119",
   "status": "partial",
   "theorems": [
    "C119_sequence_refuted",
    "C119_sequence_partial"
   ],
   "note": "For windows shorter than a lunation, any night before the first group of a period ends the sequence."
  },
  {
   "property": "C120",
   "status": "partial",
   "theorems": [
    "C120_reduce_refuted",
    "C120_reduce_partial"
   ],
   "note": "VisitGroupsMetric, TripletBandMetric and GRBTransientMetric replace the order by one with other keys, so reducing their bundles raises KeyError."
  },
  {
   "property": "C121",
   "status": "partial",
   "theorems": [
    "C121_fraction_refuted",
    "C121_fraction_phases_refuted",
    "C121_fraction_partial"
   ],
   "note": "With count_method full a last incomplete light curve is detected but not counted as possible, and with several phases one is subtracted from the possible ones for each phase but never from those detected."
  },
  {
   "property": "C122",
   "status": "partial",
   "theorems": [
    "C122_survey_start_refuted",
    "C122_first_visit_partial"
   ],
   "note": "With survey_start given the local variable is never assigned: UnboundLocalError."
  },
  {
   "property": "C123",
   "status": "partial",
   "theorems": [
    "C123_criteria_refuted",
    "C123_criteria_partial",
    "C123_complete_partial"
   ],
   "note": "With n_pre_peak and several bands or sections the criteria are added up, so extra bands make up for missing visits before the peak."
  },
  {
   "property": "C124",
   "status": "partial",
   "theorems": [
    "C124_phase_refuted",
    "C124_phase_partial"
   ],
   "note": "The number of the light curve ignores the phase shift, so phases wrap around inside a light curve."
  },
  {
   "property": "C125",
   "status": "proved",
   "theorems": [
    "C125_deeper"
   ],
   "note": ""
  },
  {
   "property": "C126",
   "status": "proved",
   "theorems": [
    "C126_peak"
   ],
   "note": ""
  },
  {
   "property": "C127",
   "status": "proved",
   "theorems": [
    "C127_no_singles",
    "C127_singles_left_out",
    "C127_arc"
   ],
   "note": "n_obs_no_singles needs nights that are not negative: np.bincount raises ValueError otherwise (modelled)."
  },
  {
   "property": "C128",
   "status": "proved",
   "theorems": [
    "C128_limit_monotone",
    "C128_more_observations"
   ],
   "note": ""
  },
  {
   "property": "C129",
   "status": "partial",
   "theorems": [
    "C129_opportunities",
    "C129_tracklet_nights",
    "C129_window_refuted"
   ],
   "note": "Finding: the window holds t_window + 1 nights (nights are compared with <= t_window), so two nights t_window apart count; refuted for the window of t_window nights, exact count proved for the window used.  Order of time is assumed."
  },
  {
   "property": "C130",
   "status": "partial",
   "theorems": [
    "C130_first_opportunity_partial",
    "C130_any_order_refuted"
   ],
   "note": "Finding: vis_sort is applied twice to the same arrays; for observations not in order of time the indices refer to the wrong order and the discovery time is wrong (refuted).  Proved for observations in order of time."
  },
  {
   "property": "C131",
   "status": "partial",
   "theorems": [
    "C131_further_observation_refuted",
    "C131_other_nights_partial",
    "C131_pairs_partial"
   ],
   "note": "Finding: when the detections of a night span more than t_max only successive groups of n_obs_per_night are looked at, so one more detection can remove a tracklet (refuted).  Proved for observations on other nights, and for pairs at least t_min apart."
  },
  {
   "property": "C132",
   "status": "partial",
   "theorems": [
    "C132_observations_refuted",
    "C132_one_less_partial"
   ],
   "note": "Finding: DiscoveryNObsMetric is end - start of inclusive indices, one less than the number of detections (refuted; exact relation proved)."
  },
  {
   "property": "C133",
   "status": "partial",
   "theorems": [
    "C133_velocity_refuted",
    "C133_time_partial"
   ],
   "note": "Finding: DiscoveryVelocityMetric reads parent_discovery_metric.snrLimit, which DiscoveryMetric does not have: AttributeError always."
  },
  {
   "property": "C134",
   "status": "partial",
   "theorems": [
    "C134_magic_partial",
    "C134_any_order_refuted"
   ],
   "note": "Finding: nights are sorted before the indices of the detections are applied, so with observations not in order of nights other observations are counted (refuted).  The window is half open here, unlike in DiscoveryMetric."
  },
  {
   "property": "C135",
   "status": "partial",
   "theorems": [
    "C135_trailed_partial",
    "C135_fast",
    "C135_time_refuted",
    "C135_never_refuted"
   ],
   "note": "Findings: the time is that of the first observation of the night, detected or trailed or not; an object with detections none of which is trailed gets 0 instead of badval."
  },
  {
   "property": "C136",
   "status": "partial",
   "theorems": [
    "C136_full_refuted",
    "C136_fraction_partial",
    "C136_more"
   ],
   "note": "Finding: the number of windows is the number of bin edges, one more than the number of windows, so the fraction is always below 1 (refuted; detections every night give (m - 1)/m)."
  },
  {
   "property": "C137",
   "status": "partial",
   "theorems": [
    "C137_bands",
    "C137_more",
    "C137_limit",
    "C137_detections_refuted"
   ],
   "note": "Finding: an observation with SNR equal to the limit is a detection for the other metrics but has weight 0 here (refuted).  The weight has to be exceeded, the docstring says at least."
  },
  {
   "property": "C138",
   "status": "proved",
   "theorems": [
    "C138_flag",
    "C138_more"
   ],
   "note": ""
  },
  {
   "property": "C139",
   "status": "partial",
   "theorems": [
    "C139_found_refuted",
    "C139_missed_refuted",
    "C139_following_partial"
   ],
   "note": "Findings: an observation in band two before all of band one gives a negative difference and counts as a pair at any distance; an observation in band one shortly after one in band two is missed.  Proved when every observation in band two follows one in band one."
  },
  {
   "property": "C140",
   "status": "partial",
   "theorems": [
    "C140_conditions_partial",
    "C140_coverage_refuted"
   ],
   "note": "Finding: the range of longitudes is taken from the values not centred, so longitudes 355, 5, 5 count as covering 350 degrees (refuted).  Conditions as computed are proved; longitudes and phases are whole degrees."
  },
  {
   "property": "C141",
   "status": "proved",
   "theorems": [
    "C141_known"
   ],
   "note": "Random numbers are a list of arguments; np.random.rand is not modelled otherwise."
  },
  {
   "property": "C142",
   "status": "partial",
   "theorems": [
    "C142_weighted_mean",
    "C142_monotone",
    "C142_power_law",
    "C142_anchor_free",
    "C142_single_refuted",
    "C142_single_partial"
   ],
   "note": "A single H value raises IndexError in every distribution. For the anchor theorem the law of powers is assumed for the exponents that occur."
  },
  {
   "property": "C143",
   "status": "partial",
   "theorems": [
    "C143_differential",
    "C143_threshold",
    "C143_cumulative",
    "C143_masked_refuted",
    "C143_masked_partial"
   ],
   "note": "Masked values are read as 0, so with threshold <= 0 objects without observations count as found."
  },
  {
   "property": "C144",
   "status": "partial",
   "theorems": [
    "C144_index_partial",
    "C144_index_refuted"
   ],
   "note": "hindex is passed as Hindex, which power_law_dndh swallows in **kwargs: the default 0.33 is always used."
  },
  {
   "property": "C145",
   "status": "partial",
   "theorems": [
    "C145_by_magnitude_refuted",
    "C145_values_partial",
    "C145_span_refuted",
    "C145_span_partial"
   ],
   "note": "The histogram is taken of the metric values instead of the H values; with an H range below min_hrange the bins start half of it below the least H and may end before the largest."
  },
  {
   "property": "C146",
   "status": "partial",
   "theorems": [
    "C146_differential",
    "C146_cumulative",
    "C146_early_refuted",
    "C146_default_refuted",
    "C146_init_partial",
    "C146_rerun_refuted",
    "C146_rerun_partial"
   ],
   "note": "Discoveries before the first time are never counted; hval=None without metric_name raises TypeError in the constructor; the first run stores the H it chose, which changes later runs; hindex is not used."
  },
  {
   "property": "C147",
   "status": "proved",
   "theorems": [
    "C147_value",
    "C147_no_value",
    "C147_mean"
   ],
   "note": ""
  },
  {
   "property": "C148",
   "status": "partial",
   "theorems": [
    "C148_total",
    "C148_parameters_refuted",
    "C148_parameters_partial",
    "C148_pha_refuted",
    "C148_distributions_partial",
    "C148_more_faint"
   ],
   "note": "TotalNumberSSO passes the keyword arguments both to the distribution and to BaseMoMetric.__init__, which rejects hindex, no and ho; pha_dndh_grav always raises TypeError (np.diff[...])."
  },
  {
   "property": "C149",
   "status": "partial",
   "theorems": [
    "C149_partition",
    "C149_no_conflict",
    "C149_fewest_lists_refuted",
    "C149_fewest_lists_partial"
   ],
   "note": "Only the last list is considered for a bundle, so a bundle compatible with an earlier list still starts a new one."
  },
  {
   "property": "C150",
   "status": "partial",
   "theorems": [
    "C150_independent_partial",
    "C150_independent_refuted"
   ],
   "note": "Every list runs the stackers of all bundles of the group, so of two stackers of one class with other settings the later one wins in both lists."
  },
  {
   "property": "C151",
   "status": "proved",
   "theorems": [
    "C151_masked"
   ],
   "note": ""
  },
  {
   "property": "C152",
   "status": "partial",
   "theorems": [
    "C152_summaries",
    "C152_stackers",
    "C152_label_refuted",
    "C152_label_partial"
   ],
   "note": "The label looks for slicer.obsfile; the attribute is obs_file, so it is always noObs."
  },
  {
   "property": "C153",
   "status": "partial",
   "theorems": [
    "C153_slices",
    "C153_setup_refuted",
    "C153_setup_partial",
    "C153_equality",
    "C153_equal_shape_refuted"
   ],
   "note": "setup_slicer sets only all_obs; slicing before subset_obs raises AttributeError, and without an observation file TypeError. A slicer cloned over exactly the H values of the orbits equals one that is not cloned although the shapes differ."
  },
  {
   "property": "C154",
   "status": "proved",
   "theorems": [
    "C154_once"
   ],
   "note": ""
  },
  {
   "property": "C155",
   "status": "proved",
   "theorems": [
    "C155_depth",
    "C155_decreasing",
    "C155_five_sigma",
    "C155_default",
    "C155_precision"
   ],
   "note": ""
  },
  {
   "property": "C156",
   "status": "proved",
   "theorems": [
    "C156_best",
    "C156_nan",
    "C156_more",
    "C156_invariant"
   ],
   "note": ""
  },
  {
   "property": "C157",
   "status": "partial",
   "theorems": [
    "C157_more",
    "C157_best",
    "C157_order",
    "C157_normalized_refuted",
    "C157_normalized_order_refuted",
    "C157_normalized_partial"
   ],
   "note": "The normalised value takes the first half of the rows as the early epoch: with different errors per visit it depends on the row order and can exceed 1."
  },
  {
   "property": "C158",
   "status": "proved",
   "theorems": [
    "C158_information",
    "C158_infinite",
    "C158_more",
    "C158_normalized"
   ],
   "note": "An empty slice raises IndexError."
  },
  {
   "property": "C159",
   "status": "partial",
   "theorems": [
    "C159_radius",
    "C159_run",
    "C159_angles_refuted",
    "C159_faint_refuted",
    "C159_angles_partial"
   ],
   "note": "theta_range: line 378 computes ((theta + pi) % 2) * pi instead of modulo 2 pi, so visits at angles 0 and 2 rad do not count as spanning 1.5 rad; without visits above the limit np.min of nothing raises ValueError."
  },
  {
   "property": "C160",
   "status": "proved",
   "theorems": [
    "C160_range",
    "C160_degenerate",
    "C160_scale"
   ],
   "note": "curve_fit itself is not modelled: the value is that of the exact weighted least squares solution."
  },
  {
   "property": "C161",
   "status": "partial",
   "theorems": [
    "C161_distance",
    "C161_reduce",
    "C161_units_refuted"
   ],
   "note": "The values are in degrees although the default units of the metric are radians."
  },
  {
   "property": "C162",
   "status": "proved",
   "theorems": [
    "C162_snr"
   ],
   "note": ""
  },
  {
   "property": "C163",
   "status": "partial",
   "theorems": [
    "C163_same_refuted",
    "C163_stretch_partial",
    "C163_factor_partial"
   ],
   "note": "Line 432 has 10**(0.5 (m-m5)) where m52snr (and the LSST formula) has 10**(0.4 (m-m5)): SNR is too high for bright objects and too low for faint ones, by 10**0.1 per magnitude for gamma 0.04."
  },
  {
   "property": "C164",
   "status": "proved",
   "theorems": [
    "C164_flag",
    "C164_completeness"
   ],
   "note": ""
  },
  {
   "property": "C165",
   "status": "partial",
   "theorems": [
    "C165_brighter_refuted",
    "C165_brighter_partial"
   ],
   "note": "One generator serves all clones, so each clone has other random numbers; true when the numbers are the same."
  },
  {
   "property": "C166",
   "status": "partial",
   "theorems": [
    "C166_order_refuted",
    "C166_position_partial"
   ],
   "note": "The generator is created once per stacker and advances by the number of rows of every frame; only that number matters."
  },
  {
   "property": "C167",
   "status": "proved",
   "theorems": [
    "C167_shift",
    "C167_empty"
   ],
   "note": ""
  },
  {
   "property": "C168",
   "status": "proved",
   "theorems": [
    "C168_comet",
    "C168_band"
   ],
   "note": "The phase function of the coma is a scipy spline, taken as an arbitrary positive function."
  },
  {
   "property": "C169",
   "status": "partial",
   "theorems": [
    "C169_formula_partial",
    "C169_formula_refuted"
   ],
   "note": "Line 350 multiplies km by 1000 and calls it cm: the coma is exactly 10 magnitudes too bright."
  },
  {
   "property": "C170",
   "status": "partial",
   "theorems": [
    "C170_unknown_refuted",
    "C170_memory_refuted",
    "C170_types_partial"
   ],
   "note": "A misspelt magtype silently uses the column appMag as it is, or uninitialised memory when there is none."
  },
  {
   "property": "C171",
   "status": "partial",
   "theorems": [
    "C171_key_refuted",
    "C171_dict_partial"
   ],
   "note": "The code looks for Afrho1_const; the documented afrho1_const raises ValueError."
  },
  {
   "property": "C172",
   "status": "proved",
   "theorems": [
    "C172_ecliptic",
    "C172_points"
   ],
   "note": ""
  },
  {
   "property": "C173",
   "status": "proved",
   "theorems": [
    "C173_log_linear",
    "C173_hg"
   ],
   "note": ""
  },
  {
   "property": "C174",
   "status": "proved",
   "theorems": [
    "C174_mean"
   ],
   "note": ""
  },
  {
   "property": "C175",
   "status": "proved",
   "theorems": [
    "C175_conserved",
    "C175_total"
   ],
   "note": ""
  },
  {
   "property": "C176",
   "status": "proved",
   "theorems": [
    "C176_between",
    "C176_flat",
    "C176_linear"
   ],
   "note": ""
  },
  {
   "property": "C177",
   "status": "proved",
   "theorems": [
    "C177_same",
    "C177_twice"
   ],
   "note": ""
  },
  {
   "property": "C178",
   "status": "partial",
   "theorems": [
    "C178_covers_refuted",
    "C178_coarse",
    "C178_covers_partial"
   ],
   "note": "refuted: on the grid 1,3,5 a spectrum at 1,2,3,4,5 has NaN at both ends, as the outer bins of the new grid reach beyond those of the spectrum; C178_coarse shows this for every grid with coarser outer steps, C178_covers_partial the case of steps that are not coarser."
  },
  {
   "property": "C179",
   "status": "partial",
   "theorems": [
    "C179_grids",
    "C179_same_refuted",
    "C179_same_partial",
    "C179_again"
   ],
   "note": "C179_same_refuted: Sed adds a whole step to the maximum and Bandpass half a step, so the grids differ in length for a range that is not a whole number of steps; C179_same_partial the equality for whole numbers of steps."
  },
  {
   "property": "C180",
   "status": "proved",
   "theorems": [
    "C180_mean",
    "C180_between",
    "C180_sum",
    "C180_scale"
   ],
   "note": ""
  },
  {
   "property": "C181",
   "status": "proved",
   "theorems": [
    "C181_flat",
    "C181_brighter"
   ],
   "note": ""
  },
  {
   "property": "C182",
   "status": "proved",
   "theorems": [
    "C182_norm"
   ],
   "note": ""
  },
  {
   "property": "C183",
   "status": "proved",
   "theorems": [
    "C183_inverse"
   ],
   "note": ""
  },
  {
   "property": "C184",
   "status": "partial",
   "theorems": [
    "C184_cleared_refuted",
    "C184_cleared_partial"
   ],
   "note": "refuted: a new Sed has the zeropoint -2.5 log10 3631 = -8.90012..., a cleared one -8.9; C184_cleared_partial bounds the difference by 0.0002 mag."
  },
  {
   "property": "C185",
   "status": "partial",
   "theorems": [
    "C185_photons_refuted",
    "C185_photons_partial",
    "C185_linear"
   ],
   "note": "C185_photons_refuted: the width of the first bin is used for all, so an uneven grid gives wrong counts; C185_photons_partial the uniform grids; C185_linear holds on all."
  },
  {
   "property": "C186",
   "status": "partial",
   "theorems": [
    "C186_ergs_refuted",
    "C186_ergs_partial"
   ],
   "note": "refuted on uneven grids, as only the first step is used; C186_ergs_partial for uniform grids."
  },
  {
   "property": "C187",
   "status": "partial",
   "theorems": [
    "C187_per_second_refuted",
    "C187_per_visit",
    "C187_outside"
   ],
   "note": "refuted: the zeropoint is the magnitude of one count in the whole visit (C187_per_visit); C187_outside: NaN when the bins of the bandpass leave 300-1150 nm."
  },
  {
   "property": "C188",
   "status": "proved",
   "theorems": [
    "C188_effective"
   ],
   "note": ""
  },
  {
   "property": "C189",
   "status": "partial",
   "theorems": [
    "C189_gain",
    "C189_five_refuted",
    "C189_deeper"
   ],
   "note": "refuted: the square root has 625/4/gain where the quadratic gives 625/4/gain^2; C189_gain: the signal to noise is 5 exactly when gain = 1 and above 5 for the default 2.3."
  },
  {
   "property": "C190",
   "status": "partial",
   "theorems": [
    "C190_snr",
    "C190_depth_partial",
    "C190_depth_refuted"
   ],
   "note": "C190_snr holds; C190_depth_refuted: calc_m5 does not return the depth unless gain = 1 (C190_depth_partial), for the same reason as C189."
  },
  {
   "property": "C191",
   "status": "proved",
   "theorems": [
    "C191_agree"
   ],
   "note": ""
  },
  {
   "property": "C192",
   "status": "proved",
   "theorems": [
    "C192_snr",
    "C192_gamma"
   ],
   "note": ""
  },
  {
   "property": "C193",
   "status": "proved",
   "theorems": [
    "C193_error",
    "C193_systematic"
   ],
   "note": ""
  },
  {
   "property": "C194",
   "status": "proved",
   "theorems": [
    "C194_floor"
   ],
   "note": ""
  },
  {
   "property": "C195",
   "status": "proved",
   "theorems": [
    "C195_seeing"
   ],
   "note": ""
  },
  {
   "property": "C196",
   "status": "proved",
   "theorems": [
    "C196_same_light",
    "C196_measure",
    "C196_multiply"
   ],
   "note": ""
  },
  {
   "property": "C197",
   "status": "proved",
   "theorems": [
    "C197_response"
   ],
   "note": ""
  },
  {
   "property": "C198",
   "status": "partial",
   "theorems": [
    "C198_refuted",
    "C198_partial",
    "C198_bandpass"
   ],
   "note": "Refuted: a set_sed that raises for the length of its arrays leaves a Sed without fluxes. Every other method of Sed keeps the spectrum when it raises, and so does set_bandpass."
  },
  {
   "property": "C199",
   "status": "partial",
   "theorems": [
    "C199_undo",
    "C199_refuted",
    "C199_redshift_partial",
    "C199_compose_partial",
    "C199_energy",
    "C199_object"
   ],
   "note": "Refuted for blueshifts: z<0 divides the wavelengths by 1-z instead of multiplying by 1+z (z=-0.5 gives a factor 2/3, not 1/2). Proved for z>=0; undoing and conservation of energy hold for every z."
  },
  {
   "property": "C200",
   "status": "partial",
   "theorems": [
    "C200_dims",
    "C200_add",
    "C200_zero",
    "C200_refuted",
    "C200_refuses_partial",
    "C200_nothing"
   ],
   "note": "Refuted: with r_v=3.1 given explicitly, contradicting a_v and ebv are taken instead of refused. For every other r_v they are refused."
  },
  {
   "property": "C201",
   "status": "partial",
   "theorems": [
    "C201_visual",
    "C201_refuted",
    "C201_dims_partial",
    "C201_outside"
   ],
   "note": "Refuted: exactly at 5.9 inverse microns the law has a gap and no extinction. Positive at every other wavelength of the range (polynomials bounded by interval arithmetic inside the proof)."
  },
  {
   "property": "C202",
   "status": "proved",
   "theorems": [
    "C202_value",
    "C202_gap",
    "C202_succeeds",
    "C202_refuses"
   ],
   "note": ""
  },
  {
   "property": "C203",
   "status": "partial",
   "theorems": [
    "C203_refuted",
    "C203_write_refuted",
    "C203_product_partial"
   ],
   "note": "Refuted: PhysicalParameters has no wavelenstep, so the defaults raise AttributeError; there is no method fnutoflambda; write_sed(print_fnu=True) indexes a pair and raises IndexError after two lines. The product with a step given and equal wavelengths is right."
  },
  {
   "property": "C204",
   "status": "partial",
   "theorems": [
    "C204_refuted",
    "C204_flux_partial",
    "C204_ends_partial",
    "C204_setup_refuted",
    "C204_setup_partial"
   ],
   "note": "Refuted: the sum counts the two ends in full, so a response that is not zero there gives too much (twice as much on a grid of two points); and the array is sized with another grid than the bandpasses', so that ranges which are not whole numbers of steps raise ValueError. The exact difference is proved, equality when the response vanishes at the ends, and that the array is set up for whole numbers of steps."
  },
  {
   "property": "C205",
   "status": "proved",
   "theorems": [
    "C205_cache"
   ],
   "note": ""
  },
  {
   "property": "C206",
   "status": "proved",
   "theorems": [
    "C206_series_value",
    "C206_velocity",
    "C206_mask",
    "C206_interval"
   ],
   "note": "Exact real arithmetic."
  },
  {
   "property": "C207",
   "status": "proved",
   "theorems": [
    "C207_ends_exact",
    "C207_pieces_meet"
   ],
   "note": "np.linalg.inv is any function that returns a right inverse or raises; exact real arithmetic."
  },
  {
   "property": "C208",
   "status": "proved",
   "theorems": [
    "C208_end_slopes",
    "C208_pieces_smooth"
   ],
   "note": ""
  },
  {
   "property": "C209",
   "status": "proved",
   "theorems": [
    "C209_least_squares",
    "C209_least_squares_velocities",
    "C209_polynomials_recovered"
   ],
   "note": "np.linalg.inv is any function that returns a right inverse or raises."
  },
  {
   "property": "C210",
   "status": "partial",
   "theorems": [
    "C210_residuals",
    "C210_one_solution",
    "C210_accepted_sizes",
    "C210_other_sizes",
    "C210_documented_sizes_refuted",
    "C210_inverse_exists"
   ],
   "note": "Refuted for the documented sizes: with dxdt, n_poly of 2 and 3 raises RuntimeError (documented as allowed). For every accepted size the system is proved to have one solution, and with elimination in exact arithmetic as the inverse the fit never raises."
  },
  {
   "property": "C211",
   "status": "partial",
   "theorems": [
    "C211_length_partial",
    "C211_given_kept",
    "C211_whole_refuted",
    "C211_error_kinds",
    "C211_documented_error_refuted"
   ],
   "note": "Refuted: a length is accepted if a multiple of it comes within ten units of the last decimal place below the span (with n_decimal=0, length 7 for a span of 30), so it need not fit a whole number of times; and a failing search raises ZeroDivisionError (length rounded to 0.0) or AttributeError (DataFrame.as_matrix was removed from pandas), never the ValueError meant, and nothing is listed as failed. The stopping rules are proved for every behaviour of the residuals. Times are integers in units of the last decimal place; binary rounding is not modelled."
  },
  {
   "property": "C212",
   "status": "partial",
   "theorems": [
    "C212_tiling_partial",
    "C212_near_partial",
    "C212_end_refuted",
    "C212_gap_refuted",
    "C212_short_refuted",
    "C212_failed_refuted"
   ],
   "note": "Proved when every length chosen fits a whole number of times; without subdivision for every length, with the end within half an ephemeris step of t_end. Refuted otherwise: with span 30, length 7, ngran 64 the segments end at 29.96875; a subdivided piece can leave such a gap inside the span; with span 31 and length 10 the last piece has 7 points, too few for the fit, and RuntimeError ends the whole calculation; a piece that cannot be subdivided raises AttributeError for everything instead of being listed as failed (C211)."
  },
  {
   "property": "C213",
   "status": "partial",
   "theorems": [
    "C213_ends_partial",
    "C213_within_tolerance",
    "C213_turns_partial",
    "C213_turns_refuted",
    "C213_range_refuted"
   ],
   "note": "Proved: both ends exact up to a turn in right ascension (velocities if cos(dec) is not 0), the residual compared with the tolerance is the largest distance at the ephemeris times, and tracks within an arc of less than 90 degrees are brought to one turn. Refuted: tracks within 120 degrees (265, 350, 5 becomes 265, -10, 5), and right ascensions evaluated may be negative since nothing brings them back to 0-360. Also seen: resids['vmag'] stores the residual of geo_dist."
  },
  {
   "property": "C214",
   "status": "partial",
   "theorems": [
    "C214_own_segments_partial",
    "C214_all_objects_partial",
    "C214_missing_segment_refuted",
    "C214_gap_refuted",
    "C214_unknown_refuted"
   ],
   "note": "Proved for tables in which each object asked for has one segment at each time. Refuted: if one object lacks a segment its row gets the next object's value and label, also for the other times; a time in a gap gives zeros; an unknown id is not refused, since the array that is checked is the caller's, overwritten in place."
  },
  {
   "property": "C215",
   "status": "partial",
   "theorems": [
    "C215_outside_partial",
    "C215_documented_refuted"
   ],
   "note": "Refuted for the documented ValueError: the entries are NaN. Proved for mixtures of times inside and outside."
  },
  {
   "property": "C216",
   "status": "partial",
   "theorems": [
    "C216_ids_partial",
    "C216_elements_refuted",
    "C216_length_refuted",
    "C216_length_error"
   ],
   "note": "Proved: only format and obj_id columns decide (the loop over the columns returns after the first). Refuted: objects with different elements compare equal; an object of one row equals one with two rows of the same obj_id; otherwise different lengths raise ValueError. __neq__ is not the name python calls, != is derived from __eq__."
  },
  {
   "property": "C217",
   "status": "partial",
   "theorems": [
    "C217_accepts",
    "C217_stored",
    "C217_epoch_refuted",
    "C217_error_kinds",
    "C217_missing_refuted"
   ],
   "note": "Proved which tables are accepted and what is stored. Refuted: only the first epoch is checked (a table with a later epoch in JD is accepted), and a table without epoch raises KeyError, not ValueError."
  },
  {
   "property": "C218",
   "status": "partial",
   "theorems": [
    "C218_probability_partial",
    "C218_parabolic",
    "C218_distance",
    "C218_cartesian_refuted",
    "C218_again_refuted"
   ],
   "note": "Proved for Keplerian and cometary elements (parabolic orbits are always S: division by zero). Refuted: for Cartesian elements the distance from the Sun is used instead, and assigning again draws new random numbers, so that spectra are not reproducible from the seed of the first call."
  },
  {
   "property": "C219",
   "status": "partial",
   "theorems": [
    "C219_rows_partial",
    "C219_stated_refuted",
    "C219_epoch_refuted"
   ],
   "note": "Proved for tables without a stated FORMAT and with all epochs in range. Refuted: the format of a row is found from its columns anew, so that an object of format KEP with a column q gives rows of format COM; a row with an epoch out of range raises although the object was accepted."
  },
  {
   "property": "C220",
   "status": "partial",
   "theorems": [
    "C220_rejected_partial",
    "C220_rejected_refuted",
    "C220_unlabelled_refuted",
    "C220_given_partial",
    "C220_given_refuted",
    "C220_twice_partial",
    "C220_twice_refuted",
    "C220_alias_refuted"
   ],
   "note": "Refuted: a refused table leaves the new format with the old orbits; a column FORMAT is deleted from the caller's table; setting the stored table again may change the format; a table that needs nothing added is stored itself, not a copy. Proved: the orbits stay, the values of the caller's table stay, without a stated FORMAT setting again changes nothing."
  },
  {
   "property": "C221",
   "status": "partial",
   "theorems": [
    "C221_packed",
    "C221_roundtrip",
    "C221_update_partial",
    "C221_keeps",
    "C221_H_refuted",
    "C221_label_refuted"
   ],
   "note": "Proved: layout, round trip, obj_id and spectrum kept when row labels agree. Refuted: H and g are taken from the new table (20 and 0.15 if it has none) although the documentation says they stay in place; an object taken from row 1 or later of a larger one has another label than the unpacked table, and obj_id and spectrum become NaN."
  },
  {
   "property": "C222",
   "status": "partial",
   "theorems": [
    "C222_values",
    "C222_checks",
    "C222_request",
    "C222_propagation",
    "C222_err_refuted",
    "C222_axis_refuted"
   ],
   "note": "Proved: every value is in its documented place. Refuted: the error code of pyoorb is ignored for basic ephemerides; by_object=True gives columns whose first axis is the number of objects, although the documentation says number of times. pyoorb itself is an argument."
  },
  {
   "property": "C223",
   "status": "partial",
   "theorems": [
    "C223_header",
    "C223_no_header",
    "C223_blank_refuted",
    "C223_blank_error",
    "C223_delim_refuted"
   ],
   "note": "Proved for files with and without header. Refuted: a blank line before the data raises IndexError; the search for the header splits lines at white space whatever delim is, so that a file with a delimiter and no white space cannot be read. Lines with too many or too few words and skiprows are not modelled."
  },
  {
   "property": "C224",
   "status": "partial",
   "theorems": [
    "C224_names_partial",
    "C224_ambiguous_partial",
    "C224_lost_refuted",
    "C224_values_partial",
    "C224_inclination_refuted"
   ],
   "note": "Proved but for two names. Refuted: S3MID and objid(int) are not recognised (a missing comma joins the two strings), so that the identifiers are replaced by running numbers; negative inclinations are accepted (the ValueError is built but not raised)."
  },
  {
   "property": "C225",
   "status": "proved",
   "theorems": [
    "C225_rest",
    "C225_nonnegative",
    "C225_grows"
   ],
   "note": ""
  },
  {
   "property": "C226",
   "status": "partial",
   "theorems": [
    "C226_slow_partial",
    "C226_greater_refuted"
   ],
   "note": "Refuted: with velocity * texp / (24 * seeing) below 0.702 (0.39 degrees a day for 30 s and 0.7 arcsec, so most of the main belt) the loss at detection is the smaller of the two; proved: exactly from there on it is the greater."
  },
  {
   "property": "C227",
   "status": "proved",
   "theorems": [
    "C227_exact",
    "C227_units",
    "C227_unknown"
   ],
   "note": "The test of the camera is an argument, one visit at a time; angular separation is an argument."
  },
  {
   "property": "C228",
   "status": "partial",
   "theorems": [
    "C228_plain_partial",
    "C228_wrap_refuted",
    "C228_radians_refuted"
   ],
   "note": "Proved for visits in degrees and right ascensions that differ by at most 180 degrees. Refuted: an object on the other side of right ascension 0 is lost; visits in radians are compared with positions in degrees."
  },
  {
   "property": "C229",
   "status": "proved",
   "theorems": [
    "C229_rows",
    "C229_succeeds"
   ],
   "note": "Ephemerides, colours and separation are arguments; ephemerides are taken one time at a time. Text longer than 40 characters is cut (statement made for shorter ones). Which of several errors is raised first is not modelled."
  },
  {
   "property": "C230",
   "status": "proved",
   "theorems": [
    "C230_complete",
    "C230_circle",
    "C230_needed"
   ],
   "note": "For separations with the triangle inequality; proved of the angle between directions (great_circle). C230_needed: an object of 40 degrees a day at the centre of a visit is missed with the default settings."
  },
  {
   "property": "C231",
   "status": "proved",
   "theorems": [
    "C231_complete",
    "C231_succeeds",
    "C231_fallback"
   ],
   "note": ""
  },
  {
   "property": "C232",
   "status": "partial",
   "theorems": [
    "C232_circle_partial",
    "C232_rectangle_refuted"
   ],
   "note": "Proved for the circle and slow objects. Refuted: with the rectangle of 5 by 3 degrees (half widths) the limit is still r_fov + pre_comp_tol = 3.83 degrees, so that an object at rest 4 degrees from the centre is found only without pre-computed positions."
  },
  {
   "property": "C233",
   "status": "partial",
   "theorems": [
    "C233_full_refuted",
    "C233_text_refuted",
    "C233_cut_refuted",
    "C233_basic_partial"
   ],
   "note": "Proved for basic ephemerides and for identifiers that are integers or read as integers. Refuted: full ephemerides raise ValueError at the first object near a visit; text raises ValueError (the column is of type int); numbers that are no integers are cut, so that two objects get the same identifier."
  },
  {
   "property": "C234",
   "status": "partial",
   "theorems": [
    "C234_known_partial",
    "C234_info_refuted"
   ],
   "note": "Refuted: for an unknown name (such as circular, the name in the documentation) info keeps the unknown name and no radius, while a circle is used. Proved for the three known names."
  },
  {
   "property": "C235",
   "status": "partial",
   "theorems": [
    "C235_absolute_partial",
    "C235_relative_refuted"
   ],
   "note": "Refuted: out_dir is prepended twice, so that out_dir=out gives out/out/file. Proved for absolute directories."
  },
  {
   "property": "C236",
   "status": "partial",
   "theorems": [
    "C236_core_partial",
    "C236_single_refuted",
    "C236_overflow_refuted"
   ],
   "note": "Proved for identifiers less than 2^32 apart and arrays of more or fewer than one observation. Refuted: a single observation is kept; identifiers 2^32 apart overflow the product of differences, so that stars seen once are kept."
  },
  {
   "property": "C237",
   "status": "partial",
   "theorems": [
    "C237_pairs_partial",
    "C237_same_star_refuted"
   ],
   "note": "Proved without repeated pairs of star and patch. Refuted: a star twice in one patch is kept alone with it."
  },
  {
   "property": "C238",
   "status": "proved",
   "theorems": [
    "C238_numbers"
   ],
   "note": "Under the conditions of C236. Sorting by a column is an argument."
  },
  {
   "property": "C239",
   "status": "proved",
   "theorems": [
    "C239_optimal"
   ],
   "note": "Under the conditions of C236; lsqr is an argument. Numbers are reals."
  },
  {
   "property": "C240",
   "status": "partial",
   "theorems": [
    "C240_differences_partial",
    "C240_balanced",
    "C240_absolute_refuted"
   ],
   "note": "Proved: differences are right if the cleaned observations hang together. Refuted: the zero points themselves are not; with the solution of least norm, which lsqr gives, zero points sum up to the same as the magnitudes (C240_balanced), so that perfect observations of stars of 20 and 21 mag get zero points of 10.25."
  },
  {
   "property": "C241",
   "status": "partial",
   "theorems": [
    "C241_succeeds_partial",
    "C241_empty_refuted"
   ],
   "note": "Proved: fails exactly if nothing is left, with ValueError; refuted by two observations that share nothing."
  },
  {
   "property": "C242",
   "status": "partial",
   "theorems": [
    "C242_values_partial",
    "C242_order_refuted",
    "C242_again_refuted"
   ],
   "note": "Proved: the array is only reordered. Refuted: it is sorted in place; a second run raises AttributeError."
  },
  {
   "property": "C243",
   "status": "proved",
   "theorems": [
    "C243_visits",
    "C243_field"
   ],
   "note": "The k-d tree is a test of the distance, and the order of its results is taken to be that of the stars. Numbers are reals."
  },
  {
   "property": "C244",
   "status": "partial",
   "theorems": [
    "C244_squares_partial",
    "C244_visits_partial",
    "C244_radius_refuted",
    "C244_edge_refuted"
   ],
   "note": "Proved for stars less than 1.8 degrees from the centre, for the gnomonic projection. Refuted: radius_fov is not handed on to assign_patches, so that with radius_fov=4 a star 3.6 degrees north of visit 1 gets the patch of a star at the centre of visit 2; a star at exactly 1.8 degrees gets a patch of the next visit too."
  },
  {
   "property": "C245",
   "status": "partial",
   "theorems": [
    "C245_sum_partial",
    "C245_both",
    "C245_same_name_refuted",
    "C245_no_offset_refuted"
   ],
   "note": "Proved for offsets that have different names and give numbers. Refuted: of two offsets of one class only the last counts; with NoOffset generate_catalog raises TypeError. OffsetClouds is not modelled."
  },
  {
   "property": "C246",
   "status": "proved",
   "theorems": [
    "C246_uncertainty",
    "C246_depth"
   ],
   "note": ""
  },
  {
   "property": "C247",
   "status": "proved",
   "theorems": [
    "C247_succeeds",
    "C247_fails",
    "C247_sound"
   ],
   "note": "An offset that gives one number for all stars is not modelled."
  },
  {
   "property": "C248",
   "status": "partial",
   "theorems": [
    "C248_lines",
    "C248_constellation_partial",
    "C248_many_refuted"
   ],
   "note": "Proved for numbers below 100000. Refuted for constellations of more than 92000 satellites: numbers start at 8000 and the 92001st has six digits, so that its lines have 70 characters. Rounding to decimals is an argument, such that integers of the last place stay."
  },
  {
   "property": "C249",
   "status": "proved",
   "theorems": [
    "C249_count",
    "C249_named",
    "C249_names",
    "C249_distinct"
   ],
   "note": ""
  },
  {
   "property": "C250",
   "status": "partial",
   "theorems": [
    "C250_planes",
    "C250_anomaly_refuted"
   ],
   "note": "Proved except for shells with one satellite per plane. Refuted: mean anomalies above 360 degrees occur."
  },
  {
   "property": "C251",
   "status": "proved",
   "theorems": [
    "C251_kepler"
   ],
   "note": ""
  },
  {
   "property": "C252",
   "status": "proved",
   "theorems": [
    "C252_streaks",
    "C252_alone"
   ],
   "note": ""
  },
  {
   "property": "C253",
   "status": "partial",
   "theorems": [
    "C253_succeeds_partial",
    "C253_single_refuted",
    "C253_short_refuted",
    "C253_empty_refuted"
   ],
   "note": "Proved for exposures longer than 1.5 dt. Refuted: exposures between dt/2 and 1.5 dt raise ValueError if a satellite is near (a line of one point); shorter ones have no streaks whatever the satellites do; a constellation without satellites raises ValueError."
  },
  {
   "property": "C254",
   "status": "partial",
   "theorems": [
    "C254_seen_partial",
    "C254_never_seen_refuted"
   ],
   "note": "Proved if no satellite rises, sets, or enters or leaves the shadow during the exposure. Refuted: a satellite that is up in the dark at the start, and lit but set at the end, is counted though it is never seen."
  },
  {
   "property": "C255",
   "status": "partial",
   "theorems": [
    "C255_visible",
    "C255_fov_refuted",
    "C255_loads"
   ],
   "note": "Refuted for the field of view: fov of the constructor is not used by any method; check_pointings has its own fov_radius. Reading of TLEs (skyfield) is an argument, taken to accept all well formed ones."
  },
  {
   "property": "C256",
   "status": "proved",
   "theorems": [
    "C256_maps",
    "C256_exist"
   ],
   "note": "What skyfield says of a satellite at a time, and the pixels, are arguments."
  },
  {
   "property": "C257",
   "status": "partial",
   "theorems": [
    "C257_maps_partial",
    "C257_default_refuted",
    "C257_nside_refuted",
    "C257_night_refuted"
   ],
   "note": "Proved for nights with different numbers, none -1. Refuted: without a constellation (the default) the constructor raises AttributeError; nside is not handed on to the parent; on a night numbered -1 there are no maps. Other conditions of the observatory are not modelled."
  },
  {
   "property": "C258",
   "status": "proved",
   "theorems": [
    "C258_value"
   ],
   "note": "Smoothing and degrading of maps are arguments."
  },
  {
   "property": "C259",
   "status": "partial",
   "theorems": [
    "C259_points",
    "C259_healpix",
    "C259_rotation_refuted"
   ],
   "note": "Holds. But setup_slicer needs the rotSkyPos column even if use_camera is False (C259_rotation_refuted); the documentation says it is only used with the camera. Negative indices are not modelled."
  },
  {
   "property": "C260",
   "status": "partial",
   "theorems": [
    "C260_info",
    "C260_position",
    "C260_bins_refuted"
   ],
   "note": "Refuted for information that is not per slice but has as many elements as there are slices, e.g. the bins of a stellar density map with as many user points as bins: each slice gets one bin (C260_bins_refuted)."
  },
  {
   "property": "C261",
   "status": "proved",
   "theorems": [
    "C261_subset",
    "C261_mask",
    "C261_circle"
   ],
   "note": ""
  },
  {
   "property": "C262",
   "status": "partial",
   "theorems": [
    "C262_alike_partial",
    "C262_symmetric_partial",
    "C262_degrees_refuted",
    "C262_camera_refuted",
    "C262_symmetric_refuted"
   ],
   "note": "Refuted: equality does not look at lat_lon_deg, camera_radius and camera_footprint_file (C262_degrees_refuted, C262_camera_refuted), and a UserPointsSlicer compares only the keys of the other one, so that one with maps run equals one without but not conversely (C262_symmetric_refuted). Proved: with those three the same, equal slicers slice in the same way; symmetry for healpix slicers."
  },
  {
   "property": "C263",
   "status": "partial",
   "theorems": [
    "C263_restored",
    "C263_equal",
    "C263_slices",
    "C263_init_refuted"
   ],
   "note": "Values, mask, fill value, points etc. are restored. Refuted otherwise: use_camera, rot_sky_pos_col_name, lat_lon_deg, camera_radius, camera_footprint_file and use_cache are not saved; C263_equal says exactly when the restored slicer is equal and C263_slices when it slices in the same way. slicer_init of UserPointsSlicer holds radians whereas the constructor takes degrees (C263_init_refuted)."
  },
  {
   "property": "C264",
   "status": "partial",
   "theorems": [
    "C264_spatial",
    "C264_spatial_plain",
    "C264_bins",
    "C264_int_refuted",
    "C264_bins_refuted",
    "C264_restored_refuted"
   ],
   "note": "Refuted for integers (C264_int_refuted: `not a or b`), for bins without a mask (C264_bins_refuted) and for values that read_data restored from an unmasked array (C264_restored_refuted: their mask is nomask)."
  },
  {
   "property": "C265",
   "status": "partial",
   "theorems": [
    "C265_given_refuted",
    "C265_symmetric",
    "C265_bins_partial",
    "C265_itself_refuted"
   ],
   "note": "Refuted: bins given with bin_min, bin_max or bin_size raise AttributeError (warnings.warning, C265_given_refuted); before setup a slicer without all of bin_min, bin_max and bin_size is not equal to itself (C265_itself_refuted)."
  },
  {
   "property": "C266",
   "status": "partial",
   "theorems": [
    "C266_area",
    "C266_defined",
    "C266_short_refuted"
   ],
   "note": "C266_short_refuted: with fewer valid pixels than the area needs, the worst valid value is returned as if it covered the area (no warning). Negative areas are not modelled; a custom reduce_func is not modelled."
  },
  {
   "property": "C267",
   "status": "partial",
   "theorems": [
    "C267_area",
    "C267_monotone",
    "C267_all_refuted",
    "C267_whole"
   ],
   "note": "C267_all_refuted: with both bounds None every pixel counts, also the masked ones, so adding a bound that every value meets makes the area smaller."
  },
  {
   "property": "C268",
   "status": "partial",
   "theorems": [
    "C268_bins",
    "C268_years",
    "C268_every",
    "C268_name_refuted"
   ],
   "note": "C268_name_refuted: **kwargs is accepted and dropped, so a given metric_name has no effect. Night 3652 counts for the last year because numpy's last bin is closed."
  },
  {
   "property": "C269",
   "status": "partial",
   "theorems": [
    "C269_count_partial",
    "C269_default_partial",
    "C269_before_refuted",
    "C269_between_refuted"
   ],
   "note": "C269_before_refuted: before the first visit the count is 1. C269_between_refuted: on nights without visits the value is interpolated (one and a half visits). Missing from the partial theorems: exactly those points."
  },
  {
   "property": "C270",
   "status": "partial",
   "theorems": [
    "C270_invariant",
    "C270_range",
    "C270_delta",
    "C270_one_refuted",
    "C270_uniform",
    "C270_defined"
   ],
   "note": "C270_one_refuted: n equal angles give 1 - 1/n, and a single visit gives 0, as the empirical distribution is compared only from above; C270_delta shows that this largest value is reached exactly by equal angles."
  },
  {
   "property": "C271",
   "status": "proved",
   "theorems": [
    "C271_formula",
    "C271_reference",
    "C271_between",
    "C271_mean"
   ],
   "note": ""
  },
  {
   "property": "C272",
   "status": "partial",
   "theorems": [
    "C272_age_partial",
    "C272_future_refuted"
   ],
   "note": "C272_future_refuted: a visit after the reference time hides the earlier ones and gives a negative age that is not masked."
  },
  {
   "property": "C273",
   "status": "partial",
   "theorems": [
    "C273_vendor_partial",
    "C273_none_refuted"
   ],
   "note": "C273_none_refuted: a point on no chip gives 3."
  },
  {
   "property": "C274",
   "status": "partial",
   "theorems": [
    "C274_nights",
    "C274_columns_refuted",
    "C274_simultaneous_refuted"
   ],
   "note": "C274_columns_refuted: filter_col and time_col are not passed to the checker, which reads band and observationStartMJD. C274_simultaneous_refuted: visits at the same moment in two bands are not a colour."
  },
  {
   "property": "C275",
   "status": "partial",
   "theorems": [
    "C275_pairs",
    "C275_double_refuted"
   ],
   "note": "C275_double_refuted: a night that has both by itself is counted twice, with the night before and with the night after."
  },
  {
   "property": "C276",
   "status": "partial",
   "theorems": [
    "C276_cutoff_refuted",
    "C276_mean",
    "C276_min",
    "C276_bad",
    "C276_repeat_refuted"
   ],
   "note": "C276_cutoff_refuted: the branches for g and r are never reached, so neither the cuts nor the depths (nor dust) have an effect. C276_repeat_refuted: two visits at one time give an infinite value with calc_type min. calc_type max and gcd are modelled; only the mask and threshold are proved for them. log=True is not modelled."
  },
  {
   "property": "C277",
   "status": "partial",
   "theorems": [
    "C277_inputs",
    "C277_none",
    "C277_enough",
    "C277_any_refuted",
    "C277_order"
   ],
   "note": "A template is not guaranteed by any number of visits with the default percentiles 50 and 50 (C277_any_refuted): the better half in seeing and the deeper half can be disjoint. With percentiles adding up to more than 100 it is (C277_enough)."
  },
  {
   "property": "C278",
   "status": "partial",
   "theorems": [
    "C278_with",
    "C278_disjoint",
    "C278_all_refuted",
    "C278_band_refuted"
   ],
   "note": "Visits in the template night after the template is complete are in neither group (C278_all_refuted). A visit in another band changes thresholds and template: bands are not separated (C278_band_refuted)."
  },
  {
   "property": "C279",
   "status": "partial",
   "theorems": [
    "C279_template",
    "C279_difference",
    "C279_fraction",
    "C279_fraction_refuted"
   ],
   "note": "Without later images the fraction is not a number (C279_fraction_refuted)."
  },
  {
   "property": "C280",
   "status": "partial",
   "theorems": [
    "C280_depth",
    "C280_order_refuted"
   ],
   "note": "For several bands the extinction coefficient is that of the first visit, so the value depends on the order (C280_order_refuted)."
  },
  {
   "property": "C281",
   "status": "partial",
   "theorems": [
    "C281_cuts",
    "C281_column_refuted"
   ],
   "note": "filter_col is not passed to the inner ExgalM5, which reads the column 'band': ValueError for other names (C281_column_refuted)."
  },
  {
   "property": "C282",
   "status": "proved",
   "theorems": [
    "C282_count",
    "C282_more"
   ],
   "note": ""
  },
  {
   "property": "C283",
   "status": "partial",
   "theorems": [
    "C283_total",
    "C283_dust",
    "C283_bands_refuted",
    "C283_minimal_refuted"
   ],
   "note": "min_bands is stored and never read (C283_bands_refuted). The minimum is exclusive: a visit of exactly min_expTime is left out (C283_minimal_refuted)."
  },
  {
   "property": "C284",
   "status": "partial",
   "theorems": [
    "C284_pair_partial",
    "C284_riz_refuted",
    "C284_dusty_refuted"
   ],
   "note": "The exposure time is given the i-band visits only (C284_riz_refuted) and has bad value -666 whatever the metric's (C284_dusty_refuted)."
  },
  {
   "property": "C285",
   "status": "partial",
   "theorems": [
    "C285_value_partial",
    "C285_one_partial",
    "C285_default_refuted",
    "C285_missing_refuted"
   ],
   "note": "depths has one row, so depths[i] -= mean for the second band is IndexError: the default mean depths make every model of two or more bands raise (C285_default_refuted). With a mean depth a numeric bad value of a missing band is used as a depth (C285_missing_refuted). Formula proved without mean depths, and for one band with its mean."
  },
  {
   "property": "C286",
   "status": "partial",
   "theorems": [
    "C286_values_partial",
    "C286_length",
    "C286_unused_refuted",
    "C286_mean_refuted"
   ],
   "note": "A mean depth of any band but u raises IndexError (C286_mean_refuted). NaN of a missing band spoils models that do not use it (C286_unused_refuted). Formula proved where all six bands have visits, without mean depths and cuts."
  },
  {
   "property": "C287",
   "status": "proved",
   "theorems": [
    "C287_bands"
   ],
   "note": ""
  },
  {
   "property": "C288",
   "status": "partial",
   "theorems": [
    "C288_bounds",
    "C288_reach_refuted",
    "C288_margin",
    "C288_warning_refuted",
    "C288_brightest",
    "C288_unique"
   ],
   "note": "The returned value never reaches nsigma (C288_reach_refuted); it is off by a factor of at most sqrt 3 in signal to noise and at most 2.5 log10 2 = 0.75 magnitudes (C288_bounds, C288_margin), more than the 0.38 of the warning (C288_warning_refuted)."
  },
  {
   "property": "C289",
   "status": "partial",
   "theorems": [
    "C289_value",
    "C289_bands_refuted",
    "C289_katm_refuted",
    "C289_given_refuted"
   ],
   "note": "The ValueError for several bands is constructed but not raised (C289_bands_refuted). zpt without k_atm: TypeError (C289_katm_refuted); k_atm without zpt is overwritten (C289_given_refuted)."
  },
  {
   "property": "C290",
   "status": "proved",
   "theorems": [
    "C290_wrap",
    "C290_azimuth"
   ],
   "note": ""
  },
  {
   "property": "C291",
   "status": "partial",
   "theorems": [
    "C291_inside_partial",
    "C291_outside"
   ],
   "note": "For magnitudes above zero (an interpolated magnitude of exactly zero is reported as no flux)."
  },
  {
   "property": "C292",
   "status": "partial",
   "theorems": [
    "C292_spectrum_partial",
    "C292_zero_refuted",
    "C292_one_refuted"
   ],
   "note": "Finding: spectra are interpolated in log10 with 0 standing for zero flux, so next to a template without flux the result is brighter than both neighbours (as if the zero were a one), and a template flux of exactly 1 becomes 0. Proved for templates between 0 and 1."
  },
  {
   "property": "C293",
   "status": "partial",
   "theorems": [
    "C293_airglow_partial",
    "C293_outside"
   ],
   "note": "For positive magnitudes."
  },
  {
   "property": "C294",
   "status": "partial",
   "theorems": [
    "C294_moon_partial",
    "C294_bounds_partial",
    "C294_none",
    "C294_zodiacal_partial",
    "C294_edge_refuted"
   ],
   "note": "Finding: below the range of moonSunSep the code extrapolates the line through the first and the last entry (index -1) instead of using the edge, as its comment says. The healpix neighbours and weights are arguments. Proved inside the table for mean magnitudes other than zero."
  },
  {
   "property": "C295",
   "status": "partial",
   "theorems": [
    "C295_slope_partial",
    "C295_brighter_partial",
    "C295_azimuth_partial",
    "C295_zenith",
    "C295_range_partial"
   ],
   "note": "With positive ratio and dark sky flux; one filter; the fitted parameters are arguments."
  },
  {
   "property": "C296",
   "status": "partial",
   "theorems": [
    "C296_total_partial",
    "C296_positive_partial",
    "C296_new",
    "C296_limit_refuted",
    "C296_switch_refuted"
   ],
   "note": "Findings: for airmass_limit <= 2.5 the rows of the valid points are used as indices of all points, so a valid point can lose its flux (set to zero) if another point is beyond the limit and a third beyond a template; a component off at construction cannot be switched on later (KeyError). Proved for magnitudes, limits above 2.5 or components positive everywhere. Components are functions of point and filter."
  },
  {
   "property": "C297",
   "status": "partial",
   "theorems": [
    "C297_mags_partial",
    "C297_scale",
    "C297_clamp_refuted"
   ],
   "note": "Finding: the documented clamping of airmasses above 3 does not happen; beyond the templates the flux is zero and the magnitude infinite. Proved for magnitudes (mags=True) and limits above 2.5."
  },
  {
   "property": "C298",
   "status": "partial",
   "theorems": [
    "C298_params_partial",
    "C298_separation_refuted",
    "C298_radians_partial"
   ],
   "note": "Finding: set_params computes moon_targ_sep from the moon azimuth before conversion from degrees. The points agree; the positions of sun and moon are arguments."
  },
  {
   "property": "C299",
   "status": "partial",
   "theorems": [
    "C299_spectra_refuted",
    "C299_unset",
    "C299_stale_refuted"
   ],
   "note": "Findings: on an object with mags=False return_mags after set_params raises AttributeError (it loops over self.ra); set_params without a valid point only warns and return_mags then returns what is left of the previous call, with its number of points."
  },
  {
   "property": "C300",
   "status": "partial",
   "theorems": [
    "C300_round_trip",
    "C300_back",
    "C300_unknown_refuted"
   ],
   "note": "Finding: an integer that is not in the table comes back as 0, like identifier 0."
  },
  {
   "property": "C301",
   "status": "partial",
   "theorems": [
    "C301_layout_partial",
    "C301_pixels_refuted",
    "C301_rms_partial",
    "C301_missing"
   ],
   "note": "Finding: simple_twi takes the offset of the constants from the largest pixel present in the data, so without data of the last pixel it reads another pixel's magnitude as constant. Rounding is not modelled."
  },
  {
   "property": "C302",
   "status": "proved",
   "theorems": [
    "C302_history",
    "C302_pixels",
    "C302_positions",
    "C302_interpolated",
    "C302_arguments",
    "C302_dustmap"
   ],
   "note": "Finding: the test whether a map was read looks for the attribute dustmap while dustMap is stored, so the file is read again at every call; the results are right for that reason."
  },
  {
   "property": "C303",
   "status": "partial",
   "theorems": [
    "C303_one_map_partial",
    "C303_first_map_stays",
    "C303_other_resolution",
    "C303_map_asked_refuted",
    "C303_twice_refuted"
   ],
   "note": "Finding: the test looks for the attribute map_file while mapFile is stored, so the first map read in a process is used ever after, whatever file or resolution later calls name; values of other maps are silently those of the first (C303_map_asked_refuted), and a call repeated may differ from itself (C303_twice_refuted). Proved: as long as one file is read."
  },
  {
   "property": "C304",
   "status": "proved",
   "theorems": [
    "C304_point",
    "C304_answers",
    "C304_map"
   ],
   "note": ""
  },
  {
   "property": "C305",
   "status": "partial",
   "theorems": [
    "C305_within",
    "C305_beyond",
    "C305_before",
    "C305_monotone",
    "C305_point_in_map_partial",
    "C305_point_in_map_refuted",
    "C305_run"
   ],
   "note": "Finding: for a single sight line the largest extinction, for a map the last one is used beyond the map, so the two differ where the dust does not increase. Proved equal where the last entry has the most dust."
  },
  {
   "property": "C306",
   "status": "proved",
   "theorems": [
    "C306_stars",
    "C306_same_resolution",
    "C306_trilegal"
   ],
   "note": ""
  },
  {
   "property": "C307",
   "status": "partial",
   "theorems": [
    "C307_names",
    "C307_names_differ",
    "C307_keys",
    "C307_values_partial",
    "C307_resolution",
    "C307_directory_ignored",
    "C307_retry",
    "C307_directory_refuted"
   ],
   "note": "Finding: GalacticPlanePriorityMap's map_path has no effect, because the maps of the default directory are read when the object is made and kept (likewise use_alt_maps after a first read). A read that fails leaves the maps unusable until the process ends: later calls raise AttributeError. Proved for one directory."
  },
  {
   "property": "C308",
   "status": "partial",
   "theorems": [
    "C308_which",
    "C308_keys",
    "C308_applied_partial",
    "C308_applied_refuted",
    "C308_stellar_map"
   ],
   "note": "Finding: maps are compared by their key names only, so of two maps with the same names but different settings (another nside, another directory, or the stellar density and TRILEGAL maps of one filter) only the first is run, and bundles that asked for the other silently get its values. Proved: for maps with different names, for position-only maps, whose keys are not shared; C308_which says which maps are run."
  },
  {
   "property": "C309",
   "status": "proved",
   "theorems": [
    "C309_error",
    "C309_tables",
    "C309_seeing",
    "C309_zero_point",
    "C309_more_stars"
   ],
   "note": ""
  },
  {
   "property": "C310",
   "status": "partial",
   "theorems": [
    "C310_quiet",
    "C310_below",
    "C310_best",
    "C310_more_visits",
    "C310_next_partial",
    "C310_faintest_refuted"
   ],
   "note": "Finding: the errors are one shorter than the magnitudes (the first bin is dropped in _comp_crowd_error) but are indexed alike, so the limit is one bin too bright: C310_faintest_refuted shows a fainter magnitude with an error below the limit. C310_next_partial is what holds."
  },
  {
   "property": "C311",
   "status": "partial",
   "theorems": [
    "C311_depth_partial",
    "C311_depth_refuted",
    "C311_count",
    "C311_more_visits",
    "C311_range"
   ],
   "note": "Finding: the magnitude limit multiplies by 1.09 where it should divide, so at that magnitude the error is 1.09 squared, about 1.19, times the one asked for (C311_depth_refuted). The crowding limit is one bin too bright as in C310."
  },
  {
   "property": "C312",
   "status": "proved",
   "theorems": [
    "C312_uncertainty",
    "C312_density",
    "C312_deeper",
    "C312_arguments"
   ],
   "note": "Finding: StarDensityMetric(rmagLimit=...), which the code handles with a deprecation warning, raises TypeError in the base class before (C312_arguments)."
  },
  {
   "property": "C313",
   "status": "partial",
   "theorems": [
    "C313_saturated",
    "C313_use",
    "C313_not_science",
    "C313_slice_refuted"
   ],
   "note": "Finding: metrics get arrays of visits from every slicer, for which UseMetric.run raises AttributeError (or ValueError with science_programs, except one row of another programme): C313_slice_refuted. It works on a single record only."
  },
  {
   "property": "C314",
   "status": "proved",
   "theorems": [
    "C314_precision",
    "C314_angle",
    "C314_more_visits",
    "C314_order",
    "C314_flat"
   ],
   "note": "Spectra other than flat are looked up with rubin_scheduler.utils.stellarMags, which is not part of this repository (the function here is maf.utils.stellar_mags); if that package has no such name the constructor raises AttributeError. Not judged."
  },
  {
   "property": "C315",
   "status": "partial",
   "theorems": [
    "C315_snr",
    "C315_too_far",
    "C315_between",
    "C315_beyond",
    "C315_types_partial",
    "C315_types_refuted",
    "C315_volume"
   ],
   "note": "Finding: the entry of L3 in bd_colors ends with a comma and is a tuple, so BDParallaxMetric(mags=bd_colors('L3')) raises TypeError (C315_types_refuted). Proved for all other types. At least two distances."
  },
  {
   "property": "C316",
   "status": "partial",
   "theorems": [
    "C316_cumulative",
    "C316_count",
    "C316_additive",
    "C316_dust",
    "C316_band",
    "C316_empty_refuted",
    "C316_zmax"
   ],
   "note": "Finding: a point without visits in the band raises ValueError instead of badval (C316_empty_refuted). The spline is only assumed to give the table at its nodes; the last redshift and magnitude of the table are not nodes, so they are not covered."
  },
  {
   "property": "C317",
   "status": "proved",
   "theorems": [
    "C317_best",
    "C317_range",
    "C317_stars",
    "C317_constant",
    "C317_monotone",
    "C317_order"
   ],
   "note": "The survival function of the F distribution is any function; that it is one below zero and decreasing is assumed where needed. C317_constant and C317_monotone are conditional on that."
  },
  {
   "property": "C318",
   "status": "partial",
   "theorems": [
    "C318_count",
    "C318_overlap_refuted",
    "C318_order",
    "C318_intervals_order",
    "C318_nonneg",
    "C318_mean",
    "C318_empty",
    "C318_unknown"
   ],
   "note": "Finding: a visit inside two overlapping windows is counted twice (C318_overlap_refuted); C318_count is proved for windows that do not overlap. Conversion of dates is outside of the model."
  },
  {
   "property": "C319",
   "status": "proved",
   "theorems": [
    "C319_blocks",
    "C319_inside",
    "C319_midnight"
   ],
   "note": ""
  },
  {
   "property": "C320",
   "status": "proved",
   "theorems": [
    "C320_altitude",
    "C320_azimuth",
    "C320_altonly",
    "C320_determined"
   ],
   "note": "Horizontal coordinates for all positions; calc_lmst of rubin_scheduler is an argument. At the zenith, the nadir and the poles the division by zero is not modelled (the theorem asks for a non-zero cosine)."
  },
  {
   "property": "C321",
   "status": "partial",
   "theorems": [
    "C321_galactic_refuted",
    "C321_galactic_partial",
    "C321_galactic_radians",
    "C321_ecliptic",
    "C321_sun",
    "C321_present",
    "C321_sdss"
   ],
   "note": "The Galactic stacker announces degrees by default but stores radians (refuted); with degrees=False it is right. The ecliptic stacker converts. astropy's conversions and Time are arguments; EclipticStacker calls Time(mjd) without a format, which astropy refuses for plain numbers, so subtract_sun_lon cannot work as written with current astropy - noted, not asserted."
  },
  {
   "property": "C322",
   "status": "partial",
   "theorems": [
    "C322_deep_partial",
    "C322_deep_refuted",
    "C322_area",
    "C322_every",
    "C322_all_sky_refuted",
    "C322_all_sky_partial"
   ],
   "note": "Refuted in part: the label column has 15 characters, so longer field names are cut and may coincide; a field of view without any pixel centre (large pixels) gives 0/0 and NULL even for a footprint of the whole sky. Proved for names up to 15 characters and a field of view with at least one pixel. The pixels of the field of view (healpy) are an argument."
  },
  {
   "property": "C323",
   "status": "partial",
   "theorems": [
    "C323_distance",
    "C323_deeper_refuted",
    "C323_deeper_partial",
    "C323_triangle",
    "C323_position",
    "C323_side",
    "C323_mirror_refuted",
    "C323_depth"
   ],
   "note": "Refuted in part: an asteroid visible at all trial distances is reported at distance 0, so a deeper visit may report less; the side of the sun depends only on whether the azimuth exceeds pi (radians) or 180, chosen by the smallest azimuth: with azimuths 0..360 degrees they are compared with pi, and the sun's azimuth plays no role. The distance, the triangle and the position relative to earth and sun are proved."
  },
  {
   "property": "C324",
   "status": "partial",
   "theorems": [
    "C324_deeper",
    "C324_unknown",
    "C324_columns_refuted",
    "C324_twilight_refuted",
    "C324_seeing_refuted"
   ],
   "note": "Never shallower is proved. Refuted: the depth column is missing from the required columns; the sun's altitude (degrees, like the declination) is compared with radians(-18), so twilight is treated as dark; the seeing term is a tenth of 2.5 log10 of airmass^0.6."
  },
  {
   "property": "C325",
   "status": "partial",
   "theorems": [
    "C325_standard",
    "C325_other",
    "C325_any_refuted",
    "C325_dust_dims",
    "C325_dust_partial",
    "C325_dust_grey",
    "C325_dust_refuted"
   ],
   "note": "Parameters proved; the comment that 'any' is the default for unknown bands is false (refuted). r_x E(B-V) is the extinction at E(B-V)=1 (reference 1) or for grey dust; beyond it overestimates, below it underestimates (proved by convexity); with another reference r_x is not per unit of E(B-V) (refuted). The grid of wavelengths is any list of (throughput, extinction); the setters, which always raise, are not modelled."
  },
  {
   "property": "C326",
   "status": "partial",
   "theorems": [
    "C326_bands",
    "C326_counts",
    "C326_airmass",
    "C326_hardware",
    "C326_stars",
    "C326_sequence",
    "C326_zy_refuted",
    "C326_types"
   ],
   "note": "All proved except that later types are redder in z-y (A to F is not; refuted)."
  },
  {
   "property": "C327",
   "status": "partial",
   "theorems": [
    "C327_count",
    "C327_masked",
    "C327_more",
    "C327_timescales",
    "C327_list_refuted"
   ],
   "note": "Proved, except: the thresholds for a plain list of timescales (not an array) are refuted as stated (a list is not divided by a number). The key of the priority map and the per-band priorities are read from the slice point."
  },
  {
   "property": "C328",
   "status": "partial",
   "theorems": [
    "C328_shares",
    "C328_value",
    "C328_bands_refuted",
    "C328_bands_partial"
   ],
   "note": "Shares and values proved for all inputs; the six reductions exist only for the bands listed (refuted for the others, proved for the listed ones)."
  },
  {
   "property": "C329",
   "status": "proved",
   "theorems": [
    "C329_decay",
    "C329_intervals",
    "C329_timescales",
    "C329_order"
   ],
   "note": "Proved for all inputs. The tau weights and reduce functions per timescale only pick entries."
  },
  {
   "property": "C330",
   "status": "partial",
   "theorems": [
    "C330_gaps",
    "C330_limit_refuted",
    "C330_visits_refuted",
    "C330_visits_partial",
    "C330_map_refuted"
   ],
   "note": "Refuted: the magnitude limit is never used; the times of the shared visits are sorted in place without their other columns, so that metrics that run later on the same point see wrong times; the priority map is not asked for (KeyError when no other metric asks). Proved: the value's bounds and when it is 1; visits in order of time are left alone. calc_season is any function of time; find_season_edges is simplified to neighbours in different seasons."
  },
  {
   "property": "C331",
   "status": "partial",
   "theorems": [
    "C331_bounds",
    "C331_pairs",
    "C331_order_partial",
    "C331_order_refuted",
    "C331_all_gaps",
    "C331_weight_refuted"
   ],
   "note": "Bounds, pairs and all gaps against neighbours proved. Refuted: given weights are not stored (AttributeError); with several bands the first visit's dust is used for all, so the order matters (proved for one band or without dust). The rounding of the gaps to float16, which turns gaps above 65504 days infinite and merges close ones, is not modelled."
  },
  {
   "property": "C332",
   "status": "partial",
   "theorems": [
    "C332_formula",
    "C332_order",
    "C332_masked",
    "C332_seasons",
    "C332_number_refuted"
   ],
   "note": "Refuted: a season of one night with enough bands gives a total that is not a number. Formula, order, masking and seasons proved; visits but nothing deep gives a masked value while no visits give 0. collapse_night is not part of the model: its output is the input here; a mjd column of another name is not modelled (the name is fixed in one place)."
  },
  {
   "property": "C333",
   "status": "partial",
   "theorems": [
    "C333_columns_refuted",
    "C333_last_refuted",
    "C333_one_day_refuted",
    "C333_cadence_partial"
   ],
   "note": "Refuted: the visits' column \"filter\" is read but \"band\" is asked for, so with the requested columns every call fails; the last day's visits are never counted and visits within one day give 0. Proved: with that column present, cadence times the visits before the last day is the number of days before it. ra and dec are read but not asked for and lim_sn defaults to None; the look-up in lim_sn is not modelled."
  },
  {
   "property": "C334",
   "status": "partial",
   "theorems": [
    "C334_value",
    "C334_errors",
    "C334_baseline",
    "C334_better",
    "C334_better_refuted",
    "C334_zero_refuted",
    "C334_units",
    "C334_transposed",
    "C334_again",
    "C334_list"
   ],
   "note": "Refuted for a negative baseline (the larger value is shown as worse) and for a baseline value of zero (the metric is lost, the baseline itself is not 1). Everything else proved, for lists of runs the baseline is the median of the values present. Infinite values in the input and rounding are not modelled; metrics repeated in a table with subsets are outside the model's faithfulness (pandas alignment)."
  },
  {
   "property": "C335",
   "status": "partial",
   "theorems": [
    "C335_errors",
    "C335_value",
    "C335_plain",
    "C335_reverse_refuted"
   ],
   "note": "Refuted: reversing a column that is not in magnitudes has no effect at all, so smaller values are not shown as better. Agreement proved otherwise; a column is inverted and reversed at most once and not both."
  },
  {
   "property": "C336",
   "status": "partial",
   "theorems": [
    "C336_values",
    "C336_choice",
    "C336_errors",
    "C336_once_refuted"
   ],
   "note": "Refuted: in the default order a run of two of the families asked for is returned twice. Reading the file (csv or hdf) is not modelled."
  },
  {
   "property": "C337",
   "status": "partial",
   "theorems": [
    "C337_families",
    "C337_runs",
    "C337_once_partial",
    "C337_once_refuted",
    "C337_lost_refuted"
   ],
   "note": "Refuted: a run described differently in two families has two rows in get_runs, each with a single description (documented as one row with a list), and a run without an address is not there at all. Order of the rows of get_runs not modelled."
  },
  {
   "property": "C338",
   "status": "partial",
   "theorems": [
    "C338_name",
    "C338_table",
    "C338_missing",
    "C338_distinct_refuted",
    "C338_lost_refuted"
   ],
   "note": "Refuted: statistics of different metrics may get the same name, and one of them is lost; a directory without a database only causes a warning and then stops the whole call, leaving a new empty file. Order of rows and columns and databases without statistics not modelled."
  },
  {
   "property": "C339",
   "status": "proved",
   "theorems": [
    "C339_files",
    "C339_again"
   ],
   "note": "The documented return value (a table of the runs) is not what is returned (their file names); proved of what is returned. Two runs with one path, and absolute paths that leave the directory, are covered. Failures of the network and of creating directories are not modelled."
  },
  {
   "property": "C340",
   "status": "partial",
   "theorems": [
    "C340_lines",
    "C340_table_partial",
    "C340_single_refuted"
   ],
   "note": "Refuted for the table by family: a family of a single run counts as many lines as its name has characters. Proved for families of two runs or more and for the table of descriptions."
  },
  {
   "property": "C341",
   "status": "proved",
   "theorems": [
    "C341_read",
    "C341_within",
    "C341_brightness",
    "C341_dust",
    "C341_distance",
    "C341_outside"
   ],
   "note": "Rounding, infinities and NaN not modelled; distances are positive; reading the files is not modelled."
  },
  {
   "property": "C342",
   "status": "partial",
   "theorems": [
    "C342_counts",
    "C342_more",
    "C342_deeper",
    "C342_total",
    "C342_zero_refuted",
    "C342_order"
   ],
   "note": "Refuted for a threshold of 0 detections: a slice without detections is then an error. Everything else proved."
  },
  {
   "property": "C343",
   "status": "partial",
   "theorems": [
    "C343_meaning",
    "C343_bands",
    "C343_more_refuted"
   ],
   "note": "Refuted: one more visit may undo a selection (a fainter point whose error is larger takes the place of the first). The default thresholds are built in."
  },
  {
   "property": "C344",
   "status": "partial",
   "theorems": [
    "C344_says",
    "C344_listed",
    "C344_all",
    "C344_once_refuted",
    "C344_other_refuted"
   ],
   "note": "Refuted: a file that fits two of the sets is listed twice, and a file of another kind makes every request a KeyError. Number parsing is an arbitrary function."
  },
  {
   "property": "C345",
   "status": "partial",
   "theorems": [
    "C345_meaning",
    "C345_points_refuted",
    "C345_ten_days_refuted",
    "C345_stricter_refuted"
   ],
   "note": "Documented otherwise, and refuted: pts_needed detections are not enough before the peak (strictly more are asked for); the three bands are asked for within 5 days of the peak, not 10; an event can have some_color_pu without some_color."
  },
  {
   "property": "C346",
   "status": "partial",
   "theorems": [
    "C346_score",
    "C346_one_partial",
    "C346_scale_refuted",
    "C346_empty_range"
   ],
   "note": "Refuted: one detection every other night scores a half, not 1 as documented. Proved: the score is the number of detections per day. A window of length 0 is a ZeroDivisionError."
  },
  {
   "property": "C347",
   "status": "proved",
   "theorems": [
    "C347_peak",
    "C347_rise",
    "C347_brightest",
    "C347_peak_inside"
   ],
   "note": "Exact real arithmetic; the magnitude at the very start is infinite. Times outside the outburst are magnitude 99."
  },
  {
   "property": "C348",
   "status": "proved",
   "theorems": [
    "C348_range"
   ],
   "note": "The grid of 10000 times is a parameter: any increasing list of times."
  },
  {
   "property": "C349",
   "status": "partial",
   "theorems": [
    "C349_answers",
    "C349_times_ignored",
    "C349_reported",
    "C349_possible_refuted"
   ],
   "note": "Refuted: an outburst may be detected (and early) though possible_to_detect is false, because the visits are deeper than the assumed depths, or see it between the times of the grid; its mean time between detections is then NaN and not the bad value. The times of the detections have no influence on the mean time between them, only their number."
  },
  {
   "property": "C350",
   "status": "partial",
   "theorems": [
    "C350_distance",
    "C350_volume_refuted",
    "C350_files",
    "C350_found",
    "C350_missing_refuted",
    "C350_time"
   ],
   "note": "Refuted: the events are not in proportion to the volume (the exponent is that of a density growing with the distance); with fewer files than announced (308 by default) some events have no light curve and the metric stops with an IndexError. The random number generator is not modelled."
  },
  {
   "property": "C351",
   "status": "partial",
   "theorems": [
    "C351_same",
    "C351_different",
    "C351_symmetric",
    "C351_nearest_same",
    "C351_nearest_different",
    "C351_missing_band_refuted",
    "C351_bins",
    "C351_merit",
    "C351_sum",
    "C351_order",
    "C351_swap",
    "C351_infinite_refuted",
    "C351_more_refuted"
   ],
   "note": "Refuted: with only nearest gaps, a field with visits in one band of a pair and none in the other is a ValueError; equal numbers in all bins, after clipping, make the figure infinite; more gaps can make it smaller. Infinite sums are one value in the model. Repeated values in the gaps to the nearest visits are characterised as a set."
  },
  {
   "property": "C352",
   "status": "partial",
   "theorems": [
    "C352_meaning",
    "C352_more",
    "C352_three_refuted",
    "C352_all_different"
   ],
   "note": "Refuted: three detections in three bands, which give two colours, are never a detection. The rest of the metric (score and lookup table) is not modelled."
  },
  {
   "property": "C353",
   "status": "partial",
   "theorems": [
    "C353_by_name",
    "C353_by_order",
    "C353_database_order",
    "C353_group",
    "C353_subgroup",
    "C353_groups",
    "C353_texts",
    "C353_statistics",
    "C353_plot_type",
    "C353_unique",
    "C353_names_and_labels",
    "C353_names_order_refuted"
   ],
   "note": "Refuted for the list of metric names, which is sorted although the documentation says it preserves the order of the metrics."
  },
  {
   "property": "C354",
   "status": "partial",
   "theorems": [
    "C354_select_partial",
    "C354_select_refuted",
    "C354_data_file",
    "C354_json_refuted",
    "C354_json_fails",
    "C354_titles_refuted",
    "C354_titles",
    "C354_caption"
   ],
   "note": "Proved for group and subgroup names without an underscore (a plus in a subgroup is not sent as such). Refuted otherwise: the box of the group 'A_B' shows the metrics of the group 'A'. JSON can never be fetched: output_json is called with an argument simDataName that it does not have, and the result would be read with a method that does not exist. The title of the label is 'InfoL abel' for a metric and 'Info Label' for a blank."
  },
  {
   "property": "C355",
   "status": "proved",
   "theorems": [
    "C355_names",
    "C355_all_names",
    "C355_order",
    "C355_values",
    "C355_of_metric"
   ],
   "note": ""
  },
  {
   "property": "C356",
   "status": "proved",
   "theorems": [
    "C356_types",
    "C356_files",
    "C356_sky_maps"
   ],
   "note": ""
  },
  {
   "property": "C357",
   "status": "partial",
   "theorems": [
    "C357_rows",
    "C357_grid",
    "C357_display_order",
    "C357_all_shown",
    "C357_once_refuted"
   ],
   "note": "Refuted for 'shown once': a file whose name has the marks of two bands, as _u_g_, is shown twice."
  },
  {
   "property": "C358",
   "status": "proved",
   "theorems": [
    "C358_labels",
    "C358_constraints",
    "C358_bands",
    "C358_one_band",
    "C358_labels_differ"
   ],
   "note": ""
  },
  {
   "property": "C359",
   "status": "partial",
   "theorems": [
    "C359_replaced",
    "C359_kept",
    "C359_dropped_partial",
    "C359_dropped_refuted",
    "C359_distinct_refuted",
    "C359_fractions"
   ],
   "note": "Refuted for an empty new name: rstrip removes any of the letters of the column, so 'Rms airmass' becomes 'R', and two metrics may get the same name. Proved when the last letter before the blank is not a letter of the column."
  },
  {
   "property": "C360",
   "status": "partial",
   "theorems": [
    "C360_page_refuted",
    "C360_start_refuted",
    "C360_list"
   ],
   "note": "Proved when each change of the database changes its time stamp and none happens while it is read. Refuted otherwise: within the resolution of the stamp, and when the file changes during the first reading, in which case the old list is kept under the new stamp."
  },
  {
   "property": "C361",
   "status": "proved",
   "theorems": [
    "C361_point_lens",
    "C361_symmetric",
    "C361_brighter",
    "C361_blend"
   ],
   "note": ""
  },
  {
   "property": "C362",
   "status": "partial",
   "theorems": [
    "C362_derivatives",
    "C362_fluxes",
    "C362_peak",
    "C362_order_refuted"
   ],
   "note": "Refuted for the order: the first is the derivative by the peak time and the third that by the crossing time, although the comment in fisher_matrix says the reverse."
  },
  {
   "property": "C363",
   "status": "partial",
   "theorems": [
    "C363_maximum",
    "C363_size",
    "C363_monotone",
    "C363_scales",
    "C363_constant_snr_refuted"
   ],
   "note": "Proved for a constant error of the flux. Refuted for a constant signal to noise ratio, which the documentation mentions: the relative change is larger a little earlier."
  },
  {
   "property": "C364",
   "status": "partial",
   "theorems": [
    "C364_detected",
    "C364_more",
    "C364_order",
    "C364_one_per_band",
    "C364_all_pairs",
    "C364_errors",
    "C364_depth_refuted",
    "C364_missed_refuted"
   ],
   "note": "Refuted: not points above the depth are counted but pairs of visits of the same band whose magnitudes differ by more than detect_sigma of their errors, so that n visits may count as n (n - 1) / 2 and one visit per band never counts. This is proved instead, for detect_sigma not negative. With both sides and 'optimal' there is a TypeError."
  },
  {
   "property": "C365",
   "status": "partial",
   "theorems": [
    "C365_counts",
    "C365_two_crossing_times_refuted",
    "C365_peak_refuted"
   ],
   "note": "Refuted: visits later than one crossing time are not counted, nor is one exactly at the peak. Proved with these changes."
  },
  {
   "property": "C366",
   "status": "partial",
   "theorems": [
    "C366_symmetric",
    "C366_nonnegative",
    "C366_information",
    "C366_no_fluxes",
    "C366_fluxes_refuted",
    "C366_other_bands",
    "C366_result",
    "C366_crossing_time_refuted",
    "C366_bands"
   ],
   "note": "Refuted in three ways: the rows and columns of the fluxes are zero, since they are assigned to temporary arrays; only the visits of the band that is last in the alphabet are used, for each band anew; and the variance used is that of the peak time. This is proved instead, the result for visits of one band and for any function that inverts."
  },
  {
   "property": "C367",
   "status": "partial",
   "theorems": [
    "C367_mean_brighter",
    "C367_own_fainter",
    "C367_own_refuted",
    "C367_kept",
    "C367_overwrites",
    "C367_blending_factors_ignored"
   ],
   "note": "Proved for mean magnitudes. Refuted for events with magnitudes of their own: the logarithm is taken twice, so that they are faintest at the peak as long as they are fainter than magnitude 0. Their magnitudes stay in the dictionary of mean magnitudes for later events. A blending factor under the documented name blending_factors is ignored."
  },
  {
   "property": "C368",
   "status": "proved",
   "theorems": [
    "C368_criteria"
   ],
   "note": ""
  },
  {
   "property": "C369",
   "status": "partial",
   "theorems": [
    "C369_never_more_partial",
    "C369_later_partial",
    "C369_last_refuted",
    "C369_restricts"
   ],
   "note": "Refuted: the last detection of a transient never counts towards the bands, since the end of the interval is limited to the number of detections less one, and is excluded; two detections in two bands within the limit are not enough. Proved: the limit never adds a transient; with one phase not more are counted than documented, and for visits at different times exactly those whose bands are had within the limit by detections that are followed by another one. With more phases the epochs of a transient are not in order where they are searched."
  },
  {
   "property": "C370",
   "status": "partial",
   "theorems": [
    "C370_given",
    "C370_first_partial",
    "C370_alone_refuted"
   ],
   "note": "Refuted when no survey_start is given: the first visit of the first slice is kept for all later slices. Proved with a survey_start given, and otherwise that all slices are evaluated with the start of the first one."
  },
  {
   "property": "C371",
   "status": "partial",
   "theorems": [
    "C371_possible_partial",
    "C371_bound_refuted",
    "C371_fraction_refuted"
   ],
   "note": "Refuted: the value is the number of transients, not a fraction as the documentation of run says; and when the last visit is at the end of a survey of a whole number of light curves there is one more than possible for each phase. Proved: the bound for visits before the end of the survey, and with one more per phase otherwise."
  },
  {
   "property": "C372",
   "status": "partial",
   "theorems": [
    "C372_deeper_partial"
   ],
   "note": "Proved without a limit of time on the bands, and with a limit for one phase and visits at different times."
  },
  {
   "property": "C373",
   "status": "partial",
   "theorems": [
    "C373_flags",
    "C373_zero_partial",
    "C373_place_refuted",
    "C373_zero_refuted"
   ],
   "note": "Proved for the order of the flags. Refuted for the places, when a transient has no visits, and for the start from 0, when there is more than one phase; with one phase the ids are counted from the transient of the first visit."
  },
  {
   "property": "C374",
   "status": "partial",
   "theorems": [
    "C374_covered",
    "C374_left_out_refuted"
   ],
   "note": "Refuted: a visit in a band without a threshold raises a KeyError. Proved: this is exactly when a slice with visits raises."
  },
  {
   "property": "C375",
   "status": "partial",
   "theorems": [
    "C375_order_partial",
    "C375_sorted_refuted"
   ],
   "note": "Refuted: the place in the order of bands is used as a place in the list so far, so that y before z stays, and of two bundles in u one ends up after g. Proved: no bundle is lost; bundles given in the order of the bands, one per band, keep it, as do bundles whose names have no band."
  },
  {
   "property": "C376",
   "status": "partial",
   "theorems": [
    "C376_resolution_partial",
    "C376_label_refuted"
   ],
   "note": "Refuted for the labels of the axes: those generated replace what was set in the handler before. Proved for all keys that need not agree; for the labels of axes with the two sources exchanged. A list of dictionaries that is too short raises."
  },
  {
   "property": "C377",
   "status": "partial",
   "theorems": [
    "C377_agree_partial",
    "C377_pair_refuted",
    "C377_colour_refuted",
    "C377_again_refuted"
   ],
   "note": "Proved: agreement in one subplot; numbers and texts that agree are kept; different titles are replaced by the generated one. Refuted: the limits of an axis, a pair, are lost even for a single bundle; different limits of colours become None since keys are compared with the endings Max and Min that they do not have; after this the handler raises when used again."
  },
  {
   "property": "C378",
   "status": "partial",
   "theorems": [
    "C378_bands",
    "C378_restricted_refuted"
   ],
   "note": "Proved for one description and for bands. Refuted: a bundle whose description restricts that of another by a further phrase makes the handler raise an IndexError."
  },
  {
   "property": "C379",
   "status": "partial",
   "theorems": [
    "C379_bands_partial",
    "C379_order_refuted"
   ],
   "note": "Proved for names with the same number of words, each of which is shared or a band. Refuted otherwise: words that differ are joined in the order of a set."
  },
  {
   "property": "C380",
   "status": "partial",
   "theorems": [
    "C380_distinct_partial",
    "C380_space_refuted"
   ],
   "note": "Refuted: parts are joined by spaces and may have spaces. Proved when runs and descriptions have none, or when only one of the three varies."
  },
  {
   "property": "C381",
   "status": "proved",
   "theorems": [
    "C381_title"
   ],
   "note": ""
  },
  {
   "property": "C382",
   "status": "partial",
   "theorems": [
    "C382_bands_partial",
    "C382_quotes_refuted"
   ],
   "note": "Proved for constraints with the band in double quotes. Refuted for single quotes: the colours are random."
  },
  {
   "property": "C383",
   "status": "partial",
   "theorems": [
    "C383_place_partial",
    "C383_after_refuted"
   ],
   "note": "Refuted: orders 3 and 4 give 4, 4 and 3 give 5. Proved: not before any bundle, at most one after the last."
  },
  {
   "property": "C384",
   "status": "proved",
   "theorems": [
    "C384_drawn"
   ],
   "note": ""
  },
  {
   "property": "C385",
   "status": "proved",
   "theorems": [
    "C385_sine",
    "C385_bounds",
    "C385_periodic",
    "C385_two_bands"
   ],
   "note": ""
  },
  {
   "property": "C386",
   "status": "proved",
   "theorems": [
    "C386_share",
    "C386_range"
   ],
   "note": ""
  },
  {
   "property": "C387",
   "status": "proved",
   "theorems": [
    "C387_few",
    "C387_only"
   ],
   "note": ""
  },
  {
   "property": "C388",
   "status": "proved",
   "theorems": [
    "C388_unseen"
   ],
   "note": ""
  },
  {
   "property": "C389",
   "status": "proved",
   "theorems": [
    "C389_tolerances"
   ],
   "note": ""
  },
  {
   "property": "C390",
   "status": "partial",
   "theorems": [
    "C390_total",
    "C390_default_refuted",
    "C390_band"
   ],
   "note": "Proved with a slice point. Refuted for the default of run, slice_point=None, which raises AttributeError for any slice with enough visits."
  },
  {
   "property": "C391",
   "status": "proved",
   "theorems": [
    "C391_exact",
    "C391_failed"
   ],
   "note": ""
  },
  {
   "property": "C392",
   "status": "partial",
   "theorems": [
    "C392_long",
    "C392_names_refuted"
   ],
   "note": "Refuted: such visits are fitted as those of the band, since only the first letter is kept, but the band is then treated as one without visits, and the value is 0."
  },
  {
   "property": "C393",
   "status": "proved",
   "theorems": [
    "C393_distance",
    "C393_start"
   ],
   "note": ""
  },
  {
   "property": "C394",
   "status": "proved",
   "theorems": [
    "C394_positive",
    "C394_fainter",
    "C394_depth"
   ],
   "note": ""
  },
  {
   "property": "C395",
   "status": "partial",
   "theorems": [
    "C395_zero",
    "C395_share_refuted",
    "C395_few"
   ],
   "note": "Refuted: the number of parameters is compared with np.size of the light curve object, which is 1, so that every fit is replaced by infinities. Proved: for all visits, random numbers and fits the value is 0 if the visits span at least one interval, and NaN (0/0) if not."
  },
  {
   "property": "C396",
   "status": "partial",
   "theorems": [
    "C396_subruns_partial",
    "C396_border_refuted",
    "C396_tail_refuted"
   ],
   "note": "Refuted: a visit at the border of two subruns is in both, and visits after the last whole interval are in none. Proved: each other visit is in exactly one."
  },
  {
   "property": "C397",
   "status": "partial",
   "theorems": [
    "C397_match",
    "C397_unique",
    "C397_none_refuted"
   ],
   "note": "Proved if there are stars and solutions. Refuted if no star has a solution: the maximum of an empty array raises ValueError."
  },
  {
   "property": "C398",
   "status": "proved",
   "theorems": [
    "C398_zeropoint",
    "C398_residuals",
    "C398_pixels"
   ],
   "note": ""
  },
  {
   "property": "C399",
   "status": "proved",
   "theorems": [
    "C399_scatter",
    "C399_scaling"
   ],
   "note": ""
  },
  {
   "property": "C400",
   "status": "partial",
   "theorems": [
    "C400_full",
    "C400_high_partial",
    "C400_high_refuted"
   ],
   "note": "Proved for all pixels. Refuted for high latitude: the number of outliers there is divided by the number of all pixels, so that the value is too low whenever there are outliers and pixels at low latitude. Proved: it is the share among all pixels."
  },
  {
   "property": "C401",
   "status": "partial",
   "theorems": [
    "C401_needed",
    "C401_declared_refuted"
   ],
   "note": "Refuted: observationid, fieldra and fielddec are asked for, observationId, fieldRA and fieldDec are read, and a column of numpy is found by its exact name. Proved: which columns are needed."
  },
  {
   "property": "C402",
   "status": "partial",
   "theorems": [
    "C402_footprint",
    "C402_badval_refuted"
   ],
   "note": "Proved for the default bad value. Refuted for any other: the footprint metric keeps its own bad value -666, to which the given one is compared, so that galaxies are counted everywhere."
  },
  {
   "property": "C403",
   "status": "partial",
   "theorems": [
    "C403_reach_partial",
    "C403_map_partial"
   ],
   "note": "Proved for the two-dimensional dust map (use_2D_extinction) if every band has visits. For the default three-dimensional map proved that the distance is the smallest of those the map gives for the dimming to the limit in each band; missing: the map gives the nearest of its distances (C305)."
  },
  {
   "property": "C404",
   "status": "proved",
   "theorems": [
    "C404_visits",
    "C404_bands",
    "C404_map"
   ],
   "note": "Proved for both dust maps; for the three-dimensional one with growing distances and dust that does not decrease."
  },
  {
   "property": "C405",
   "status": "partial",
   "theorems": [
    "C405_missing",
    "C405_limit",
    "C405_map_partial",
    "C405_map_refuted"
   ],
   "note": "Proved for the two-dimensional dust map, and the latitude for both. Refuted for the default three-dimensional map: a band without visits gives the first distance of the map, which is positive, so that stars are counted; proved that this is the value."
  },
  {
   "property": "C406",
   "status": "proved",
   "theorems": [
    "C406_positive",
    "C406_latitude",
    "C406_symmetric",
    "C406_number"
   ],
   "note": "The numerical integral is an argument of the model."
  },
  {
   "property": "C407",
   "status": "partial",
   "theorems": [
    "C407_plane_partial",
    "C407_off_plane_partial",
    "C407_refuted"
   ],
   "note": "Proved in the galactic plane, and off the plane for the height. Refuted off the plane: the distance from the axis leaves out the cosine of the latitude, so that stars above the Sun towards the center are counted as nearer to it and too numerous."
  },
  {
   "property": "C408",
   "status": "partial",
   "theorems": [
    "C408_refuted",
    "C408_function_refuted"
   ],
   "note": "Refuted: the import binds the module starcount, not the function, so that every run raises TypeError (or IndexError); the function raises AttributeError, as eq_gal3 uses a unit that astropy does not have. What it would count is C413."
  },
  {
   "property": "C409",
   "status": "partial",
   "theorems": [
    "C409_refuted"
   ],
   "note": "Refuted: the function given to the solver returns nothing, so that every run with a known band raises TypeError."
  },
  {
   "property": "C410",
   "status": "proved",
   "theorems": [
    "C410_shells",
    "C410_total"
   ],
   "note": ""
  },
  {
   "property": "C411",
   "status": "partial",
   "theorems": [
    "C411_place",
    "C411_angle_refuted"
   ],
   "note": "Proved for the distance and the height. Refuted for the angle: it is taken at the Sun, not at the center (and is not used)."
  },
  {
   "property": "C412",
   "status": "proved",
   "theorems": [
    "C412_positive",
    "C412_falls",
    "C412_local",
    "C412_scales"
   ],
   "note": ""
  },
  {
   "property": "C413",
   "status": "proved",
   "theorems": [
    "C413_bounds"
   ],
   "note": "The galactic coordinates are an argument, as eq_gal3 raises (C408)."
  },
  {
   "property": "C414",
   "status": "proved",
   "theorems": [
    "C414_integral",
    "C414_shares",
    "C414_positive"
   ],
   "note": ""
  },
  {
   "property": "C415",
   "status": "proved",
   "theorems": [
    "C415_floor",
    "C415_fainter",
    "C415_depth",
    "C415_total"
   ],
   "note": ""
  },
  {
   "property": "C416",
   "status": "proved",
   "theorems": [
    "C416_modulus"
   ],
   "note": ""
  },
  {
   "property": "C417",
   "status": "proved",
   "theorems": [
    "C417_unmasked",
    "C417_filled"
   ],
   "note": ""
  },
  {
   "property": "C418",
   "status": "partial",
   "theorems": [
    "C418_refuted"
   ],
   "note": "Refuted: without a mask the places of the values to show are those of a single true value, so that the first bin only is drawn."
  },
  {
   "property": "C419",
   "status": "partial",
   "theorems": [
    "C419_given",
    "C419_clip",
    "C419_zero_refuted",
    "C419_zero_partial"
   ],
   "note": "Proved for given limits and percentiles. Refuted for 0: masked bins count as their fill value, so that with values of 0 and a masked bin the axis does not start at 0. Proved if nothing is masked and no value is negative."
  },
  {
   "property": "C420",
   "status": "partial",
   "theorems": [
    "C420_inputs",
    "C420_colour_refuted"
   ],
   "note": "Proved for other slicers. Refuted for the options: the colour has no default, and without it the plot raises KeyError."
  },
  {
   "property": "C421",
   "status": "partial",
   "theorems": [
    "C421_refuted",
    "C421_inputs"
   ],
   "note": "Proved for other slicers and missing axes. Refuted otherwise: both plots read the attribute nD, which an NDSlicer does not have (it is n_d), and raise AttributeError for all values."
  },
  {
   "property": "C422",
   "status": "partial",
   "theorems": [
    "C422_bar",
    "C422_all_below",
    "C422_total_partial",
    "C422_largest_refuted",
    "C422_masked_refuted"
   ],
   "note": "Proved for each number of visits below the largest, and the heights add up to all visits but those of the largest groups. Refuted for the largest number: the last edge of the bins is half a visit below it, so that these visits are never shown. Refuted for masked values, which are counted."
  },
  {
   "property": "C423",
   "status": "partial",
   "theorems": [
    "C423_unchanged_partial",
    "C423_masked_partial",
    "C423_refuted",
    "C423_nomask_refuted"
   ],
   "note": "Proved without color_min. Refuted with it: the values below are masked in the array of the metric bundle, which changes later statistics; proved that exactly these are masked. An array without a mask raises TypeError."
  },
  {
   "property": "C424",
   "status": "partial",
   "theorems": [
    "C424_user",
    "C424_kind",
    "C424_again_refuted"
   ],
   "note": "Proved for the label of the user and for Healpix and User slicers. Refuted for others: the label is written to the defaults of the plotter and is kept for the next plot."
  },
  {
   "property": "C425",
   "status": "proved",
   "theorems": [
    "C425_curve",
    "C425_points"
   ],
   "note": ""
  },
  {
   "property": "C426",
   "status": "partial",
   "theorems": [
    "C426_width_refuted",
    "C426_value_refuted"
   ],
   "note": "Refuted: the options hwidth and hval are read, while the defaults are called Hwidth and h_val; without them each call raises KeyError. C426_case is the same call with both options, which works."
  },
  {
   "property": "C427",
   "status": "partial",
   "theorems": [
    "C427_cloned",
    "C427_median",
    "C427_own_refuted"
   ],
   "note": "Proved for cloned H and for the median. Refuted if each object has its own H and one is asked for: the option read is hvals, KeyError."
  },
  {
   "property": "C428",
   "status": "partial",
   "theorems": [
    "C428_all",
    "C428_values",
    "C428_own_refuted",
    "C428_value_refuted"
   ],
   "note": "Proved if there is a value for each object. Refuted if each object has its own H: the values of the objects chosen are looked up by the places of all objects, so that the plot raises IndexError, and the bins before that show values of other objects."
  },
  {
   "property": "C429",
   "status": "partial",
   "theorems": [
    "C429_cloned_partial",
    "C429_background_refuted",
    "C429_own_refuted"
   ],
   "note": "Proved for cloned H with the foreground points. Refuted without these (the colorbar is missing) and if each object has its own H and not all are chosen (sizes differ)."
  },
  {
   "property": "C430",
   "status": "partial",
   "theorems": [
    "C430_bins_partial",
    "C430_close_refuted"
   ],
   "note": "Proved if the H span a magnitude or more (masked values take part with the bad value, as the theorem says). Refuted for H within a magnitude: the bins then end half a magnitude above the smallest H, and all objects beyond are shown at the last point."
  },
  {
   "property": "C431",
   "status": "partial",
   "theorems": [
    "C431_color_refuted",
    "C431_user_refuted",
    "C431_given_partial"
   ],
   "note": "Proved if both options are given. Refuted: linestyle is written to the dictionary of the user, and color has no default, KeyError."
  },
  {
   "property": "C432",
   "status": "partial",
   "theorems": [
    "C432_heights",
    "C432_line",
    "C432_bins_refuted",
    "C432_empty"
   ],
   "note": "Proved for given bins. Refuted for the default: bins is None, TypeError."
  }
 ]
}