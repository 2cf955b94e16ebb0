{"id": "C01", "title": "Every requested metric bundle is scheduled for calculation", "statement": "Running a MetricBundleGroup places every bundle whose constraint is the current one in at least one of the groups of bundles that are calculated together, places no other bundle in any group, and the constraints the group runs through are exactly the constraints of its bundles, each once. So run_all leaves no bundle without a calculation attempt.", "quantifier": "every dictionary of bundles (any number, any constraints, slicers, stackers) and every compatibility relation between them", "why_tests_cant": "A test covers a few bundles; the grouping loop depends on the order and pairwise relation of arbitrarily many bundles.", "anchors": ["rubin_sim/maf/metric_bundles/metric_bundle_group.py::MetricBundleGroup._find_compatible_lists", "rubin_sim/maf/metric_bundles/metric_bundle_group.py::MetricBundleGroup.set_current", "rubin_sim/maf/metric_bundles/metric_bundle_group.py::MetricBundleGroup.run_all"]}
{"id": "C02", "title": "Bundles calculated together are mutually compatible", "statement": "Any two bundles that MetricBundleGroup calculates together (same data, same stackers run, one shared slicer) have the same constraint, equal slicers, and no two stackers of the same class with different settings.", "quantifier": "every dictionary of bundles in every insertion order", "why_tests_cant": "The failure needs a particular three-bundle pattern and insertion order; tests only sample a few.", "anchors": ["rubin_sim/maf/metric_bundles/metric_bundle_group.py::MetricBundleGroup._find_compatible_lists", "rubin_sim/maf/metric_bundles/metric_bundle_group.py::MetricBundleGroup._check_compatible"]}
{"id": "C03", "title": "Each bundle is calculated exactly once", "statement": "One run of a MetricBundleGroup calculates each bundle in exactly one group, so metric values are computed and written once per bundle.", "quantifier": "every dictionary of bundles in every insertion order", "why_tests_cant": "Double calculation only shows for bundle families in which compatibility is not transitive; it has no effect on the returned values that a unit test would look at.", "anchors": ["rubin_sim/maf/metric_bundles/metric_bundle_group.py::MetricBundleGroup._find_compatible_lists", "rubin_sim/maf/metric_bundles/metric_bundle_group.py::MetricBundleGroup.run_current"]}
{"id": "C04", "title": "Bundles that need different maps are not merged", "statement": "Two bundles are treated as compatible only if they apply the same set of maps to their slice points (documented meaning of compatible).", "quantifier": "every pair of bundles", "why_tests_cant": "A test that uses the same maps, or no maps, on both bundles cannot see the comparison never being made.", "anchors": ["rubin_sim/maf/metric_bundles/metric_bundle_group.py::MetricBundleGroup._check_compatible"]}
{"id": "C05", "title": "The slice cache does not change metric results", "statement": "For a metric whose value depends only on the set of visits in a slice, the metric values calculated with any slicer cache size are the same, at every slice point, as those calculated with the cache off.", "quantifier": "every sequence of slices, every cache size, every metric and value type", "why_tests_cant": "Hits, refreshes and evictions interleave in ways that depend on the whole sequence of slices and on the cache size.", "anchors": ["rubin_sim/maf/metric_bundles/metric_bundle_group.py::MetricBundleGroup._run_compatible"]}
{"id": "C06", "title": "The slice cache stays within its configured size", "statement": "After any prefix of a run the slice cache holds at most cache_size entries, no slice key twice, and every entry points to a slice that was really calculated from that same set of visits.", "quantifier": "every sequence of slices and every cache size", "why_tests_cant": "An invariant over every prefix of every run, not an output.", "anchors": ["rubin_sim/maf/metric_bundles/metric_bundle_group.py::MetricBundleGroup._run_compatible"]}
{"id": "C07", "title": "Masking of metric values", "statement": "After a run, the value of a bundle at a slice point is masked exactly when the slice held no visits or the stored value equals the metric's bad value; an unmasked value is what the metric returned for that slice.", "quantifier": "every sequence of slices, every metric, every bad value", "why_tests_cant": "Needs the combination of empty slices, bad values and the initial contents of the array for arbitrary slicers.", "anchors": ["rubin_sim/maf/metric_bundles/metric_bundle_group.py::MetricBundleGroup._run_compatible", "rubin_sim/maf/metric_bundles/metric_bundle.py::MetricBundle._setup_metric_values"]}
{"id": "C08", "title": "Turning a list of bundles into a dictionary loses nothing", "statement": "make_bundles_dict_from_list returns a dictionary with exactly the given bundles keyed by their file_root, in order, or raises NameError; it raises exactly when two bundles share a file_root.", "quantifier": "every list of bundles", "why_tests_cant": "Universally quantified over lists; a test checks one duplicate.", "anchors": ["rubin_sim/maf/metric_bundles/metric_bundle_group.py::make_bundles_dict_from_list"]}
{"id": "C09", "title": "OneDSlicer slices partition the visits inside the bins", "statement": "With increasing bin edges, slice i of a OneDSlicer holds exactly the visits with edge[i] <= value < edge[i+1], each once; so every visit inside [first edge, last edge) is in exactly one slice and no visit is in two.", "quantifier": "every data column, every increasing list of bin edges, every tie order the sort may choose", "why_tests_cant": "Depends on ties at the edges, duplicates and the unspecified tie order of argsort over arbitrary data.", "anchors": ["rubin_sim/maf/slicers/one_d_slicer.py::OneDSlicer.setup_slicer"]}
{"id": "C10", "title": "OneDSlicer last bin is closed", "statement": "As documented, the last bin of a OneDSlicer is [a, b]: a visit whose value equals the last bin edge is in the last slice.", "quantifier": "every data column and every increasing list of bin edges", "why_tests_cant": "Only visible for visits lying exactly on the last edge.", "anchors": ["rubin_sim/maf/slicers/one_d_slicer.py::OneDSlicer"]}
{"id": "C11", "title": "NDSlicer puts each visit in at most one cell", "statement": "An NDSlicer cell holds exactly the visits that lie, in every dimension, at or above the cell's left edge and below the next cell's left edge (no upper limit for the last cell of a dimension); every visit at or above the first edge of each dimension is in exactly one cell, any other visit in none.", "quantifier": "every number of dimensions, every data columns, every bin edges", "why_tests_cant": "Ranges over dimension count, bin structure and data.", "anchors": ["rubin_sim/maf/slicers/nd_slicer.py::NDSlicer.setup_slicer"]}
{"id": "C12", "title": "NDSlicer bins are half-open", "statement": "As documented all NDSlicer bins are half-open [a, b): a visit at or beyond the last edge of a dimension is in no cell.", "quantifier": "every data column and bin edges", "why_tests_cant": "Only visible for visits beyond the supplied bins.", "anchors": ["rubin_sim/maf/slicers/nd_slicer.py::NDSlicer"]}
{"id": "C13", "title": "Equal NDSlicers slice the same way", "statement": "If two set-up NDSlicers compare equal then they have the same bins in every dimension, so sharing one between bundles does not change the slices.", "quantifier": "every pair of NDSlicers", "why_tests_cant": "The equality test inspects only a few of the slice points; a test on clearly different slicers passes.", "anchors": ["rubin_sim/maf/slicers/nd_slicer.py::NDSlicer.__eq__"]}
{"id": "C14", "title": "MovieSlicer frames", "statement": "In cumulative mode the visits of a MovieSlicer frame are exactly those below the right edge of the frame (all visits for the last frame), so each frame contains the previous one; in non-cumulative mode frames are disjoint and together hold exactly the visits at or above the first bin edge.", "quantifier": "every data column and sorted bin edges", "why_tests_cant": "Holds over all data and bins, including visits outside the bins.", "anchors": ["rubin_sim/maf/slicers/movie_slicer.py::MovieSlicer.setup_slicer"]}
{"id": "C15", "title": "TimeIntervalSlicer slices hold the visits of their interval", "statement": "Slice i of a TimeIntervalSlicer, whose slice point announces start time mjd[i] and the interval duration, holds exactly the visits that start in [mjd[i], mjd[i] + interval), and every visit is in some slice.", "quantifier": "every set of visit times and every interval", "why_tests_cant": "Off-by-one labelling is invisible unless the visits in each slice are compared with the announced interval for all data.", "anchors": ["rubin_sim/maf/slicers/time_interval_slicers.py::TimeIntervalSlicer.setup_slicer"]}
{"id": "C16", "title": "VisitIntervalSlicer labels each slice with its own visit", "statement": "Slice i of a VisitIntervalSlicer holds one visit and the announced start time is the start time of that visit; every visit is in exactly one slice.", "quantifier": "every set of visit times in every order", "why_tests_cant": "Holds for time-ordered data, which is what tests use.", "anchors": ["rubin_sim/maf/slicers/time_interval_slicers.py::VisitIntervalSlicer.setup_slicer"]}
{"id": "C17", "title": "BlockIntervalSlicer blocks", "statement": "BlockIntervalSlicer slices are runs of time-consecutive visits; every visit is in exactly one block, visits in one block have the same note, and two time-consecutive visits are in the same block exactly when their notes agree and the gap between them is below the tolerance.", "quantifier": "every set of visits with any notes, durations and times", "why_tests_cant": "Universally quantified over visit histories.", "anchors": ["rubin_sim/maf/slicers/time_interval_slicers.py::BlockIntervalSlicer.setup_slicer"]}
{"id": "C18", "title": "Iterating a slicer visits each slice once, in order", "statement": "A complete loop over any set-up slicer yields slices 0..nslice-1 in order, once each, and starting a new loop starts again from 0 whatever iteration happened before.", "quantifier": "every number of slices and every earlier iteration history (including loops abandoned half way)", "why_tests_cant": "Quantifies over histories of partial iteration.", "anchors": ["rubin_sim/maf/slicers/base_slicer.py::BaseSlicer.__iter__", "rubin_sim/maf/slicers/base_slicer.py::BaseSlicer.__next__"]}
{"id": "C19", "title": "Coadded depth", "statement": "Coaddm5Metric equals the visit's own depth for a single visit, does not depend on the order of visits, never decreases when a visit is added, is at least the deepest single visit, and for n visits of equal depth m is m + 1.25 log10(n).", "quantifier": "every nonempty set of visit depths (as real numbers)", "why_tests_cant": "Real-valued laws over all inputs.", "anchors": ["rubin_sim/maf/metrics/simple_metrics.py::Coaddm5Metric.run", "rubin_sim/maf/utils/maf_utils.py::coadd_m5"]}
{"id": "C20", "title": "TgapsMetric counts every gap once", "statement": "With all_gaps, the gaps histogrammed by TgapsMetric are exactly the differences between all pairs of visit times, one per unordered pair (n(n-1)/2 of them); without it they are the n-1 differences between time-consecutive visits, all non-negative and summing to the time span.", "quantifier": "every list of visit times, every tie order", "why_tests_cant": "Combinatorial identity over every list length.", "anchors": ["rubin_sim/maf/metrics/tgaps.py::TgapsMetric.run"]}
{"id": "C21", "title": "PairFraction counts visits that have a partner", "statement": "PairFractionMetric returns the fraction of visits that have another visit between min_gap and max_gap away (in either direction) in the same slice; the result lies in [0,1].", "quantifier": "every list of visit times and every min_gap <= max_gap", "why_tests_cant": "Differences show only at exact gap boundaries or with ties.", "anchors": ["rubin_sim/maf/metrics/visit_groups_metric.py::PairFractionMetric.run"]}
{"id": "C22", "title": "UniformityMetric lies between 0 and 1", "statement": "UniformityMetric returns a value between 0 (perfectly uniform) and 1 (all visits at one time), as documented, and does not depend on the order of visits.", "quantifier": "every list of visit dates inside the survey", "why_tests_cant": "Requires the supremum over all visit sets, including ties.", "anchors": ["rubin_sim/maf/metrics/cadence_metrics.py::UniformityMetric.run"]}
{"id": "C23", "title": "Intra-night and inter-night gaps", "statement": "IntraNightGapsMetric reduces exactly the gaps between time-consecutive visits of the same night, and InterNightGapsMetric exactly the gaps from the last visit of a night to the first visit of the next night that has visits; together they make up all consecutive gaps.", "quantifier": "every list of visits whose nights increase with time", "why_tests_cant": "Quantifies over all visit histories and night labels.", "anchors": ["rubin_sim/maf/metrics/cadence_metrics.py::IntraNightGapsMetric.run", "rubin_sim/maf/metrics/cadence_metrics.py::InterNightGapsMetric.run"]}
{"id": "C24", "title": "Seasons partition the visits", "statement": "find_season_edges splits the season column into maximal runs of equal season: the (first, last) index pairs tile the visits in order with no gap or overlap.", "quantifier": "every sorted season column", "why_tests_cant": "Induction over arbitrary run-length structure.", "anchors": ["rubin_sim/maf/metrics/season_metrics.py::find_season_edges"]}
{"id": "C25", "title": "FracAbove and FracBelow are complementary", "statement": "FracAboveMetric and FracBelowMetric at the same cutoff sum to 1.", "quantifier": "every nonempty data column and every cutoff", "why_tests_cant": "Fails only on exact ties with the cutoff.", "anchors": ["rubin_sim/maf/metrics/simple_metrics.py::FracAboveMetric.run", "rubin_sim/maf/metrics/simple_metrics.py::FracBelowMetric.run"]}
{"id": "C26", "title": "fO metrics", "statement": "fONv returns the median and minimum number of visits over the n best-observed pixels covering the requested area; with fewer pixels than needed it reports the bad value. fOArea returns the largest area reached by the pixels with at least n_visit visits: area(k best pixels all >= n_visit).", "quantifier": "every visit map and every requested area", "why_tests_cant": "Holds for all maps including ones with ties, zero area or masked pixels.", "anchors": ["rubin_sim/maf/metrics/summary_metrics.py::FONv.run", "rubin_sim/maf/metrics/summary_metrics.py::FOArea.run"]}
{"id": "C27", "title": "Counting metrics agree with each other", "statement": "For every nonempty column CountUniqueMetric is between 1 and CountMetric, UniqueRatioMetric is their ratio and lies in (0,1], equals 1 exactly when all values differ; CountSubsetMetric summed over the distinct values of the column is CountMetric.", "quantifier": "every nonempty data column", "why_tests_cant": "Relation between metrics over all inputs.", "anchors": ["rubin_sim/maf/metrics/simple_metrics.py::CountUniqueMetric.run", "rubin_sim/maf/metrics/simple_metrics.py::UniqueRatioMetric.run", "rubin_sim/maf/metrics/simple_metrics.py::CountSubsetMetric.run"]}
{"id": "C28", "title": "One results row per metric", "statement": "After any history of update_metric, update_display, update_plot and update_summary_stat calls the results database has at most one metrics row for each (metric name, slicer name, run name, info label, sql constraint); update_metric returns the same id for the same identity forever, different ids for different identities, and never changes another metric's row.", "quantifier": "every history of calls", "why_tests_cant": "An invariant over unbounded call histories.", "anchors": ["rubin_sim/maf/db/results_db.py::ResultsDb.update_metric"]}
{"id": "C29", "title": "At most one display row per metric", "statement": "After any history of calls each metric has at most one display row; update_display with overwrite replaces it with the new content, and without overwrite leaves an existing row untouched.", "quantifier": "every history of calls", "why_tests_cant": "An invariant over unbounded call histories.", "anchors": ["rubin_sim/maf/db/results_db.py::ResultsDb.update_display"]}
{"id": "C30", "title": "Plots are recorded once", "statement": "After any history of update_plot calls with overwrite there is at most one row for each (metric id, plot type), naming the last plot file recorded.", "quantifier": "every history of calls", "why_tests_cant": "Invariant over histories.", "anchors": ["rubin_sim/maf/db/results_db.py::ResultsDb.update_plot"]}
{"id": "C31", "title": "Summary statistics are all recorded", "statement": "If update_summary_stat returns normally then every (name, value) row of a structured summary value has been recorded for the metric, even if the database was busy for some attempts, or the caller was told otherwise.", "quantifier": "every structured summary value, every schedule of transient database errors and every ntry", "why_tests_cant": "Quantifies over schedules of database lock errors.", "anchors": ["rubin_sim/maf/db/results_db.py::ResultsDb.update_summary_stat"]}
{"id": "C32", "title": "Results database schema migration is reversible", "statement": "Downgrading an up-to-date results database to the old column names and opening it again (which upgrades it) restores every table and column name and loses no column; upgrading an old database gives the current column names.", "quantifier": "every schema version the code recognises and any extra columns", "why_tests_cant": "Round trip over all recognised starting schemas.", "anchors": ["rubin_sim/maf/db/results_db.py::ResultsDb.update_database", "rubin_sim/maf/db/results_db.py::ResultsDb.downgrade_database"]}
{"id": "C33", "title": "Tracking database has one entry per directory", "statement": "After any history of add_run and delRun calls the tracking database has at most one entry per MAF directory and per run id; re-adding a directory keeps its run id and replaces its other fields; deleting removes exactly that run.", "quantifier": "every history of calls, with or without explicit run ids", "why_tests_cant": "Invariant over unbounded histories.", "anchors": ["rubin_sim/maf/db/tracking_db.py::TrackingDb.add_run", "rubin_sim/maf/db/tracking_db.py::TrackingDb.delRun"]}
{"id": "C34", "title": "Sanitised names are safe and stable", "statement": "name_sanitize is idempotent and its output contains none of the characters it replaces (spaces, dots, commas, slashes, parentheses, colons, comparison signs, percent, hash) and no double underscore.", "quantifier": "every string", "why_tests_cant": "Universal over strings; interactions between replacements cannot be enumerated.", "anchors": ["rubin_sim/maf/utils/output_utils.py::name_sanitize"]}
{"id": "C35", "title": "Tags behave as a set", "statement": "After any history of tag and untag calls by one client, is_tagged reports exactly the set semantics (tagged iff the last successful tag/untag for that visit sequence and tag was tag), no tag is stored twice, tagging twice changes nothing, untagging an absent tag raises and changes nothing, and other visit sequences are unaffected.", "quantifier": "every history of tag/untag calls", "why_tests_cant": "Invariant over unbounded histories.", "anchors": ["rubin_sim/sim_archive/vseqmetadata.py::VisitSequenceArchiveMetadata.tag", "rubin_sim/sim_archive/vseqmetadata.py::VisitSequenceArchiveMetadata.untag", "rubin_sim/sim_archive/vseqmetadata.py::VisitSequenceArchiveMetadata.is_tagged"]}
{"id": "C36", "title": "Concurrent tagging stores a tag once", "statement": "If two clients tag the same visit sequence at the same time the tag is still stored once.", "quantifier": "every interleaving of the database statements of two clients", "why_tests_cant": "Depends on the interleaving of statements from different connections.", "anchors": ["rubin_sim/sim_archive/vseqmetadata.py::VisitSequenceArchiveMetadata.tag", "sql/make_vseqmeta.sql::tags"]}
{"id": "C37", "title": "Recorded file hash matches the archived file", "statement": "After any history of add_file calls (successful or raising), for each registered (visit sequence, file type) the recorded sha256 is the hash of the content stored at the recorded URL.", "quantifier": "every history of add_file calls with any file names, contents, types and update flags", "why_tests_cant": "Invariant over histories that include failing calls.", "anchors": ["rubin_sim/sim_archive/vseqarchive.py::add_file", "rubin_sim/sim_archive/vseqmetadata.py::VisitSequenceArchiveMetadata.register_file"]}
{"id": "C38", "title": "Recording a simulation is atomic", "statement": "If the process stops at any point while recording simulation metadata, the archive shows either no new simulation or one with its full provenance (scheduler version, config, parent, run arguments).", "quantifier": "every crash point between database statements and commits", "why_tests_cant": "Crash points cannot be enumerated by calling the API.", "anchors": ["rubin_sim/sim_archive/vseqmetadata.py::VisitSequenceArchiveMetadata.record_simulation_metadata", "rubin_sim/sim_archive/vseqmetadata.py::VisitSequenceArchiveMetadata.query"]}
{"id": "C39", "title": "Half-specified conda environment is rejected", "statement": "record_conda_env raises ValueError when exactly one of the hash and the json is given, as documented.", "quantifier": "every combination of given / not given", "why_tests_cant": "The guard is a chained comparison whose value does not depend on the inputs; it looks right and a test of the two valid cases passes.", "anchors": ["rubin_sim/sim_archive/vseqmetadata.py::VisitSequenceArchiveMetadata.record_conda_env"]}
{"id": "C40", "title": "The latest eligible prenight simulation is selected", "statement": "select_latest_prenight_sim returns a simulation exactly when one with all requested tags and within the age limit exists, and then one of the newest such; ties go to the last listed.", "quantifier": "every table of simulations, tags and age limit, with the clock advancing during the scan", "why_tests_cant": "Optimality over every table and every clock behaviour.", "anchors": ["rubin_sim/sim_archive/prenightindex.py::select_latest_prenight_sim"]}
{"id": "C41", "title": "The prototype archive search returns the newest simulation", "statement": "The prototype archive find_latest_prenight_sim_for_nights returns, among the simulations that cover the nights and have the tags and telescope, one that is newest by (execution date, daily index).", "quantifier": "every archive content", "why_tests_cant": "The comparison is wrong only for particular combinations of date and index.", "anchors": ["rubin_sim/sim_archive/prototype.py::find_latest_prenight_sim_for_nights"]}
{"id": "C42", "title": "Exported simulation metadata can be imported again", "statement": "Importing the yaml written by sim_metadata_yaml for a simulation recreates its label, telescope, dates, tags and files.", "quantifier": "every simulation record", "why_tests_cant": "Round trip over all records; each direction alone passes its own tests.", "anchors": ["rubin_sim/sim_archive/vseqmetadata.py::VisitSequenceArchiveMetadata.sim_metadata_yaml", "rubin_sim/sim_archive/vseqmetadata.py::VisitSequenceArchiveMetadata.import_sim_from_yaml"]}
{"id": "C43", "title": "Database connections are returned", "statement": "After any history of metadata calls, including ones that raise, all pooled database connections are available again, so any number of calls can be made with one object.", "quantifier": "every history of calls and every pattern of failures", "why_tests_cant": "Leak only shows after several calls of one kind.", "anchors": ["rubin_sim/sim_archive/vseqmetadata.py::VisitSequenceArchiveMetadata.query", "rubin_sim/sim_archive/vseqmetadata.py::VisitSequenceArchiveMetadata.insert_nightly_stats"]}
{"id": "C44", "title": "All code agrees on the observing day", "statement": "For every time, the day_obs computed by the MJD stacker, the ISO and integer stackers, the nightly statistics, the simulation directory metadata and the conversion of a Time are the same calendar day (UTC minus 12 hours).", "quantifier": "every time stamp", "why_tests_cant": "Agreement at every instant including day boundaries.", "anchors": ["rubin_sim/maf/stackers/date_stackers.py::_compute_day_obs_mjd", "rubin_sim/sim_archive/vseqarchive.py::compute_nightly_stats", "rubin_sim/sim_archive/util.py::dayobs_to_date"]}
{"id": "C45", "title": "Integer day_obs round trip", "statement": "Converting any calendar date to the integer YYYYMMDD form and back with dayobs_to_date returns the same date; integers that are not of that form for a real date are rejected.", "quantifier": "every calendar date with a four digit year, every integer", "why_tests_cant": "Ranges over every date.", "anchors": ["rubin_sim/sim_archive/util.py::dayobs_to_date", "rubin_sim/maf/stackers/date_stackers.py::_compute_day_obs_int"]}
{"id": "C46", "title": "Anomalous overhead respects its minimum", "statement": "Whenever an observation record with slew, visit and exposure times is given, model overhead plus the returned offset is at least min_overhead; and the slew part never makes the slew time negative.", "quantifier": "every random draw, every observation, every parameters", "why_tests_cant": "Quantifies over random draws.", "anchors": ["rubin_sim/sim_archive/prenight.py::AnomalousOverheadFunc.__call__"]}
{"id": "C47", "title": "Daily ids identify simulations", "statement": "Among simulations with the same creation day, daily ids are 1..n without repetition, so (creation day, daily id) names one simulation, and recording newer simulations never renumbers existing ones.", "quantifier": "every set of simulation records and every later insertion with a later creation time", "why_tests_cant": "Statement over all database contents.", "anchors": ["sql/make_vseqmeta.sql::simulations_extra", "rubin_sim/sim_archive/vseqmetadata.py::VisitSequenceArchiveMetadata.get_sim_uuid"]}
{"id": "C48", "title": "Tag filter of sims_on_nights", "statement": "sims_on_nights returns exactly the simulations of the telescope that cover both nights, are young enough, and carry all the requested tags; with no tags requested the tag test is omitted, as documented.", "quantifier": "every database content and request", "why_tests_cant": "Set equality over all contents; the empty tag case builds a different query.", "anchors": ["rubin_sim/sim_archive/vseqmetadata.py::VisitSequenceArchiveMetadata.sims_on_nights"]}
{"id": "C49", "title": "Columns needed by a bundle are requested or added", "statement": "For every bundle, each column needed by its metric, slicer and stackers is either requested from the database or added by one of the stackers that will be run, directly or through another stacker; the search for default stackers ends and requests nothing else.", "quantifier": "every metric/stacker dependency structure", "why_tests_cant": "Closure property over arbitrary dependency graphs.", "anchors": ["rubin_sim/maf/metric_bundles/metric_bundle.py::MetricBundle._find_req_cols"]}
{"id": "C50", "title": "Saturated visits are the ones invalidated", "statement": "SaturationStacker gives a NaN saturation magnitude exactly to the visits whose sky background alone exceeds the saturation level.", "quantifier": "every table of visits with any filters", "why_tests_cant": "Indexing of a subset by positions of another is right when the table has one filter, which is what tests use.", "anchors": ["rubin_sim/maf/stackers/general_stackers.py::SaturationStacker._run"]}
{"id": "C51", "title": "Hour angle range", "statement": "HourAngleStacker returns a value in [-12, 12] hours that differs from (LST - RA) by a multiple of 24 h, for all right ascensions and sidereal times in one turn.", "quantifier": "every pair of angles in one turn", "why_tests_cant": "Range over all real angles.", "anchors": ["rubin_sim/maf/stackers/general_stackers.py::HourAngleStacker._run"]}
{"id": "C52", "title": "Overhead is only reported within a night", "statement": "OverheadStacker gives each visit the time between the end of the previous visit and its own end minus its own exposure time, or NaN for the first visit, after a night change, or when that is longer than max_gap; in particular a finite overhead is at most max_gap minutes.", "quantifier": "every list of visits", "why_tests_cant": "Universal over visit histories.", "anchors": ["rubin_sim/maf/stackers/general_stackers.py::OverheadStacker._run"]}
{"id": "C53", "title": "Optimal bin count stays in range", "statement": "optimal_bins returns an integer between nbin_min and nbin_max, or nbin_max when the data have no spread, for any data and bounds.", "quantifier": "every data array and bounds", "why_tests_cant": "Includes degenerate data such as constant, empty or out of range values.", "anchors": ["rubin_sim/maf/utils/maf_utils.py::optimal_bins"]}
{"id": "C54", "title": "Benchmarks scale with survey length", "statement": "scale_benchmarks scales the visit counts with run length, never exceeds the unscaled benchmark for shorter surveys, and returns the unscaled benchmark for the nominal length.", "quantifier": "every run length", "why_tests_cant": "Universal over run lengths.", "anchors": ["rubin_sim/maf/utils/opsim_utils.py::scale_benchmarks"]}
{"id": "C55", "title": "A metric's result does not depend on the other bundles of the group", "statement": "The visits table a bundle's metric sees is the queried data with that bundle's own stackers applied; adding unrelated bundles to the group does not change the columns the bundle uses.", "quantifier": "every set of bundles and stackers", "why_tests_cant": "Interference needs a stacker of another bundle that overwrites a column this bundle reads.", "anchors": ["rubin_sim/maf/metric_bundles/metric_bundle_group.py::MetricBundleGroup._run_compatible", "rubin_sim/maf/stackers/base_stacker.py::BaseStacker.run"]}
{"id": "C56", "title": "Every reduced bundle is kept and summarised", "statement": "Running all reduce functions of a group keeps one result per (bundle, reduce function): no reduced bundle silently replaces another one.", "quantifier": "every group of bundles with reduce functions, every naming of metrics and reduce functions", "why_tests_cant": "Collisions only appear for particular name combinations.", "anchors": ["rubin_sim/maf/metric_bundles/metric_bundle_group.py::MetricBundleGroup.reduce_current"]}
{"id": "C57", "title": "Stackers run after the stackers that provide their columns", "statement": "When a bundle needs columns made by default stackers, every stacker runs after those that create its input columns.", "quantifier": "every set of metrics, slicers and stackers with their column requirements", "why_tests_cant": "Depends on the order in which default stackers are discovered for arbitrary requirement graphs.", "anchors": ["rubin_sim/maf/metric_bundles/metric_bundle.py::MetricBundle._find_req_cols"]}
{"id": "C58", "title": "Nested loops over one slicer", "statement": "Two for loops over the same slicer object, one inside the other, see every pair of slices.", "quantifier": "every number of slices", "why_tests_cant": "Single loops behave well; only the interleaving of two iterations shows the shared counter.", "anchors": ["rubin_sim/maf/slicers/base_slicer.py::BaseSlicer.__iter__"]}
{"id": "C59", "title": "Setting a time slicer up again replaces its contents", "statement": "After a second setup_slicer with other data, a TimeIntervalSlicer only delivers visits of the new data.", "quantifier": "every pair of data sets", "why_tests_cant": "Depends on which intervals of the old data are not hit by the new data.", "anchors": ["rubin_sim/maf/slicers/time_interval_slicers.py::TimeIntervalSlicer.setup_slicer"]}
{"id": "C60", "title": "Time intervals without visits are masked", "statement": "A slice of a TimeIntervalSlicer without visits is treated as empty by the bundle group (masked, metric not run).", "quantifier": "every data set and every interval length", "why_tests_cant": "Depends on the interaction of the slicer's empty value with numpy indexing for every empty slice.", "anchors": ["rubin_sim/maf/slicers/time_interval_slicers.py::TimeIntervalSlicer.setup_slicer", "rubin_sim/maf/metric_bundles/metric_bundle_group.py::MetricBundleGroup._run_compatible"]}
{"id": "C61", "title": "Histogram of gaps between nights for every slice", "statement": "NightgapsMetric with all_gaps=True returns a histogram for every slice with at least two visits.", "quantifier": "every list of nights and every list of bin edges", "why_tests_cant": "Depends on whether all visits of a slice fall in one night, for every slice of a survey.", "anchors": ["rubin_sim/maf/metrics/tgaps.py::NightgapsMetric.run"]}
{"id": "C62", "title": "Largest gap covers the survey", "statement": "The value of MaxGapMetric is the smallest window such that every moment between the first and the last visit has a visit at most that much earlier; it is the gap of two visits with none in between.", "quantifier": "every multiset of visit times in any order", "why_tests_cant": "Ranges over all moments and all visit lists.", "anchors": ["rubin_sim/maf/metrics/tgaps.py::MaxGapMetric.run"]}
{"id": "C63", "title": "Fraction of visits with a template", "statement": "TemplateExistsMetric is the fraction of visits for which an earlier visit has equal or better seeing.", "quantifier": "every sequence of seeing values in time order", "why_tests_cant": "The running minimum must agree with the quantified statement for every sequence.", "anchors": ["rubin_sim/maf/metrics/cadence_metrics.py::TemplateExistsMetric.run"]}
{"id": "C64", "title": "GeneralUniformityMetric measures evenness", "statement": "GeneralUniformityMetric lies in [0,1] and is 0 exactly for evenly spaced values that include the end points.", "quantifier": "every list of values and every optional range", "why_tests_cant": "The bound and the characterisation of 0 range over all value lists.", "anchors": ["rubin_sim/maf/metrics/cadence_metrics.py::GeneralUniformityMetric.run"]}
{"id": "C65", "title": "CountBeyondThreshold counts values between the thresholds", "statement": "CountBeyondThreshold with a lower and an upper threshold returns the number of values strictly between them; with one threshold the number beyond it.", "quantifier": "every pair of optional thresholds and every column", "why_tests_cant": "A test with one value passes while every longer column raises.", "anchors": ["rubin_sim/maf/metrics/simple_metrics.py::CountBeyondThreshold.run"]}
{"id": "C66", "title": "RapidRevisitUniformityMetric lies in [0,1]", "statement": "RapidRevisitUniformityMetric lies between 0 (evenly spread) and 1.", "quantifier": "every list of visit times and every time window", "why_tests_cant": "The extreme value is only reached by particular gap patterns.", "anchors": ["rubin_sim/maf/metrics/cadence_metrics.py::RapidRevisitUniformityMetric.run"]}
{"id": "C67", "title": "Angular range is the smallest arc", "statement": "FullRangeAngleMetric is the length of the smallest arc of the circle that contains all angles, and is not changed by rotating all angles.", "quantifier": "every non-empty list of angles (also across the 0/360 border)", "why_tests_cant": "Ranges over all positions of all angles and all rotations.", "anchors": ["rubin_sim/maf/metrics/simple_metrics.py::FullRangeAngleMetric.run"]}
{"id": "C68", "title": "Coadded depth of a band without visits is the bad value", "statement": "Coaddm5Metric with a filter name returns its bad value for a slice with no visit in that filter, so that the point is masked.", "quantifier": "every slice of visits in any bands and every filter name", "why_tests_cant": "Ranges over all mixtures of bands; a missing band in a non-empty slice is easily forgotten.", "anchors": ["rubin_sim/maf/metrics/simple_metrics.py::Coaddm5Metric.run"]}
{"id": "C69", "title": "Expected coadded depth equals the measured one", "statement": "calc_coadded_depth(nvisits, single_visit_depth) gives for each band exactly the depth that Coaddm5Metric reports for that number of visits of that single visit depth, the single visit depth for zero visits, and ValueError exactly if a band has no single visit depth.", "quantifier": "every dictionary of visit numbers and of depths", "why_tests_cant": "Ranges over all numbers of visits and all real depths.", "anchors": ["rubin_sim/maf/utils/opsim_utils.py::calc_coadded_depth", "rubin_sim/maf/metrics/simple_metrics.py::Coaddm5Metric.coadd"]}
{"id": "C70", "title": "Effective exposure times add up", "statement": "The sum of the effective exposure times of a set of visits in one band is the effective exposure time of their coadd; a visit at the fiducial depth has the nominal exposure time.", "quantifier": "every list of depths, every fiducial depth and base time", "why_tests_cant": "Ranges over all real depths and all list lengths.", "anchors": ["rubin_sim/maf/stackers/teff_stacker.py::compute_teff", "rubin_sim/maf/metrics/simple_metrics.py::Coaddm5Metric.coadd"]}
{"id": "C71", "title": "Accumulated visit counts", "statement": "AccumulateCountMetric gives for each time bin the number of visits at or before the right edge of the bin (bad value if none).", "quantifier": "every sorted list of nights and every list of bin edges", "why_tests_cant": "Off-by-one errors depend on the relation of nights and edges for all lists.", "anchors": ["rubin_sim/maf/metrics/vector_metrics.py::AccumulateCountMetric.run"]}
{"id": "C72", "title": "Accumulated metrics are causal", "statement": "AccumulateMetric and AccumulateM5Metric give for each bin a value that depends only on visits at or before the right edge of the bin.", "quantifier": "every pair of visit lists that agree up to the edge, every accumulating function", "why_tests_cant": "A statement about pairs of inputs (non-interference), not about single outputs.", "anchors": ["rubin_sim/maf/metrics/vector_metrics.py::AccumulateMetric.run", "rubin_sim/maf/metrics/vector_metrics.py::AccumulateM5Metric.run"]}
{"id": "C73", "title": "Depth histogram", "statement": "HistogramM5Metric gives for each bin the coadded depth of the visits in the bin, and the bad value exactly for the bins without visits.", "quantifier": "every list of visits and of increasing bin edges", "why_tests_cant": "Ranges over all distributions of visits over bins.", "anchors": ["rubin_sim/maf/metrics/vector_metrics.py::HistogramM5Metric.run"]}
{"id": "C74", "title": "Galaxy counts do not depend on other bands", "statement": "NgalScaleMetric for a filter does not depend on the order of the visits, nor on the band of any visit in another filter.", "quantifier": "every pair of slices that differ only by reordering", "why_tests_cant": "A statement about pairs of inputs.", "anchors": ["rubin_sim/maf/metrics/scaling_metrics.py::NgalScaleMetric.run"]}
{"id": "C75", "title": "OptimalM5Metric counts missing visits", "statement": "If OptimalM5Metric reports k, then adding k visits of the median depth gives exactly the optimal coadded depth; the number is not negative if no visit is deeper than its optimum.", "quantifier": "every list of depths and optimal depths", "why_tests_cant": "Ranges over all real depths and list lengths.", "anchors": ["rubin_sim/maf/metrics/optimal_m5_metric.py::OptimalM5Metric.run"]}
{"id": "C76", "title": "AccumulateUniformityMetric range", "statement": "AccumulateUniformityMetric values lie in [0,1] and never decrease with time.", "quantifier": "every sorted list of nights within the bins and every list of at least three edges", "why_tests_cant": "The extremes depend on the whole list of nights.", "anchors": ["rubin_sim/maf/metrics/vector_metrics.py::AccumulateUniformityMetric.run"]}
{"id": "C77", "title": "A locked results database is retried", "statement": "update_summary_stat with ntry tries succeeds whenever fewer than ntry commits fail because the database is locked.", "quantifier": "every structured summary value, every ntry and every schedule of fewer than ntry lock errors", "why_tests_cant": "Needs a schedule of lock errors from another process.", "anchors": ["rubin_sim/maf/db/results_db.py::ResultsDb.update_summary_stat"]}
{"id": "C78", "title": "The (auto) mark is removed from captions", "statement": "A caption c stored as c + '(auto)' is recorded as c, and a caption not ending in (auto) is recorded unchanged.", "quantifier": "every caption string", "why_tests_cant": "Ranges over all strings, including ones with the mark inside.", "anchors": ["rubin_sim/maf/db/results_db.py::ResultsDb.update_display"]}
{"id": "C79", "title": "Parallel runs record a metric once", "statement": "Two processes that record the same metric in one results database at the same time get the same metric id and leave one row.", "quantifier": "every interleaving of the database operations of two processes", "why_tests_cant": "Needs control of the interleaving.", "anchors": ["rubin_sim/maf/db/results_db.py::ResultsDb.update_metric"]}
{"id": "C80", "title": "Standard summary names are clean", "statement": "build_summary_name returns a name without commas and without blanks at the ends, made of the given parts only.", "quantifier": "every metric name, label, slicer name and statistic name", "why_tests_cant": "Ranges over all strings.", "anchors": ["rubin_sim/maf/db/results_db.py::ResultsDb.build_summary_name"]}
{"id": "C81", "title": "Re-adding a run is atomic", "statement": "While add_run updates the entry of a known MAF directory, the database always has an entry for it (a stop in between loses nothing).", "quantifier": "every crash point between commits", "why_tests_cant": "Needs a crash between two commits.", "anchors": ["rubin_sim/maf/db/tracking_db.py::TrackingDb.add_run"]}
{"id": "C82", "title": "Run ids are not reused", "statement": "The id of a deleted run is never given to another run.", "quantifier": "every history of add_run and delRun", "why_tests_cant": "A statement about histories with deletions.", "anchors": ["rubin_sim/maf/db/tracking_db.py::TrackingDb.add_run", "rubin_sim/maf/db/tracking_db.py::TrackingDb.delRun"]}
{"id": "C83", "title": "Different names stay different", "statement": "name_sanitize gives different results for different names, so that two metrics do not write to the same file.", "quantifier": "every pair of strings", "why_tests_cant": "Ranges over pairs of strings.", "anchors": ["rubin_sim/maf/utils/output_utils.py::name_sanitize"]}
{"id": "C84", "title": "Saved conda environments are kept", "statement": "A conda environment is stored once per hash, a stored environment is never changed by a later record_conda_env, and a returned hash is the hash of a stored environment.", "quantifier": "all histories of record_conda_env calls with any arguments and any running environment", "why_tests_cant": "a test records an environment or two; it cannot cover every history of calls", "anchors": ["rubin_sim/sim_archive/vseqmetadata.py: record_conda_env, conda_env_is_saved", "sql/make_vseqmeta.sql: conda_env"]}
{"id": "C85", "title": "All nightly statistics of a night are reported", "statement": "sims_on_night_with_stats reports for each simulation every statistic that is stored for it and the night.", "quantifier": "all contents of the statistics table that its key allows", "why_tests_cant": "a test has one table of statistics; loss needs two rows that agree on the name, which the table allows", "anchors": ["rubin_sim/sim_archive/vseqmetadata.py: sims_on_night_with_stats, insert_nightly_stats", "sql/make_vseqmeta.sql: nightly_stats"]}
{"id": "C86", "title": "Setting the URL of a visit sequence affects that sequence only", "statement": "set_visitseq_url makes get_visitseq_url return the new URL for that visit sequence, whatever kind of sequence it is, and changes no other sequence or column; for an unknown sequence it raises ValueError and changes nothing.", "quantifier": "all contents of the four visit sequence tables, all identifiers and URLs", "why_tests_cant": "the effect is claimed for every mix of simulations, completed, mixed and plain sequences", "anchors": ["rubin_sim/sim_archive/vseqmetadata.py: set_visitseq_url, get_visitseq_url, _find_visitseq_table", "sql/make_vseqmeta.sql: visitseq"]}
{"id": "C87", "title": "Comments are all visible", "statement": "get_comments returns all comments of a visit sequence in the order they were made, with time, author and text, and none of another; the comments of a simulation in simulation queries include each of them.", "quantifier": "all histories of comment calls with any clock", "why_tests_cant": "a test makes a few comments at different times; the loss needs equal times", "anchors": ["rubin_sim/sim_archive/vseqmetadata.py: comment, get_comments, sims_on_nights", "sql/make_vseqmeta.sql: comments, simulations_extra"]}
{"id": "C88", "title": "Filtering visits by night range keeps exactly the nights asked for", "statement": "fetch_sim_for_nights(first, last) keeps exactly the visits whose observing day (noon to noon UTC) is from first to last, in their order, although the dates are compared as texts.", "quantifier": "every pair of dates of four-digit years, every list of visit times", "why_tests_cant": "text order equals date order only because of the fixed-width format; a test covers a few dates, not all of them, nor the boundaries of each day", "anchors": ["rubin_sim/sim_archive/sim_archive.py::fetch_sim_for_nights", "rubin_sim/maf/stackers/date_stackers.py::DayObsISOStacker"]}
{"id": "C89", "title": "The night texts used as defaults are the observing day", "statement": "Where a night is derived from a time by subtracting half a day and cutting the ISO text (the default night of the prototype archive, the range of fetch_obsloctap_visits), the text is the observing day of that time.", "quantifier": "every time", "why_tests_cant": "the difference shows only in the last half millisecond before noon UTC", "anchors": ["rubin_sim/sim_archive/prototype.py::find_latest_prenight_sim_for_nights", "rubin_sim/sim_archive/sim_archive.py::fetch_obsloctap_visits"]}
{"id": "C90", "title": "A prenight simulation covers the requested nights", "statement": "compute_sim_start_and_end(day_obs, n, delay) starts at the evening twilight of day_obs plus the delay and ends at the sunrise of the n-th night; nights outside the almanac are rejected.", "quantifier": "every almanac of consecutive nights, every day_obs, number of nights and delay shorter than the night", "why_tests_cant": "depends on integer day arithmetic, on array indexing at both ends and on a final assertion; tests use a few dates in the middle of one almanac", "anchors": ["rubin_sim/sim_archive/prenight.py::compute_sim_start_and_end"]}
{"id": "C91", "title": "A simulation can be found in the nightly index by creation day and daily id", "statement": "get_sim_uuid with a day_obs returns the uuid of the simulation with that creation day and daily id whenever it is in the index of that night for some telescope, and raises ValueError otherwise.", "quantifier": "every content of the indices of the two telescopes, including a missing index", "why_tests_cant": "needs one index to be missing while the other has the simulation", "anchors": ["rubin_sim/sim_archive/prenightindex.py::get_sim_uuid", "rubin_sim/sim_archive/prenightindex.py::get_prenight_index"]}
{"id": "C92", "title": "All documented forms of day_obs mean the same night", "statement": "get_sim_uuid and get_sim_metadata accept a day_obs as date string, YYYYMMDD integer or date, and look up the same night for all of them.", "quantifier": "every calendar date of a four-digit year", "why_tests_cant": "finite tests try single dates and forms", "anchors": ["rubin_sim/sim_archive/prenightindex.py::get_sim_metadata", "rubin_sim/sim_archive/prenightindex.py::get_sim_uuid"]}
{"id": "C93", "title": "The age limit means the same in both searches", "statement": "A simulation is young enough for select_latest_prenight_sim exactly when it is young enough for the archive query sims_on_nights with the same max_simulation_age.", "quantifier": "every clock reading, creation time and limit", "why_tests_cant": "the two differ only for fractional days beyond the limit", "anchors": ["rubin_sim/sim_archive/prenightindex.py::select_latest_prenight_sim", "rubin_sim/sim_archive/vseqmetadata.py::VisitSequenceArchiveMetadata.sims_on_nights"]}
{"id": "C94", "title": "A non-zero slew_loc shifts the overhead", "statement": "As documented, a non-zero slew_loc moves the centre of the distribution of the overhead offset by slew_loc times the slew time, also when slew_scale is zero.", "quantifier": "every parameter, slew time and draw", "why_tests_cant": "sign-dependent; the tests use positive values", "anchors": ["rubin_sim/sim_archive/prenight.py::AnomalousOverheadFunc"]}
{"id": "C95", "title": "A column made by a bundle's stackers is not asked of the database", "statement": "For every bundle, no column that one of its stackers adds is among the columns requested from the database.", "quantifier": "every set of stacker classes with their columns, units and requirements, every bundle and every order in which the set of default stackers is walked", "why_tests_cant": "Depends on the registration of arbitrary stacker classes, including ones defined later.", "anchors": ["rubin_sim/maf/stackers/get_col_info.py::ColInfo.__init__", "rubin_sim/maf/metric_bundles/metric_bundle.py::MetricBundle._find_req_cols"]}
{"id": "C96", "title": "A stacker given by the user decides its column", "statement": "When the user gives a stacker that makes a column, no default stacker that makes the same column is added to the bundle.", "quantifier": "every set of stacker classes and every bundle", "why_tests_cant": "Needs all combinations of classes that make the same column.", "anchors": ["rubin_sim/maf/stackers/get_col_info.py::ColInfo", "rubin_sim/maf/metric_bundles/metric_bundle.py::MetricBundle._find_req_cols"]}
{"id": "C97", "title": "DCR second moments are consistent", "statement": "Dcr2Stacker's RA and Dec variances add up to the total variance, the square of the covariance is the product of the variances, and none is negative when the band's magnitude is not negative.", "quantifier": "every zenith distance, parallactic angle and band magnitude", "why_tests_cant": "A trigonometric identity over all reals.", "anchors": ["rubin_sim/maf/stackers/general_stackers.py::Dcr2Stacker._run"]}
{"id": "C98", "title": "Dcr2Stacker uses the stackers it is given", "statement": "A zenith distance stacker and a parallactic angle stacker passed to Dcr2Stacker are the ones it runs; defaults are used for those not passed.", "quantifier": "every choice of given and default inner stackers", "why_tests_cant": "Tests use the defaults.", "anchors": ["rubin_sim/maf/stackers/general_stackers.py::Dcr2Stacker.__init__", "rubin_sim/maf/stackers/general_stackers.py::Dcr2Stacker._run"]}
{"id": "C99", "title": "Follow-up observatories are counted once", "statement": "NFollowStacker's nObservatories is the number of telescopes for which the target has an airmass between 1 and the limit at one or more of the time steps.", "quantifier": "every list of telescopes, time steps, visits and airmass function", "why_tests_cant": "Universal over sky geometry and telescope lists.", "anchors": ["rubin_sim/maf/stackers/n_follow_stacker.py::NFollowStacker._run"]}
{"id": "C100", "title": "Note root is what precedes the first comma", "statement": "NoteRootStacker gives each visit the part of its scheduler note before the first comma, so that notes with different roots stay different.", "quantifier": "every scheduler note", "why_tests_cant": "Universal over strings, including long ones.", "anchors": ["rubin_sim/maf/stackers/general_stackers.py::NoteRootStacker._run"]}
{"id": "C101", "title": "Co-adding visits keeps totals", "statement": "CoaddStacker keeps the total exposure time and the total number of exposures.", "quantifier": "every table of visits", "why_tests_cant": "Visits at almost the same place interfere only within the matching tolerance.", "anchors": ["rubin_sim/maf/stackers/sn_stacker.py::CoaddStacker._run"]}
{"id": "C102", "title": "Saturation inputs can be given separately", "statement": "SaturationStacker uses the zeropoints and extinction coefficients it is given and looks up those it is not given.", "quantifier": "every combination of given and missing inputs", "why_tests_cant": "Tests use one combination.", "anchors": ["rubin_sim/maf/stackers/general_stackers.py::SaturationStacker._run"]}
{"id": "C103", "title": "Percentile clipping keeps the percentage asked for", "statement": "percentile_clipping returns ordered bounds within the range of the data, and at least the given percentage of the data lies between them.", "quantifier": "every non-empty finite data set and percentage from 0 to 100", "why_tests_cant": "Interpolated percentiles of small data sets behave differently from those of the large arrays used in tests.", "anchors": ["rubin_sim/maf/utils/maf_utils.py::percentile_clipping"]}
{"id": "C104", "title": "Visits of a night collapse to one row per filter", "statement": "collapse_night returns one row for each filter and night with visits, holding the co-added depth and median time of exactly those visits, sorted by time.", "quantifier": "every table of visits, every set of filter names and every name of the time column", "why_tests_cant": "Universal over tables; tests use one-letter filter names.", "anchors": ["rubin_sim/maf/utils/maf_utils.py::collapse_night"]}
{"id": "C105", "title": "Changes of state are counted in time order", "statement": "NChangesMetric returns the number of visits whose value differs from that of the next visit in time: at least the number of distinct values less one, zero exactly when there is one value, and independent of the order of the rows when times are distinct.", "quantifier": "every table of visits and every way of ordering equal times", "why_tests_cant": "Universal over tables and orderings; tests use one sorted table.", "anchors": ["rubin_sim/maf/metrics/technical_metrics.py::NChangesMetric.run"]}
{"id": "C106", "title": "The shortest time between changes of state", "statement": "MinTimeBetweenStatesMetric returns the shortest time between two successive changes of the column, and the bad value when there are none.", "quantifier": "every table of visits", "why_tests_cant": "Needs all sequences of changes, including a first change soon after the first visit.", "anchors": ["rubin_sim/maf/metrics/technical_metrics.py::MinTimeBetweenStatesMetric.run"]}
{"id": "C107", "title": "Fast changes of state are counted", "statement": "NStateChangesFasterThanMetric returns the number of changes that follow the previous change within the cutoff.", "quantifier": "every table of visits and cutoff", "why_tests_cant": "Universal over tables and cutoffs.", "anchors": ["rubin_sim/maf/metrics/technical_metrics.py::NStateChangesFasterThanMetric.run"]}
{"id": "C108", "title": "The busiest window of changes", "statement": "MaxStateChangesWithinMetric returns the largest number of changes of the column in any window of the given length: no window has more, and some window has that many.", "quantifier": "every table of visits, every non-negative window length and every position of the window", "why_tests_cant": "There are infinitely many windows.", "anchors": ["rubin_sim/maf/metrics/technical_metrics.py::MaxStateChangesWithinMetric.run"]}
{"id": "C109", "title": "The open shutter fraction is a fraction", "statement": "OpenShutterFractionMetric returns a value between 0 and 1, and between the smallest and the largest fraction of the individual visits.", "quantifier": "every table of visits with non-negative slew times and exposure times no longer than the visit times", "why_tests_cant": "Universal over tables.", "anchors": ["rubin_sim/maf/metrics/technical_metrics.py::OpenShutterFractionMetric.run"]}
{"id": "C110", "title": "The open shutter fraction from visit times is a fraction", "statement": "BruteOSFMetric returns at most one for exposures that do not overlap.", "quantifier": "every table of visits and maximum gap", "why_tests_cant": "Needs all patterns of gaps; tests use a long regular sequence.", "anchors": ["rubin_sim/maf/metrics/technical_metrics.py::BruteOSFMetric.run"]}
{"id": "C111", "title": "Texts are counted completely", "statement": "StringCountMetric returns a field for each text of the column holding the number (or percentage) of visits with it; the numbers add up to the number of visits and the percentages to 100; with clip_end a trailing comma, blank and number is removed first and nothing else.", "quantifier": "every column of texts and both options", "why_tests_cant": "Universal over texts, including the empty one and those containing commas.", "anchors": ["rubin_sim/maf/metrics/string_count_metric.py::StringCountMetric.run"]}
{"id": "C112", "title": "Reduce functions made for the texts apply to every slice", "statement": "The reduce functions created by StringCountMetric give a value for every slice that was evaluated.", "quantifier": "every sequence of slices", "why_tests_cant": "Depends on state accumulated over slices; tests use one slice.", "anchors": ["rubin_sim/maf/metrics/string_count_metric.py::StringCountMetric.run", "rubin_sim/maf/metrics/string_count_metric.py::Keylookerupper.__call__"]}
{"id": "C113", "title": "Phase gaps are the longest stretches of phase without visits", "statement": "PhaseGapMetric returns n_periods periods running from the smallest to the largest; for each, the gap is between 1/n and 1, no stretch of phase free of visits (including around phase zero) is longer and one is that long.", "quantifier": "every set of visit times, number of periods and range of periods, every stretch of phase", "why_tests_cant": "Quantifies over all stretches of phase.", "anchors": ["rubin_sim/maf/metrics/phase_gap_metric.py::PhaseGapMetric.run"]}
{"id": "C114", "title": "Pairs of visits are counted", "statement": "PairMetric returns the number of pairs of visits separated by match_min to match_max, and the bad value when there are none.", "quantifier": "every set of visit times and every match range and bin size", "why_tests_cant": "Needs all placements of the visits relative to the time bins.", "anchors": ["rubin_sim/maf/metrics/pair_metric.py::PairMetric.run"]}
{"id": "C115", "title": "Campaign length and frequency summarise the seasons", "statement": "CampaignLengthMetric returns the number of seasons with a visit that is long enough; MeanCampaignFrequencyMetric lies between the smallest and the largest separation of nights that follow each other within a season.", "quantifier": "every table of visits and every assignment of visits to seasons", "why_tests_cant": "Universal over tables, including seasons with a single night.", "anchors": ["rubin_sim/maf/metrics/season_metrics.py::CampaignLengthMetric.run", "rubin_sim/maf/metrics/season_metrics.py::MeanCampaignFrequencyMetric.run"]}
{"id": "C116", "title": "Visits of a night in pairs", "statement": "VisitGroupsMetric records for each night the number of visits within tmin to tmax of another visit of the night, counting a pair closer than tmin as one and a half visits; never more than the visits made, and only for nights with such visits.", "quantifier": "every table of visits and every tmin and tmax", "why_tests_cant": "Needs all patterns of good, short and long gaps in a night; tests use a few.", "anchors": ["rubin_sim/maf/metrics/visit_groups_metric.py::VisitGroupsMetric.run"]}
{"id": "C117", "title": "The best window of nights", "statement": "The reduce functions for visits and nights in a window return the largest number of visits (nights) with enough visits over all windows of that length, wherever they begin; a longer window or smaller demand never lowers the number of nights.", "quantifier": "every recorded value, window, demand and starting point of a window", "why_tests_cant": "There are infinitely many windows; the code tries only those beginning at a recorded night.", "anchors": ["rubin_sim/maf/metrics/visit_groups_metric.py::VisitGroupsMetric.reduce_n_visits_in_window", "rubin_sim/maf/metrics/visit_groups_metric.py::VisitGroupsMetric.reduce_n_nights_in_window"]}
{"id": "C118", "title": "Lunations with a group", "statement": "reduce_n_lunations returns the number of 30-night periods, counted from the first recorded night, that contain a group: enough nights with enough visits in some window.", "quantifier": "every recorded value, window and demand, every period", "why_tests_cant": "Quantifies over all periods and windows.", "anchors": ["rubin_sim/maf/metrics/visit_groups_metric.py::VisitGroupsMetric.reduce_n_lunations"]}
{"id": "C119", "title": "The longest sequence of lunations with groups", "statement": "reduce_max_seq_lunations returns the largest number of successive 30-night periods which all have a group.", "quantifier": "every recorded value, window and demand", "why_tests_cant": "Depends on the sequence of periods and on every night of a period.", "anchors": ["rubin_sim/maf/metrics/visit_groups_metric.py::VisitGroupsMetric.reduce_max_seq_lunations"]}
{"id": "C120", "title": "Every reduce function can be applied", "statement": "For every metric with reduce functions, running its bundle applies each of them and gives it a display order.", "quantifier": "every metric and every set of method names", "why_tests_cant": "Depends on names chosen in each metric class; tests do not run every one.", "anchors": ["rubin_sim/maf/metrics/base_metric.py::BaseMetric.__init__", "rubin_sim/maf/metric_bundles/metric_bundle.py::MetricBundle.reduce_metric", "rubin_sim/maf/metrics/visit_groups_metric.py::VisitGroupsMetric.__init__", "rubin_sim/maf/maf_contrib/triplet_metric.py::TripletBandMetric.__init__", "rubin_sim/maf/maf_contrib/grb_transient_metric.py::GRBTransientMetric.__init__"]}
{"id": "C121", "title": "The fraction of transients detected is a fraction", "statement": "TransientMetric returns a value between 0 and 1 for visits within the survey.", "quantifier": "every set of visits, light curve, set of criteria, number of phases and counting method", "why_tests_cant": "Needs all placements of visits relative to the light curves; tests use a few.", "anchors": ["rubin_sim/maf/metrics/transient_metrics.py::TransientMetric.run"]}
{"id": "C122", "title": "The survey start can be given", "statement": "TransientMetric evaluates slices for every survey_start; without one the survey starts at the first visit and shifting all times changes nothing.", "quantifier": "every set of visits, parameters and shift of time", "why_tests_cant": "Universal over parameters; shift invariance is relational.", "anchors": ["rubin_sim/maf/metrics/transient_metrics.py::TransientMetric.run"]}
{"id": "C123", "title": "Transients are counted by the documented criteria", "statement": "The number of detected light curves is the number of (phase, light curve) pairs with a visit brighter than the limit, at least n_pre_peak such visits before the peak, and at least n_filters bands whose bright visits fall in each of the n_per_lc sections.", "quantifier": "every set of visits and combination of criteria", "why_tests_cant": "Criteria interact; tests check one or two combinations.", "anchors": ["rubin_sim/maf/metrics/transient_metrics.py::TransientMetric.run"]}
{"id": "C124", "title": "Phases within a light curve follow the time", "statement": "Two visits assigned to the same light curve are as far apart in phase as in time, for every phase shift.", "quantifier": "every pair of visits, duration and phase shift", "why_tests_cant": "Quantifies over all phases.", "anchors": ["rubin_sim/maf/metrics/transient_metrics.py::TransientMetric.run"]}
{"id": "C125", "title": "Deeper visits never lower the fraction", "statement": "Making limiting magnitudes fainter at unchanged times and bands never lowers the number of transients detected and leaves the number possible unchanged.", "quantifier": "every two sets of visits that differ in depth only and all criteria", "why_tests_cant": "A relation between two runs.", "anchors": ["rubin_sim/maf/metrics/transient_metrics.py::TransientMetric.run"]}
{"id": "C126", "title": "The light curve is brightest at its peak", "statement": "With a negative rise slope and a positive decline slope the light curve has the given magnitude at the peak and is monotone before and after it.", "quantifier": "every time, band and slopes", "why_tests_cant": "Universal over times and slopes.", "anchors": ["rubin_sim/maf/metrics/transient_metrics.py::TransientMetric.light_curve"]}
{"id": "C127", "title": "Counts of detections of a moving object agree", "statement": "NObsNoSinglesMetric counts exactly the detections on nights with at least two; NObsMetric exceeds it by the number of nights with one detection; NNightsMetric counts the nights; ObsArcMetric is the largest difference of detection times, 0 without detections.", "quantifier": "every list of observations, with and without an SNR limit", "why_tests_cant": "Relates four metrics over all inputs.", "anchors": ["rubin_sim/maf/metrics/mo_metrics.py::NObsMetric.run", "rubin_sim/maf/metrics/mo_metrics.py::NObsNoSinglesMetric.run", "rubin_sim/maf/metrics/mo_metrics.py::NNightsMetric.run", "rubin_sim/maf/metrics/mo_metrics.py::ObsArcMetric.run"]}
{"id": "C128", "title": "A stricter limit or fewer observations never give more detections", "statement": "Raising snr_limit, or leaving out observations, never raises the number of detections, nights, non-single detections or the arc length; numbers of detections add over a partition.", "quantifier": "every list of observations, pair of limits and partition", "why_tests_cant": "Relational over all pairs of inputs.", "anchors": ["rubin_sim/maf/metrics/mo_metrics.py::NObsMetric.run", "rubin_sim/maf/metrics/mo_metrics.py::NObsNoSinglesMetric.run", "rubin_sim/maf/metrics/mo_metrics.py::NNightsMetric.run", "rubin_sim/maf/metrics/mo_metrics.py::ObsArcMetric.run"]}
{"id": "C129", "title": "Discovery opportunities are the nights that start a full window", "statement": "With observations in order of time DiscoveryMetric reports as many chances as there are nights with a tracklet followed within the window of t_window nights by enough nights with tracklets; a tracklet is n_obs_per_night detections spread over t_min to t_max.", "quantifier": "every list of observations in order of time and all parameters", "why_tests_cant": "The definition goes through index arithmetic with rolls and searches; tests check a few hand-made cases.", "anchors": ["rubin_sim/maf/metrics/mo_metrics.py::DiscoveryMetric.run"]}
{"id": "C130", "title": "The discovery time is that of the first opportunity", "statement": "DiscoveryTimeMetric gives the time of the first detection of the earliest night that starts an opportunity, or the bad value when there is none, whatever the order of the observations.", "quantifier": "every list of observations and all parameters", "why_tests_cant": "Quantifies over orders and over all placements of opportunities.", "anchors": ["rubin_sim/maf/metrics/mo_metrics.py::DiscoveryTimeMetric.run", "rubin_sim/maf/metrics/mo_metrics.py::DiscoveryMetric.run"]}
{"id": "C131", "title": "A further observation never costs an opportunity", "statement": "Adding an observation never lowers the number of discovery chances.", "quantifier": "every list of observations and added observation", "why_tests_cant": "Monotonicity over all inputs.", "anchors": ["rubin_sim/maf/metrics/mo_metrics.py::DiscoveryMetric.run", "rubin_sim/maf/metrics/mo_metrics.py::DiscoveryNChancesMetric.run"]}
{"id": "C132", "title": "The number of observations of an opportunity", "statement": "DiscoveryNObsMetric counts the detections from the first night of the opportunity to the last night with a tracklet in its window.", "quantifier": "every list of observations and all parameters", "why_tests_cant": "Off-by-one behaviour has to be excluded for all inputs.", "anchors": ["rubin_sim/maf/metrics/mo_metrics.py::DiscoveryNObsMetric.run"]}
{"id": "C133", "title": "Every child metric of the discovery metric can be made", "statement": "The child metrics of DiscoveryMetric can be constructed with a DiscoveryMetric as parent.", "quantifier": "every discovery metric", "why_tests_cant": "Construction of each class with each parent.", "anchors": ["rubin_sim/maf/metrics/mo_metrics.py::DiscoveryVelocityMetric.__init__", "rubin_sim/maf/metrics/mo_metrics.py::DiscoveryTimeMetric.__init__"]}
{"id": "C134", "title": "Magic discovery counts nights followed by enough detections", "statement": "MagicDiscoveryMetric gives the number of nights with detections such that at least n_obs detections fall in the t_window nights from it on, whatever the order of the observations.", "quantifier": "every list of observations, number and window", "why_tests_cant": "All orders and placements of detections.", "anchors": ["rubin_sim/maf/metrics/mo_metrics.py::MagicDiscoveryMetric.run"]}
{"id": "C135", "title": "Trailed discovery is at the first night with enough trailed detections", "statement": "HighVelocityNightsMetric gives the time of the first trailed detection of the first night with n_obs_per_night trailed detections, and badval for an object without such a night.", "quantifier": "every list of observations in order of time and all parameters", "why_tests_cant": "Which observation of the night is reported depends on all of them.", "anchors": ["rubin_sim/maf/metrics/mo_metrics.py::HighVelocityNightsMetric.run", "rubin_sim/maf/metrics/mo_metrics.py::HighVelocityMetric.run"]}
{"id": "C136", "title": "The fraction of the survey with chances to see activity", "statement": "ActivityOverTimeMetric is the fraction of the windows of the survey with detections: 1 for an object detected every night, and never lower with more observations.", "quantifier": "every list of observations, survey length and window", "why_tests_cant": "Quantifies over survey lengths and windows.", "anchors": ["rubin_sim/maf/metrics/mo_metrics.py::ActivityOverTimeMetric.__init__", "rubin_sim/maf/metrics/mo_metrics.py::ActivityOverTimeMetric.run"]}
{"id": "C137", "title": "The colour flag tells which bands have enough detections", "statement": "ColorAsteroidMetric returns 4 exactly when all six bands, at least 3 when all of grizy, at least 2 when four of them, or at least 1 when g, one of r and i and one of z and y, have more than the required SNR-weighted number of detections; more observations or a lower limit never lower it.", "quantifier": "every list of observations, weight, cap and limit", "why_tests_cant": "64 combinations of bands times all weights, and monotonicity.", "anchors": ["rubin_sim/maf/metrics/mo_metrics.py::ColorAsteroidMetric.run"]}
{"id": "C138", "title": "The outer solar system flag counts light curves and a colour", "statement": "LightcurveColorOuterMetric is at least 1 exactly when a band has num_req detections and at least 2 exactly when another band has num_req or num_sec_filt; it is at most the number of bands and never lower with more detections.", "quantifier": "every list of observations, list of bands and numbers required", "why_tests_cant": "All combinations of bands and monotonicity.", "anchors": ["rubin_sim/maf/metrics/mo_metrics.py::LightcurveColorOuterMetric.run"]}
{"id": "C139", "title": "Instantaneous colours come from pairs close in time", "statement": "InstantaneousColorMetric with one pair returns 1 exactly when an observation in each band, both above the limit, are less than n_hours apart.", "quantifier": "every list of observations in order of time, bands, limit and interval", "why_tests_cant": "Which of the two bands comes first, and where, varies without bound.", "anchors": ["rubin_sim/maf/metrics/mo_metrics.py::InstantaneousColorMetric.run"]}
{"id": "C140", "title": "Light curve inversion needs coverage in longitude and phase", "statement": "LightcurveInversionAsteroidMetric returns 1 exactly when a band has the required SNR-weighted number of detections covering 90 degrees of ecliptic longitude, also across 0 degrees, with mean absolute deviation of an eighth of the range, and 5 degrees of phase; otherwise 0.", "quantifier": "every list of observations, list of bands, weight, cap and limit", "why_tests_cant": "The circle of longitudes and the statistics of arbitrary lists.", "anchors": ["rubin_sim/maf/metrics/mo_metrics.py::LightcurveInversionAsteroidMetric.run"]}
{"id": "C141", "title": "Known objects are found at an observation that allowed it", "statement": "KnownObjectsMetric returns badval or the time of an observation far enough from the Sun and bright enough for its period; when every potential observation is picked it is the earliest such time, badval exactly if there is none.", "quantifier": "every list of observations, switch times in order, thresholds, efficiencies and random numbers", "why_tests_cant": "Random draws and four periods; all draws are covered.", "anchors": ["rubin_sim/maf/metrics/mo_metrics.py::KnownObjectsMetric.run", "rubin_sim/maf/metrics/mo_metrics.py::KnownObjectsMetric._pick_obs"]}
{"id": "C142", "title": "Integrating over H is a weighted mean", "statement": "integrate_over_h returns at each H the mean of the values at this and the brighter H values, weighted by the size distribution: between the least and the largest of them, monotone in them, and with a power law independent of the anchor.", "quantifier": "all values, H grids and size distributions with positive weights", "why_tests_cant": "The formula ranges over all grids, distributions and values.", "anchors": ["rubin_sim/maf/metrics/mo_summary_metrics.py::integrate_over_h", "rubin_sim/maf/metrics/mo_summary_metrics.py::power_law_dndh"]}
{"id": "C143", "title": "Completeness is the fraction of objects that reach the threshold", "statement": "For a cloned H distribution MoCompletenessMetric returns, at each H, the fraction of the objects whose value reaches the threshold; a higher threshold never gives more; the cumulative value is between the least and largest differential ones; an object without a value is not counted.", "quantifier": "every table of values, threshold and H grid", "why_tests_cant": "Universal over tables, thresholds and grids.", "anchors": ["rubin_sim/maf/metrics/mo_summary_metrics.py::MoCompletenessMetric.run"]}
{"id": "C144", "title": "The size distribution index of completeness is used", "statement": "The cumulative completeness is the differential one integrated with the power law of the hindex given to MoCompletenessMetric.", "quantifier": "every table of values and index", "why_tests_cant": "A swallowed keyword raises nothing: only comparing with the formula for other indices shows it.", "anchors": ["rubin_sim/maf/metrics/mo_summary_metrics.py::MoCompletenessMetric.run", "rubin_sim/maf/metrics/mo_summary_metrics.py::power_law_dndh"]}
{"id": "C145", "title": "Completeness by magnitude bin without cloning", "statement": "Without a cloned H distribution MoCompletenessMetric returns per H bin the fraction of the objects in it that reach the threshold, and the bins span the H values.", "quantifier": "every table of one value per object, H values, number of bins and least range", "why_tests_cant": "Ranges over all H values and metric values.", "anchors": ["rubin_sim/maf/metrics/mo_summary_metrics.py::MoCompletenessMetric.run"]}
{"id": "C146", "title": "Completeness at a time counts the objects discovered by then", "statement": "MoCompletenessAtTimeMetric returns, for each time, the fraction of the objects discovered by then at the chosen H (or its weighted mean up to it): 0 at the first time, never decreasing, at most 1; the default H is the middle one, for every run.", "quantifier": "every table of discovery times, list of times, H grid and requested H", "why_tests_cant": "Universal over tables; repeated runs are sequences of calls.", "anchors": ["rubin_sim/maf/metrics/mo_summary_metrics.py::MoCompletenessAtTimeMetric"]}
{"id": "C147", "title": "Values at a magnitude are interpolated", "statement": "ValueAtHMetric and MeanValueAtHMetric return the value on the line between the neighbouring H values, within the range of the values and exact at the H values, and nothing outside the H range.", "quantifier": "every increasing H grid, table of values and magnitude", "why_tests_cant": "Universal over grids and magnitudes.", "anchors": ["rubin_sim/maf/metrics/mo_summary_metrics.py::ValueAtHMetric.run", "rubin_sim/maf/metrics/mo_summary_metrics.py::MeanValueAtHMetric.run"]}
{"id": "C148", "title": "Expected numbers of objects grow with the magnitude limit", "statement": "TotalNumberSSO returns the sum of the values times the expected number of objects up to h_mark, non-decreasing in h_mark; each size distribution and its parameters can be used.", "quantifier": "every H grid, table of non-negative values, distribution with positive weights and magnitude", "why_tests_cant": "Universal over grids and values; names of keyword arguments.", "anchors": ["rubin_sim/maf/metrics/mo_summary_metrics.py::TotalNumberSSO", "rubin_sim/maf/metrics/mo_summary_metrics.py::sum_over_h", "rubin_sim/maf/metrics/mo_summary_metrics.py::neo_dndh_granvik", "rubin_sim/maf/metrics/mo_summary_metrics.py::pha_dndh_grav"]}
{"id": "C149", "title": "Moving object bundles run together only without conflict", "statement": "MoMetricBundleGroup runs the bundles of one constraint in lists: each bundle in exactly one list, in their order, no two bundles of a list conflicting (different constraint, or stackers of one class with other settings), and a new list is started only when needed.", "quantifier": "every dictionary of bundles", "why_tests_cant": "Ranges over all collections of bundles and stackers.", "anchors": ["rubin_sim/maf/metric_bundles/mo_metric_bundle.py::MoMetricBundleGroup._find_compatible", "rubin_sim/maf/metric_bundles/mo_metric_bundle.py::MoMetricBundleGroup._check_compatible"]}
{"id": "C150", "title": "The values of a moving object bundle do not depend on the others", "statement": "The values of a bundle at an H value are those it gets when run alone for this H value, whichever other bundles are in the group and whichever H values were run before on the same table.", "quantifier": "every group of bundles, H grid, table of observations and stackers as functions", "why_tests_cant": "Universal over groups and over the state left in the shared table.", "anchors": ["rubin_sim/maf/metric_bundles/mo_metric_bundle.py::MoMetricBundleGroup.run_constraint", "rubin_sim/maf/metric_bundles/mo_metric_bundle.py::MoMetricBundleGroup._run_compatible"]}
{"id": "C151", "title": "Masked values of moving object metrics", "statement": "A value is masked exactly when the object has no observations or the metric returned its bad value; a child metric is masked whenever its parent is, and is otherwise computed from the parent's value.", "quantifier": "every list of bundles, H grid and table", "why_tests_cant": "Universal over metrics as functions and over tables.", "anchors": ["rubin_sim/maf/metric_bundles/mo_metric_bundle.py::MoMetricBundleGroup._run_compatible"]}
{"id": "C152", "title": "Making a moving object bundle", "statement": "Summary metrics go to every child and stay with the parent only if it has no children; the given stackers are kept, and a magnitude stacker is added iff there is none; the label names the observation file unless given.", "quantifier": "every metric, slicer, constraint, list of stackers and summary metrics", "why_tests_cant": "Ranges over all metrics with children and stacker lists.", "anchors": ["rubin_sim/maf/metric_bundles/mo_metric_bundle.py::MoMetricBundle.__init__", "rubin_sim/maf/metric_bundles/mo_metric_bundle.py::MoMetricBundle._build_metadata"]}
{"id": "C153", "title": "The slices of the moving object slicer", "statement": "Iterating over MoObjSlicer gives for each object exactly its own observations that satisfy the constraint, in file order, and the H values it is to be run for; equality of slicers is an equivalence and equal slicers have the same shape; after setup_slicer with an observation file the slicer can be used.", "quantifier": "every orbit and observation file, constraint and H range", "why_tests_cant": "Universal over tables and predicates.", "anchors": ["rubin_sim/maf/slicers/mo_slicer.py::MoObjSlicer"]}
{"id": "C154", "title": "Every moving object bundle is run exactly once", "statement": "run_all runs each bundle of the dictionary exactly once and with its own constraint, whatever the order of the set of constraints.", "quantifier": "every dictionary of bundles and order of constraints", "why_tests_cant": "The order of a set is arbitrary; tests see one.", "anchors": ["rubin_sim/maf/metric_bundles/mo_metric_bundle.py::MoMetricBundleGroup.run_all", "rubin_sim/maf/metric_bundles/mo_metric_bundle.py::MoMetricBundleGroup.run_constraint"]}
{"id": "C155", "title": "Signal to noise and position errors", "statement": "m52snr is 5 exactly at the limiting magnitude, decreases with the magnitude, and is at least 5 exactly for sources not fainter than the limit, for every gamma in [0, 0.04] and without gamma (which is the default 0.04); astrom_precision is at least the systematic floor and fwhm/snr, at most their sum, and never grows with the signal to noise.", "quantifier": "every magnitude, limiting magnitude, gamma, seeing and floor", "why_tests_cant": "Inequalities over all real magnitudes.", "anchors": ["rubin_sim/maf/utils/astrometry_utils.py::m52snr", "rubin_sim/maf/utils/astrometry_utils.py::astrom_precision"]}
{"id": "C156", "title": "The uncertainty of a fitted slope is the best possible", "statement": "sigma_slope returns the least standard deviation that any linear unbiased estimate of the slope can have; NaN exactly when all x are the same; more points never increase it; it does not depend on the order or zero point and scales with the errors.", "quantifier": "every list of points with positive errors", "why_tests_cant": "Quantifies over all estimators (Gauss-Markov) and all lists.", "anchors": ["rubin_sim/maf/utils/astrometry_utils.py::sigma_slope"]}
{"id": "C157", "title": "The uncertainty of proper motions", "statement": "ProperMotionMetric returns the best uncertainty attainable with the visits in bands with at least two visits, in mas/yr; more visits never increase it; row order does not matter; normalised, it is at most 1 for dates within the baseline.", "quantifier": "every list of visits, magnitudes, errors and baseline", "why_tests_cant": "Universal over schedules; the normalisation is an optimisation over all schedules.", "anchors": ["rubin_sim/maf/metrics/calibration_metrics.py::ProperMotionMetric"]}
{"id": "C158", "title": "The uncertainty of parallaxes", "statement": "ParallaxMetric combines the visits by their information: infinite exactly when all factors are zero, never larger with more visits; normalised it lies in [0, 1] and is 1 exactly when every visit has a full parallax factor.", "quantifier": "every list of visits, magnitudes and errors", "why_tests_cant": "Universal over visits and factors.", "anchors": ["rubin_sim/maf/metrics/calibration_metrics.py::ParallaxMetric"]}
{"id": "C159", "title": "Coverage of the parallax ellipse", "statement": "ParallaxCoverageMetric is 0 exactly when all visits have the same parallax factors and at most 1; it does not change when all factors are shifted; with theta_range it counts when visits above the signal to noise limit span that angle, and is 0 otherwise.", "quantifier": "every list of at least two visits, weights, limits and angles", "why_tests_cant": "Universal over configurations of points.", "anchors": ["rubin_sim/maf/metrics/calibration_metrics.py::ParallaxCoverageMetric"]}
{"id": "C160", "title": "Degeneracy of parallax and refraction", "statement": "For a converged fit ParallaxDcrDegenMetric is strictly between -1 and 1, zero exactly when the two sets of shifts are orthogonal, undefined exactly when a combination of the two effects vanishes in every visit, and does not depend on the scale of the shifts.", "quantifier": "every list of shifts with positive errors", "why_tests_cant": "Universal over shifts (Cauchy-Schwarz with the case of equality).", "anchors": ["rubin_sim/maf/metrics/calibration_metrics.py::ParallaxDcrDegenMetric"]}
{"id": "C161", "title": "Distances from the field centre", "statement": "RadiusObsMetric returns per visit the angle between slice point and pointing, in the stated units: symmetric, zero exactly for the same direction, unchanged by full turns; its reductions lie in the range of the distances.", "quantifier": "every slice point and list of pointings", "why_tests_cant": "Universal over positions on the sphere.", "anchors": ["rubin_sim/maf/metrics/calibration_metrics.py::RadiusObsMetric", "rubin_sim/maf/metrics/calibration_metrics.py::calc_dist_cosines"]}
{"id": "C162", "title": "Signal to noise of moving objects", "statement": "In every run of MoMagStacker the column SNR is positive, at least 5 exactly for rows not fainter than the depth of their visit, 5 exactly at the depth, and of two rows at the same depth the brighter has the higher SNR.", "quantifier": "every frame, H value, kind of magnitude, gamma in [0, 0.04]", "why_tests_cant": "Inequalities over all real magnitudes and all frames.", "anchors": ["rubin_sim/maf/stackers/mo_stackers.py::SNRStacker", "rubin_sim/maf/stackers/mo_stackers.py::MoMagStacker"]}
{"id": "C163", "title": "One definition of signal to noise", "statement": "For the same gamma, magnitude and depth the SNR column of the moving object stackers is the signal to noise of m52snr, the other implementation of the same formula in the package.", "quantifier": "every gamma in [0, 0.04], magnitude and depth", "why_tests_cant": "Agreement of two functions over all reals.", "anchors": ["rubin_sim/maf/stackers/mo_stackers.py::SNRStacker._run", "rubin_sim/maf/utils/astrometry_utils.py::m52snr"]}
{"id": "C164", "title": "Visibility of moving objects", "statement": "vis is 1 exactly when the random number of the row does not exceed the completeness 1/(1+exp((appMag-m5)/sigma)), which is a half at the depth, decreases with magnitude, is symmetric about the depth and tends to 1 for bright objects.", "quantifier": "every frame, seed, sigma and sequence of random numbers", "why_tests_cant": "Universal over random sequences and magnitudes.", "anchors": ["rubin_sim/maf/stackers/mo_stackers.py::SNRStacker"]}
{"id": "C165", "title": "Brighter clones are at least as visible", "statement": "When an object is cloned over H, an observation visible at one H is visible at every brighter H.", "quantifier": "every frame, pair of H values and sequence of random numbers", "why_tests_cant": "Depends on the random numbers drawn for each clone; a test sees one sequence.", "anchors": ["rubin_sim/maf/stackers/mo_stackers.py::SNRStacker._run", "rubin_sim/maf/stackers/mo_stackers.py::MoMagStacker"]}
{"id": "C166", "title": "Reproducible visibility", "statement": "With a given seed the visibility of the observations of an object is the same whichever objects were processed before.", "quantifier": "every seed, sequence of earlier frames and frame", "why_tests_cant": "Quantifies over all earlier calls of the stacker.", "anchors": ["rubin_sim/maf/stackers/mo_stackers.py::SNRStacker._run"]}
{"id": "C167", "title": "Magnitudes of asteroids follow H", "statement": "Without cloning appMag is V + colour + loss whatever the reference H; for a clone d magnitudes fainter every appMag is d larger; an empty frame is returned unchanged.", "quantifier": "every frame, reference H and H value", "why_tests_cant": "Universal over frames and H.", "anchors": ["rubin_sim/maf/stackers/mo_stackers.py::AppMagStacker", "rubin_sim/maf/stackers/mo_stackers.py::BaseMoStacker.run"]}
{"id": "C168", "title": "Magnitudes of comets", "statement": "The flux of a comet is the sum of the fluxes of coma and nucleus, so it is brighter than both and by at most 2.5 log10 2 than the brighter; changing H by d changes the total by d; a run fails with KeyError exactly when a band is not one of ugrizy.", "quantifier": "every row with positive distances, seeing and phase function, every H", "why_tests_cant": "Logarithmic identities over all reals.", "anchors": ["rubin_sim/maf/stackers/mo_stackers.py::CometAppMagStacker"]}
{"id": "C169", "title": "The coma magnitude has the stated units", "statement": "The coma magnitude is that of the Af-rho formula with the radius in km, Afrho in cm, rho in cm and delta in cm, as the comments say.", "quantifier": "every row with positive distances, seeing and phase function, every H, constant and exponent", "why_tests_cant": "A constant offset of the whole scale shows in no consistency test.", "anchors": ["rubin_sim/maf/stackers/mo_stackers.py::CometAppMagStacker._run"]}
{"id": "C170", "title": "The kind of magnitude asked for", "statement": "MoMagStacker accepts the documented magtypes with their constants and refuses others, and its results are determined by its input.", "quantifier": "every string and every frame", "why_tests_cant": "Quantifies over all strings and over uninitialised memory.", "anchors": ["rubin_sim/maf/stackers/mo_stackers.py::MoMagStacker", "rubin_sim/maf/stackers/mo_stackers.py::AppMagNullStacker"]}
{"id": "C171", "title": "Comet types given by a dictionary", "statement": "A dictionary with the documented keys k and afrho1_const is accepted as comet_type and its values are used.", "quantifier": "every dictionary and values", "why_tests_cant": "Universal over dictionaries.", "anchors": ["rubin_sim/maf/stackers/mo_stackers.py::CometAppMagStacker.__init__"]}
{"id": "C172", "title": "Ecliptic coordinates", "statement": "EclStacker gives a latitude in [-90, 90] and a longitude in [0, 360) that are the rotation of the equatorial direction by the obliquity; angles between objects are kept; in_deg only changes the unit of the input; equinox, solstice point and pole are where they should be.", "quantifier": "every position on the sky", "why_tests_cant": "Universal over positions (rotation of the sphere).", "anchors": ["rubin_sim/maf/stackers/mo_stackers.py::EclStacker"]}
{"id": "C173", "title": "Phase functions", "statement": "The log-linear phase function is 1 at zero phase, loses slope magnitudes per degree and decreases; the H-G function is 1 at zero phase and decreases strictly through (0, 180) staying positive, for every G in [0, 1].", "quantifier": "every phase, slope and G", "why_tests_cant": "Monotonicity over the reals.", "anchors": ["rubin_sim/maf/stackers/mo_phase.py::phase__log_linear", "rubin_sim/maf/stackers/mo_phase.py::phase_hg"]}
{"id": "C174", "title": "Resampling takes the mean over each bin", "statement": "Every value of a resampled spectrum is the light of the original over the bin of the new wavelength divided by the width of the bin; a bin that reaches outside the bins of the original gets the fill value.", "quantifier": "every pair of ascending wavelength grids with at least two points, every spectrum and fill value", "why_tests_cant": "The code walks two indices along the grids; every relative position of the edges is a different path.", "anchors": ["rubin_sim/phot_utils/spectral_resampling.py::spectres", "rubin_sim/phot_utils/spectral_resampling.py::make_bins"]}
{"id": "C175", "title": "Resampling conserves light", "statement": "The resampled values times the widths of their bins add up to the light of the spectrum over the range of the new bins.", "quantifier": "every spectrum whose bins cover the bins of the new grid", "why_tests_cant": "A sum over arbitrary grids.", "anchors": ["rubin_sim/phot_utils/spectral_resampling.py::spectres"]}
{"id": "C176", "title": "Resampling makes no new extremes", "statement": "A resampled value lies between the smallest and the largest flux, a flat spectrum stays flat, and resampling respects multiples and sums.", "quantifier": "every spectrum and grid it covers, every factor", "why_tests_cant": "Inequalities and linearity over all spectra.", "anchors": ["rubin_sim/phot_utils/spectral_resampling.py::spectres"]}
{"id": "C177", "title": "Resampling onto the own grid changes nothing", "statement": "On its own wavelengths a spectrum is unchanged, so a second resampling onto the same grid changes nothing.", "quantifier": "every spectrum, grid and fill value", "why_tests_cant": "Idempotence over all spectra.", "anchors": ["rubin_sim/phot_utils/spectral_resampling.py::spectres", "rubin_sim/phot_utils/sed.py::Sed.resample_sed"]}
{"id": "C178", "title": "A spectrum that covers the new wavelengths gives numbers there", "statement": "If all new wavelengths lie in the range of the spectrum, resample_sed gives no NaN.", "quantifier": "every spectrum and grid inside its range", "why_tests_cant": "False only for grids whose first or last step is coarser than that of the spectrum; a test with equal steps passes.", "anchors": ["rubin_sim/phot_utils/spectral_resampling.py::spectres", "rubin_sim/phot_utils/sed.py::Sed.resample_sed"]}
{"id": "C179", "title": "Spectra and bandpasses share their grids", "statement": "For the same minimum, maximum and step a flat spectrum and a bandpass have the same wavelengths: from the minimum to the maximum in whole steps; a spectrum on the grid need not be resampled.", "quantifier": "every minimum, maximum and step", "why_tests_cant": "The two functions round differently; only ranges that are not whole numbers of steps show it.", "anchors": ["rubin_sim/phot_utils/sed.py::Sed.set_flat_sed", "rubin_sim/phot_utils/sed.py::Sed.need_resample", "rubin_sim/phot_utils/bandpass.py::Bandpass.imsim_bandpass", "rubin_sim/phot_utils/bandpass.py::Bandpass.resample_bandpass"]}
{"id": "C180", "title": "The flux in a bandpass is the weighted mean", "statement": "calc_flux is the mean of the flux per frequency weighted by throughput over wavelength: it lies between the least and greatest flux of the source, adds up for sums of sources, and does not depend on the scale of the throughput.", "quantifier": "every throughput curve and every spectrum covering it", "why_tests_cant": "An integral over arbitrary grids and spectra.", "anchors": ["rubin_sim/phot_utils/sed.py::Sed.calc_flux", "rubin_sim/phot_utils/bandpass.py::Bandpass.sb_tophi"]}
{"id": "C181", "title": "Magnitudes of flat sources", "statement": "A source of 3631 k Jy at all wavelengths has magnitude -2.5 log10 k in every bandpass; any source made k times brighter is 2.5 log10 k magnitudes brighter in every bandpass.", "quantifier": "every bandpass, grid of the source and factor", "why_tests_cant": "Universal over bandpasses and factors.", "anchors": ["rubin_sim/phot_utils/sed.py::Sed.calc_mag", "rubin_sim/phot_utils/sed.py::Sed.set_flat_sed", "rubin_sim/phot_utils/sed.py::Sed.multiply_flux_norm"]}
{"id": "C182", "title": "Normalizing gives the magnitude asked for", "statement": "Multiplying a spectrum by calc_flux_norm(m) gives it magnitude m in that bandpass.", "quantifier": "every spectrum, bandpass, zeropoint and magnitude", "why_tests_cant": "A round trip through a logarithm and an integral for all spectra.", "anchors": ["rubin_sim/phot_utils/sed.py::Sed.calc_flux_norm", "rubin_sim/phot_utils/sed.py::Sed.multiply_flux_norm"]}
{"id": "C183", "title": "Magnitudes and fluxes are inverse", "statement": "mag_from_flux and flux_from_mag are inverse to each other, brighter means smaller, five magnitudes are a factor of 100, and magnitude 0 is 3631 Jy.", "quantifier": "every zeropoint, magnitude and positive flux", "why_tests_cant": "Identities over the reals.", "anchors": ["rubin_sim/phot_utils/sed.py::Sed.mag_from_flux", "rubin_sim/phot_utils/sed.py::Sed.flux_from_mag"]}
{"id": "C184", "title": "A cleared Sed is like a new one", "statement": "After clear_sed and reading the same spectrum again the magnitudes are the same as before.", "quantifier": "every flux", "why_tests_cant": "The difference is 0.0001 mag, below the tolerance of tests.", "anchors": ["rubin_sim/phot_utils/sed.py::Sed.clear_sed", "rubin_sim/phot_utils/sed.py::Sed.__init__"]}
{"id": "C185", "title": "Counts are photons times exposure over gain", "statement": "calc_adu is the sum over the bins of the bandpass of flux times throughput over energy times bin width, times exposure time, number of exposures, area, over gain; more flux, time, area or less gain give proportionally more counts.", "quantifier": "every bandpass grid, spectrum and set of parameters", "why_tests_cant": "Only bandpasses on grids with uneven steps show the difference; the shipped ones are uniform.", "anchors": ["rubin_sim/phot_utils/sed.py::Sed.calc_adu"]}
{"id": "C186", "title": "calc_ergs integrates flux times throughput", "statement": "calc_ergs is the trapezoid integral over wavelength of flux times throughput.", "quantifier": "every bandpass grid and spectrum", "why_tests_cant": "Only uneven grids show the difference.", "anchors": ["rubin_sim/phot_utils/sed.py::Sed.calc_ergs"]}
{"id": "C187", "title": "The instrumental zeropoint is one count per second", "statement": "calc_zp_t is the magnitude of the flat source of one count per second, as its comment says; a bandpass beyond 300-1150 nm has none.", "quantifier": "every bandpass and set of parameters", "why_tests_cant": "Universal over exposure times and bandpasses.", "anchors": ["rubin_sim/phot_utils/bandpass.py::Bandpass.calc_zp_t"]}
{"id": "C188", "title": "Effective wavelengths lie in the bandpass", "statement": "calc_eff_wavelen gives two wavelengths within the range of the bandpass; the one weighted by the response is not longer than the one weighted by throughput.", "quantifier": "every throughput curve", "why_tests_cant": "A Cauchy-Schwarz inequality over all curves.", "anchors": ["rubin_sim/phot_utils/bandpass.py::Bandpass.calc_eff_wavelen"]}
{"id": "C189", "title": "At the five sigma depth the signal to noise is five", "statement": "A flat source of the magnitude calc_m5 returns has calc_snr_sed equal to 5; more sky or worse seeing never gives a fainter depth.", "quantifier": "every bandpass, sky, seeing and set of parameters", "why_tests_cant": "Holds within the tolerance of tests at high counts; the difference depends on gain and counts.", "anchors": ["rubin_sim/phot_utils/signaltonoise.py::calc_m5", "rubin_sim/phot_utils/signaltonoise.py::calc_snr_sed"]}
{"id": "C190", "title": "A sky scaled to a depth has this depth", "statement": "After scale_sky_m5 the signal to noise of a source at the depth asked for is 5, and calc_m5 of this sky returns the depth.", "quantifier": "every bandpass, sky, depth, seeing and set of parameters", "why_tests_cant": "A round trip over real parameters.", "anchors": ["rubin_sim/phot_utils/signaltonoise.py::scale_sky_m5", "rubin_sim/phot_utils/signaltonoise.py::calc_sky_counts_per_pixel_for_m5", "rubin_sim/phot_utils/signaltonoise.py::calc_m5"]}
{"id": "C191", "title": "Signal to noise from depth and from counts agree", "statement": "When the signal to noise at the depth is 5, calc_snr_m5 with the gamma it computes equals calc_snr_sed for flat sources of every magnitude.", "quantifier": "every bandpass, sky, depth, magnitude and set of parameters", "why_tests_cant": "Algebraic identity over all parameters.", "anchors": ["rubin_sim/phot_utils/signaltonoise.py::calc_snr_m5", "rubin_sim/phot_utils/signaltonoise.py::calc_gamma", "rubin_sim/phot_utils/signaltonoise.py::calc_snr_sed"]}
{"id": "C192", "title": "Signal to noise falls with magnitude", "statement": "calc_snr_m5 is 5 at the depth, decreases with magnitude and equals m52snr of maf; the computed gamma is below 0.04 and is not negative exactly when the source at the depth gives at least 25 electrons.", "quantifier": "every gamma in [0, 0.04], depth and magnitude", "why_tests_cant": "Inequalities over the reals.", "anchors": ["rubin_sim/phot_utils/signaltonoise.py::calc_snr_m5", "rubin_sim/phot_utils/signaltonoise.py::calc_gamma", "rubin_sim/maf/utils/astrometry_utils.py::m52snr"]}
{"id": "C193", "title": "Errors of magnitudes", "statement": "mag_error_from_snr is positive, decreases with signal to noise and is below 1.086/SNR; with the systematic error added in quadrature it exceeds both parts, is at most their sum and grows with magnitude.", "quantifier": "every signal to noise, magnitude, depth and systematic error", "why_tests_cant": "Inequalities over the reals.", "anchors": ["rubin_sim/phot_utils/signaltonoise.py::mag_error_from_snr", "rubin_sim/phot_utils/signaltonoise.py::calc_mag_error_m5"]}
{"id": "C194", "title": "Astrometric error has a floor", "statement": "calc_astrometric_error exceeds its floor, does not decrease with magnitude, seeing and floor, does not increase with visits, and at the depth without floor is seeing/5/sqrt(visits) in milliarcseconds.", "quantifier": "every magnitude, depth, seeing, number of visits and floor", "why_tests_cant": "Inequalities over the reals.", "anchors": ["rubin_sim/phot_utils/signaltonoise.py::calc_astrometric_error"]}
{"id": "C195", "title": "The two seeings", "statement": "The conversions between effective and geometric seeing are inverse; the effective is the larger above 26/89 arcsec; the number of pixels goes with the square of the seeing and is independent of the unit.", "quantifier": "every seeing and pixel scale", "why_tests_cant": "Identities over the reals.", "anchors": ["rubin_sim/phot_utils/signaltonoise.py::fwhm_eff2_fwhm_geom", "rubin_sim/phot_utils/signaltonoise.py::fwhm_geom2_fwhm_eff", "rubin_sim/phot_utils/signaltonoise.py::calc_neff"]}
{"id": "C196", "title": "The two forms of a spectrum agree", "statement": "After any sequence of calls on a Sed, including ones that raise, get_sed_fnu returns the fluxes of get_sed_flambda per frequency, at the same wavelengths; measuring a magnitude changes neither, and multiply_flux_norm(k) multiplies both by k.", "quantifier": "every sequence of calls with positive wavelengths", "why_tests_cant": "Stale copies show only after particular sequences of calls.", "anchors": ["rubin_sim/phot_utils/sed.py::Sed"]}
{"id": "C197", "title": "The response of a bandpass is never stale", "statement": "After any sequence of calls on a Bandpass, including ones that raise, the normalized response used for magnitudes is that of the present wavelengths and throughputs.", "quantifier": "every sequence of calls", "why_tests_cant": "Stale copies show only after particular sequences of calls.", "anchors": ["rubin_sim/phot_utils/bandpass.py::Bandpass"]}
{"id": "C198", "title": "A call that raises changes nothing", "statement": "A method of a Sed or Bandpass that raises leaves the spectrum or the throughput as it was.", "quantifier": "every sequence of calls and every failing call", "why_tests_cant": "Failing calls in every state.", "anchors": ["rubin_sim/phot_utils/sed.py::Sed.set_sed", "rubin_sim/phot_utils/sed.py::Sed.add_dust", "rubin_sim/phot_utils/sed.py::Sed.redshift_sed", "rubin_sim/phot_utils/bandpass.py::Bandpass.set_bandpass"]}
{"id": "C199", "title": "Redshifts", "statement": "redshift_sed(z) multiplies wavelengths by 1+z; redshift_sed(-z) undoes redshift_sed(z); redshifts by a and b are one by (1+a)(1+b)-1; with dimming the integral of the flux over wavelength is conserved.", "quantifier": "every spectrum and redshift", "why_tests_cant": "Identities over the reals.", "anchors": ["rubin_sim/phot_utils/sed.py::Sed.redshift_sed"]}
{"id": "C200", "title": "Dust dims by the extinction of the law", "statement": "add_dust dims each wavelength by (a + b/R_V) A_V magnitudes where A_V, E(B-V) and R_V fit what was given; two screens add up; no dust changes nothing; contradicting values are refused.", "quantifier": "every spectrum, law and set of parameters", "why_tests_cant": "Universal over spectra and parameters; the default of R_V hides one case.", "anchors": ["rubin_sim/phot_utils/sed.py::Sed.add_dust"]}
{"id": "C201", "title": "The dust laws", "statement": "The extinction of setup_ccm_ab and setup_o_donnell_ab is A_V at 1.82 inverse microns whatever R_V, positive at every wavelength from 0.3 to 11 inverse microns for R_V from 2 to 6, and zero outside.", "quantifier": "every wavelength and every R_V between 2 and 6", "why_tests_cant": "A property of polynomials on intervals; the exception is one wavelength.", "anchors": ["rubin_sim/phot_utils/sed.py::Sed.setup_ccm_ab", "rubin_sim/phot_utils/sed.py::Sed.setup_o_donnell_ab"]}
{"id": "C202", "title": "Renormalizing gives the value asked for", "statement": "renormalize_sed with a step makes the spectrum, on the line between its points, equal to normvalue at lambdanorm, or its mean over the gap; every spectrum positive everywhere can be renormalized within its range and none outside.", "quantifier": "every spectrum, wavelength, value and gap", "why_tests_cant": "Universal over spectra and wavelengths between grid points.", "anchors": ["rubin_sim/phot_utils/sed.py::Sed.renormalize_sed"]}
{"id": "C203", "title": "The documented calls of Sed work", "statement": "renormalize_sed() and multiply_sed() with their default arguments, renormalize_sed(normflux='fnu') and write_sed(print_fnu=True) do what they say.", "quantifier": "every spectrum", "why_tests_cant": "They fail for every spectrum, which no single test would establish.", "anchors": ["rubin_sim/phot_utils/sed.py::Sed.renormalize_sed", "rubin_sim/phot_utils/sed.py::Sed.multiply_sed", "rubin_sim/phot_utils/sed.py::Sed.write_sed"]}
{"id": "C204", "title": "Many fluxes at once are the fluxes one by one", "statement": "many_flux_calc with the array of setup_phi_array is the integral of response times flux for each bandpass, and the array can be set up for any bandpasses.", "quantifier": "every list of bandpasses and every spectrum", "why_tests_cant": "The difference is in the values at the ends of the grid, zero for the shipped bandpasses.", "anchors": ["rubin_sim/phot_utils/sed.py::Sed.setup_phi_array", "rubin_sim/phot_utils/sed.py::Sed.many_flux_calc"]}
{"id": "C205", "title": "The cache returns the spectrum of the file", "statement": "read_sed_flambda of a file gives what is in the file, whatever was done in between to Seds read from it, in place or not, and however the name is written.", "quantifier": "every sequence of reads and changes, and every content of the disk", "why_tests_cant": "Sharing of arrays shows only after particular sequences.", "anchors": ["rubin_sim/phot_utils/sed.py::Sed.read_sed_flambda", "rubin_sim/phot_utils/sed.py::Sed.add_dust"]}
{"id": "C206", "title": "A Chebyshev series is evaluated as defined", "statement": "chebeval at the point (a+b)/2 + (b-a)/2 cos(theta) of the interval (a, b) is the sum of p_k cos(k theta), whether or not the velocity is asked for; the velocity is the derivative of that value; with the mask both are NaN exactly outside the interval; an interval that is not a pair raises RuntimeError.", "quantifier": "every list of coefficients, interval and point", "why_tests_cant": "The recurrence is unrolled by two and treats the last term specially: parity of the number of terms, every length.", "anchors": ["rubin_sim/moving_objects/chebyshev_utils.py::chebeval"]}
{"id": "C207", "title": "A fit passes through its end points", "statement": "The polynomial of chebfit takes the first value at the first time and the last value at the last time, so that fits to consecutive pieces meet.", "quantifier": "every list of times and values, every accepted number of terms, multipliers computed beforehand or not", "why_tests_cant": "Universal over data; the constraint comes from a matrix inverse.", "anchors": ["rubin_sim/moving_objects/chebyshev_utils.py::chebfit", "rubin_sim/moving_objects/chebyshev_utils.py::make_cheb_matrix_only_x"]}
{"id": "C208", "title": "A fit with velocities also has the given slopes at its ends", "statement": "With dxdt given, value and derivative of the polynomial of chebfit are the given ones at both ends, so that consecutive pieces are continuous with their first derivative.", "quantifier": "every list of times, values and velocities, every weight and accepted number of terms", "why_tests_cant": "Universal over data; involves the scaling of velocities by the interval.", "anchors": ["rubin_sim/moving_objects/chebyshev_utils.py::chebfit", "rubin_sim/moving_objects/chebyshev_utils.py::make_cheb_matrix"]}
{"id": "C209", "title": "A fit is the least squares one", "statement": "At regular times no other polynomial with as many terms and the same end values (and slopes) has a smaller weighted sum of squared residuals; values taken from a polynomial with that many terms give back its coefficients.", "quantifier": "every regular grid, data, weight, number of terms and competing polynomial", "why_tests_cant": "Optimality against every competitor.", "anchors": ["rubin_sim/moving_objects/chebyshev_utils.py::chebfit", "rubin_sim/moving_objects/chebyshev_utils.py::make_cheb_matrix", "rubin_sim/moving_objects/chebyshev_utils.py::make_cheb_matrix_only_x"]}
{"id": "C210", "title": "Which fits are possible and what is reported", "statement": "chebfit accepts 2 to n_points terms, or with velocities 2 to 2*n_points; for accepted sizes the matrix is invertible; residuals, rms and maximum are those of the returned polynomial at the given times; other sizes raise.", "quantifier": "every size and all data", "why_tests_cant": "Invertibility for every size is a theorem about roots of polynomials.", "anchors": ["rubin_sim/moving_objects/chebyshev_utils.py::chebfit"]}
{"id": "C211", "title": "The segment length fits the time span and meets the tolerance", "statement": "calc_segment_length sets a positive length with the asked number of decimals that fits a whole number of times into the time span; unless the length was given, its residuals are within sky_tolerance; a given length that fits already is kept; if there is none ValueError is raised and the span is listed as failed.", "quantifier": "every time span, starting length, number of decimals and every behaviour of the residuals", "why_tests_cant": "The search loops over rounded quotients; every span and starting value.", "anchors": ["rubin_sim/moving_objects/cheby_fits.py::ChebyFits.calc_segment_length", "rubin_sim/moving_objects/cheby_fits.py::ChebyFits._round_length"]}
{"id": "C212", "title": "Segments tile the time span", "statement": "After calc_segments the segments of an object, with the spans listed as failed, follow each other without gap or overlap from t_start to t_end, also where a segment was subdivided, and a segment is kept exactly if the fit to its ephemeris points meets the tolerance.", "quantifier": "every time span, length, granularity and every behaviour of the fits and of the subdivision", "why_tests_cant": "Recursion over pieces; ends are computed from arange, rounding and tolerances, whose errors show at particular spans only.", "anchors": ["rubin_sim/moving_objects/cheby_fits.py::ChebyFits.calc_segments", "rubin_sim/moving_objects/cheby_fits.py::ChebyFits.calc_one_segment", "rubin_sim/moving_objects/cheby_fits.py::ChebyFits._subdivide_segment", "rubin_sim/moving_objects/cheby_fits.py::ChebyFits.make_all_times"]}
{"id": "C213", "title": "Evaluated positions match the fitted ephemeris", "statement": "At the first and last ephemeris time of a segment ChebyValues gives back position and velocity of the ephemeris; at every ephemeris time of a segment that was kept the position is within sky_tolerance; right ascensions crossing 0/360 are fitted as one continuous track and are returned between 0 and 360.", "quantifier": "every ephemeris and number of coefficients", "why_tests_cant": "Composition of a fit, a wrap and factors of cos(dec), over the reals.", "anchors": ["rubin_sim/moving_objects/cheby_fits.py::ChebyFits._get_coeffs_position", "rubin_sim/moving_objects/cheby_fits.py::three_sixty_to_neg", "rubin_sim/moving_objects/cheby_values.py::ChebyValues._eval_segment"]}
{"id": "C214", "title": "Every object is evaluated with its own segment", "statement": "get_ephemerides returns for every object asked for and every time the value of the segment of that object that contains the time, in rows labelled with the object; objects without coefficients are refused.", "quantifier": "every table of segments, list of times and of objects", "why_tests_cant": "Rows are matched by position only, so errors show for particular tables.", "anchors": ["rubin_sim/moving_objects/cheby_values.py::ChebyValues.get_ephemerides"]}
{"id": "C215", "title": "Times outside the segments", "statement": "get_ephemerides raises ValueError for times beyond the range of the segments unless extrapolating, when the first or last segments of the objects are used; the end of the range belongs to the last segments.", "quantifier": "every table of segments and list of times inside and outside", "why_tests_cant": "Mixtures of times inside and outside.", "anchors": ["rubin_sim/moving_objects/cheby_values.py::ChebyValues.get_ephemerides"]}
{"id": "C216", "title": "Equality of Orbits", "statement": "Two Orbits objects compare equal exactly when they have the same length, the same format and the same elements in every row.", "quantifier": "every two Orbits objects, of any length and format", "why_tests_cant": "Equality over all tables; a test sees a few pairs.", "anchors": ["rubin_sim/moving_objects/orbits.py::Orbits.__eq__"]}
{"id": "C217", "title": "set_orbits validates and completes a table", "statement": "set_orbits accepts a table exactly when it has a row, one of the three formats with all its elements and epochs in MJD range; it stores the given values unchanged and adds running obj_ids, H = 20, g = 0.15 and a spectrum only where the column is missing; what it refuses raises ValueError.", "quantifier": "every table of numbers, text and NaN with any columns", "why_tests_cant": "Combinations of columns that may or may not be there, any number of rows.", "anchors": ["rubin_sim/moving_objects/orbits.py::Orbits.set_orbits"]}
{"id": "C218", "title": "Spectra are assigned by distance", "statement": "An object without a spectrum is C type with probability 0 below a semi-major axis of 2 au, rising linearly to 1 at 4 au, S type otherwise, whatever the format of its elements; assigning again with the same seed gives the same spectra.", "quantifier": "every table, every value of the random numbers", "why_tests_cant": "Probability as a function of the elements for all orbits, including parabolic and hyperbolic.", "anchors": ["rubin_sim/moving_objects/orbits.py::Orbits.assign_sed"]}
{"id": "C219", "title": "Rows of Orbits", "statement": "Iterating over an Orbits object gives for each row, in order, an Orbits object with the same format and the same values as the row; indexing gives the same.", "quantifier": "every Orbits object", "why_tests_cant": "Every row of every table; the row passes through set_orbits again.", "anchors": ["rubin_sim/moving_objects/orbits.py::Orbits.__iter__", "rubin_sim/moving_objects/orbits.py::Orbits.__getitem__"]}
{"id": "C220", "title": "Effects of set_orbits beside the result", "statement": "If set_orbits refuses a table the object keeps its previous orbits and format; the caller's table is not changed; setting the stored table again changes nothing; later changes of the caller's table do not reach the object.", "quantifier": "every table and every previous state of the object", "why_tests_cant": "Aliasing and state after a failure.", "anchors": ["rubin_sim/moving_objects/orbits.py::Orbits.set_orbits"]}
{"id": "C221", "title": "Packing for pyoorb and updating", "statement": "The array given to pyoorb holds for every orbit the elements with angles in radians, the code of the format, epoch, time scale, H and g in the documented places; unpacking gives the original values back; update_orbits replaces the elements and keeps obj_id, H, g and spectrum of every object.", "quantifier": "every Orbits object with numbers, every new table", "why_tests_cant": "Round trip over all tables and formats; matching of rows by labels.", "anchors": ["rubin_sim/moving_objects/ooephemerides.py::PyOrbEphemerides._convert_to_oorb_elem", "rubin_sim/moving_objects/ooephemerides.py::PyOrbEphemerides.convert_from_oorb_elem", "rubin_sim/moving_objects/orbits.py::Orbits.update_orbits"]}
{"id": "C222", "title": "Ephemerides are labelled correctly", "statement": "generate_ephemerides asks pyoorb for the given times, scale and model and returns at [object][time] (or [time][object]) of each named column the value pyoorb gave for that object and time, with velocity the total rate; an error of pyoorb raises; unknown models, types and scales are refused.", "quantifier": "every array of pyoorb, number of objects and times", "why_tests_cant": "Axes are swapped for arrays of any shape.", "anchors": ["rubin_sim/moving_objects/ooephemerides.py::PyOrbEphemerides.generate_ephemerides", "rubin_sim/moving_objects/ooephemerides.py::PyOrbEphemerides._convert_oorb_ephs_full", "rubin_sim/moving_objects/ooephemerides.py::PyOrbEphemerides._convert_oorb_ephs_basic", "rubin_sim/moving_objects/ooephemerides.py::PyOrbEphemerides.propagate_orbits"]}
{"id": "C223", "title": "Finding the header of an orbit file", "statement": "read_orbits takes the column names from the last line before the data, whatever comments precede it, without a leading #, !! or ##; a file without header is read in the DES layout of its format; all lines of data are read; blank lines and the delimiter do not matter.", "quantifier": "every file, as lines of words", "why_tests_cant": "Files with any number of comments and lines.", "anchors": ["rubin_sim/moving_objects/orbits.py::Orbits.read_orbits"]}
{"id": "C224", "title": "Standard column names", "statement": "read_orbits gives each column with a listed alternative name its standard name, leaves others alone, refuses two columns with the same meaning and negative inclinations, and stores every value of the file under the standard name of its column in the row of its line.", "quantifier": "every list of column names and every file", "why_tests_cant": "All combinations of alternative names.", "anchors": ["rubin_sim/moving_objects/orbits.py::Orbits.read_orbits"]}
{"id": "C225", "title": "Trailing losses", "statement": "The two trailing losses are 0 for an object at rest, never negative, and strictly larger for faster motion, longer exposures and better seeing.", "quantifier": "every velocity, seeing and exposure time", "why_tests_cant": "Monotonicity over the reals.", "anchors": ["rubin_sim/moving_objects/base_obs.py::BaseObs.calc_trailing_losses"]}
{"id": "C226", "title": "Detection suffers more than signal to noise", "statement": "The loss at detection is greater than the trailing loss of signal to noise, as the documentation of calc_trailing_losses says.", "quantifier": "every positive velocity, seeing and exposure time", "why_tests_cant": "An inequality between two functions; a test sees a few velocities.", "anchors": ["rubin_sim/moving_objects/base_obs.py::BaseObs.calc_trailing_losses"]}
{"id": "C227", "title": "Circular and camera footprints", "statement": "sso_in_fov returns, in increasing order, exactly the indices of the visits whose footprint has the object's position, for the camera and for the circle of radius r_fov, with visits in degrees or in radians; an unknown footprint is treated as the circle.", "quantifier": "every list of positions and visits, every footprint but the rectangle", "why_tests_cant": "Exactness over all lists.", "anchors": ["rubin_sim/moving_objects/base_obs.py::BaseObs.sso_in_fov", "rubin_sim/moving_objects/base_obs.py::BaseObs.sso_in_circle_fov", "rubin_sim/moving_objects/base_obs.py::BaseObs.sso_in_camera_fov"]}
{"id": "C228", "title": "Rectangular footprints", "statement": "An object is in the rectangular footprint exactly when its declination is within y_tol and its distance in right ascension on the sky within x_tol of the visit, also across right ascension 0 and for visits in radians.", "quantifier": "every position and visit", "why_tests_cant": "All positions, including those on the other side of right ascension 0.", "anchors": ["rubin_sim/moving_objects/base_obs.py::BaseObs.sso_in_rectangle_fov"]}
{"id": "C229", "title": "Rows of DirectObs are right", "statement": "Every row of the result of DirectObs.run belongs to an object and a visit whose footprint (for a rectangle: visits in degrees) has the object's position at the time of the visit; it carries that object's identifier, spectrum and ephemeris, that visit's id, time, exposure, depth, seeing, night and band, and the colour and trailing losses that follow from them; no pair of object and visit occurs twice, and rows are in order of objects and visits. With basic ephemerides, integer identifiers and known colours run does not fail.", "quantifier": "every table of visits, every list of objects, every ephemeris, with or without pre-computed positions", "why_tests_cant": "Index arithmetic through two selections for any number of objects and visits.", "anchors": ["rubin_sim/moving_objects/direct_obs.py::DirectObs.run"]}
{"id": "C230", "title": "Nothing is missed if objects are slow enough", "statement": "If no object moves, between a visit and the next point of the rough time grid, by more than rough_tol less the radius of the footprint, DirectObs.run returns a row for every object and visit whose footprint has the object, and no other rows.", "quantifier": "every table of visits, every list of objects, every ephemeris and every time step", "why_tests_cant": "A quantitative condition over all motions; a test sees a few orbits.", "anchors": ["rubin_sim/moving_objects/direct_obs.py::DirectObs.run"]}
{"id": "C231", "title": "Pre-computed positions", "statement": "If the pre-computed times reach over all visits and no object is further from its position at the nearest of them than pre_comp_tol plus its largest move to a neighbouring position plus r_fov less the size of the footprint, run returns a row for every object and visit whose footprint has the object, and no other rows; times that do not reach over all visits are not used.", "quantifier": "every grid of times, every table of positions and visits", "why_tests_cant": "Nearest-neighbour search and tolerances for all grids.", "anchors": ["rubin_sim/moving_objects/direct_obs.py::DirectObs.run"]}
{"id": "C232", "title": "Pre-computed positions do not change the result", "statement": "With pre-computed positions of the same objects DirectObs.run finds the same observations as without.", "quantifier": "every footprint, every table of visits and positions", "why_tests_cant": "Compares two runs for all inputs.", "anchors": ["rubin_sim/moving_objects/direct_obs.py::DirectObs.run"]}
{"id": "C233", "title": "Kinds of ephemerides and identifiers", "statement": "DirectObs.run works with eph_type full as with basic, and every row carries the object's own identifier, whether it is a number or text.", "quantifier": "every type of ephemeris, every identifier", "why_tests_cant": "All kinds of identifiers that Orbits accepts.", "anchors": ["rubin_sim/moving_objects/direct_obs.py::DirectObs.run"]}
{"id": "C234", "title": "info records the footprint", "statement": "The information saved with the observations names the footprint that was used, and its radius if it is a circle.", "quantifier": "every name of a footprint", "why_tests_cant": "All names, also those that are replaced.", "anchors": ["rubin_sim/moving_objects/base_obs.py::BaseObs.sso_in_fov", "rubin_sim/moving_objects/base_obs.py::BaseObs._setup_info"]}
{"id": "C235", "title": "Observations are written to the output directory", "statement": "make_lsst_obs writes its result to out_dir/output_file.", "quantifier": "every directory and file name", "why_tests_cant": "All paths.", "anchors": ["rubin_sim/moving_objects/make_lsst_obs.py::setup_args", "rubin_sim/moving_objects/make_lsst_obs.py::make_lsst_obs"]}
{"id": "C236", "title": "Cleaning keeps the largest usable part", "statement": "LsqrSolver solves for exactly the largest set of observations in which every star and every patch is observed at least twice, and for the stars and patches that occur in it.", "quantifier": "every array of observations", "why_tests_cant": "The result of an iteration to a fixed point, for all arrays.", "anchors": ["rubin_sim/selfcal/solver.py::LsqrSolver.clean_data"]}
{"id": "C237", "title": "No star or patch hangs on its own", "statement": "After cleaning every patch has two different stars and every star is in two different patches, so that each is tied to others.", "quantifier": "every array of observations", "why_tests_cant": "All arrays, including those with repeated pairs of star and patch.", "anchors": ["rubin_sim/selfcal/solver.py::LsqrSolver.clean_data"]}
{"id": "C238", "title": "Running numbers stand for the right stars and patches", "statement": "The running numbers given to stars and patches for the matrix stand for the right ones in every observation, and magnitudes and uncertainties stay with their observation.", "quantifier": "every array of observations and every sort that sorts", "why_tests_cant": "Index arithmetic for all arrays.", "anchors": ["rubin_sim/selfcal/solver.py::LsqrSolver.clean_data"]}
{"id": "C239", "title": "The solution is the best one", "statement": "If lsqr solves the least squares problem that it is given, the zero points and magnitudes of return_solution minimise the sum over the cleaned observations of ((zero point + magnitude - observed) / uncertainty) squared, among all zero points and magnitudes.", "quantifier": "every array of observations, every lsqr", "why_tests_cant": "A minimum over all alternatives.", "anchors": ["rubin_sim/selfcal/solver.py::LsqrSolver.solve_matrix", "rubin_sim/selfcal/solver.py::LsqrSolver.return_solution"]}
{"id": "C240", "title": "Zero points are recovered", "statement": "Of observations without noise LsqrSolver recovers the zero points of the patches and the magnitudes of the stars.", "quantifier": "every array of observations without noise, every true zero point and magnitude", "why_tests_cant": "Quantifies over all true values and all patterns of overlap.", "anchors": ["rubin_sim/selfcal/solver.py::LsqrSolver.run", "rubin_sim/selfcal/solver.py::LsqrSolver.return_solution"]}
{"id": "C241", "title": "run does not fail", "statement": "LsqrSolver.run gives a solution for every array of observations, an empty one if nothing can be solved for.", "quantifier": "every array of observations", "why_tests_cant": "All arrays, including those of which nothing is left.", "anchors": ["rubin_sim/selfcal/solver.py::LsqrSolver.run"]}
{"id": "C242", "title": "The caller's observations are left alone", "statement": "LsqrSolver leaves the caller's array as it is, and can be run again.", "quantifier": "every array of observations", "why_tests_cant": "Aliasing, for all arrays.", "anchors": ["rubin_sim/selfcal/solver.py::LsqrSolver.clean_data", "rubin_sim/selfcal/solver.py::LsqrSolver.run"]}
{"id": "C243", "title": "The catalogue has the stars of the field", "statement": "generate_catalog returns, visit after visit, a row for every star that is at most radius_fov from where the visit points, in the order of the stars, and for no other; the row has that star's identifier, position and magnitude.", "quantifier": "every list of visits and stars, every radius up to 180 degrees", "why_tests_cant": "Exactness over all positions on the sphere.", "anchors": ["rubin_sim/selfcal/generate_catalog.py::generate_catalog", "rubin_sim/selfcal/generate_catalog.py::treexyz"]}
{"id": "C244", "title": "Patches are squares of the focal plane of a visit", "statement": "With n_patches = k*k the patch of a star is the square of a k by k grid of the (rotated) field in which it falls, numbered within the visit; stars of different visits never share a patch.", "quantifier": "every visit, star, rotation, k and radius", "why_tests_cant": "A geometrical statement for all positions and rotations.", "anchors": ["rubin_sim/selfcal/star_tools.py::assign_patches", "rubin_sim/selfcal/star_tools.py::stars_project", "rubin_sim/selfcal/generate_catalog.py::generate_catalog"]}
{"id": "C245", "title": "Offsets add up", "statement": "The observed magnitude of a star is its magnitude plus all the offsets that were given.", "quantifier": "every list of offsets, every star", "why_tests_cant": "All lists of offsets, in any order and number.", "anchors": ["rubin_sim/selfcal/generate_catalog.py::generate_catalog", "rubin_sim/selfcal/offsets.py::NoOffset", "rubin_sim/selfcal/offsets.py::OffsetSys", "rubin_sim/selfcal/offsets.py::OffsetSNR"]}
{"id": "C246", "title": "Uncertainties", "statement": "The uncertainty of a row is that of the signal to noise at the observed magnitude and the depth of the visit, in quadrature with uncert_floor; it is at least uncert_floor, and larger for fainter stars of a visit; deeper visits have smaller errors.", "quantifier": "every observed magnitude, depth and floor", "why_tests_cant": "Monotonicity over the reals.", "anchors": ["rubin_sim/selfcal/generate_catalog.py::generate_catalog", "rubin_sim/selfcal/offsets.py::OffsetSNR.calc_mag_errors"]}
{"id": "C247", "title": "When there is a catalogue", "statement": "With offsets that give a number for every star, such as OffsetSys and OffsetSNR, generate_catalog succeeds exactly if there is a visit, a star, and all coordinates are within 360 degrees of 0; else it raises ValueError.", "quantifier": "every list of visits and stars, all such offsets", "why_tests_cant": "All inputs, including those without stars in any field.", "anchors": ["rubin_sim/selfcal/generate_catalog.py::generate_catalog", "rubin_sim/selfcal/generate_catalog.py::build_tree"]}
{"id": "C248", "title": "TLEs are well formed", "statement": "Every TLE made for a satellite has a line with its name and two lines of 69 characters with the right checksum, whose columns, where the TLE standard puts them, read back as its number, epoch, inclination, node, mean anomaly and mean motion.", "quantifier": "every satellite of every constellation", "why_tests_cant": "All parameters; the columns and the checksum for all digits.", "anchors": ["rubin_sim/satellite_constellations/sat_utils.py::tle_from_orbital_parameters", "rubin_sim/satellite_constellations/sat_utils.py::create_constellation"]}
{"id": "C249", "title": "A constellation has the satellites asked for", "statement": "create_constellation makes planes times satellites TLEs for every shell, numbered on from 8000, no two alike; starlink v1, v2 and oneweb have 4408, 29988 and 6372.", "quantifier": "every list of shells", "why_tests_cant": "All shells, and their sum.", "anchors": ["rubin_sim/satellite_constellations/sat_utils.py::create_constellation", "rubin_sim/satellite_constellations/sat_utils.py::starlink_tles_v1", "rubin_sim/satellite_constellations/sat_utils.py::starlink_tles_v2", "rubin_sim/satellite_constellations/sat_utils.py::oneweb_tles"]}
{"id": "C250", "title": "Satellites are spread evenly", "statement": "The nodes of the planes of a shell are equally spaced over 360 degrees, and so are the satellites in every plane; all angles of the TLEs are below 360 degrees.", "quantifier": "every shell, every random phase", "why_tests_cant": "All shells and all random numbers.", "anchors": ["rubin_sim/satellite_constellations/sat_utils.py::create_constellation"]}
{"id": "C251", "title": "Higher satellites are slower", "statement": "Mean motion falls with altitude, and its square times the cube of the distance to the centre of the earth is the same for all altitudes.", "quantifier": "all altitudes", "why_tests_cant": "Monotonicity over the reals.", "anchors": ["rubin_sim/satellite_constellations/sat_utils.py::satellite_mean_motion"]}
{"id": "C252", "title": "Streaks are counted per pointing", "statement": "check_pointings gives for every pointing the number of satellites that come close and cross the field of view, and the sum of the lengths of their ways through it; other pointings have no influence.", "quantifier": "every constellation, every list of pointings, all positions of satellites", "why_tests_cant": "Sums over all satellites and pointings.", "anchors": ["rubin_sim/satellite_constellations/sat_utils.py::Constellation.check_pointings"]}
{"id": "C253", "title": "check_pointings does not fail", "statement": "check_pointings gives an answer for every exposure time, with the streaks of the satellites that cross the field.", "quantifier": "every constellation and list of pointings, all exposure times", "why_tests_cant": "All exposure times.", "anchors": ["rubin_sim/satellite_constellations/sat_utils.py::Constellation.check_pointings", "rubin_sim/satellite_constellations/sat_utils.py::_streak_length"]}
{"id": "C254", "title": "Only satellites that can be seen leave streaks", "statement": "A streak is counted only of a satellite that is in sunlight and above the altitude limit at some time of the exposure.", "quantifier": "every constellation and list of pointings", "why_tests_cant": "All motions of satellites and of the shadow of the earth.", "anchors": ["rubin_sim/satellite_constellations/sat_utils.py::Constellation.check_pointings"]}
{"id": "C255", "title": "Satellites of a constellation", "statement": "A Constellation has the satellites of its TLEs, update_mjd makes visible exactly those in sunlight and at or above the altitude limit, and its field of view is that of its streaks.", "quantifier": "every constellation, altitude limit and time", "why_tests_cant": "All lists of TLEs.", "anchors": ["rubin_sim/satellite_constellations/sat_utils.py::Constellation", "rubin_sim/satellite_constellations/sat_utils.py::Constellation.update_mjd"]}
{"id": "C256", "title": "Satellite maps", "statement": "The satellite maps of a night are at sunset, sunset + dt, ... up to sunrise and no other times; each counts in every pixel the satellites that are in sunlight and not below the altitude limit.", "quantifier": "every constellation, night and dt", "why_tests_cant": "All times of all nights.", "anchors": ["rubin_sim/satellite_constellations/model_observatory.py::ModelObservatory._update_satellite_maps"]}
{"id": "C257", "title": "The maps are those of tonight", "statement": "Whatever sequence of times the observatory is set to, return_conditions gives the satellite maps of the night of the last one.", "quantifier": "every sequence of times", "why_tests_cant": "All sequences of states.", "anchors": ["rubin_sim/satellite_constellations/model_observatory.py::ModelObservatory.mjd", "rubin_sim/satellite_constellations/model_observatory.py::ModelObservatory.return_conditions", "rubin_sim/satellite_constellations/model_observatory.py::ModelObservatory.__init__"]}
{"id": "C258", "title": "Satellites of the near future are avoided", "statement": "SatelliteAvoidBasisFunction gives minus the smoothed sum of the maps from now to forecast_time later, never more than 0, and 0 if there are none.", "quantifier": "every list of maps, all times", "why_tests_cant": "All windows of time.", "anchors": ["rubin_sim/satellite_constellations/basis_function.py::SatelliteAvoidBasisFunction._calc_value"]}
{"id": "C259", "title": "A spatial slice has exactly the visits that cover its point", "statement": "For a UserPointsSlicer or HealpixSlicer of a radius of 0 to 180 degrees, the visits of slice i are, each once, those whose pointing is within the radius (great circle) of point i and, if use_camera is True, whose camera footprint covers it; columns may be in degrees or radians. Only the columns of positions are needed if use_camera is False.", "quantifier": "all lists of points and healpix resolutions, all visits, radii and footprints, every order in which the tree reports what it finds", "why_tests_cant": "The tree compares chords, and the tests count visits for a few points; a unit slip or a lost visit shows only for some positions.", "anchors": ["rubin_sim/maf/slicers/base_spatial_slicer.py: BaseSpatialSlicer.setup_slicer", "rubin_sim/maf/slicers/base_spatial_slicer.py: BaseSpatialSlicer._build_tree", "rubin_sim/maf/slicers/user_points_slicer.py: UserPointsSlicer", "rubin_sim/maf/slicers/healpix_slicer.py: HealpixSlicer"]}
{"id": "C260", "title": "The information about a slice is that of its point", "statement": "slice_point of slice i has sid i and the position of point i in radians; for each key of slice_points an array with one element per slice gives its i-th element and everything else is passed whole. Information which is not per slice, such as the bins of a stellar density map, is passed whole.", "quantifier": "all slicers, all maps that add keys, all slices", "why_tests_cant": "Whether an array is per slice is decided by its length, so failures need an unlucky number of points.", "anchors": ["rubin_sim/maf/slicers/base_spatial_slicer.py: BaseSpatialSlicer.setup_slicer", "rubin_sim/maf/slicers/base_slicer.py: BaseSlicer._run_maps"]}
{"id": "C261", "title": "A HealpixSubsetSlicer gives the slices of the HealpixSlicer for the chosen pixels", "statement": "For a pixel of hpid the visits are those of the HealpixSlicer with the same options, other pixels are empty; iteration goes over hpid in order; the mask is False exactly at hpid; make_circle_subset_slicer selects exactly the pixels whose centres are within the radius.", "quantifier": "all resolutions, all lists of pixels, all visits, all circles", "why_tests_cant": "Tests compare a few pixels.", "anchors": ["rubin_sim/maf/slicers/healpix_subset_slicer.py: HealpixSubsetSlicer", "rubin_sim/maf/slicers/healpix_subset_slicer.py: make_circle_subset_slicer"]}
{"id": "C262", "title": "Spatial slicers that compare equal slice in the same way, and equality is symmetric", "statement": "If a == b for two slicers, then they give the same slices for the same visits, and b == a.", "quantifier": "all pairs of UserPointsSlicers, HealpixSlicers and HealpixSubsetSlicers, all visits", "why_tests_cant": "Equality is a chain of conditions over attributes; only a pair which differs in an attribute that is left out shows it.", "anchors": ["rubin_sim/maf/slicers/user_points_slicer.py: UserPointsSlicer.__eq__", "rubin_sim/maf/slicers/healpix_slicer.py: HealpixSlicer.__eq__", "rubin_sim/maf/slicers/healpix_subset_slicer.py: HealpixSubsetSlicer.__eq__"]}
{"id": "C263", "title": "Metric values and their slicer survive saving and reading", "statement": "read_data after write_data gives the values, mask and fill value and a slicer of the same class with the same points, number of slices, shape, columns and radius; it is equal to the saved one and slices in the same way; slicer_init makes the slicer again.", "quantifier": "all slicers and options, all values, masked or not", "why_tests_cant": "What is not in slicer_init silently gets its default, which only other options show.", "anchors": ["rubin_sim/maf/slicers/base_slicer.py: BaseSlicer.write_data", "rubin_sim/maf/slicers/base_slicer.py: BaseSlicer.read_data", "rubin_sim/maf/slicers/user_points_slicer.py: UserPointsSlicer.slicer_init", "rubin_sim/maf/slicers/healpix_slicer.py: HealpixSlicer.slicer_init"]}
{"id": "C264", "title": "JSON output lists position and value of every valid slice", "statement": "output_json gives for a spatial slicer [lon, lat, value] in degrees for each slice that is not masked, in order, and for a slicer with bins [left edge, value] (0 where masked) for each bin and a last edge with 0; for float and integer values, masked or not.", "quantifier": "all points, values, masks and bins", "why_tests_cant": "One branch per kind of slicer and of array; tests use masked floats.", "anchors": ["rubin_sim/maf/slicers/base_slicer.py: BaseSlicer.output_json"]}
{"id": "C265", "title": "OneDSlicer takes what it is given and equality is an equivalence", "statement": "Bins that are given are used, whatever else is given; OneDSlicers are equal to themselves, equality is symmetric, and after setup it is equality of column and bins.", "quantifier": "all combinations of bins, bin_min, bin_max and bin_size", "why_tests_cant": "The combination that warns and the comparison before setup are not tested.", "anchors": ["rubin_sim/maf/slicers/one_d_slicer.py: OneDSlicer.__init__", "rubin_sim/maf/slicers/one_d_slicer.py: OneDSlicer.__eq__"]}
{"id": "C266", "title": "AreaSummaryMetric returns the value that the best part of the sky of the asked area reaches", "statement": "AreaSummaryMetric(area, decreasing) of a full healpix map returns a value of a pixel such that less than `area` square degrees are strictly better and, if the valid pixels cover it, at least `area` square degrees are as good; it never claims a value that less area reaches. It returns a value whenever a pixel is valid.", "quantifier": "all maps, all areas, both directions", "why_tests_cant": "The value is an order statistic; tests use one map and one area, and an off-by-one pixel or a wrong direction gives a plausible number.", "anchors": ["rubin_sim/maf/metrics/area_summary_metrics.py: AreaSummaryMetric"]}
{"id": "C267", "title": "AreaThresholdMetric returns the area of the valid pixels inside the bounds", "statement": "AreaThresholdMetric(upper, lower) returns the area of the pixels that have a value strictly between the given bounds; a bound that is None is no bound, so it agrees with a bound every value meets. Tightening a bound never increases the area.", "quantifier": "all maps with and without missing values, all combinations of bounds", "why_tests_cant": "Needs maps with missing values and all four combinations of bounds.", "anchors": ["rubin_sim/maf/metrics/area_summary_metrics.py: AreaThresholdMetric"]}
{"id": "C268", "title": "YearCoverageMetric counts the years in which a point is visited", "statement": "With default bins YearCoverageMetric returns the number of survey years 0 to 9 (365.25 nights each) with a visit, at most 10 and 10 exactly if every year has one; with given bins the number of bins with a visit. The metric has the name that it is given.", "quantifier": "all lists of nights, all bins", "why_tests_cant": "Edges at half nights decide; tests check a few nights.", "anchors": ["rubin_sim/maf/metrics/coverage_metric.py: YearCoverageMetric"]}
{"id": "C269", "title": "CumulativeMetric gives the number of visits up to each night", "statement": "The value y at each x of CumulativeMetric is the number of visits with a night of at most x, for the default points and for given interpolation points.", "quantifier": "all sets of visits and interpolation points", "why_tests_cant": "Interpolation hides the difference unless there are nights without visits.", "anchors": ["rubin_sim/maf/metrics/cumulative_metric.py: CumulativeMetric"]}
{"id": "C270", "title": "KuiperMetric measures how unevenly angles are spread", "statement": "KuiperMetric depends only on the angles, not on their order, whole turns or the zero point; it is between 0 and 1, 0 exactly for evenly spread angles and 1 exactly when all angles are the same. It returns a value for every non-empty slice.", "quantifier": "all lists of angles, all rotations", "why_tests_cant": "Invariance under rotation is a statement about all rotations; tests check two examples.", "anchors": ["rubin_sim/maf/metrics/kuiper_metrics.py: KuiperMetric"]}
{"id": "C271", "title": "SnrWeightedMetric is an average weighted with the signal to noise", "statement": "SnrWeightedMetric(col) is the average of col with weights 10^(0.4 m5): it does not depend on the reference magnitude, lies between the smallest and the largest value and is the plain mean if all depths are equal.", "quantifier": "all visits, depths and values, all reference magnitudes", "why_tests_cant": "The comment that the reference does not matter is a statement about all magnitudes.", "anchors": ["rubin_sim/maf/metrics/snr_weight.py: SnrWeightedMetric"]}
{"id": "C272", "title": "AgeMetric is the time since the previous visit", "statement": "AgeMetric(mjd, long_limit) returns the time from the latest visit before mjd to mjd, never negative, and a masked value exactly when it is longer than the limit.", "quantifier": "all sets of visit times, reference times and limits", "why_tests_cant": "Needs visits on both sides of the reference time.", "anchors": ["rubin_sim/maf/metrics/schedview_metrics.py: AgeMetric"]}
{"id": "C273", "title": "ChipVendorMetric tells which vendors' chips see a point", "statement": "ChipVendorMetric returns 1 when all chips that see the point are of the first vendor, 2 when all are of the second and 3 when both see it.", "quantifier": "all lists of chips", "why_tests_cant": "Needs every mix of chips including none.", "anchors": ["rubin_sim/maf/metrics/chip_vendor_metric.py: ChipVendorMetric"]}
{"id": "C274", "title": "ColorSlopeMetric counts nights with a colour and a slope", "statement": "ColorSlopeMetric returns the number of nights on which at least three visits deeper than the limits of their bands include two in different bands at most color_length apart and two in the same band at least slope_length apart, read from the columns the metric is given.", "quantifier": "all visits, limits and lengths, all column names", "why_tests_cant": "Pairs of bands and of times multiply; the tests have a handful of visits.", "anchors": ["rubin_sim/maf/metrics/color_slope_metrics.py: CheckColorSlope", "rubin_sim/maf/metrics/color_slope_metrics.py: ColorSlopeMetric"]}
{"id": "C275", "title": "ColorSlope2NightMetric counts pairs of nights with a colour and a slope", "statement": "ColorSlope2NightMetric returns the number of pairs of consecutive nights whose visits together have a colour and a slope; each opportunity is counted once.", "quantifier": "all visits, limits and lengths", "why_tests_cant": "Grouping by halves of the night number treats even and odd nights differently.", "anchors": ["rubin_sim/maf/metrics/color_slope_metrics.py: ColorSlope2NightMetric"]}
{"id": "C276", "title": "AgnTimeLagMetric compares the lag with the sampling of the visits that are deep enough", "statement": "AgnTimeLagMetric returns lag / ((1+z) gap) where gap is the mean (or smallest) time between consecutive visits that pass the depth cuts in g and r, masked below the threshold or with fewer than two visits, and finite otherwise.", "quantifier": "all visits, lags, redshifts, thresholds and cuts", "why_tests_cant": "The cuts are written but a test with deep visits cannot tell whether they act.", "anchors": ["rubin_sim/maf/metrics/agn_time_lag_metric.py: AgnTimeLagMetric"]}
{"id": "C277", "title": "TemplateTime makes the template of the first good enough visits", "statement": "The template consists of the first n_images_in_template visits in time whose seeing and depth meet the reported benchmarks; the reported input depths and seeings, the night and the number of images until the template are those of these visits. For one band a template is reported exactly when enough visits meet the benchmarks. The result does not depend on the order of the visits. With enough visits there is always a template.", "quantifier": "all slices, all percentiles, thresholds and numbers of images", "why_tests_cant": "Depends on the joint distribution of seeing and depth over the survey; tests use one small slice.", "anchors": ["rubin_sim/maf/metrics/incremental_template_metric.py: TemplateTime"]}
{"id": "C278", "title": "TemplateTime splits the visits into those before and those with a template", "statement": "The images with a template are the visits of nights later than the night of the template; they and the images until the template do not overlap and are all visits. Only visits in the same band use the template.", "quantifier": "all slices", "why_tests_cant": "Needs visits in the template night after its completion, and slices of several bands.", "anchors": ["rubin_sim/maf/metrics/incremental_template_metric.py: TemplateTime"]}
{"id": "C279", "title": "TemplateTime reports the depth and seeing of the template and of the difference images", "statement": "The template has the depth of its inputs co-added, at least the depth of each, and a seeing between the best and the worst input; the noise of a difference image is that of the science image and of the template added in squares, so it is shallower than both; the fraction of images with seeing worse than the template is a number between 0 and 1.", "quantifier": "all slices that give a template", "why_tests_cant": "Statements about all combinations of depths; tests compare one.", "anchors": ["rubin_sim/maf/metrics/incremental_template_metric.py: TemplateTime"]}
{"id": "C280", "title": "ExgalM5 returns the co-added depth behind the dust", "statement": "ExgalM5 returns the depth d with 10^(0.8 (d + A)) = sum of 10^(0.8 m5), A the band's extinction coefficient times E(B-V), and the bad value for no visits. The value does not depend on the order of the visits.", "quantifier": "all slices, all values of E(B-V)", "why_tests_cant": "The dust term is small in test fields, and order matters only for several bands.", "anchors": ["rubin_sim/maf/metrics/exgal_m5.py: ExgalM5"]}
{"id": "C281", "title": "ExgalM5WithCuts returns the depth where dust, coverage and depth pass", "statement": "ExgalM5WithCuts returns the dust-corrected depth of the visits in lsst_filter if E(B-V) is at most the extinction cut, at least n_filters different bands are present and the depth reaches the cut, and the bad value otherwise. This holds for every choice of filter_col.", "quantifier": "all slices, cuts and columns", "why_tests_cant": "The cuts interact; other column names are never tested.", "anchors": ["rubin_sim/maf/metrics/weak_lensing_systematics_metric.py: ExgalM5WithCuts"]}
{"id": "C282", "title": "WeakLensingNvisits counts the visits long enough where the survey is deep enough", "statement": "Where E(B-V) and the depth in lsst_filter pass the cuts the number of visits in all bands longer than the minimum is returned, else the bad value. Adding visits never lowers a count.", "quantifier": "all slices and cuts", "why_tests_cant": "Monotonicity is a relation between two runs.", "anchors": ["rubin_sim/maf/metrics/weak_lensing_systematics_metric.py: WeakLensingNvisits"]}
{"id": "C283", "title": "RIZDetectionCoaddExposureTime sums the exposure time of the detection bands", "statement": "Where the dust allows, the total exposure time of the visits in the detection bands (r, i, z by default) longer than min_expTime is returned; fields with too much dust or where the bands of min_bands are not all present are excluded.", "quantifier": "all slices, lists of bands and minimal times", "why_tests_cant": "Needs fields that lack a required band.", "anchors": ["rubin_sim/maf/metrics/weak_lensing_systematics_metric.py: RIZDetectionCoaddExposureTime"]}
{"id": "C284", "title": "NestedRIZExptimeExgalM5Metric returns the depth and the riz exposure time", "statement": "The result is the pair of the value of ExgalM5WithCuts and the total exposure time in r, i and z; of an excluded field both are the bad value.", "quantifier": "all slices", "why_tests_cant": "A pair of plausible numbers; only a comparison over all bands shows what was summed.", "anchors": ["rubin_sim/maf/metrics/uniformity_metrics.py: NestedRIZExptimeExgalM5Metric"]}
{"id": "C285", "title": "SingleLinearMultibandModelMetric evaluates a linear model of the depths", "statement": "Where dust, coverage and depths pass, the result is the post-processed constant plus the sum of coefficient times (dust-corrected depth minus mean depth) over the bands of the model; where a band has no visits it is the bad value. It works with the default mean depths.", "quantifier": "all models, mean depths, slices", "why_tests_cant": "Models of several bands with mean depths are not tested.", "anchors": ["rubin_sim/maf/metrics/uniformity_metrics.py: SingleLinearMultibandModelMetric"]}
{"id": "C286", "title": "NestedLinearMultibandModelMetric evaluates one linear model per bin", "statement": "The result has one value per model: the post-processed constant plus the sum over the six bands of coefficient (0 if absent) times depth minus mean depth. Bands that a model does not use do not influence its value.", "quantifier": "all lists of models, mean depths, slices", "why_tests_cant": "Needs slices that lack a band, and mean depths in several bands.", "anchors": ["rubin_sim/maf/metrics/uniformity_metrics.py: NestedLinearMultibandModelMetric"]}
{"id": "C287", "title": "MultibandExgalM5 returns the six dust-corrected depths", "statement": "MultibandExgalM5 returns six values in the order u, g, r, i, z, y, each the dust-corrected depth of the visits in that band or the bad value for none; six bad values where dust or coverage fail.", "quantifier": "all slices and cuts", "why_tests_cant": "Order and missing bands matter; tests use complete slices.", "anchors": ["rubin_sim/maf/metrics/uniformity_metrics.py: MultibandExgalM5"]}
{"id": "C288", "title": "surface_brightness_limit_approx returns the surface brightness that reaches nsigma", "statement": "At the returned surface brightness a source measured over tot_area reaches a signal to noise ratio of nsigma, counting the noise of source, sky and readout; when a warning is given the result is too optimistic by at most 0.38 magnitudes. It is the brightest of the limits that each kind of noise alone gives.", "quantifier": "all zero points, extinctions, sky brightnesses, read noises, areas, times", "why_tests_cant": "An inequality over nine real parameters.", "anchors": ["rubin_sim/maf/metrics/surfb_metric.py: surface_brightness_limit_approx"]}
{"id": "C289", "title": "SurfaceBrightLimitMetric co-adds the surface brightness limits of visits in one band", "statement": "For visits in one band the result r satisfies 10^(0.8 r) = sum of 10^(0.8 lim) over the visits' own limits, the read noise growing with the square root of the number of exposures. Visits in several bands are refused. Given zero points and extinction coefficients are used, each independently of the other.", "quantifier": "all slices with positive times and numbers of exposures, all zero points", "why_tests_cant": "Refusal and the combinations of arguments are not tested.", "anchors": ["rubin_sim/maf/metrics/surfb_metric.py: SurfaceBrightLimitMetric"]}
{"id": "C290", "title": "Angles of the sky model are brought into their range", "statement": "wrap_ra gives the one angle in [0, 2 pi) that differs from its argument by whole turns. The azimuth relative to the moon is the angle from 0 to pi between the two azimuths: the same if they are exchanged or whole turns are added, with the cosine of their difference.", "quantifier": "all angles", "why_tests_cant": "Statements about all reals, in particular at and beyond the ends of the range.", "anchors": ["rubin_sim/skybrightness/utils.py: wrap_ra", "rubin_sim/skybrightness/sky_model.py: calc_az_rel_moon"]}
{"id": "C291", "title": "Sky components that depend on the airmass are interpolated between their templates", "statement": "Between the lowest and the highest airmass of the templates the magnitude is that of the broken line through the templates: never brighter than the brightest or fainter than the faintest template and equal to a template at its airmass. Outside the component has no flux.", "quantifier": "all grids of templates, all airmasses", "why_tests_cant": "The points between and at grid points of every grid.", "anchors": ["rubin_sim/skybrightness/interp_components.py: BaseSingleInterp (interp_mag, _weighting, _indx_and_weights)"]}
{"id": "C292", "title": "Interpolated sky spectra lie between the neighbouring templates", "statement": "At each wavelength the spectrum is between the smallest and the largest template flux, and equal to a template at its airmass.", "quantifier": "all grids and spectra, zero fluxes included", "why_tests_cant": "Depends on templates that are zero in part of the range.", "anchors": ["rubin_sim/skybrightness/interp_components.py: BaseSingleInterp (interp_spec, log_spec)"]}
{"id": "C293", "title": "The airglow is interpolated in airmass and solar flux", "statement": "The magnitude of the airglow is the table interpolated along the solar flux and then along the airmass; it lies between the extremes of the table; outside the table there is no airglow.", "quantifier": "all tables and points", "why_tests_cant": "All positions relative to a two-dimensional grid.", "anchors": ["rubin_sim/skybrightness/interp_components.py: Airglow"]}
{"id": "C294", "title": "Moonlight and zodiacal light are weighted means of interpolated pixels", "statement": "The magnitude is the mean, with the healpix weights of the neighbouring pixels that the table knows, of the table interpolated in the moon's altitude and its distance from the sun (moon) or in airmass (zodiacal light); with non-negative weights it lies between the extremes of the table. A moon below the altitudes of the table, or no known pixel, gives no flux. Outside the range of distances the edge of the table is used.", "quantifier": "all tables, neighbours and weights", "why_tests_cant": "Needs points at the edge of the table and all combinations of neighbours.", "anchors": ["rubin_sim/skybrightness/interp_components.py: MoonInterp", "rubin_sim/skybrightness/interp_components.py: ZodiacalInterp"]}
{"id": "C295", "title": "The twilight depends on the sun as its parameters say", "statement": "The logarithm of the twilight grows with the sun's altitude with the given slope; at the zenith with the sun at -12 degrees it is the given ratio times the dark sky; away from the sun the azimuth does not matter, both sides are alike, and it is brightest towards the sun. The two fitting functions agree at the zenith. The component is undefined for a sun above 15 degrees, nothing below -20 degrees or beyond airmass 3, and positive otherwise.", "quantifier": "all parameters, directions and sun altitudes", "why_tests_cant": "Relations between the values at different directions and times.", "anchors": ["rubin_sim/skybrightness/twilight_func.py: twilight_func", "rubin_sim/skybrightness/twilight_func.py: zenith_twilight", "rubin_sim/skybrightness/interp_components.py: TwilightInterp.interp_mag"]}
{"id": "C296", "title": "The sky brightness of a point is the sum of the components that are switched on", "statement": "After set_ra_dec_mjd or set_params every point with airmass between 1 and airmass_limit has the sum of the components switched on, whatever the other points and filters; the others are NaN. Components can be switched on and off after the object is made.", "quantifier": "all objects, components, points, filters and airmass limits", "why_tests_cant": "The sum at one point must not depend on the other points of the call.", "anchors": ["rubin_sim/skybrightness/sky_model.py: SkyModel (_interp_sky, set_ra_dec_mjd, set_params)"]}
{"id": "C297", "title": "return_mags gives the magnitude of the total flux", "statement": "return_mags has one entry per requested filter and one magnitude per point, the magnitude of the total flux (infinite for none, NaN beyond the limit): more flux is brighter, a hundred times the flux five magnitudes, and a single component gives back its template's magnitude. Airmasses above 3 count as 3.", "quantifier": "all objects, points and filters", "why_tests_cant": "Inverse of the interpolation for all magnitudes.", "anchors": ["rubin_sim/skybrightness/sky_model.py: SkyModel.return_mags"]}
{"id": "C298", "title": "set_params with the computed conditions gives the same sky", "statement": "Giving set_params the positions and the moon phase that set_ra_dec_mjd reports, in degrees or radians, with the altitude or the airmass, interpolates at the same point; the distance to the moon is that between the two directions.", "quantifier": "all directions and conditions", "why_tests_cant": "A relation between two ways to set the conditions.", "anchors": ["rubin_sim/skybrightness/sky_model.py: SkyModel (set_params, _setup_point_grid)"]}
{"id": "C299", "title": "return_mags reports the points that were set last", "statement": "After a setter succeeds return_mags gives one magnitude per point of that call, for spectra too; before that it raises.", "quantifier": "all sequences of calls", "why_tests_cant": "Needs calls without a valid point after successful ones.", "anchors": ["rubin_sim/skybrightness/sky_model.py: SkyModel (set_params, set_ra_dec_mjd, return_mags)"]}
{"id": "C300", "title": "Identifiers are converted to integers and back without loss", "statement": "id2intid gives the position of each identifier in the sorted list of the distinct ones; intid2id undoes it and finds every integer of its table.", "quantifier": "all lists of identifiers", "why_tests_cant": "All lists, in any order and with repetitions.", "anchors": ["rubin_sim/skybrightness/interp_components.py: id2intid", "rubin_sim/skybrightness/interp_components.py: intid2id"]}
{"id": "C301", "title": "Helper functions of the twilight fits", "statement": "simple_twi evaluates slope, magnitudes and constants of the pixels, the value of a pixel not depending on the other data; robust_rms is the distance of the quartiles over 1.349, not negative, independent of order and of a shift, and scales with the values.", "quantifier": "all parameters and data", "why_tests_cant": "Statements about all lists and their reorderings.", "anchors": ["rubin_sim/skybrightness/twilight_func.py: simple_twi", "rubin_sim/skybrightness/utils.py: robust_rms"]}
{"id": "C302", "title": "The dust map gives each position its own value whatever was read before", "statement": "eb_vhp and DustMap give pixels the values of the file of the resolution and directory asked for, positions those of the pixel they are in, and interpolated positions a weighted mean that lies between the extremes of the map. Earlier calls make no difference. DustMap adds its key and changes nothing else of the slice points.", "quantifier": "all sequences of calls, files, pixels and positions", "why_tests_cant": "The function caches maps between calls; no test tries all sequences.", "anchors": ["rubin_sim/maf/maps/ebv_hp.py: eb_vhp", "rubin_sim/maf/maps/dust_map.py: DustMap", "rubin_sim/maf/utils/maf_utils.py: radec2pix"]}
{"id": "C303", "title": "The 3-d dust map gives rows of the file asked for", "statement": "ebv_3d_hp gives each pixel, or each position's pixel, its own distances and extinctions from the file that is named, or the default file of the resolution; the same call gives the same result each time.", "quantifier": "all sequences of calls and files", "why_tests_cant": "Results depend on what was read earlier in the process.", "anchors": ["rubin_sim/maf/maps/ebv_3d_hp.py: ebv_3d_hp"]}
{"id": "C304", "title": "get_x_at_nearest_y gives the tabulated point nearest to the goal", "statement": "For a single sight line and for each row of a map the result is the entry at which the first table is nearest to the goal, the first of several equally near, with the matching entry of the other table; every non-empty table has an answer.", "quantifier": "all tables and goals", "why_tests_cant": "Ties and all shapes of tables.", "anchors": ["rubin_sim/maf/maps/ebv_3d_hp.py: get_x_at_nearest_y"]}
{"id": "C305", "title": "distance_at_dmag gives the distance at which an object is dimmed by dmag", "statement": "If dust increases with distance, a dimming reached between two distances of the map gives a distance between them; one not reached in the map gives the distance with the dust of the last entry; one reached before the first distance gives the first; a larger dmag never gives a smaller distance. A sight line by itself and in a map gives the same. DustMap3D.run adds its four keys and changes nothing else.", "quantifier": "all sight lines and dimmings", "why_tests_cant": "A statement over all tables, including beyond their end.", "anchors": ["rubin_sim/maf/maps/dust_map_3d.py: DustMap3D (run, distance_at_dmag)"]}
{"id": "C306", "title": "The star density maps give each slice point the luminosity function of its place", "statement": "StellarDensityMap gives each slice point the row of the pixel it is in, and a healpix slicer of the map's own resolution the whole map, which is the same thing; TrilegalDensityMap gives the row of the centre nearest to the point. Both add their two keys only.", "quantifier": "all maps and slice points", "why_tests_cant": "Agreement of two ways to look up, at all points.", "anchors": ["rubin_sim/maf/maps/stellar_density_map.py: StellarDensityMap.run", "rubin_sim/maf/maps/trilegal_map.py: TrilegalDensityMap.run"]}
{"id": "C307", "title": "The galactic plane priority maps are found by filter and science map", "statement": "The key of a filter and a science map gives both back and differs from the others; the keys are one for each filter and science map of the files; each has the values of that science map in the file of that filter from the directory asked for; other resolutions than 64 raise RuntimeError.", "quantifier": "all names, files and sequences of calls", "why_tests_cant": "All names and the state kept between calls.", "anchors": ["rubin_sim/maf/maps/galactic_plane_priority_maps.py: gp_priority_map_components_to_keys, gp_priority_map_keys_to_components, galplane_priority_map, GalacticPlanePriorityMap"]}
{"id": "C308", "title": "Every map that a bundle of a group asks for is applied to the slice points", "statement": "When a group of bundles runs, each map asked for by a bundle is run on the slice points: its keys are there when the metrics run, with the values that the map gives by itself, and nothing else changes.", "quantifier": "all groups of bundles and their maps", "why_tests_cant": "Depends on which maps the bundles of a group combine.", "anchors": ["rubin_sim/maf/maps/base_map.py: BaseMap (__eq__)", "rubin_sim/maf/metric_bundles/metric_bundle_group.py: MetricBundleGroup._run_compatible", "rubin_sim/maf/slicers/base_slicer.py: BaseSlicer._run_maps"]}
{"id": "C309", "title": "The crowding error is that of all stars as faint or fainter, for the seeing", "statement": "The crowding error at each magnitude of the luminosity function but the first is sqrt(pi)/3600 times half the seeing times the square root of the light squared, relative to a star of that magnitude, of the stars in this and the fainter bins. It scales with the seeing, does not change with the zero point of the magnitudes, and more stars never make it smaller; it has a value for every luminosity function of the length of the magnitudes.", "quantifier": "all luminosity functions and seeings", "why_tests_cant": "A formula over all luminosity functions.", "anchors": ["rubin_sim/maf/metrics/crowding_metric.py: _comp_crowd_error, CrowdingM5Metric, NstarsMetric, CrowdingMagUncertMetric"]}
{"id": "C310", "title": "CrowdingM5Metric gives the faintest magnitude whose crowding error is below the limit", "statement": "If no error reaches the limit the result is the faintest magnitude; otherwise every entry up to the result has an error below the limit and the result is the last such magnitude. Only the best seeing matters, a better visit never makes the result brighter, and no visit raises ValueError.", "quantifier": "all maps and visits", "why_tests_cant": "Depends on how the two tables are aligned at every length.", "anchors": ["rubin_sim/maf/metrics/crowding_metric.py: CrowdingM5Metric.run"]}
{"id": "C311", "title": "NstarsMetric counts the stars brighter than the shallower of depth and crowding limit", "statement": "The count is the luminosity function at the brighter of the crowding magnitude and the magnitude at which the coadded depth gives the error asked for, times the area of the pixel; ignoring crowding never lowers it; more visits never lower it; it lies between the first and last entry of the luminosity function times the area.", "quantifier": "all maps, visits and errors", "why_tests_cant": "Over all luminosity functions and visits.", "anchors": ["rubin_sim/maf/metrics/crowding_metric.py: NstarsMetric.run"]}
{"id": "C312", "title": "Crowding uncertainty and star density at a magnitude are interpolated in the map", "statement": "CrowdingMagUncertMetric gives the crowding error at its magnitude interpolated between the bins, ValueError outside; StarDensityMetric gives the stars per square arcsecond brighter than its magnitude, interpolated, badval outside the map, and never less for a fainter magnitude. Its constructor takes the keyword arguments it documents.", "quantifier": "all maps, visits and magnitudes", "why_tests_cant": "Interpolation at all magnitudes and outside of the map.", "anchors": ["rubin_sim/maf/metrics/crowding_metric.py: CrowdingMagUncertMetric.run", "rubin_sim/maf/metrics/star_density.py: StarDensityMetric"]}
{"id": "C313", "title": "SkySaturationMetric counts saturated visits and UseMetric classifies a visit by its reason", "statement": "SkySaturationMetric gives the number of visits without a finite saturation magnitude. UseMetric gives the first listed use that the observation reason of the visit begins with, or other, and not science for a visit of another programme.", "quantifier": "all visits, reasons and programmes", "why_tests_cant": "Over all strings.", "anchors": ["rubin_sim/maf/metrics/sky_sat_metric.py: SkySaturationMetric.run", "rubin_sim/maf/metrics/use_metrics.py: UseMetric.run"]}
{"id": "C314", "title": "DcrPrecisionMetric combines the visits by their airmass and their error only", "statement": "The precision is one over the root of the sum over visits of the squared tangent of the zenith distance over the squared position error. It does not depend on the parallactic angles or the order of the visits; further visits never worsen it; it is infinite exactly if no visit contributes. A flat spectrum has the same magnitude in all six bands.", "quantifier": "all visits and spectra", "why_tests_cant": "The angles cancel for all visits; monotone in the visits.", "anchors": ["rubin_sim/maf/metrics/dcr_metric.py: DcrPrecisionMetric"]}
{"id": "C315", "title": "BDParallaxMetric gives the distance at which the parallax reaches the signal to noise asked for", "statement": "The signal to noise of the parallax decreases strictly with distance. If the goal lies between those of two neighbouring distances the result lies between them; a goal not reached at the first distance gives badval, and one exceeded at the last a distance beyond it. Every spectral type of bd_colors can be used. VolumeSumMetric is additive over the sky and gives a sphere for one distance over the whole sky.", "quantifier": "all visits, distances and goals", "why_tests_cant": "Monotonicity over all visits; the code sorts and extrapolates by signal to noise.", "anchors": ["rubin_sim/maf/metrics/brown_dwarf_metric.py: bd_colors, BDParallaxMetric, VolumeSumMetric"]}
{"id": "C316", "title": "QSONumberCountsMetric counts the quasars of the table between its redshifts and magnitudes", "statement": "The cumulative table holds at each place the number brighter and nearer, so at the nodes of the table the count is the sum of the entries from the lower to the upper redshift and from the faintest saturation magnitude to the depth, times the area of the pixel. Redshift ranges add. The default upper redshift is where the Lyman break enters the band, at most 6.7. Beyond the extinction cut the result is badval, and visits in other bands do not matter; a point without visits in the band has a value.", "quantifier": "all tables, visits and redshifts", "why_tests_cant": "Over all tables.", "anchors": ["rubin_sim/maf/metrics/qso_number_counts_metric.py: QSONumberCountsMetric"]}
{"id": "C317", "title": "PeriodicDetectMetric counts the stars whose light curve a constant does not fit", "statement": "The chi square of a star is, in each band, that of the best fitting constant. The result is the number of stars detected, each by itself, independent of the order of the visits, never more than the number of stars, zero with at most three visits more than bands and for stars that do not vary; a star with a larger chi square is detected if one with a smaller is.", "quantifier": "all visits, stars and survival functions", "why_tests_cant": "Least squares over all light curves.", "anchors": ["rubin_sim/maf/metrics/periodic_detect_metric.py: PeriodicDetectMetric.run"]}
{"id": "C318", "title": "Visits in survey windows are counted, and the intervals between them taken window by window", "statement": "NumObsInSurveyTimeOverlapMetric counts the visits strictly inside one of the windows; IntervalsBetweenObsMetric takes intervals between visits of one window, never negative, whose mean in one window is the time from first to last visit over one less than their number; NaN without two visits in a window; another statistic raises UnboundLocalError. Neither depends on the order of the visits.", "quantifier": "all windows and visits", "why_tests_cant": "Over all overlapping and nested windows.", "anchors": ["rubin_sim/maf/maf_contrib/num_obs_in_survey_time_overlap_metric.py: NumObsInSurveyTimeOverlapMetric.run", "rubin_sim/maf/maf_contrib/intervals_between_obs_metric.py: IntervalsBetweenObsMetric.run"]}
{"id": "C319", "title": "HourglassMetric divides the visits into blocks and assigns each the nearest midnight", "statement": "The blocks are runs of consecutive visits that together are all visits in order. Two neighbours are in one block exactly if they have the same filter and are at most two minutes apart. The midnight of the edge of a block is the nearest one.", "quantifier": "all sequences of visits and midnights", "why_tests_cant": "Includes the wrapped first element and times outside the midnights.", "anchors": ["rubin_sim/maf/metrics/hourglass_metric.py: HourglassMetric.run"]}
{"id": "C320", "title": "Horizontal coordinates are the true ones", "statement": "For every position, site latitude and local sidereal time, ra_dec2_alt_az returns the altitude whose sine is sin(dec) sin(lat) + cos(dec) cos(lat) cos(ha), between -90 and +90 degrees, and an azimuth between 0 and 360 degrees, north through east, whose north and east components are those of the direction (away from the poles, the zenith and the nadir); the clipping of sines and cosines never changes a value, and altitude and azimuth determine the direction.", "quantifier": "all positions, latitudes and sidereal times", "why_tests_cant": "tests compare a handful of positions with another library within a tolerance; the quadrant of the azimuth and the clipping must be right everywhere", "anchors": ["rubin_sim/maf/stackers/coord_stackers.py: ra_dec2_alt_az"]}
{"id": "C321", "title": "Coordinate columns hold the position of each visit in the announced unit", "statement": "GalacticStacker, EclipticStacker and SdssRADecStacker give each visit its own position, in the unit that the stacker announces; ecliptic longitude relative to the sun lies in one turn; the right ascensions of chip corners lie in [0, 2 pi) and are equal to the input modulo a turn, declinations are only converted, and the input columns are kept. Columns that exist already are kept by the Galactic and ecliptic stackers.", "quantifier": "all visits, all settings of degrees and of the sun's subtraction, all coordinate conversions", "why_tests_cant": "a test of default settings checks values of a few visits against the same library call and does not look at units", "anchors": ["rubin_sim/maf/stackers/coord_stackers.py: GalacticStacker, EclipticStacker, wrap_ra", "rubin_sim/maf/stackers/sdss_stackers.py: SdssRADecStacker"]}
{"id": "C322", "title": "Visits are labelled by area or by deep drilling field", "statement": "WFDlabelStacker labels every visit: a deep drilling visit (when these are excluded) by the name of its field, the note up to its first comma, so that different fields have different labels; any other visit by the area's name exactly if at least the threshold fraction of the pixels in its field of view is in the footprint, and by NULL otherwise. With a footprint of the whole sky every visit belongs to it.", "quantifier": "all notes, footprints, thresholds, names and pixel sets", "why_tests_cant": "tests use the notes and the map resolution of one simulation", "anchors": ["rubin_sim/maf/stackers/label_stackers.py: WFDlabelStacker"]}
{"id": "C323", "title": "The asteroid distance is the first at which it is too faint, placed on the right side of the sun", "statement": "NEODistStacker reports for each visit the least trial distance at which the asteroid is fainter than the depth in its band; a deeper visit never reports a shorter distance. The position is at that distance from the earth at (0, 1) and at the heliocentric distance given by the law of cosines from the sun at (0, 0), for every elongation; visits mirrored about the meridian give mirrored positions.", "quantifier": "all elongations, depths, bands, azimuths, grids of distance and magnitude laws", "why_tests_cant": "a regression test compares columns of one data set with stored values", "anchors": ["rubin_sim/maf/stackers/neo_dist_stacker.py: NEODistStacker"]}
{"id": "C324", "title": "The depth on the meridian is never shallower", "statement": "M5OptimalStacker gives, for every visit in the six bands, a depth that is at least the depth of the visit, and equal to it exactly if the visit was made at the least airmass its declination allows; it asks for every column that it reads, leaves the sky alone in twilight, and scales the seeing as airmass to the 0.6. A visit in another band is an error.", "quantifier": "all visits, latitudes, bands and altitudes of sun and moon", "why_tests_cant": "a test can only check stored values of a few visits", "anchors": ["rubin_sim/maf/stackers/m5_optimal_stacker.py: M5OptimalStacker"]}
{"id": "C325", "title": "Photometric parameters and dust values are what was asked for or the standard ones", "statement": "PhotometricParameters keeps every parameter that is given and uses the standard value of the band (of r when no band is named) for the others; for an unknown band all nine must be given, otherwise RuntimeError. DustValues.r_x times E(B-V) is the extinction in the band; more dust never brightens.", "quantifier": "all combinations of given parameters and band names; all bands, E(B-V) and reference values", "why_tests_cant": "tests check single parameters one at a time and the extinction at the reference only", "anchors": ["rubin_sim/phot_utils/photometric_parameters.py: PhotometricParameters, DefaultPhotometricParameters, DustValues"]}
{"id": "C326", "title": "Zero points and stellar colours are consistent", "statement": "predicted_zeropoint gives counts proportional to exposure time and falls with airmass, for all three sets of detectors; the zero point without the atmosphere is at least as high at any airmass; both exist for exactly the six bands. stellar_mags returns the r magnitude asked for with colours that do not depend on it, later main sequence types are redder, and other types are refused.", "quantifier": "all bands, airmasses, exposure times, magnitudes and stellar types", "why_tests_cant": "tests evaluate a few bands at one airmass", "anchors": ["rubin_sim/phot_utils/predicted_zeropoints.py", "rubin_sim/maf/utils/stellar_mags.py: stellar_mags"]}
{"id": "C327", "title": "The Galactic plane footprint counts the deep visits and the priority they serve", "statement": "GalPlaneFootprintMetric masks the points at or below the priority threshold of the map and counts elsewhere the visits in its bands that reach the depth limit of their band, and the sum of the priorities of the bands of these visits; another visit never lowers the count. For every timescale (given as an array or a list) the number of visits required is two per interval in seasons of 6.5 months, the value is the map's priority exactly if there are at least that many, and a point that serves a timescale serves every longer one.", "quantifier": "all maps, points, bands, depth limits and visits", "why_tests_cant": "tests use one map and one simulated survey", "anchors": ["rubin_sim/maf/metrics/galactic_plane_metrics.py: GalPlaneFootprintMetric, galplane_nvisits_thresholds, galplane_priority_map_thresholds"]}
{"id": "C328", "title": "The exposure times per band are compared with the desired shares", "statement": "GalPlaneTimePerFilterMetric returns for each band the share of the deep exposure time spent in the band divided by the desired share; weighed with the desired shares the values add to 1; a band that is not desired is masked; without any deep visit all are 0. Each of the six reductions yields a number.", "quantifier": "all maps, desired shares, exposure times, depth limits and lists of bands", "why_tests_cant": "a test of one survey cannot show that the weighted shares always make up the whole", "anchors": ["rubin_sim/maf/metrics/galactic_plane_metrics.py: GalPlaneTimePerFilterMetric"]}
{"id": "C329", "title": "Visit intervals are scored by how well they resolve each timescale", "statement": "GalPlaneVisitIntervalsTimescaleMetric averages over the gaps between successive deep visits a score that is 1 for gaps up to the timescale and falls exponentially after it; the value is in (0, 1] and 1 exactly if no gap exceeds the timescale; longer timescales never score less; the order of the visits does not matter and fewer than two deep visits are masked.", "quantifier": "all visits, limits, timescales and maps", "why_tests_cant": "the value is an average over all gaps; tests check some numbers", "anchors": ["rubin_sim/maf/metrics/galplane_time_sampling_metrics.py: calc_interval_decay, GalPlaneVisitIntervalsTimescaleMetric"]}
{"id": "C330", "title": "Season gaps are scored against the expected gap, using deep visits, without side effects", "statement": "GalPlaneSeasonGapsTimescaleMetric averages over the gaps between seasons of the visits reaching the magnitude limit; the value is in [0, 1] and 1 exactly if each gap is within the expected gap or the timescale; a single season is masked. The metric asks for the priority map that it reads and leaves the visits as they are for the other metrics of the same point.", "quantifier": "all visits, seasons, limits, timescales and maps", "why_tests_cant": "the effect on other metrics shows up only when several are run together on visits not in order of time", "anchors": ["rubin_sim/maf/metrics/galplane_time_sampling_metrics.py: GalPlaneSeasonGapsTimescaleMetric", "rubin_sim/maf/metric_bundles/metric_bundle_group.py: _run_compatible"]}
{"id": "C331", "title": "The structure function uncertainty lies between the photometric noise and its worst case", "statement": "SFUncertMetric uses the visits brighter than the signal to noise cut; its value lies between twice the median of the squared magnitude errors and twice the median plus ten robust deviations; with the gaps of all pairs (each pair of times once) it is at most the value with the gaps of neighbours; it does not depend on the order of the visits, and weights per bin may be given.", "quantifier": "all visits, bins, cuts, magnitudes and weights", "why_tests_cant": "tests run the metric on one list of visits", "anchors": ["rubin_sim/maf/metrics/agnstructure.py: SFUncertMetric"]}
{"id": "C332", "title": "The expected lensed supernovae follow from area, seasons and cadence", "statement": "SNSLMetric counts for each season with enough deep nights and bands a number that is not negative, grows with the area and the season's length and falls with the gap between nights; other seasons count nothing; the order of the visits does not matter; an unknown band is an error. The value is always a number, or masked if there is nothing deep enough.", "quantifier": "all nights, bands, depths, dust, seasons and settings", "why_tests_cant": "one-night seasons and points without deep visits do not occur in the tests' data", "anchors": ["rubin_sim/maf/metrics/sn_sl_metric.py: SNSLMetric"]}
{"id": "C333", "title": "The supernova cadence is the days per visit", "statement": "SNCadenceMetric takes as cadence the number of days per visit over the time covered by the visits in the six bands, from the columns that it asks for.", "quantifier": "all visits", "why_tests_cant": "a test supplies a table with both column names and a single set of times", "anchors": ["rubin_sim/maf/metrics/sn_cadence_metric.py: SNCadenceMetric"]}
{"id": "C334", "title": "Runs are normalised by a baseline so that above 1 means better", "statement": "normalize_metric_summaries keeps the runs and their order, keeps the metrics that the subsets list, and replaces each value by its ratio to the baseline's, the inverse ratio, or 1 plus or minus the difference for magnitudes, as the metric's flags say. The baseline itself is 1; with positive values a number above 1 means a better run; units do not matter; a table given the other way round with labelled axes, or a baseline given as a list of one, yields the same; normalising twice changes nothing more; repeated runs or metrics are merged by their first number; an unknown baseline is a KeyError.", "quantifier": "all tables with any missing values, labels and repetitions, baselines, metric flags and factors", "why_tests_cant": "tests compare one table with a few numbers", "anchors": ["rubin_sim/maf/run_comparison/summary_plots.py: normalize_metric_summaries"]}
{"id": "C335", "title": "Radar normalisation agrees with the normalised summaries", "statement": "normalize_for_radar keeps the columns and their order and compares each value with that of the last row of the reference run, exactly as normalize_metric_summaries does with the corresponding flags (a reversed column of magnitudes is an inverted magnitude); the column run_name is left alone; without a reference run the values are only reversed and inverted; an unknown column is a KeyError and an unknown run a ValueError, and nothing else is refused.", "quantifier": "all tables of named columns, reference runs and lists of columns to invert, reverse or treat as magnitudes", "why_tests_cant": "agreement of two functions on all tables is not testable", "anchors": ["rubin_sim/maf/run_comparison/radar_plot.py: normalize_for_radar"]}
{"id": "C336", "title": "A selection of summaries is exactly what was asked for", "statement": "get_metric_summaries returns the cells of the whole table for the runs and metrics named or in the families and subsets named: everything if nothing is asked for, in the order of the table if so requested, otherwise in the order asked; a metric that is not in the table is left out, a family, subset or (unless in table order) run that does not exist is a KeyError.", "quantifier": "all tables with distinct labels, families, subsets, requests and orders", "why_tests_cant": "tests read one archive file", "anchors": ["rubin_sim/maf/run_comparison/archive.py: get_metric_summaries"]}
{"id": "C337", "title": "The tables of runs by family and by run hold the same information", "statement": "get_family_runs has a row for each run of each family with its own description, path and address, and refuses lists of different length; get_runs has one row for each combination of run, description, path and address, with the families and versions of the rows with that combination in order; a run whose description, path and address are the same in all its families has one row with all its families.", "quantifier": "all lists of families", "why_tests_cant": "the archive is one file; the claim is about any", "anchors": ["rubin_sim/maf/run_comparison/archive.py: get_family_runs, get_runs"]}
{"id": "C338", "title": "Summary statistics of several databases are gathered without loss", "statement": "combine_result_dbs returns a table with one row per run and one column per name of a statistic; a cell is the last value of that run and name that is not missing. A name is made of the statistic, metric, label and slicer without outer blanks, separated by single spaces.", "quantifier": "all lists of databases and statistics, including missing values and blanks", "why_tests_cant": "tests combine one database", "anchors": ["rubin_sim/maf/run_comparison/gather_summaries.py: combine_result_dbs"]}
{"id": "C339", "title": "Downloading runs never overwrites unless told to", "statement": "download_runs fails if the directory does not exist; otherwise files that no run is written to are untouched, an existing file is kept unless clobber is set, a new file holds the data of its run, and with clobber every file holds the data of the (last) run with that path. The names returned are the paths. Downloading again without clobber changes nothing.", "quantifier": "all run tables, disks, addresses and contents", "why_tests_cant": "tests must not download", "anchors": ["rubin_sim/maf/run_comparison/archive.py: download_runs"]}
{"id": "C340", "title": "The lines between families count their runs", "statement": "find_family_lines returns for each family the number of runs in it and the families before it.", "quantifier": "all lists of families", "why_tests_cant": "a plot helper without a test", "anchors": ["rubin_sim/maf/run_comparison/summary_plots.py: find_family_lines"]}
{"id": "C341", "title": "The brightness of a simulated transient follows its light curve, dust and distance", "statement": "The magnitude used for a kilonova or tidal disruption event is that of its tabulated light curve in the band of the visit: a table value at the times of the table, on the straight line between them, never outside the range of the table's magnitudes, and 99 before and after the table; plus the extinction of the band times E(B-V), plus the distance modulus for a kilonova. More dust or a larger distance never makes an event brighter, ten times the distance makes it 5 magnitudes fainter, and outside its light curve an event is fainter than any visit is deep.", "quantifier": "all light curves with increasing times, bands, extinctions, distances and times", "why_tests_cant": "the light curve files are not in the repository; a test has a few times of one curve", "anchors": ["rubin_sim/maf/maf_contrib/kne_metrics.py: KnLc.interp, KNePopMetric.run", "rubin_sim/maf/maf_contrib/tdes_pop_metric.py: TdeLc.interp, TdePopMetric.run"]}
{"id": "C342", "title": "Kilonova detection counts mean what they say", "statement": "A visit detects a kilonova if it is later than the peak time by less than 30 days and deeper than the kilonova is bright. multi_detect is 1 exactly with at least the number of detections asked for, multi_color_detect with detections in two bands at least, red_color_detect and blue_color_detect with at least four detections in i, z, y or in u, g, r. One more visit or deeper visits never turn a 1 into a 0; the order of the visits does not matter; every slice with known bands has an answer.", "quantifier": "all sets of visits, light curves, thresholds and events", "why_tests_cant": "tests use one event at one place", "anchors": ["rubin_sim/maf/maf_contrib/kne_metrics.py: KNePopMetric._multi_detect, _multi_color_detect, _red_color_detect, _blue_color_detect, run"]}
{"id": "C343", "title": "Fast kilonovae are selected by a significant rate", "statement": "ztfrest_simple is 1 exactly with enough detections that span at least three hours and a band whose first brightest and first faintest detection are more than three hours apart, differ by more than their errors, and change by 0.3 magnitudes a day of fading or one of rising at least. The red and blue variants are the same restricted to i, z, y and u, g, r; each implies the unrestricted one.", "quantifier": "all sets of visits in ugrizy, light curves and events", "why_tests_cant": "the criterion is a combination of extremes over bands", "anchors": ["rubin_sim/maf/maf_contrib/kne_metrics.py: KNePopMetric._ztfrest_simple, run"]}
{"id": "C344", "title": "Kilonova models are selected by their parameters", "statement": "get_kne_filename returns every file of the grid if no parameters are given, and otherwise those whose name carries the values of all the parameters of one of the sets given, up to the rounding of numpy.isclose.", "quantifier": "all lists of files named as in the grid, number formats and parameter sets", "why_tests_cant": "the directory of files is not in the repository", "anchors": ["rubin_sim/maf/maf_contrib/kne_metrics.py: get_kne_filename"]}
{"id": "C345", "title": "Tidal disruption events are characterised by their detections", "statement": "prepeak is 1 exactly with more than the number of detections asked for before the peak; some_color with a detection more than ten days before the peak, detections in three bands within five days of it and in two bands 10 to 30 days after it; some_color_pu with a detection more than ten days before, u and another band within five days, and u and another band 10 to 30 days after.", "quantifier": "all sets of visits, light curves, thresholds and events", "why_tests_cant": "tests use one event at one place", "anchors": ["rubin_sim/maf/maf_contrib/tdes_pop_metric.py: TdePopMetric._pre_peak_detect, _some_color_detect, _some_color_pu_detect, run"]}
{"id": "C346", "title": "The quality of a tidal disruption event light curve is its rate of detections", "statement": "The quality scores are 0 for events that do not fulfil the corresponding criterion (some_color, some_color_pu) and otherwise the number of detections in the window of time divided by its length, so that one detection every other night scores 1 as documented.", "quantifier": "all sets of visits, windows, light curves and events", "why_tests_cant": "tests use one event at one place", "anchors": ["rubin_sim/maf/maf_contrib/tdes_pop_metric.py: TdePopMetricQuality._some_color_detect, _some_color_pu_detect, run"]}
{"id": "C347", "title": "An X-ray binary outburst rises fast and decays", "statement": "The flux of an outburst is 0 at its start, rises until the square root of the product of rise and decay time, where it is the amplitude, and falls from then on; its magnitude is never brighter than the quiescent magnitude less 2.5 log10 of the amplitude and reaches this at the peak. With the durations given to outbursts, rise plus decay time plus the logarithm of the amplitude, the peak is within the outburst.", "quantifier": "all positive amplitudes, rise and decay times and all times", "why_tests_cant": "a statement about a real function", "anchors": ["rubin_sim/maf/maf_contrib/xrb_metrics.py: XrbLc.fred, XrbLc.lightcurve"]}
{"id": "C348", "title": "The time range in which an outburst can be seen is exact on its grid", "statement": "detectable_duration returns the first and the last of the times of its grid at which the outburst, behind dust and at its distance, is at least as bright as the assumed depth in one of the six bands, and NaN if there is none.", "quantifier": "all outbursts, extinctions, distances and increasing grids of times", "why_tests_cant": "tests have one outburst", "anchors": ["rubin_sim/maf/maf_contrib/xrb_metrics.py: XrbLc.detectable_duration"]}
{"id": "C349", "title": "The answers about an outburst mean what they say", "statement": "possible_to_detect is true exactly if there is a time at which the outburst can be seen; ever_detect and early_detect with at least the numbers of detections asked for, overall and until the early window ends; number_of_detections is their number; the mean time between detections is the length of the visible range divided by the number of detections plus one, and the bad value with fewer than two detections. An outburst that was detected was possible to detect.", "quantifier": "all sets of visits, outbursts and thresholds", "why_tests_cant": "tests have one outburst", "anchors": ["rubin_sim/maf/maf_contrib/xrb_metrics.py: XRBPopMetric._ever_detect, _early_detect, _number_of_detections, _mean_time_between_detections, _possible_to_detect, run, reduce_mean_time_between_detections"]}
{"id": "C350", "title": "Generated kilonovae are within what was asked for", "statement": "Distances of generated events are at least the smallest and below the largest asked for, and the part of the events nearer than x is (x^4 - a^4) / (b^4 - a^4); times are within the survey and uniform; light curves are used equally often and only those announced; with as many announced as there are, every event has one.", "quantifier": "all ranges, numbers of files and random numbers in [0, 1)", "why_tests_cant": "random draws: a test sees one seed", "anchors": ["rubin_sim/maf/maf_contrib/kne_metrics.py: generate_kn_pop_slicer"]}
{"id": "C351", "title": "Gaps between visits are counted once each and in the right bin", "statement": "With all gaps, a pair of equal bands yields the time between each two deep enough visits at different times once; of two bands the time between each visit of the one and each of the other that is not further away than the last bin, in either order of the bands. With the nearest only, equal bands yield the times between successive visits, two bands the times from each visit of the first to the next and to the previous visit of the second. A bin counts the gaps from its lower edge to below its upper edge (the last one with it). The figure of merit of a pair is the number of binned gaps over the standard deviation of the clipped numbers, 0 without gaps; that of several pairs is the sum. The order of visits does not matter.", "quantifier": "all sets of visits, depth limits, bins, clipping values and pairs of bands", "why_tests_cant": "tests do not cover this metric", "anchors": ["rubin_sim/maf/maf_contrib/filter_pair_t_gaps_metric.py: FilterPairTGapsMetric._get_d_t, FilterPairTGapsMetric.run"]}
{"id": "C352", "title": "The presto cadence needs two bands and a repetition", "statement": "An event is detected exactly with at least three detections, of which two are in different bands and two in the same; the order does not matter and more detections never undo it.", "quantifier": "all lists of bands of detections", "why_tests_cant": "tests use one event", "anchors": ["rubin_sim/maf/maf_contrib/presto_color_kne_pop_metric.py: PrestoColorKNePopMetric._presto_color_detect"]}
{"id": "C353", "title": "The pages of a run show every metric in its place", "statement": "The metrics of a run are listed by group, subgroup, name, slicer, display order and label (with statistics: slicer, display order and label before the name), each once, whatever the order of the rows in the database. The groups and subgroups offered are exactly those of the metrics, in order. The selections by group, subgroup, slicer, label, name, statistic and plot type (also with the old names of a plot type) return exactly the metrics that qualify. Lists of names have no repetitions; those of name and label keep the order of the metrics.", "quantifier": "all sets of metrics with distinct numbers, all plots and statistics", "why_tests_cant": "a test has one results database, with few groups and without ties", "anchors": ["rubin_sim/maf/web/maf_run_results.py: MafRunResults.sort_metrics", "rubin_sim/maf/web/maf_run_results.py: MafRunResults.metrics_in_group", "rubin_sim/maf/web/maf_run_results.py: MafRunResults.metrics_in_subgroup", "rubin_sim/maf/web/maf_run_results.py: MafRunResults.metrics_to_subgroups", "rubin_sim/maf/web/maf_run_results.py: MafRunResults.metrics_with_plot_type", "rubin_sim/maf/web/maf_run_results.py: MafRunResults.metrics_with_summary_stat", "rubin_sim/maf/web/maf_run_results.py: MafRunResults.unique_metric_names", "rubin_sim/maf/web/maf_run_results.py: MafRunResults.unique_metric_name_and_info_label"]}
{"id": "C354", "title": "The form to choose metrics shows what was chosen", "statement": "Ticking boxes of subgroups and of single metrics shows exactly the metrics of these subgroups and these metrics. The data file of a metric is offered unless its name is NULL, and its data can be fetched as JSON. A table row of a metric has the same titles as a blank row.", "quantifier": "all sets of metrics, group and subgroup names, choices and file names", "why_tests_cant": "names with the separator are not in a test database; the pages are not tested", "anchors": ["rubin_sim/maf/web/maf_run_results.py: MafRunResults.convert_select_to_metrics", "rubin_sim/maf/web/maf_run_results.py: MafRunResults.get_json", "rubin_sim/maf/web/maf_run_results.py: MafRunResults.get_npz", "rubin_sim/maf/web/maf_run_results.py: MafRunResults.metric_info", "rubin_sim/maf/web/maf_run_results.py: MafRunResults.caption_for_metric", "rubin_sim/maf/metric_bundles/metric_bundle.py: MetricBundle.output_json", "rubin_sim/maf/slicers/base_slicer.py: BaseSlicer.output_json"]}
{"id": "C355", "title": "Summary statistics are listed in a fixed order with their values", "statement": "Each name of a statistic is listed once: first the usual names in a fixed order, with the table fractions from none to more than all at the end, then the rest by the alphabet. Each name has the value that is stored first for it. The statistics of a metric are exactly those stored with its number.", "quantifier": "all sets of statistics and metrics", "why_tests_cant": "a test has a few statistics of one run", "anchors": ["rubin_sim/maf/web/maf_run_results.py: MafRunResults.order_stat_names", "rubin_sim/maf/web/maf_run_results.py: MafRunResults.all_stat_names", "rubin_sim/maf/web/maf_run_results.py: MafRunResults.stat_dict", "rubin_sim/maf/web/maf_run_results.py: MafRunResults.stats_for_metric"]}
{"id": "C356", "title": "Each plot is listed once under its type", "statement": "The types of plots are listed once, sky maps, histograms, power spectra and combined plots first and the rest by the alphabet. Each type has the files and thumbnails of all its plots, in their order, in the directory of the run. The sky maps of some metrics are exactly the plots of the types asked for that belong to them.", "quantifier": "all sets of plots, types and directories", "why_tests_cant": "a test has a few plots", "anchors": ["rubin_sim/maf/web/maf_run_results.py: MafRunResults.plot_dict", "rubin_sim/maf/web/maf_run_results.py: MafRunResults.get_sky_maps", "rubin_sim/maf/web/maf_run_results.py: MafRunResults.get_plot_file", "rubin_sim/maf/web/maf_run_results.py: MafRunResults.get_thumb_file"]}
{"id": "C357", "title": "Sky maps are laid out by band", "statement": "The places of the multi-colour page come in rows of three. When no band has more than one plot, the first six belong to u, g, r, i, z, y, blank when there is no plot, and plots without a band follow. Otherwise there is a place for each metric, by display order, with all its plots. No plot of a metric of the run is left out, and each is shown once.", "quantifier": "all sets of plots and metrics", "why_tests_cant": "depends on the file names of all the plots", "anchors": ["rubin_sim/maf/web/maf_run_results.py: MafRunResults.order_plots"]}
{"id": "C358", "title": "Constraints per band select the visits of the band", "statement": "The constraint made for a band selects the visits in this band that satisfy the extra constraint, and that for all bands those that satisfy the extra constraint. Each visit in ugrizy that satisfies the extra constraint is selected by exactly one band. Bands are listed in the order of their numbers, with different labels. Joining labels does not depend on the grouping, and a missing label changes nothing.", "quantifier": "all extra constraints and labels, all ways to decide a constraint in which 'and' is conjunction", "why_tests_cant": "the meaning of a constraint is up to the database; tests compare texts", "anchors": ["rubin_sim/maf/batches/common.py: filter_list", "rubin_sim/maf/batches/common.py: combine_info_labels"]}
{"id": "C359", "title": "Renaming a column in metric names changes only the column", "statement": "With a new name the name of the column at the end of a metric's name is replaced; with an empty one it is dropped with the blank before it, so that different metrics keep different names. The fractions of a population have the names given for them, or their thresholds, and too few names are an error.", "quantifier": "all column names, new names and metric names", "why_tests_cant": "a test has a column whose letters do not occur at the end of the names", "anchors": ["rubin_sim/maf/batches/common.py: standard_metrics", "rubin_sim/maf/batches/common.py: extended_metrics", "rubin_sim/maf/batches/common.py: standard_angle_metrics", "rubin_sim/maf/batches/common.py: fraction_population_at_threshold"]}
{"id": "C360", "title": "The list of runs follows the tracking database", "statement": "After any sequence of requests and changes of the database, a request for a run gives the page of the run that the database now has under this number, or an error if there is none; a page already given is not read again while the database is unchanged. Runs are listed by their numbers.", "quantifier": "all sequences of requests, failed ones included, and of changes of the database", "why_tests_cant": "needs changes between requests and, for the first reading, during one", "anchors": ["rubin_sim/maf/web/maf_tracking.py: MafTracking.__init__", "rubin_sim/maf/web/maf_tracking.py: MafTracking._check_db", "rubin_sim/maf/web/maf_tracking.py: MafTracking.sort_runs", "rubin_sim/maf/web/maf_tracking.py: MafTracking.get_run"]}
{"id": "C361", "title": "The light curve of a lens is that of a point lens", "statement": "The amplification of an event satisfies A sqrt(x (x + 4)) = x + 2 for the square x of the separation in Einstein radii. It is above 1, the same before and after the peak, and strictly larger nearer to the peak, for a smaller impact parameter or a longer crossing time. Blending dilutes it in proportion, down to 1 for a factor of 0.", "quantifier": "all impact parameters, crossing times, peak times, blending factors and times, except a lens exactly in front of the source", "why_tests_cant": "a test has a few light curves", "anchors": ["rubin_sim/maf/maf_contrib/microlensing_metric.py: microlensing_amplification"]}
{"id": "C362", "title": "The derivatives of light curves are derivatives", "statement": "The coefficients for the Fisher information are the derivatives of source flux times amplification plus blend flux by the peak time, the impact parameter and the crossing time, in the order crossing time, impact parameter, peak time; and those for the fluxes are the derivatives by blend flux and source flux.", "quantifier": "all parameters and times, except a lens exactly in front of the source", "why_tests_cant": "a test compares with differences for a few values", "anchors": ["rubin_sim/maf/maf_contrib/microlensing_metric.py: coefficients_pspl", "rubin_sim/maf/maf_contrib/microlensing_metric.py: coefficients_fsfb"]}
{"id": "C363", "title": "The time of the most information about the crossing time is a maximum", "statement": "At the time of maximum information before the peak, and at its mirror image, the light curve depends on the crossing time more strongly than at any other time, for a constant signal to noise ratio. The time is zero only for an impact parameter of 0, grows with the impact parameter, is proportional to the crossing time, and lies between u0 / sqrt 2 and sqrt(u0^2 / 2 + 1) crossing times.", "quantifier": "all impact parameters, crossing times, peak times and times", "why_tests_cant": "a maximum over all times", "anchors": ["rubin_sim/maf/maf_contrib/microlensing_metric.py: info_peak_before_t0"]}
{"id": "C364", "title": "An event is detected if enough of its points stand out", "statement": "With metric_calc 'detect' the result is 1 exactly if at least pts_needed points before the peak, less the time before the peak, are above the 5 sigma depth (and as many after it if both sides are asked for), and otherwise 0. The order of the visits does not matter, and more visits after the first never undo a detection.", "quantifier": "all visits, events, magnitudes, thresholds and modes", "why_tests_cant": "depends on all pairs of visits", "anchors": ["rubin_sim/maf/maf_contrib/microlensing_metric.py: MicrolensingMetric.run"]}
{"id": "C365", "title": "The number of points of an event is that near its peak", "statement": "With metric_calc 'Npts' the result is the number of visits within two crossing times of the peak whose signal to noise ratio is above detect_sigma.", "quantifier": "all visits, events, magnitudes and thresholds", "why_tests_cant": "a test has a few visits, none at the borders", "anchors": ["rubin_sim/maf/maf_contrib/microlensing_metric.py: MicrolensingMetric.run"]}
{"id": "C366", "title": "The information of all visits determines the uncertainty of the crossing time", "statement": "The Fisher matrix is symmetric and non-negative: the sum over visits of the products of derivatives of the flux by the peak time, the impact parameter, the crossing time and the fluxes, divided by the squared error. With metric_calc 'Fisher' the result is the square root of the variance of the crossing time in the inverse of the matrix for all visits, divided by the crossing time.", "quantifier": "all visits, events, magnitudes and ways to invert a matrix", "why_tests_cant": "no test knows the correct value", "anchors": ["rubin_sim/maf/maf_contrib/microlensing_metric.py: fisher_matrix", "rubin_sim/maf/maf_contrib/microlensing_metric.py: MicrolensingMetric.run"]}
{"id": "C367", "title": "An event is brightest at its peak", "statement": "In each band the magnitude of an event is smaller the nearer to the peak, whether it comes from the mean magnitudes of stars or from the event itself. The events of a run do not affect each other. A blending factor given with an event is used.", "quantifier": "all events, magnitudes, bands and times", "why_tests_cant": "a test has one kind of event and no reference magnitudes", "anchors": ["rubin_sim/maf/maf_contrib/microlensing_metric.py: MicrolensingMetric.run", "rubin_sim/maf/maf_contrib/microlensing_metric.py: microlensing_amplification_fsfb"]}
{"id": "C368", "title": "A transient given by a spectrum is counted by the documented criteria", "statement": "Without a limit of time on the bands the value is the number of pairs of a phase shift and a transient with a visit, for which at least num_pre_time detections fall before pre_time, each of the num_per_lightcurve sections of the light curve has a detection, and there are detections in num_filters bands. A detection is a visit whose signal to noise ratio reaches the threshold of its band.", "quantifier": "all visits in any order, light curves, thresholds, criteria, numbers of phases and survey starts", "why_tests_cant": "the criteria are tested with one light curve, if at all", "anchors": ["rubin_sim/maf/maf_contrib/transient_ascii_sed_metric.py: TransientAsciiSEDMetric.run", "rubin_sim/maf/maf_contrib/transient_ascii_sed_metric.py: TransientAsciiSEDMetric.evaluate_all_detection_criteria", "rubin_sim/maf/maf_contrib/transient_ascii_sed_metric.py: TransientAsciiSEDMetric.evaluate_snr_thresholds"]}
{"id": "C369", "title": "The bands must be had within the limit of time", "statement": "With filter_time a transient is counted if it meets the other criteria and has detections in num_filters bands within filter_time. The limit never adds a transient.", "quantifier": "all visits, light curves, thresholds, criteria and ways to search a sequence that is not in order", "why_tests_cant": "needs detections at the border of the interval", "anchors": ["rubin_sim/maf/maf_contrib/transient_ascii_sed_metric.py: TransientAsciiSEDMetric.evaluate_filter_in_time_detection_criteria"]}
{"id": "C370", "title": "The value at a point of the sky does not depend on the points before it", "statement": "Running the metric over many slices gives for each the value it has alone.", "quantifier": "all sequences of slices, visits and parameters", "why_tests_cant": "a test runs a metric on one slice", "anchors": ["rubin_sim/maf/maf_contrib/transient_ascii_sed_metric.py: TransientAsciiSEDMetric.setup_run_metric_variables", "rubin_sim/maf/maf_contrib/transient_ascii_sed_metric.py: TransientAsciiSEDMetric.run"]}
{"id": "C371", "title": "Not more transients are found than are possible", "statement": "The value is a fraction. The number of transients possible is the number of phases times the number of light curves that fit into the survey, rounded up, and bounds the number detected.", "quantifier": "all visits within the survey, durations and numbers of phases", "why_tests_cant": "a test has a few visits away from the edges", "anchors": ["rubin_sim/maf/maf_contrib/transient_ascii_sed_metric.py: TransientAsciiSEDMetric.run", "rubin_sim/maf/maf_contrib/transient_ascii_sed_metric.py: TransientAsciiSEDMetric.setup_phase_shift_dependent_variables"]}
{"id": "C372", "title": "Deeper visits never lose a transient given by a spectrum", "statement": "Fainter limiting magnitudes, a brighter light curve and lower thresholds never lower the value.", "quantifier": "all pairs of such inputs", "why_tests_cant": "a relation between runs", "anchors": ["rubin_sim/maf/maf_contrib/transient_ascii_sed_metric.py: TransientAsciiSEDMetric.run", "rubin_sim/maf/maf_contrib/transient_ascii_sed_metric.py: TransientAsciiSEDMetric.evaluate_snr_thresholds"]}
{"id": "C373", "title": "The light curves returned tell which transients were detected", "statement": "With output_data the visits are in order of time, two visits have the same transient_id exactly if they are of the same transient, and the flags in detected are for the transients in the order of their ids, for the last phase. The ids start from 0 and are the places in detected.", "quantifier": "all visits, light curves, thresholds, criteria and numbers of phases", "why_tests_cant": "a test has no transients without visits", "anchors": ["rubin_sim/maf/maf_contrib/transient_ascii_sed_metric.py: TransientAsciiSEDMetric.run", "rubin_sim/maf/maf_contrib/transient_ascii_sed_metric.py: TransientAsciiSEDMetric.initialize_phase_loop_variables"]}
{"id": "C374", "title": "Bands without a threshold are left out", "statement": "Only the bands that have an entry in detect_snr are considered. Without such bands the metric gives a number for every slice with visits.", "quantifier": "all visits and thresholds", "why_tests_cant": "tests use the default thresholds", "anchors": ["rubin_sim/maf/maf_contrib/transient_ascii_sed_metric.py: TransientAsciiSEDMetric.evaluate_snr_thresholds"]}
{"id": "C375", "title": "Bundles of a joint plot come in the order of their bands", "statement": "Bundles given to a PlotHandler are all kept and are drawn in the order u, g, r, i, z, y of the bands in their names.", "quantifier": "all lists of bundles and names", "why_tests_cant": "tests give bundles in one or two bands", "anchors": ["rubin_sim/maf/plots/plot_handler.py: PlotHandler.set_metric_bundles"]}
{"id": "C376", "title": "Settings of a plot are resolved in the documented order", "statement": "The value of a key is what the user passes, else what the bundle's plot_dict has, else the default of the plotter, else what was set in the handler before, else what is generated.", "quantifier": "all bundles, dictionaries, plotters, random colours and orders of sets", "why_tests_cant": "the sources interact by key", "anchors": ["rubin_sim/maf/plots/plot_handler.py: PlotHandler.set_plot_dicts"]}
{"id": "C377", "title": "Bundles in one plot have the same limits and title", "statement": "In a plot with one subplot the limits of the axes and colours and the title are the same for all bundles; settings that agree are kept, and different limits of colours are replaced by the widest. The handler can be used again.", "quantifier": "all bundles, dictionaries and plotters", "why_tests_cant": "a test has dictionaries that agree", "anchors": ["rubin_sim/maf/plots/plot_handler.py: PlotHandler._check_plot_dicts"]}
{"id": "C378", "title": "The description of a joint plot", "statement": "Bundles with any descriptions can be plotted together. The description of the plot is the common one, or lists what differs, bands in the order of their wavelengths.", "quantifier": "all bundles, descriptions and orders in which a set is gone through", "why_tests_cant": "the order of a set of strings changes from run to run", "anchors": ["rubin_sim/maf/plots/plot_handler.py: PlotHandler._combine_metadata"]}
{"id": "C379", "title": "The joint name of metrics", "statement": "Metrics whose names differ in the band have a joint name with the common words and the bands in order. The name, which is part of the file's name, is the same in every run.", "quantifier": "all bundles, names and orders in which a set is gone through", "why_tests_cant": "the order of a set of strings changes from run to run", "anchors": ["rubin_sim/maf/plots/plot_handler.py: PlotHandler._combine_metric_names"]}
{"id": "C380", "title": "Labels of the legend tell bundles apart", "statement": "Two bundles in a joint plot that differ in run, description or metric have different labels.", "quantifier": "all bundles and orders of sets", "why_tests_cant": "needs adversarial names", "anchors": ["rubin_sim/maf/plots/plot_handler.py: PlotHandler._build_legend_labels"]}
{"id": "C381", "title": "The title says what bundles have in common", "statement": "The title has the run, description and metric that are the same for all bundles, and none that varies; if nothing is shared it is made of the joint names.", "quantifier": "all bundles and orders of sets", "why_tests_cant": "ranges over all combinations", "anchors": ["rubin_sim/maf/plots/plot_handler.py: PlotHandler._build_title"]}
{"id": "C382", "title": "Bundles are drawn in the colours of their bands", "statement": "Bundles selected by different bands are drawn in the colours of these; a bundle's own colour is used if it has one.", "quantifier": "all bundles, constraints and random colours", "why_tests_cant": "tests have one form of constraint", "anchors": ["rubin_sim/maf/plots/plot_handler.py: PlotHandler._build_colors"]}
{"id": "C383", "title": "A joint plot is shown after its bundles", "statement": "The group and subgroup are those the bundles share, else Comparisons, and the order is greater than that of each bundle.", "quantifier": "all bundles and orders", "why_tests_cant": "depends on the order of the bundles", "anchors": ["rubin_sim/maf/plots/plot_handler.py: PlotHandler._build_display_dict"]}
{"id": "C384", "title": "A plot draws the bundles with values", "statement": "All bundles with unmasked values are drawn, no others; the figure is saved and recorded exactly if something was drawn; several bundles have a legend unless it is set.", "quantifier": "all bundles, dictionaries, plotters and orders of sets", "why_tests_cant": "figures are not checked in tests", "anchors": ["rubin_sim/maf/plots/plot_handler.py: PlotHandler.plot", "rubin_sim/maf/plots/plot_handler.py: PlotHandler.set_metric_bundles", "rubin_sim/maf/plots/plot_handler.py: PlotHandler.save_fig"]}
{"id": "C385", "title": "The light curve of a periodic star", "statement": "The magnitude of a periodic star is the mean magnitude of the band plus a sine wave of the given period, phase and amplitude: it repeats after a period, stays within the amplitude of the mean, and has the same colours at all times.", "quantifier": "all parameters, times and bands", "why_tests_cant": "ranges over all times", "anchors": ["rubin_sim/maf/maf_contrib/periodic_star_metric.py: PeriodicStar"]}
{"id": "C386", "title": "The value of PeriodicStarMetric is the share of good fits", "statement": "The value is the share of the noise realisations in which the fit, given the star's magnitudes with noise of the photometric error of each visit, has period and amplitude within the relative tolerances and the magnitudes of at least n_bands bands within the tolerance. It is between 0 and 1.", "quantifier": "all visits, parameters, random numbers and fits", "why_tests_cant": "the noise is random", "anchors": ["rubin_sim/maf/maf_contrib/periodic_star_metric.py: PeriodicStarMetric.run"]}
{"id": "C387", "title": "Points with too few visits are marked", "statement": "A point has the bad value exactly if it has fewer visits than parameters to fit.", "quantifier": "all visits, parameters, random numbers and fits", "why_tests_cant": "ranges over all numbers of visits", "anchors": ["rubin_sim/maf/maf_contrib/periodic_star_metric.py: PeriodicStarMetric.run"]}
{"id": "C388", "title": "Bands without visits do not count", "statement": "If fewer bands have visits than n_bands, no star is recovered, whatever the fit gives for the other bands.", "quantifier": "all visits, parameters, random numbers and fits", "why_tests_cant": "a fit that starts at the truth keeps the magnitudes of bands without visits", "anchors": ["rubin_sim/maf/maf_contrib/periodic_star_metric.py: PeriodicStarMetric.run"]}
{"id": "C389", "title": "Wider tolerances recover no fewer stars", "statement": "Greater tolerances, or fewer bands needed, with the same random numbers, do not lower the value.", "quantifier": "all visits, parameters, random numbers and fits", "why_tests_cant": "relates two runs", "anchors": ["rubin_sim/maf/maf_contrib/periodic_star_metric.py: PeriodicStarMetric.run"]}
{"id": "C390", "title": "PeriodicStarMetric gives a value for every slice", "statement": "With six mean magnitudes, at least one realisation and bands of LSST the metric gives a value for any visits, also if fits do not converge and without a slice point; a visit in an unknown band raises KeyError.", "quantifier": "all visits, parameters, random numbers and fits", "why_tests_cant": "failures depend on the data", "anchors": ["rubin_sim/maf/maf_contrib/periodic_star_metric.py: PeriodicStarMetric.run"]}
{"id": "C391", "title": "Perfect and failing fits", "statement": "If all fits find the true parameters the value is 1 if enough bands have visits, else 0; if no fit converges it is 0.", "quantifier": "all visits, parameters and random numbers", "why_tests_cant": "the fit cannot be controlled in a test", "anchors": ["rubin_sim/maf/maf_contrib/periodic_star_metric.py: PeriodicStarMetric.run"]}
{"id": "C392", "title": "Names of bands may have more than the letter", "statement": "Visits whose band is given with the name of the filter (r_57) are those of the band.", "quantifier": "all visits, parameters, random numbers and fits", "why_tests_cant": "tests use one form of names", "anchors": ["rubin_sim/maf/maf_contrib/periodic_star_metric.py: PeriodicStarMetric.run"]}
{"id": "C393", "title": "Distance and start of the survey", "statement": "A distance modulus in the slice point is the same as mean magnitudes greater by it. Moving all visits in time by the same amount does not change the value.", "quantifier": "all visits, parameters, random numbers, fits and shifts", "why_tests_cant": "relates two runs", "anchors": ["rubin_sim/maf/maf_contrib/periodic_star_metric.py: PeriodicStarMetric.run"]}
{"id": "C394", "title": "The photometric error of a star", "statement": "The error of a magnitude is positive, greater for stars that are fainter relative to the depth of the visit, and 2.5 log10(1.2) at the depth.", "quantifier": "all magnitudes and depths", "why_tests_cant": "over the reals", "anchors": ["rubin_sim/maf/maf_contrib/periodic_star_metric.py: PeriodicStarMetric.run"]}
{"id": "C395", "title": "The share of stars recovered in short spans", "statement": "PeriodicStarModulationMetric gives the mean over the subruns of the share of realisations in which the star is recovered.", "quantifier": "all visits, parameters, random numbers and fits", "why_tests_cant": "the value is random and small values are plausible", "anchors": ["rubin_sim/maf/maf_contrib/periodic_star_modulation_metric.py: PeriodicStarModulationMetric.run"]}
{"id": "C396", "title": "Each visit is in one subrun", "statement": "The subruns of PeriodicStarModulationMetric are spans of the given length, and each visit is in exactly one.", "quantifier": "all visits and lengths", "why_tests_cant": "needs visits at the borders", "anchors": ["rubin_sim/maf/maf_contrib/periodic_star_modulation_metric.py: PeriodicStarModulationMetric.run"]}
{"id": "C397", "title": "Stars are compared with their own solutions", "statement": "In the uniformity of the self-calibration each star with a solution is paired with the catalogue star of the same id, in the order of the solutions, and none is lost; this holds for catalogues in any order and solutions of unknown ids, also if there are none.", "quantifier": "all catalogues, solutions and ways of sorting", "why_tests_cant": "the sort is not stable and ids are arbitrary", "anchors": ["rubin_sim/maf/maf_contrib/selfcal_uniformity_metric.py: _match", "rubin_sim/maf/maf_contrib/selfcal_uniformity_metric.py: PhotometricSelfCalUniformityMetric.run"]}
{"id": "C398", "title": "The map of residuals", "statement": "Residuals are taken relative to their median, so that the zeropoint of the solution does not matter, and each pixel with stars has the median residual of its stars.", "quantifier": "all stars, pixels and zeropoints", "why_tests_cant": "relates two solutions", "anchors": ["rubin_sim/maf/maf_contrib/selfcal_uniformity_metric.py: PhotometricSelfCalUniformityMetric.run"]}
{"id": "C399", "title": "The scatter of the residuals", "statement": "The scatter, in millimagnitudes, is the median distance to the median over the quantile of the normal distribution, of all pixels with stars and of those at high latitude; residuals larger by a factor have a scatter larger by it and the same outliers.", "quantifier": "all stars, pixels, latitudes and factors", "why_tests_cant": "over the reals", "anchors": ["rubin_sim/maf/maf_contrib/selfcal_uniformity_metric.py: PhotometricSelfCalUniformityMetric.run"]}
{"id": "C400", "title": "The fractions of outliers", "statement": "outlier_frac_full and outlier_frac_highglat are the shares of the pixels, and of the pixels at high latitude, whose residual exceeds outlier_nsig times the scatter.", "quantifier": "all stars, pixels and latitudes", "why_tests_cant": "a plausible number that is too low", "anchors": ["rubin_sim/maf/maf_contrib/selfcal_uniformity_metric.py: PhotometricSelfCalUniformityMetric.run"]}
{"id": "C401", "title": "The metric asks for the columns it reads", "statement": "A slice with the columns that the metric of the uniformity asks for is enough to run it.", "quantifier": "all sets of columns", "why_tests_cant": "sqlite does not distinguish the case of names", "anchors": ["rubin_sim/maf/maf_contrib/selfcal_uniformity_metric.py: PhotometricSelfCalUniformityMetric.__init__", "rubin_sim/maf/maf_contrib/selfcal_uniformity_metric.py: PhotometricSelfCalUniformityMetric.run"]}
{"id": "C402", "title": "Galaxies are counted in the footprint only", "statement": "DepthLimitedNumGalMetric gives its bad value at points with much dust, few bands or little depth, and else the number of galaxies in the visits of the band.", "quantifier": "all visits, limits, dust and bad values", "why_tests_cant": "depends on an argument passed on to the base class", "anchors": ["rubin_sim/maf/maf_contrib/depth_limited_num_gal_metric.py: DepthLimitedNumGalMetric.run", "rubin_sim/maf/metrics/weak_lensing_systematics_metric.py: ExgalM5WithCuts"]}
{"id": "C403", "title": "The distance to which young stars are seen", "statement": "The distance of the young star metric is the largest at which a star of the given absolute magnitudes, behind all the dust, has the required signal to noise in every band: at that distance it is at least as bright as the limit in each band and as bright as the limit in one.", "quantifier": "all visits, bands, magnitudes, dust and crowding limits", "why_tests_cant": "over the reals; the distance solves an equation", "anchors": ["rubin_sim/maf/maf_contrib/young_stellar_objects_metric.py: NYoungStarsMetric.run"]}
{"id": "C404", "title": "More visits see farther", "statement": "Additional visits never lower the distance of the young star metric, and requiring additional bands never raises it.", "quantifier": "all visits, bands and dust", "why_tests_cant": "relates two runs", "anchors": ["rubin_sim/maf/maf_contrib/young_stellar_objects_metric.py: NYoungStarsMetric.run"]}
{"id": "C405", "title": "Where young stars cannot be seen", "statement": "The distance is 0 if one of the bands has no visits, and the metric gives its bad value beyond the limit in galactic latitude.", "quantifier": "all visits, bands and positions", "why_tests_cant": "rests on the logarithm of an empty sum", "anchors": ["rubin_sim/maf/maf_contrib/young_stellar_objects_metric.py: NYoungStarsMetric.run"]}
{"id": "C406", "title": "The density of young stars", "statement": "The density per distance is positive beyond the observer, symmetric about the galactic plane and the galactic center, and falls with latitude; the number of stars is its integral to the distance of the metric times the area of the pixel, or of a circular field.", "quantifier": "all positions, distances and areas", "why_tests_cant": "over the reals", "anchors": ["rubin_sim/maf/maf_contrib/young_stellar_objects_metric.py: StarDensity", "rubin_sim/maf/maf_contrib/young_stellar_objects_metric.py: NYoungStarsMetric.run"]}
{"id": "C407", "title": "Young stars are in the disk of the Galaxy", "statement": "The density of young stars at a distance and direction is that of the exponential disk with the scale length and height of the code, at the place of the star relative to the center of the Galaxy, times the square of the distance.", "quantifier": "all directions and distances", "why_tests_cant": "over the reals; wrong by a smooth factor only", "anchors": ["rubin_sim/maf/maf_contrib/young_stellar_objects_metric.py: StarDensity"]}
{"id": "C408", "title": "StarCountMetric counts stars", "statement": "StarCountMetric gives the number of stars of the model of the Galaxy between two distances in the field of the first visit.", "quantifier": "all distances and data", "why_tests_cant": "no test runs the metric; the name that is called is bound by the import", "anchors": ["rubin_sim/maf/maf_contrib/star_count_metric.py: StarCountMetric.run", "rubin_sim/maf/maf_contrib/star_counts/starcount.py: starcount", "rubin_sim/maf/maf_contrib/star_counts/coords.py: eq_gal3"]}
{"id": "C409", "title": "StarCountMassMetric counts stars", "statement": "StarCountMassMetric gives the number of stars of a range of masses that are fainter than magnitude 16 and have an error below 0.03.", "quantifier": "all masses, bands, data, solvers and absolute magnitudes", "why_tests_cant": "no test runs the metric", "anchors": ["rubin_sim/maf/maf_contrib/star_count_mass_metric.py: StarCountMassMetric.run", "rubin_sim/maf/maf_contrib/star_counts/starcount_bymass.py: starcount_bymass", "rubin_sim/maf/maf_contrib/star_counts/starcount_bymass.py: noise_calc"]}
{"id": "C410", "title": "The shells of the star counts", "statement": "star_vols cuts the field between two distances into 50 shells of the same volume, which add up to that of the field; half of each shell is nearer than its distance, which lies between the two distances.", "quantifier": "all distances and areas", "why_tests_cant": "over the reals", "anchors": ["rubin_sim/maf/maf_contrib/star_counts/starcount.py: star_vols"]}
{"id": "C411", "title": "Cylindrical coordinates in the Galaxy", "statement": "gal_cyn gives the distance from the axis of the Galaxy, the angle about it and the height of a star at a distance in a direction.", "quantifier": "all directions and distances", "why_tests_cant": "over the reals", "anchors": ["rubin_sim/maf/maf_contrib/star_counts/coords.py: gal_cyn"]}
{"id": "C412", "title": "The density of stars in the Galaxy", "statement": "The density is positive and falls away from the axis and, above the Sun, from the plane; in the plane at the Sun's distance the disks together have the density of the Sun's neighbourhood and the halo a thousandth of it; the disks fall by a factor e over their scale lengths and heights.", "quantifier": "all places", "why_tests_cant": "over the reals", "anchors": ["rubin_sim/maf/maf_contrib/star_counts/stellardensity.py: stellardensity"]}
{"id": "C413", "title": "Counts lie within the bounds of the density", "statement": "Given the galactic coordinates of the field, the number of stars between two distances is at least the volume times the lowest density along the line of sight between them and at most that times the highest.", "quantifier": "all fields, distances and bounds", "why_tests_cant": "over the reals; for all bounds", "anchors": ["rubin_sim/maf/maf_contrib/star_counts/starcount.py: starcount"]}
{"id": "C414", "title": "Shares of masses", "statement": "IMF is the integral of the power -2.35 of the mass between two masses, and positive; the shares of the masses in a range add up to its integral over that from 0.2 to 1.04.", "quantifier": "all masses", "why_tests_cant": "over the reals", "anchors": ["rubin_sim/maf/maf_contrib/star_counts/starcount_bymass.py: IMF", "rubin_sim/maf/maf_contrib/star_counts/starcount_bymass.py: starcount_bymass"]}
{"id": "C415", "title": "The error of a magnitude", "statement": "mag_error is above the systematic error 0.005, larger for fainter stars, that of a signal to noise of 5 and the systematic error at the depth in every band, and exists in the six bands only.", "quantifier": "all magnitudes, bands and depths", "why_tests_cant": "over the reals", "anchors": ["rubin_sim/maf/maf_contrib/star_counts/starcount_bymass.py: mag_error"]}
{"id": "C416", "title": "Distances from magnitudes", "statement": "get_distance gives the only distance at which a star of the absolute magnitude has the apparent magnitude.", "quantifier": "all magnitudes", "why_tests_cant": "over the reals", "anchors": ["rubin_sim/maf/maf_contrib/star_counts/starcount_bymass.py: get_distance"]}
{"id": "C417", "title": "The line of binned data", "statement": "The plot of a OneDSlicer is a line of steps, from edge to edge of each bin at the height of its value, that leaves out the masked bins, or draws them at the fill value if filled_data is set.", "quantifier": "all bins, values and masks", "why_tests_cant": "for all masks", "anchors": ["rubin_sim/maf/plots/oned_plotters.py: OneDBinnedData.__call__"]}
{"id": "C418", "title": "Values without a mask are drawn", "statement": "If no value is masked, whether the array has a mask or not, the plot shows all bins.", "quantifier": "all bins and values", "why_tests_cant": "tests use arrays with a mask", "anchors": ["rubin_sim/maf/plots/oned_plotters.py: OneDBinnedData.__call__"]}
{"id": "C419", "title": "The limits of the plot of binned data", "statement": "The limits are those given, else those of the percentiles of the values that are not masked, else the axis starts at 0 if that is the smallest value shown.", "quantifier": "all options, values and masks", "why_tests_cant": "for all masks and options", "anchors": ["rubin_sim/maf/plots/oned_plotters.py: OneDBinnedData.__call__"]}
{"id": "C420", "title": "The plot of binned data needs a OneDSlicer only", "statement": "The plot raises ValueError for other slicers and for slice points without bins; with a OneDSlicer all options are optional.", "quantifier": "all slicers and options", "why_tests_cant": "the handler usually fills in the option", "anchors": ["rubin_sim/maf/plots/oned_plotters.py: OneDBinnedData.__call__"]}
{"id": "C421", "title": "Plots of an NDSlicer", "statement": "TwoDSubsetData and OneDSubsetData plot the values of an NDSlicer summed over the other axes, and raise ValueError for other slicers and without the axes.", "quantifier": "all slicers, shapes and axes", "why_tests_cant": "no test runs these plots", "anchors": ["rubin_sim/maf/plots/nd_plotters.py: TwoDSubsetData.__call__", "rubin_sim/maf/plots/nd_plotters.py: OneDSubsetData.__call__", "rubin_sim/maf/slicers/nd_slicer.py: NDSlicer"]}
{"id": "C422", "title": "The histogram of visits in groups shows all visits", "statement": "VisitPairsHist draws, for each number k of visits per night and field, a bar at k as high as the number of visits in groups of k, for all groups that are not masked.", "quantifier": "all metric values and masks", "why_tests_cant": "for all values", "anchors": ["rubin_sim/maf/plots/two_d_plotters.py: VisitPairsHist.__call__"]}
{"id": "C423", "title": "Plotting leaves the metric values alone", "statement": "TwoDMap draws metric values and leaves them and their mask as they are.", "quantifier": "all metric values, masks and plot options", "why_tests_cant": "tests plot each bundle once and do not look at the values afterwards", "anchors": ["rubin_sim/maf/plots/two_d_plotters.py: TwoDMap.__call__"]}
{"id": "C424", "title": "The label of a two-dimensional plot", "statement": "TwoDMap labels the axis of the slice points with the label of the user, else by the kind of slicer, whatever the plotter plotted before.", "quantifier": "all slicers, options and earlier plots", "why_tests_cant": "tests use a plotter once", "anchors": ["rubin_sim/maf/plots/two_d_plotters.py: TwoDMap.__call__"]}
{"id": "C425", "title": "The area with at least some number of visits", "statement": "The line that FOPlot draws has, at each number of visits that occurs, its highest point at the area of the sky with at least as many visits.", "quantifier": "all metric values and scales", "why_tests_cant": "for all values, with ties", "anchors": ["rubin_sim/maf/plots/special_plotters.py: FOPlot.__call__"]}
{"id": "C426", "title": "Plots against orbits need no options", "statement": "MetricVsOrbit and MetricVsOrbitPoints have defaults for all of their options.", "quantifier": "all H values and options", "why_tests_cant": "no test runs these plots", "anchors": ["rubin_sim/maf/plots/mo_plotters.py: MetricVsOrbit.__call__", "rubin_sim/maf/plots/mo_plotters.py: MetricVsOrbitPoints.__call__"]}
{"id": "C427", "title": "The H of a plot against orbits", "statement": "The plots show the values at the H asked for: the nearest H if H is cloned, else the objects within half of the width; without it that of the middle or the median.", "quantifier": "all H values, widths and options", "why_tests_cant": "for all H values", "anchors": ["rubin_sim/maf/plots/mo_plotters.py: MetricVsOrbit.__call__", "rubin_sim/maf/plots/mo_plotters.py: MetricVsOrbitPoints.__call__"]}
{"id": "C428", "title": "The bins of a plot against orbits", "statement": "The value of a bin of MetricVsOrbit is that of the values of the objects chosen whose orbits lie in the bin.", "quantifier": "all orbits, edges and values", "why_tests_cant": "no test runs the plot", "anchors": ["rubin_sim/maf/plots/mo_plotters.py: MetricVsOrbit.__call__"]}
{"id": "C429", "title": "The points of a plot against orbits", "statement": "MetricVsOrbitPoints draws the objects chosen, and either kind of points can be left out.", "quantifier": "all H values and options", "why_tests_cant": "no test runs the plot", "anchors": ["rubin_sim/maf/plots/mo_plotters.py: MetricVsOrbitPoints.__call__"]}
{"id": "C430", "title": "Metric values against H", "statement": "If each object has its own H, a point of MetricVsH has the objects with H from its own to the next point, and the points reach from the smallest to the largest H.", "quantifier": "all objects, numbers of bins and reductions", "why_tests_cant": "for all H, close or not", "anchors": ["rubin_sim/maf/plots/mo_plotters.py: MetricVsH.__call__"]}
{"id": "C431", "title": "The options of the plot against H", "statement": "MetricVsH has defaults for its options and leaves the options of the user alone.", "quantifier": "all options", "why_tests_cant": "no test looks at the options afterwards", "anchors": ["rubin_sim/maf/plots/mo_plotters.py: MetricVsH.__call__"]}
{"id": "C432", "title": "The summary histogram", "statement": "SummaryHistogram draws, for each bin, the metric of the values of all slice points that are not masked, summed up if cumulative, from edge to edge of the bin; without values it raises ValueError, and options are optional.", "quantifier": "all values, bins and metrics", "why_tests_cant": "for all metrics and sizes", "anchors": ["rubin_sim/maf/plots/special_plotters.py: SummaryHistogram.__call__"]}
