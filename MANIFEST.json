{
 "claims": [
  {
   "property": "C01",
   "status": "proved",
   "theorems": [
    "C01_value_is_net_of_effects",
    "C01_count_returns_it",
    "C01_every_call_takes_effect_once",
    "C01_interleaving_independent"
   ],
   "note": "All schedules of the interleaving machine, any number of goroutines; value modulo 2^64 as int64."
  },
  {
   "property": "C02",
   "status": "proved",
   "theorems": [
    "C02_counter_linearizable",
    "C02_gauge_linearizable",
    "C02_gaugefloat64_linearizable"
   ],
   "note": "Linearization-point definition in Spec/Linearizability.v; sequentially consistent sync/atomic assumed."
  },
  {
   "property": "C03",
   "status": "proved",
   "theorems": [
    "C03_bits_round_trip",
    "C03_bits_onto",
    "C03_update_then_read"
   ],
   "note": "Leibniz equality of binary64 values, NaN payloads included."
  },
  {
   "property": "C04",
   "status": "proved",
   "theorems": [
    "C04_snapshot_agrees",
    "C04_snapshot_immutable",
    "C04_reservoir_snapshot_immutable",
    "C04_statistics",
    "C04_values",
    "C04_snapshot_harmless",
    "C04_mutators_panic",
    "C04_stop_and_snapshot",
    "C04_variance_immutable_refuted",
    "C04_NewSampleSnapshot_immutable_refuted"
   ],
   "note": "Sequential model of the whole API (World.v): arbitrary programs before and after the snapshot. Two refutations: Variance after the in-place sort, and NewSampleSnapshot aliasing the caller's slice."
  },
  {
   "property": "C05",
   "status": "proved",
   "theorems": [
    "C05_constructors",
    "C05_methods",
    "C05_sequences",
    "C05_no_ticking",
    "C05_time_does_not_call"
   ],
   "note": "Arbitrary programs over the whole API; interface method tables in Spec/ApiSpec.v."
  },
  {
   "property": "C06",
   "status": "proved",
   "theorems": [
    "C06_SampleMax",
    "C06_SampleMin",
    "C06_empty"
   ],
   "note": "SampleMin/SampleMax loops against the declarative extremum."
  },
  {
   "property": "C07",
   "status": "proved",
   "theorems": [
    "C07_SampleSum",
    "C07_SampleSum_exact",
    "C07_SampleSum_order",
    "C07_mean_correctly_rounded",
    "C07_mean_relative_error",
    "C07_mean_empty"
   ],
   "note": "Exact wrapped sum; correctly rounded mean for |sum| <= 2^53; relative error 2^-52+2^-106 otherwise."
  },
  {
   "property": "C08",
   "status": "proved",
   "theorems": [
    "C08_mean_between_min_max",
    "C08_mean_rounding_refuted",
    "C08_mean_rounding_above_refuted",
    "C08_mean_overflow_refuted"
   ],
   "note": "Holds for |sum| <= 2^53; the unrestricted claim is refuted by three witnesses (rounding below, rounding above, overflow)."
  },
  {
   "property": "C09",
   "status": "proved",
   "theorems": [
    "C09_variance",
    "C09_stddev",
    "C09_empty",
    "C09_constant",
    "C09_variance_exact",
    "C09_about_the_mean",
    "C09_variance_accuracy",
    "C09_stddev_accuracy",
    "C09_rounded_values",
    "C09_stddev_any_values"
   ],
   "note": "Finite, non-negative, bounded; exact population variance when all intermediates are integers below 2^53; zero on small constant slices. Accuracy against the real-valued population variance for values up to 2^53 (relative error of n+4 roundings, plus the square of the mean's error); for any int64 values against the values rounded to float64, and of the standard deviation against the real one with an added error of 2^-51 of the mean and 2^-53 of the largest value (if the sum fits; if it overflows, against the mean returned)."
  },
  {
   "property": "C10",
   "status": "proved",
   "theorems": [
    "C10_no_panic_iff_no_NaN",
    "C10_one_score_per_percentile",
    "C10_empty"
   ],
   "note": "No panic iff no percentile is NaN (amd64 semantics of int(NaN))."
  },
  {
   "property": "C11",
   "status": "proved",
   "theorems": [
    "C11_percentile_bracketed",
    "C11_percentile_in_min_max",
    "C11_order_stat_unique"
   ],
   "note": "Bracketing by declarative order statistics, exactness at integer ranks, accuracy 2^-49 relative, containment in [Min,Max]."
  },
  {
   "property": "C12",
   "status": "proved",
   "theorems": [
    "C12_percentile_monotone"
   ],
   "note": "Monotone in p including infinities."
  },
  {
   "property": "C13",
   "status": "proved",
   "theorems": [
    "C13_order_independent",
    "C13_percentiles_sort_in_place",
    "C13_sort_unique",
    "C13_variance_order_refuted"
   ],
   "note": "Order independence; in-place sort is a sorted permutation; Variance is order dependent (refuted)."
  },
  {
   "property": "C14",
   "status": "proved",
   "theorems": [
    "C14_new",
    "C14_count_and_size",
    "C14_update_never_panics",
    "C14_short_histories"
   ],
   "note": "All histories of updates, clears, reads and in-place sorting percentile calls with fewer than 2^63 recorded values."
  },
  {
   "property": "C15",
   "status": "proved",
   "theorems": [
    "C15_only_recorded_values",
    "C15_all_while_not_full"
   ],
   "note": "Sub-multiset of the recorded values; everything while not full."
  },
  {
   "property": "C16",
   "status": "proved",
   "theorems": [
    "C16_every_subset_equally_likely",
    "C16_marginal_probability",
    "C16_permb_is_permutation",
    "C16_value_oblivious"
   ],
   "note": "Exact counting over all equally likely draw sequences: each N-subset has probability N!(n-N)!/n!, each value N/n. Values taken distinct; C16_value_oblivious extends this to repeated values."
  },
  {
   "property": "C17",
   "status": "proved",
   "theorems": [
    "C17_count_and_size",
    "C17_never_panics",
    "C17_size_zero_panics"
   ],
   "note": "All histories (arbitrary times, draws, math.Exp); fewer than 2^63 recorded values between clears; size 0 panics."
  },
  {
   "property": "C18",
   "status": "proved",
   "theorems": [
    "C18_only_recorded_values",
    "C18_newest_is_held",
    "C18_discards_exactly_one"
   ],
   "note": "No assumption on math.Exp: NaN and infinite priorities included."
  },
  {
   "property": "C19",
   "status": "proved",
   "theorems": [
    "C19_min_heap",
    "C19_evicts_a_minimum"
   ],
   "note": "Min-heap shape and eviction of a minimum as long as no priority has been NaN and math.Exp is not negative."
  },
  {
   "property": "C20",
   "status": "proved",
   "theorems": [
    "C20_all_but_one_outrank_the_discarded",
    "C20_top_N_refuted"
   ],
   "note": "All observations are tracked in a reservoir-free ledger; the 'top N' strengthening is refuted."
  },
  {
   "property": "C21",
   "status": "proved",
   "theorems": [
    "C21_rescaling",
    "C21_order_preserved"
   ],
   "note": "Compared with the same update with rescaling switched off; order preservation for finite non-negative factors."
  },
  {
   "property": "C22",
   "status": "proved",
   "theorems": [
    "C22_long_idle_poisons"
   ],
   "note": "Concrete history, for every math.Exp that overflows/underflows at +-750."
  },
  {
   "property": "C23",
   "status": "proved",
   "theorems": [
    "C23_recurrence",
    "C23_every_event_once",
    "C23_weighted_sum",
    "C23_constant_flow",
    "C23_accuracy",
    "C23_builtin_alphas"
   ],
   "note": "Sequential runs of the EWMA code: rate = documented recurrence in float64, exact closed form, forward error bound; math.Exp only enters through alpha."
  },
  {
   "property": "C24",
   "status": "proved",
   "theorems": [
    "C24_rate_bounds",
    "C24_idle_tick",
    "C24_builtin_alphas",
    "C24_unbounded_counts_refuted"
   ],
   "note": "Needs fewer than 2^63 events per tick; the unconditional statement is refuted by an overflow witness."
  },
  {
   "property": "C25",
   "status": "proved",
   "theorems": [
    "C25_conservation",
    "C25_single_ticker",
    "C25_single_ticker_rate",
    "C25_two_tickers_refuted"
   ],
   "note": "All interleavings of the atomic actions; the two-ticker claim is a refutation with a concrete schedule."
  },
  {
   "property": "C26",
   "status": "proved",
   "theorems": [
    "C26_initialised_once",
    "C26_one_store_per_tick",
    "C26_stored_rates",
    "C26_mutual_exclusion",
    "C26_no_deadlock",
    "C26_rate_is_some_order_refuted"
   ],
   "note": "Includes deadlock freedom and a refutation: the initialising store can overwrite a concurrent Tick's update."
  },
  {
   "property": "C27",
   "status": "proved",
   "theorems": [
    "C27_count",
    "C27_reads",
    "C27_completed_calls",
    "C27_averages_fed",
    "C27_skipped_only_after_stop",
    "C27_before_stop",
    "C27_after_stop",
    "C27_began_before_stop_refuted"
   ],
   "note": "Every schedule of every number of goroutines; also outlines of every completed call. Refutation: a Mark that only began before a Stop may be skipped."
  },
  {
   "property": "C28",
   "status": "proved",
   "theorems": [
    "C28_one_removal",
    "C28_no_tick_after_removal",
    "C28_removal_between_rounds",
    "C28_stop_outline",
    "C28_no_deadlock",
    "C28_every_stop_refuted"
   ],
   "note": "Also absence of deadlock. Refutation: a Stop that lost the compare-and-swap may return before the removal."
  },
  {
   "property": "C29",
   "status": "proved",
   "theorems": [
    "C29_round_set",
    "C29_round_ticks",
    "C29_insert_between_rounds",
    "C29_one_ticker"
   ],
   "note": "Map order is an oracle argument of the tick; the ticker firing itself (time.Ticker) is a call of tickMeters."
  },
  {
   "property": "C30",
   "status": "proved",
   "theorems": [
    "C30_published_rates_existed",
    "C30_reported_rates",
    "C30_fresh_without_overlap",
    "C30_average_is_recurrence",
    "C30_average_is_ewma",
    "C30_fresh_when_quiet_refuted",
    "C30_snapshot_undisturbed",
    "C30_snapshot_one_moment_refuted"
   ],
   "note": "Freshness assumes no overlap of a tick with a Mark of the same meter; the refutation shows it is needed. Each average is shown to be an execution of the EWMA code, so C25/C26 carry over."
  },
  {
   "property": "C31",
   "status": "proved",
   "theorems": [
    "C31_maps",
    "C31_others",
    "C31_get",
    "C31_register_free",
    "C31_register_taken",
    "C31_unregister",
    "C31_unregister_all",
    "C31_get_or_register",
    "C31_get_or_register_lazy",
    "C31_each",
    "C31_history"
   ],
   "note": ""
  },
  {
   "property": "C32",
   "status": "proved",
   "theorems": [
    "C32_register",
    "C32_get_or_register",
    "C32_only_metrics"
   ],
   "note": ""
  },
  {
   "property": "C33",
   "status": "proved",
   "theorems": [
    "C33_linearizable",
    "C33_one_winner",
    "C33_constructor"
   ],
   "note": "Read and write lock, map accesses, constructors and arbiter accesses are separate steps. Linearizability is to a finite map plus the log of constructed values; the one-winner theorem follows for any stretch without Unregister of the name. Constructors, callbacks and health checks do not call back in these three theorems."
  },
  {
   "property": "C34",
   "status": "proved",
   "theorems": [
    "C34_snapshot",
    "C34_no_lock"
   ],
   "note": "For arbitrary callbacks of all calls (also callbacks that deadlock). Which pairs are passed is stated for callbacks without a nested Each, whose own pairs would be logged as well. The lock-free theorem is about the state of the two locks when only this goroutine is in a call."
  },
  {
   "property": "C35",
   "status": "proved",
   "theorems": [
    "C35_race_free",
    "C35_finishes",
    "C35_constructor_deadlock",
    "C35_health_deadlock"
   ],
   "note": "Race freedom holds for all calls and callbacks. Termination is for constructors and health checks that do not use the registry; callbacks of Each may. Deadlocks: no call completes that ran such a constructor or check; concrete stuck executions are beside the theorems, also of a health check that only reads."
  },
  {
   "property": "C36",
   "status": "proved",
   "theorems": [
    "C36_exactly",
    "C36_unregister",
    "C36_unregister_all",
    "C36_frozen",
    "C36_stays"
   ],
   "note": ""
  },
  {
   "property": "C37",
   "status": "proved",
   "theorems": [
    "C37_free",
    "C37_taken",
    "C37_leak"
   ],
   "note": ""
  },
  {
   "property": "C38",
   "status": "proved",
   "theorems": [
    "C38_found",
    "C38_free",
    "C38_panics"
   ],
   "note": ""
  },
  {
   "property": "C39",
   "status": "proved",
   "theorems": [
    "C39_names",
    "C39_new",
    "C39_same",
    "C39_each"
   ],
   "note": ""
  },
  {
   "property": "C40",
   "status": "proved",
   "theorems": [
    "C40_whole_base",
    "C40_unregister_all_confined_refuted",
    "C40_get_all_confined_refuted",
    "C40_run_healthchecks_confined_refuted"
   ],
   "note": ""
  },
  {
   "property": "C41",
   "status": "proved",
   "theorems": [
    "C41_names",
    "C41_keys",
    "C41_values",
    "C41_stddev",
    "C41_health",
    "C41_returns"
   ],
   "note": "GetAll through any registry value (prefixed or not), every reachable state and map order. The standard deviation is order-dependent: it equals the StdDev of a snapshot after its percentiles were taken (C41_stddev). Health checks: reported after between 1 and as many runs as the check has names."
  },
  {
   "property": "C42",
   "status": "proved",
   "theorems": [
    "C42_sample",
    "C42_delegates",
    "C42_clear",
    "C42_snapshot"
   ],
   "note": ""
  },
  {
   "property": "C43",
   "status": "proved",
   "theorems": [
    "C43_concurrent",
    "C43_snapshots",
    "C43_count",
    "C43_meter",
    "C43_records",
    "C43_statistics",
    "C43_stop",
    "C43_stop_concurrent",
    "C43_stop_count_refuted"
   ],
   "note": "Linearizable without Stop (C43_concurrent) and with Stop but without Count and the statistics (C43_stop_concurrent); with all of them it is not (C43_stop_count_refuted)."
  },
  {
   "property": "C44",
   "status": "proved",
   "theorems": [
    "C44_elapsed",
    "C44_panic",
    "C44_not_called",
    "C44_since",
    "C44_one_event"
   ],
   "note": ""
  },
  {
   "property": "C45",
   "status": "proved",
   "theorems": [
    "C45_write",
    "C45_order",
    "C45_returns"
   ],
   "note": "Whole output, field by field, for any correct sorting algorithm and any map iteration order; independence of the order also for health checks and functional gauges. Covers one report into a writer that accepts everything, with nothing else running (C67 has the loops, C63 writers that fail, C72 reports beside the running process). Numbers printed by the model of Go's %d and %.kf verbs."
  },
  {
   "property": "C46",
   "status": "proved",
   "theorems": [
    "C46_graphite",
    "C46_opentsdb",
    "C46_returns",
    "C46_unclean_names_refuted"
   ],
   "note": "Every line, not only integers: floats are shown to be the nearest decimal. |DurationUnit| <= 2^53 ns. The decimal notation of percentile keys (strconv.FormatFloat) and the host name are parameters, assumed without blanks and with at most one point. C46_unclean_names_refuted is the failure with a blank and line feed in a name. Covers one report into a writer that accepts everything, with nothing else running (C67 has the loops, C63 writers that fail, C72 reports beside the running process). Numbers printed by the model of Go's %d and %.kf verbs."
  },
  {
   "property": "C47",
   "status": "proved",
   "theorems": [
    "C47_graphite",
    "C47_opentsdb",
    "C47_zero"
   ],
   "note": "The panic theorem assumes that the histograms and timers of the registry can be snapshot and asked for percentiles, so that the report gets to the timer. Covers one report into a writer that accepts everything, with nothing else running (C67 has the loops, C63 writers that fail, C72 reports beside the running process). Numbers printed by the model of Go's %d and %.kf verbs."
  },
  {
   "property": "C48",
   "status": "proved",
   "theorems": [
    "C48_request",
    "C48_panics_iff",
    "C48_blocks",
    "C48_forever"
   ],
   "note": "One handler serving requests one after another, with nothing else running. A panic with 'unsupported type' (a health check) happens outside the lock and does not block later requests. The functions of package expvar that exp.go uses are modelled (a map from names to variables)."
  },
  {
   "property": "C49",
   "status": "proved",
   "theorems": [
    "C49_unit",
    "C49_minute_refuted",
    "C49_time",
    "C49_sub_second",
    "C49_interval",
    "C49_batch",
    "C49_panics_iff",
    "C49_numbers"
   ],
   "note": "Every key of every measurement is related to what the accessors answer. C49_panics_iff also names the other way BuildRequest fails: a percentile that cannot be computed (for example NaN). math.Pow(x, 2) is a parameter; Run and the HTTP client are C66. The standard deviation in sum_squares depends on the order of the sample, which earlier Percentile calls may have sorted; it is that answered after some such calls. C49_unit: the display unit of timers, over the model of Duration.String; C49_minute_refuted: a unit of a minute is labelled s."
  },
  {
   "property": "C50",
   "status": "proved",
   "theorems": [
    "C50_which",
    "C50_count",
    "C50_values",
    "C50_history",
    "C50_once",
    "C50_pauses"
   ],
   "note": "Exact sequence of samples fed, for every history; the count of collections may pass 2^32 (fewer than 2^32 between two captures). When 256 or more collections happened, the segment order is buffer order, so the newest NumGC%256 come first. Sequential: simultaneous captures are C73, the ticker loops C67."
  },
  {
   "property": "C51",
   "status": "proved",
   "theorems": [
    "C51_deltas",
    "C51_sum",
    "C51_sum_numGC_mod",
    "C51_numGC_exact"
   ],
   "note": "Deltas modulo 2^64 for the 64-bit counters and modulo 2^32 for NumGC; sums over any interleaving of API calls and captures. Sequential: simultaneous captures are C73, the ticker loops C67."
  },
  {
   "property": "C52",
   "status": "proved",
   "theorems": [
    "C52_first",
    "C52_debug_first",
    "C52_later",
    "C52_debug_later",
    "C52_capture_before",
    "C52_debug_capture_before",
    "C52_capture_any",
    "C52_debug_capture_any"
   ],
   "note": "Includes that a nil registry panics and registers nothing, after which captures still succeed (C52_capture_any). Sequential: simultaneous captures are C73, the ticker loops C67."
  },
  {
   "property": "C53",
   "status": "proved",
   "theorems": [
    "C53_pause"
   ],
   "note": "The previous statistics are those of the previous call, even one that panicked. Collection times assumed distinct and nonzero. Sequential: simultaneous captures are C73, the ticker loops C67."
  },
  {
   "property": "C54",
   "status": "proved",
   "theorems": [
    "C54_new",
    "C54_error",
    "C54_step",
    "C54_check",
    "C54_last_verdict",
    "C54_run_only",
    "C54_run_returns"
   ],
   "note": ""
  },
  {
   "property": "C55",
   "status": "proved",
   "theorems": [
    "C55_alone",
    "C55_race",
    "C55_unsafe_iff"
   ],
   "note": "Element reads and writes interleaved atomically; sorting is insertion sort, which is what sort.Sort does for at most 6 elements in every Go version (12 since Go 1.19). The race is shown for every unsorted snapshot, not for one example."
  },
  {
   "property": "C56",
   "status": "proved",
   "theorems": [
    "C56_text",
    "C56_iff",
    "C56_write",
    "C56_nan_gauge",
    "C56_json",
    "C56_quote",
    "C56_one_line"
   ],
   "note": "Also says what the exported text is. Of encoding/json the marshalling of maps of int64, float64, string and nil is modelled; the quoting of strings and the notation of finite floats are parameters. C56_iff supposes that GetAll returns (prepared: samples small enough to be snapshot, no health check function panics). The meter whose elapsed time reads zero is C56_meter_example. C56_json: the text, read by the reader of Spec/JsonText.v; supposes that strings are quoted as JSON strings (shown for ASCII by C56_quote) and finite floats are written as JSON numbers."
  },
  {
   "property": "C57",
   "status": "proved",
   "theorems": [
    "C57_runtime_gauges",
    "C57_gc_cpu_fraction",
    "C57_timer",
    "C57_debug_gauges",
    "C57_debug_timer",
    "C57_others"
   ],
   "note": "Sequential: simultaneous captures are C73, the ticker loops C67."
  },
  {
   "property": "C58",
   "status": "proved",
   "theorems": [
    "C58_uniform_linearizable",
    "C58_expdecay_linearizable",
    "C58_race_free",
    "C58_all_return",
    "C58_uniform_counts",
    "C58_expdecay_counts"
   ],
   "note": "Mutex operations and single field and element accesses are the atomic actions; a heap method of ExpDecaySample reads the heap in one action and writes it in another; sorting is insertion sort. The mutex does not prevent access in the model: race freedom is a theorem. The random numbers and times are chosen with the call. The sequential object is that of C14-C21. C58_all_return: every schedule without further calls ends with all calls returned."
  },
  {
   "property": "C59",
   "status": "proved",
   "theorems": [
    "C59_duration",
    "C59_leading",
    "C59_units",
    "C59_log",
    "C59_returns",
    "C59_suffix",
    "C59_scale_refuted"
   ],
   "note": "Covers one cue, a logger that accepts everything, nothing else running (C67 has the loop, C72 the running process). Duration.String is modelled (Duration.v), so the suffix is computed, not assumed. C59_scale_refuted: a timer at 30 ms logged at a scale of 10 ms reads 3.000ms. C59_duration, C59_leading, C59_units: for every duration and every positive scale, against a reader of durations written separately (Spec/DurationSpec.v)."
  },
  {
   "property": "C60",
   "status": "proved",
   "theorems": [
    "C60_syslog",
    "C60_returns"
   ],
   "note": "Covers one report, a writer that accepts everything, nothing else running (C67 has the loops, C72 the running process)."
  },
  {
   "property": "C61",
   "status": "proved",
   "theorems": [
    "C61_stathat",
    "C61_returns",
    "C61_health",
    "C61_gauge",
    "C61_gauge_refuted",
    "C61_names_refuted",
    "C61_distinct"
   ],
   "note": "Covers one call of sh; PostEZCount and PostEZValue are recorded, not modelled; int(x) is the identity (64-bit int). C61_gauge_refuted: 2^53+1. C61_names_refuted: a counter m.count and a meter m. C61_distinct: the condition under which names are distinct."
  },
  {
   "property": "C62",
   "status": "proved",
   "theorems": [
    "C62_readings",
    "C62_registries",
    "C62_meters",
    "C62_health",
    "C62_program",
    "C62_variance_refuted",
    "C62_later_refuted",
    "C62_health_runs_refuted"
   ],
   "note": "One report, nothing else running. Graphite, OpenTSDB and the others are the models of C41, C45-C49, C56 and C59-C61. C62_variance_refuted, C62_later_refuted: a Librato report sorts the live reservoir of a histogram. C62_health_runs_refuted: WriteOnce. C62_program: the state after a report is the state after a program of reading calls."
  },
  {
   "property": "C63",
   "status": "proved",
   "theorems": [
    "C63_graphite",
    "C63_opentsdb",
    "C63_panics",
    "C63_panic_arrives",
    "C63_panic_arrives_opentsdb",
    "C63_prefix",
    "C63_prefix_opentsdb",
    "C63_dial",
    "C63_error_refuted",
    "C63_write",
    "C63_write_panics",
    "C63_write_prefix_refuted"
   ],
   "note": "bufio.Writer is modelled (Send.v, write_loop_done shows that its loop ends); a TCPConn's Write writes everything or fails. C63_error_refuted: GraphiteOnce returns nil when the peer is gone. C63_write_prefix_refuted: gaps in WriteOnce. C63_panic_arrives: what has arrived when a report panics."
  },
  {
   "property": "C64",
   "status": "proved",
   "theorems": [
    "C64_response",
    "C64_iff",
    "C64_request",
    "C64_nan_refuted",
    "C64_name_refuted"
   ],
   "note": "FormatFloat 'g' (assumed a JSON number when finite) and the text of variables of other types (assumed JSON) are parameters; names with bytes above 126 are outside C64_iff. C64_nan_refuted, C64_name_refuted: responses that no JSON reader accepts."
  },
  {
   "property": "C65",
   "status": "proved",
   "theorems": [
    "C65_requests",
    "C65_all_return",
    "C65_alone",
    "C65_two_handlers_refuted",
    "C65_stuck"
   ],
   "note": "A request is the list of variables it sets (C48 says which), in a registry without health checks. expvar.Get, Publish and Set are atomic; nothing else publishes variables. C65_alone ties the interleaved code to the sequential handler of C48. C65_two_handlers_refuted: without the hypothesis on handlers a request can panic."
  },
  {
   "property": "C66",
   "status": "proved",
   "theorems": [
    "C66_sent_iff",
    "C66_request",
    "C66_nil_iff",
    "C66_error",
    "C66_left_open",
    "C66_tick",
    "C66_independent",
    "C66_interval"
   ],
   "note": "One report at a time, not interleaved with the program. The network is any function from requests to answers; http.NewRequest does not fail. String and number notation of encoding/json are parameters of which is assumed that they are JSON (C56_quote shows it for strings). The warning logged at the start of Run is left out."
  },
  {
   "property": "C67",
   "status": "proved",
   "theorems": [
    "C67_history",
    "C67_answers",
    "C67_graphite",
    "C67_opentsdb",
    "C67_write",
    "C67_json",
    "C67_syslog",
    "C67_log",
    "C67_stathat",
    "C67_every_cue",
    "C67_not_positive",
    "C67_positive",
    "C67_captures"
   ],
   "note": "A turn of a loop is not interleaved with the rest of the process. Cues (ticks, items of the channel, ends of sleeps) are inputs. Of a Writer that Write uses, what it accepts is an input of each turn."
  },
  {
   "property": "C68",
   "status": "proved",
   "theorems": [
    "C68_objects",
    "C68_world"
   ],
   "note": "Meters, timers, EWMAs, health checks and registries are not among the objects of the process theorem; each has its own concurrent model. The goroutines use metrics made before they start."
  },
  {
   "property": "C69",
   "status": "proved",
   "theorems": [
    "C69_rates",
    "C69_count",
    "C69_running",
    "C69_average",
    "C69_accuracy"
   ],
   "note": "Calls are atomic here (C27, C28 and C23 treat the interleavings of one meter and one average). A timer's update whose histogram panics marks nothing. math.Exp is a parameter; C69_accuracy assumes the weight is a float between 0 and 1."
  },
  {
   "property": "C70",
   "status": "proved",
   "theorems": [
    "C70_contents",
    "C70_returns"
   ],
   "note": "Calls are atomic here (C58 and C68 treat the interleavings). A timer's UpdateSince and Time record the time that passed. math.Exp is a parameter. few bounds the number of values recorded between two Clears below 2^63. NewExpDecaySample(0, _) is outside: its Update panics."
  },
  {
   "property": "C71",
   "status": "proved",
   "theorems": [
    "C71_counter",
    "C71_gauge",
    "C71_gauge_float64"
   ],
   "note": "Calls are atomic here (C01, C02 and C68 treat the interleavings)."
  },
  {
   "property": "C72",
   "status": "proved",
   "theorems": [
    "C72_alone",
    "C72_get_all_alone",
    "C72_write_alone",
    "C72_expvar_program",
    "C72_expvar",
    "C72_json",
    "C72_write_json",
    "C72_librato_alone",
    "C72_librato_program",
    "C72_librato",
    "C72_librato_instant_refuted",
    "C72_opentsdb",
    "C72_write",
    "C72_log",
    "C72_syslog",
    "C72_stathat",
    "C72_program",
    "C72_report",
    "C72_get_all",
    "C72_graphite",
    "C72_get_all_returns_refuted",
    "C72_librato_refuted"
   ],
   "note": "Calls of the API are atomic (C68; Meter.Snapshot is not, C30_snapshot_one_moment_refuted). Values the report gets hold of are visible to the rest of the process too, which only adds executions. C72_report covers all reports built on one reading per metric; C72_graphite, C72_opentsdb, C72_write, C72_log, C72_syslog and C72_stathat spell out the lines, messages and posts, C72_json the JSON text, C72_expvar the variables (other requests at the same time: C65). C72_alone, C72_write_alone, C72_get_all_alone and C72_librato_alone connect this model with that of the reports in one step (not done for expvar). C72_librato says what holds for Librato, which reads without snapshots: every number on its own. The refuted theorems are the findings about GetAll and Librato."
  },
  {
   "property": "C73",
   "status": "proved",
   "theorems": [
    "C73_in_turn",
    "C73_each_once",
    "C73_pauses_read",
    "C73_race",
    "C73_debug_race",
    "C73_no_pause_twice_refuted",
    "C73_no_pause_lost_refuted",
    "C73_debug_once_refuted"
   ],
   "note": "memStats and gcStats are each one variable, written as a whole. The positive statements assume what the refutations show to be needed: captures do not overlap."
  },
  {
   "property": "C74",
   "status": "proved",
   "theorems": [
    "C74_linearizable",
    "C74_single_ticker_refuted",
    "C74_rate"
   ],
   "note": "Sequentially consistent interleaving of the atomic operations of ewma.go. C74_single_ticker_refuted is the finding: the average is not linearizable; C74_rate is what remains with one ticker. C25 and C26 have what happens with several."
  },
  {
   "property": "C75",
   "status": "proved",
   "theorems": [
    "C75_linearizable",
    "C75_no_race",
    "C75_race",
    "C75_error_refuted",
    "C75_words"
   ],
   "note": "Accesses to the two words of the interface value are the actions, the type word first; sequentially consistent. The function of the check returns, and what it sets is given with the call. C75_race is for calls that begin one after the other in any reachable state; C75_no_race is the converse."
  },
  {
   "property": "C76",
   "status": "proved",
   "theorems": [
    "C76_once",
    "C76_complete",
    "C76_panics",
    "C76_capture",
    "C76_uses",
    "C76_after",
    "C76_overlap_refuted",
    "C76_no_deadlock"
   ],
   "note": "sync.Once as in Go's library (load, mutex, second look, deferred store and unlock). r.Register is one action that does not panic unless r is nil; of captures only the uses of the metrics' variables are actions (C73 has the others). C76_overlap_refuted: calling Register before a capture is not enough, it must have ended."
  },
  {
   "property": "C77",
   "status": "proved",
   "theorems": [
    "C77_response",
    "C77_any_time",
    "C77_window",
    "C77_settles",
    "C77_meter"
   ],
   "note": "C77_any_time and C77_meter have an error bound without the number of ticks (averages of at most 1000 minutes); that of C77_response is smaller for few ticks. math.Exp is a parameter, assumed accurate to eps at the one argument used."
  },
  {
   "property": "C78",
   "status": "proved",
   "theorems": [
    "C78_mean_rate",
    "C78_first",
    "C78_at_once",
    "C78_finite_refuted",
    "C78_current_refuted"
   ],
   "note": "Programs are sequential histories (World.v); of the time only what the clock showed at each call. Clock going backwards and times beyond a Duration are left out of the accuracy theorem. Two plausible readings of the documentation (always finite, up to date) are refuted."
  }
 ]
}