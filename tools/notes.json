{
 "C01": {
  "note": "All schedules of the interleaving machine, any number of goroutines; value modulo 2^64 as int64."
 },
 "C02": {
  "note": "Linearization-point definition in Spec/Linearizability.v; sequentially consistent sync/atomic assumed."
 },
 "C03": {
  "note": "Leibniz equality of binary64 values, NaN payloads included."
 },
 "C04": {
  "note": "Sequential model of the whole API (World.v): arbitrary programs before and after the snapshot. Two refutations: Variance after the in-place sort, and NewSampleSnapshot aliasing the caller's slice."
 },
 "C05": {
  "note": "Arbitrary programs over the whole API; interface method tables in Spec/ApiSpec.v."
 },
 "C06": {
  "note": "SampleMin/SampleMax loops against the declarative extremum."
 },
 "C07": {
  "note": "Exact wrapped sum; correctly rounded mean for |sum| <= 2^53; relative error 2^-52+2^-106 otherwise."
 },
 "C08": {
  "note": "Holds for |sum| <= 2^53; the unrestricted claim is refuted by three witnesses (rounding below, rounding above, overflow)."
 },
 "C09": {
  "note": "Finite, non-negative, bounded; exact population variance when all intermediates are integers below 2^53; zero on small constant slices. Accuracy against the real-valued population variance for values up to 2^53 (relative error of n+4 roundings, plus the square of the mean's error); for any int64 values against the values rounded to float64, and of the standard deviation against the real one with an added error of 2^-51 of the mean and 2^-53 of the largest value (if the sum fits; if it overflows, against the mean returned)."
 },
 "C10": {
  "note": "No panic iff no percentile is NaN (amd64 semantics of int(NaN))."
 },
 "C11": {
  "note": "Bracketing by declarative order statistics, exactness at integer ranks, accuracy 2^-49 relative, containment in [Min,Max]."
 },
 "C12": {
  "note": "Monotone in p including infinities."
 },
 "C13": {
  "note": "Order independence; in-place sort is a sorted permutation; Variance is order dependent (refuted)."
 },
 "C14": {
  "note": "All histories of updates, clears, reads and in-place sorting percentile calls with fewer than 2^63 recorded values."
 },
 "C15": {
  "note": "Sub-multiset of the recorded values; everything while not full."
 },
 "C16": {
  "note": "Exact counting over all equally likely draw sequences: each N-subset has probability N!(n-N)!/n!, each value N/n. Values taken distinct; C16_value_oblivious extends this to repeated values."
 },
 "C17": {
  "note": "All histories (arbitrary times, draws, math.Exp); fewer than 2^63 recorded values between clears; size 0 panics."
 },
 "C18": {
  "note": "No assumption on math.Exp: NaN and infinite priorities included."
 },
 "C19": {
  "note": "Min-heap shape and eviction of a minimum as long as no priority has been NaN and math.Exp is not negative."
 },
 "C20": {
  "note": "All observations are tracked in a reservoir-free ledger; the 'top N' strengthening is refuted."
 },
 "C21": {
  "note": "Compared with the same update with rescaling switched off; order preservation for finite non-negative factors."
 },
 "C22": {
  "note": "Concrete history, for every math.Exp that overflows/underflows at +-750."
 },
 "C23": {
  "note": "Sequential runs of the EWMA code: rate = documented recurrence in float64, exact closed form, forward error bound; math.Exp only enters through alpha."
 },
 "C24": {
  "note": "Needs fewer than 2^63 events per tick; the unconditional statement is refuted by an overflow witness."
 },
 "C25": {
  "note": "All interleavings of the atomic actions; the two-ticker claim is a refutation with a concrete schedule."
 },
 "C26": {
  "note": "Includes deadlock freedom and a refutation: the initialising store can overwrite a concurrent Tick's update."
 },
 "C27": {
  "note": "Every schedule of every number of goroutines; also outlines of every completed call. Refutation: a Mark that only began before a Stop may be skipped."
 },
 "C28": {
  "note": "Also absence of deadlock. Refutation: a Stop that lost the compare-and-swap may return before the removal."
 },
 "C29": {
  "note": "Map order is an oracle argument of the tick; the ticker firing itself (time.Ticker) is a call of tickMeters."
 },
 "C30": {
  "note": "Freshness assumes no overlap of a tick with a Mark of the same meter; the refutation shows it is needed. Each average is shown to be an execution of the EWMA code, so C25/C26 carry over."
 },
 "C33": {
  "note": "Read and write lock, map accesses, constructors and arbiter accesses are separate steps. Linearizability is to a finite map plus the log of constructed values; the one-winner theorem follows for any stretch without Unregister of the name. Constructors, callbacks and health checks do not call back in these three theorems."
 },
 "C34": {
  "note": "For arbitrary callbacks of all calls (also callbacks that deadlock). Which pairs are passed is stated for callbacks without a nested Each, whose own pairs would be logged as well. The lock-free theorem is about the state of the two locks when only this goroutine is in a call."
 },
 "C35": {
  "note": "Race freedom holds for all calls and callbacks. Termination is for constructors and health checks that do not use the registry; callbacks of Each may. Deadlocks: no call completes that ran such a constructor or check; concrete stuck executions are beside the theorems, also of a health check that only reads."
 },
 "C41": {
  "note": "GetAll through any registry value (prefixed or not), every reachable state and map order. The standard deviation is order-dependent: it equals the StdDev of a snapshot after its percentiles were taken (C41_stddev). Health checks: reported after between 1 and as many runs as the check has names."
 },
 "C50": {
  "note": "Exact sequence of samples fed, for every history; the count of collections may pass 2^32 (fewer than 2^32 between two captures). When 256 or more collections happened, the segment order is buffer order, so the newest NumGC%256 come first. Sequential: simultaneous captures are C73, the ticker loops C67."
 },
 "C51": {
  "note": "Deltas modulo 2^64 for the 64-bit counters and modulo 2^32 for NumGC; sums over any interleaving of API calls and captures. Sequential: simultaneous captures are C73, the ticker loops C67."
 },
 "C52": {
  "note": "Includes that a nil registry panics and registers nothing, after which captures still succeed (C52_capture_any). Sequential: simultaneous captures are C73, the ticker loops C67."
 },
 "C53": {
  "note": "The previous statistics are those of the previous call, even one that panicked. Collection times assumed distinct and nonzero. Sequential: simultaneous captures are C73, the ticker loops C67."
 },
 "C57": {
  "note": "Sequential: simultaneous captures are C73, the ticker loops C67."
 },
 "C45": {
  "note": "Whole output, field by field, for any correct sorting algorithm and any map iteration order; independence of the order also for health checks and functional gauges. Covers one report into a writer that accepts everything, with nothing else running (C67 has the loops, C63 writers that fail, C72 reports beside the running process). Numbers printed by the model of Go's %d and %.kf verbs."
 },
 "C46": {
  "note": "Every line, not only integers: floats are shown to be the nearest decimal. |DurationUnit| <= 2^53 ns. The decimal notation of percentile keys (strconv.FormatFloat) and the host name are parameters, assumed without blanks and with at most one point. C46_unclean_names_refuted is the failure with a blank and line feed in a name. Covers one report into a writer that accepts everything, with nothing else running (C67 has the loops, C63 writers that fail, C72 reports beside the running process). Numbers printed by the model of Go's %d and %.kf verbs."
 },
 "C47": {
  "note": "The panic theorem assumes that the histograms and timers of the registry can be snapshot and asked for percentiles, so that the report gets to the timer. Covers one report into a writer that accepts everything, with nothing else running (C67 has the loops, C63 writers that fail, C72 reports beside the running process). Numbers printed by the model of Go's %d and %.kf verbs."
 },
 "C48": {
  "note": "One handler serving requests one after another, with nothing else running. A panic with 'unsupported type' (a health check) happens outside the lock and does not block later requests. The functions of package expvar that exp.go uses are modelled (a map from names to variables)."
 },
 "C56": {
  "note": "Also says what the exported text is. Of encoding/json the marshalling of maps of int64, float64, string and nil is modelled; the quoting of strings and the notation of finite floats are parameters. C56_iff supposes that GetAll returns (prepared: samples small enough to be snapshot, no health check function panics). The meter whose elapsed time reads zero is C56_meter_example. C56_json: the text, read by the reader of Spec/JsonText.v; supposes that strings are quoted as JSON strings (shown for ASCII by C56_quote) and finite floats are written as JSON numbers."
 },
 "C49": {
  "note": "Every key of every measurement is related to what the accessors answer. C49_panics_iff also names the other way BuildRequest fails: a percentile that cannot be computed (for example NaN). math.Pow(x, 2) is a parameter; Run and the HTTP client are C66. The standard deviation in sum_squares depends on the order of the sample, which earlier Percentile calls may have sorted; it is that answered after some such calls. C49_unit: the display unit of timers, over the model of Duration.String; C49_minute_refuted: a unit of a minute is labelled s."
 },
 "C55": {
  "note": "Element reads and writes interleaved atomically; sorting is insertion sort, which is what sort.Sort does for at most 6 elements in every Go version (12 since Go 1.19). The race is shown for every unsorted snapshot, not for one example."
 },
 "C58": {
  "note": "Mutex operations and single field and element accesses are the atomic actions; a heap method of ExpDecaySample reads the heap in one action and writes it in another; sorting is insertion sort. The mutex does not prevent access in the model: race freedom is a theorem. The random numbers and times are chosen with the call. The sequential object is that of C14-C21. C58_all_return: every schedule without further calls ends with all calls returned."
 },
 "C59": {
  "note": "Covers one cue, a logger that accepts everything, nothing else running (C67 has the loop, C72 the running process). Duration.String is modelled (Duration.v), so the suffix is computed, not assumed. C59_scale_refuted: a timer at 30 ms logged at a scale of 10 ms reads 3.000ms. C59_duration, C59_leading, C59_units: for every duration and every positive scale, against a reader of durations written separately (Spec/DurationSpec.v)."
 },
 "C60": {
  "note": "Covers one report, a writer that accepts everything, nothing else running (C67 has the loops, C72 the running process)."
 },
 "C61": {
  "note": "Covers one call of sh; PostEZCount and PostEZValue are recorded, not modelled; int(x) is the identity (64-bit int). C61_gauge_refuted: 2^53+1. C61_names_refuted: a counter m.count and a meter m. C61_distinct: the condition under which names are distinct."
 },
 "C62": {
  "note": "One report, nothing else running. Graphite, OpenTSDB and the others are the models of C41, C45-C49, C56 and C59-C61. C62_variance_refuted, C62_later_refuted: a Librato report sorts the live reservoir of a histogram. C62_health_runs_refuted: WriteOnce. C62_program: the state after a report is the state after a program of reading calls."
 },
 "C63": {
  "note": "bufio.Writer is modelled (Send.v, write_loop_done shows that its loop ends); a TCPConn's Write writes everything or fails. C63_error_refuted: GraphiteOnce returns nil when the peer is gone. C63_write_prefix_refuted: gaps in WriteOnce. C63_panic_arrives: what has arrived when a report panics."
 },
 "C64": {
  "note": "FormatFloat 'g' (assumed a JSON number when finite) and the text of variables of other types (assumed JSON) are parameters; names with bytes above 126 are outside C64_iff. C64_nan_refuted, C64_name_refuted: responses that no JSON reader accepts."
 },
 "C65": {
  "note": "A request is the list of variables it sets (C48 says which), in a registry without health checks. expvar.Get, Publish and Set are atomic; nothing else publishes variables. C65_alone ties the interleaved code to the sequential handler of C48. C65_two_handlers_refuted: without the hypothesis on handlers a request can panic."
 },
 "C66": {
  "note": "One report at a time, not interleaved with the program. The network is any function from requests to answers; http.NewRequest does not fail. String and number notation of encoding/json are parameters of which is assumed that they are JSON (C56_quote shows it for strings). The warning logged at the start of Run is left out."
 },
 "C67": {
  "note": "A turn of a loop is not interleaved with the rest of the process. Cues (ticks, items of the channel, ends of sleeps) are inputs. Of a Writer that Write uses, what it accepts is an input of each turn."
 },
 "C68": {
  "note": "Meters, timers, EWMAs, health checks and registries are not among the objects of the process theorem; each has its own concurrent model. The goroutines use metrics made before they start."
 },
 "C69": {
  "note": "Calls are atomic here (C27, C28 and C23 treat the interleavings of one meter and one average). A timer's update whose histogram panics marks nothing. math.Exp is a parameter; C69_accuracy assumes the weight is a float between 0 and 1."
 },
 "C70": {
  "note": "Calls are atomic here (C58 and C68 treat the interleavings). A timer's UpdateSince and Time record the time that passed. math.Exp is a parameter. few bounds the number of values recorded between two Clears below 2^63. NewExpDecaySample(0, _) is outside: its Update panics."
 },
 "C71": {
  "note": "Calls are atomic here (C01, C02 and C68 treat the interleavings)."
 },
 "C72": {
  "note": "Calls of the API are atomic (C68; Meter.Snapshot is not, C30_snapshot_one_moment_refuted). Values the report gets hold of are visible to the rest of the process too, which only adds executions. C72_report covers all reports built on one reading per metric; C72_graphite, C72_opentsdb, C72_write, C72_log, C72_syslog and C72_stathat spell out the lines, messages and posts, C72_json the JSON text, C72_expvar the variables (other requests at the same time: C65). C72_alone, C72_write_alone, C72_get_all_alone and C72_librato_alone connect this model with that of the reports in one step (not done for expvar). C72_librato says what holds for Librato, which reads without snapshots: every number on its own. The refuted theorems are the findings about GetAll and Librato."
 },
 "C73": {
  "note": "memStats and gcStats are each one variable, written as a whole. The positive statements assume what the refutations show to be needed: captures do not overlap."
 },
 "C74": {
  "note": "Sequentially consistent interleaving of the atomic operations of ewma.go. C74_single_ticker_refuted is the finding: the average is not linearizable; C74_rate is what remains with one ticker. C25 and C26 have what happens with several."
 },
 "C75": {
  "note": "Accesses to the two words of the interface value are the actions, the type word first; sequentially consistent. The function of the check returns, and what it sets is given with the call. C75_race is for calls that begin one after the other in any reachable state; C75_no_race is the converse."
 },
 "C76": {
  "note": "sync.Once as in Go's library (load, mutex, second look, deferred store and unlock). r.Register is one action that does not panic unless r is nil; of captures only the uses of the metrics' variables are actions (C73 has the others). C76_overlap_refuted: calling Register before a capture is not enough, it must have ended."
 },
 "C43": {
  "note": "Linearizable without Stop (C43_concurrent) and with Stop but without Count and the statistics (C43_stop_concurrent); with all of them it is not (C43_stop_count_refuted)."
 },
 "C77": {
  "note": "C77_any_time and C77_meter have an error bound without the number of ticks (averages of at most 1000 minutes); that of C77_response is smaller for few ticks. math.Exp is a parameter, assumed accurate to eps at the one argument used."
 },
 "C78": {
  "note": "Programs are sequential histories (World.v); of the time only what the clock showed at each call. Clock going backwards and times beyond a Duration are left out of the accuracy theorem. Two plausible readings of the documentation (always finite, up to date) are refuted."
 }
}