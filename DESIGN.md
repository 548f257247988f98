# Formal model of rcrowley/go-metrics in Rocq (Coq 8.16.1)

Source: `/repo` at the pinned commit. Nothing in `/repo` is built or run; the
model is written by reading it. Every definition of the model cites the file and
lines it models and states its simplifications.

## Layout (all under `rocq/theories`, logical prefix `Verif`)

- `Model/` — executable Gallina models, no proofs.
- `Spec/` — small independent specifications used in theorem statements.
- `Proofs/` — lemmas.
- `Props/` — the property theorems, with examples showing that the hypotheses
  are met by concrete, non-trivial cases.
- `../../properties.jsonl` the properties, `../../MANIFEST.json` the theorems of
  each (generated by `tools/manifest.py`), `../../seeded/LOG.jsonl` the wrong
  programs the theorems were tested against (`tools/mutate.py`).

## Modelling decisions

- `int64`, `uint64`, `uint32`: `Z` with explicit wrap (`mod 2^n`); `int` is 64 bits.
- `float64`: Flocq's `binary64` (IEEE-754, round to nearest even, NaN payloads).
  Operations are performed one at a time with one rounding each (Go on amd64;
  Go may fuse multiply-add on some other architectures: not modelled).
  Conversion of a float64 out of range to an integer gives -2^63 (amd64).
- `math.Exp`, the random generator, clocks and map iteration order are oracles:
  function parameters, or inputs of the step; theorems quantify over them.
- Panics are explicit results carrying the state left behind.
- Goroutines are small-step transition systems over atomic actions
  (`Model/Conc.v`); sequential consistency of `sync/atomic` and of
  lock-protected accesses is assumed (Go memory model).
- The sequential API is one state machine (`Model/World.v`): a heap of objects,
  the variables of a program, and an operation for every exported function and
  method. Theorems about it quantify over all programs (`reach`).

## Trusted base

1. Coq's kernel (8.16.1), including its virtual machine (`vm_compute` is used in
   examples and refutations). No kernel check is switched off, no axiom is
   declared, nothing is admitted.
2. What `Print Assumptions` lists. Every theorem is either closed, or depends on
   some of these four axioms of the standard library (they come with the real
   numbers, which Flocq's theorems about rounding are stated in):
   `ClassicalDedekindReals.sig_not_dec`, `ClassicalDedekindReals.sig_forall_dec`,
   `FunctionalExtensionality.functional_extensionality_dep`,
   `Classical_Prop.classic`. Flocq (a library without axioms) supplies definitions
   and theorems. The list per theorem is at the end of this file, generated by
   `tools/assumptions.py`.
3. The model: that the definitions in `Model/` are what the cited code does, under
   the simplifications stated there and summarized in the next section.
4. The statements: the definitions in `Spec/` and the theorems in `Props/`.

## What is modelled

| Code | Model |
|---|---|
| counter.go, gauge.go, gauge_float64.go | all methods as atomic actions (`CounterGauge.v`), and as operations of the API (`World.v`), incl. snapshots, Nil stubs, functional gauges |
| ewma.go | `Ewma.v` (atomic actions), `World.v` |
| meter.go | `Meter.v` (atomic actions of Mark, Stop, ticks, arbiter with its lock, snapshot publication), `World.v` |
| sample.go | statistics `Stats.v`; `UniformSample` `Uniform.v`; `ExpDecaySample` and its heap `ExpDecay.v`; snapshots `World.v`; unlocked sorting `SortRace.v`; concurrent use of a sample `Mutex.v`, `SampleConc.v` |
| histogram.go, healthcheck.go | `World.v`; concurrent use of a health check `HealthConc.v` |
| timer.go | `World.v`; concurrent use `TimerConc.v`; `Time(f)` with any `f` `TimeCall.v` |
| registry.go, metrics.go | `World.v` (also prefixed registries, `GetAll`, health checks, default registry functions); concurrent use `RegistryConc.v` |
| runtime.go, debug.go, runtime_*.go | `Runtime.v`; captures at the same time `RuntimeConc.v`, registration by several goroutines `OnceConc.v` |
| graphite.go, opentsdb.go, writer.go, log.go, syslog.go, stathat/stathat.go | one report: `Report.v`, with `Fmt.v` for the `fmt` verbs and `Duration.v` for time.Duration.String |
| the same, registry.go GetAll, librato.go BuildRequest | the calls of a report one by one, with anything the process does between them: `Live.v`; the JSON export so `LiveJson.v`; the whole of BuildRequest of librato.go so `LiveLibrato.v` |
| graphite.go, opentsdb.go, writer.go: delivery | bufio.Writer over a connection that may fail, and a plain writer: `Send.v` |
| json.go | `Json.v`; quoting of ASCII strings `JsonQuote.v` |
| graphite.go, opentsdb.go, writer.go, json.go, log.go, syslog.go, stathat/stathat.go, runtime.go, debug.go: the endless loops | `Loops.v` |
| counter.go, gauge.go, gauge_float64.go, sample.go, histogram.go: many metrics used by the same goroutines | `Compose.v` (many objects in one machine), `Process.v` (the metrics of a state of `World.v` as such objects) |
| exp/exp.go | `Expvar.v` (copying into package expvar), `ExpPrint.v` (printing of all variables of package expvar), `LiveExp.v` (copying while the process goes on), `ExpvarConc.v` (requests served at the same time: mutex, look-up, publication and setting are separate steps) |
| librato/librato.go, librato/client.go | `Librato.v` (building of a batch), `LibratoPost.v` (encoding and posting of a batch, the loop of Run over the ticks of its ticker) |

## What is not modelled

- `time.Ticker`, `time.Tick` and `time.Sleep` themselves: ticks are inputs. Of the
  meter's ticker goroutine the rounds are modelled (in `Meter.v` at any moment, by
  one goroutine). Reports are interleaved with the rest of the process in `Live.v` (C72);
  in the other theorems about reports they are one step.
- Network connections beyond which bytes they accept, net/http beyond requests and
  answers, headers of the HTTP handler of exp;
  failing loggers, encoders and HTTP responses.
- `cmd/`, the tests, `validate.sh`.
- Data races on `UseNilMetrics` and on values that a caller shares without locking, except
  `SortRace.v`, `RuntimeConc.v`, `OnceConc.v` and `HealthConc.v`. Each concurrent model covers the object named above. That the
  objects together behave like the atomic operations of `World.v` is proved
  (C68) for counters, gauges, samples and histograms, not for EWMAs, meters,
  timers, health checks and registries.
- Memory exhaustion, stack overflow, capacities above what `make` accepts
  (the panic of `make` is modelled).
- Parameters (any function, sometimes with a hypothesis stated in the theorem):
  `math.Exp`, `math.Pow(x, 2)`, `strconv.FormatFloat(x, 'f' or 'g', -1, 64)`, text
  of an error, host name, text of expvar variables of other types, quoting and number notation of encoding/json.

## Per property: what is modelled and how it is proved

Every property listed is expressed and proved; the names of the theorems, and what each
leaves out, are in `MANIFEST.json`. Statements that turned out false are refuted with a
witness (`…_refuted`).

- **C01** Counter never loses an update. Small-step model of goroutines issuing atomic adds/stores on one int64 cell (`Model/CounterGauge.v`); invariant by induction over schedules; closed form via fold over the effect log.
- **C02** Counter and Gauge are linearizable. Generic linearizability definition (`Spec/Linearizability.v`: history with invocations, responses and a witness of linearization points); proved for cells whose operations are single atomic steps.
- **C03** GaugeFloat64 stores every float64 bit-exactly. Flocq binary64 and its bit encoding; round trip both ways for all bit patterns.
- **C04** Snapshots are immutable. World model (heap of objects, slices as references to backing arrays); frame theorem: no API operation changes the observables of an existing snapshot.
- **C05** UseNilMetrics turns everything into a no-op. World model, constructors under UseNilMetrics; any operation sequence on stubs leaves heap, ticker and meter set unchanged.
- **C06** SampleMin/SampleMax are the true extrema. Loop model of SampleMin/SampleMax, proved against the declarative definition of extremum.
- **C07** SampleSum is exact modulo 2^64 and order-independent; SampleMean is the correctly rounded mean when the sum is exactly representable. Wrapped fold for the sum; Flocq rounding for the mean; relative-error theorem.
- **C08** Mean lies between Min and Max. Monotonicity of rounding; refutations by vm_compute witnesses.
- **C09** Variance and StdDev are never NaN, never infinite, never negative, and close to the real ones. Magnitude bounds on every intermediate float64, by induction on the list. Accuracy (`Proofs/VarianceProofs.v`): the mean is an integer multiple of 2^-105, so every difference is zero or at least 2^-105, nothing underflows, and each operation has a relative error of at most 2^-53; sums of squares about any point split into the variance and the square of the mean's error. For values beyond 2^53 the same with float64(v), which is an integer; the root of the mean square changes by at most what every value changes by (Minkowski's inequality).
- **C10** Percentile never panics for a non-NaN argument. Index-safety proof: 1 <= pos < n implies 1 <= int(pos) <= n-1; NaN case by computation.
- **C11** Percentile is bracketed by order statistics and lies in [Min, Max]. pred/ulp argument in Flocq: frac <= 1-2^-52, so the rounded product is below the exact difference.
- **C12** Percentile is monotone in p. Monotonicity of every rounded operation within a segment; bracketing across segments.
- **C13** Statistics depend only on the multiset of values and reading them does not change it. Uniqueness of the sorted permutation of a list of integers.
- **C14** UniformSample is bounded and counts exactly. Invariant over histories of the UniformSample transition function; random draws are inputs.
- **C15** UniformSample holds only values that were recorded. Same invariant, sub-multiset relation.
- **C16** UniformSample is uniform (Vitter's Algorithm R). Counting theorem over all choice sequences of the generator, by induction on n.
- **C17** ExpDecaySample is bounded, counts exactly and never panics. Array-with-length model of the heap (out-of-bounds = explicit Panic value); invariant len <= cap = reservoirSize.
- **C18** ExpDecaySample holds only recorded values, always including the newest. Permutation invariants of up/down/push/pop and of the in-place rescale.
- **C19** ExpDecaySample evicts a minimum-priority value. Heap-order invariant under push/pop for a total preorder on non-NaN keys.
- **C20** ExpDecaySample retains the N-1 highest-priority observations. Ghost list of all observations; inductive invariant.
- **C21** Hourly rescaling loses nothing and preserves priority order. In-place rescale loop over the aliased array equals push of the mapped entries.
- **C22** A long idle period poisons the decaying reservoir. Witness history evaluated with a math.Exp oracle constrained only at the overflow/underflow arguments.
- **C23** EWMA applies the documented recurrence. Transition function of StandardEWMA; closed form over R for the exact recurrence, exact float recurrence for the code.
- **C24** EWMA rate stays finite, non-negative and bounded by the largest burst. Flocq bounds, invariant over histories.
- **C25** No event is lost between Update and Tick. Small-step interleaving model of Update/Tick atomic steps; conservation invariant; refutation schedule for two tickers.
- **C26** First concurrent Ticks initialise the rate exactly once. Same small-step model with the mutex.
- **C27** Meter.Count never loses a Mark. Small-step meter model (all atomics of Mark, Stop, tick, updateSnapshot).
- **C28** Stop is idempotent and ends ticking. Small-step model of arbiter RWMutex, Stop and tickMeters.
- **C29** Every live meter is ticked exactly once per tick and one ticker runs. Arbiter model, tickMeters over any permutation of the set.
- **C30** Published meter rates may go stale but are always rates that existed. Small-step meter model with ghost history of EWMA rates; refutation schedules (stale rate, torn snapshot).
- **C31** Registry behaves like a finite map. Registry transition function over association lists; refinement to a function from names to optional metrics.
- **C32** Registering a non-metric is silently ignored. Same model.
- **C33** GetOrRegister is atomic: one winner, one construction. Small-step registry with RWMutex; linearizability by linearization points.
- **C34** Each visits an atomic snapshot of the registry. Same model; Each takes its snapshot under the read lock.
- **C35** Registry locking is race-free and deadlock-free, except for re-entrant callbacks. Small-step lock model; race-freedom invariant and progress; deadlocked states exhibited.
- **C36** Unregister stops meters and timers. World model.
- **C37** NewRegistered* on a taken name returns a metric nobody sees. World model.
- **C38** GetOrRegisterX returns the registered X or panics. World model.
- **C39** PrefixedRegistry is the underlying registry under a name prefix. Recursive registry value (base or prefixed child of any depth).
- **C40** PrefixedRegistry.UnregisterAll, GetAll and RunHealthchecks are not confined to the prefix. Same model; exact effect plus refutation of confinement.
- **C41** GetAll reports every metric with its kind's complete key set. World model; GetAll over any map order.
- **C42** Histogram delegates to its sample. World model.
- **C43** Timer records each event once in both its histogram and its meter. World model (sequential part) and small-step timer mutex model (concurrent part). With Stop: Update, Snapshot and Stop together are linearizable (`C43_stop_concurrent`, `TimerStopProps.v`); together with Count, which does not take the timer's mutex, they are not (`C43_stop_count_refuted`).
- **C44** Timer.Time records exactly the elapsed time of f. World model; behaviour of f is an arbitrary outcome.
- **C45** WriteOnce output is sorted and independent of map order. Any sorting function; uniqueness of the sorted permutation with distinct names.
- **C46** Graphite and OpenTSDB lines decode to the metric they report. Byte-level formatting and a parser; round trip for safe names, counterexample otherwise.
- **C47** Duration scaling in reporters. Reporter models.
- **C48** expvar export panics and then deadlocks on a kind change. State machine of the expvar table and handler lock.
- **C49** Librato batches. Reporter model; the display unit of timers over the model of Duration.String.
- **C50** GC pauses are recorded exactly once. uint32 arithmetic and circular buffer model; proof by modular arithmetic.
- **C51** Runtime delta gauges. Same model; telescoping sum.
- **C52** Runtime metrics are registered once per process. State machine of the once flag and global metric variables.
- **C53** Debug GC capture records at most the latest pause. Same.
- **C54** Health checks report the last verdict. Transition function.
- **C55** Sharing a sample snapshot between concurrent readers is unsafe. Two interleaved in-place sorts at the granularity of element reads and writes.
- **C56** JSON export fails as a whole on a non-finite value. Encoding success predicate over GetAll's values; the exported text is read back with the JSON reader of C64.
- **C57** Runtime and debug gauges hold what was read. Model of the captures; every gauge related to the reading, nothing else touched.
- **C58** UniformSample and ExpDecaySample are safe for concurrent use. Single field and element accesses under a mutex; generic theorem for structs guarded by one mutex (linearizable, race-free, every schedule ends), instantiated by running each method alone.
- **C59** Log reports every metric on each cue, with timings in the given scale. The readings of C45, another table of rows; the suffix from a model of Duration.String, whose text is shown to read back as the duration (Spec/DurationSpec.v). Right exactly for the six units of package time (`C59_units`); false for other scales: `C59_scale_refuted`.
- **C60** Syslog sends exactly one message per metric. The readings of C45, one message for each.
- **C61** Stathat posts the accessors' values under the metric's name. Posts compared with a table of accessors; distinct names by the part before the first dot.
- **C62** Reports only read. One predicate (Spec/ReadOnlySpec.v) lists every modelled report; each is shown to keep every object except the order of sample arrays and (where it runs them) health checks, by composition over its definition, and the accessors are shown not to depend on that order. C62_program gives, for every report, a program of reading calls that ends in the same state, so the theorems on reachable states also cover programs that report.
- **C63** Delivery. bufio.Writer over a connection with any sequence of failures, run beside the same writer over a working connection; invariant: same buffer and bytes, or failed with a prefix. A report that panics is split at the metric it panics at: the lines of those before are flushed, the one line written since is in the buffer unless it is too long for it.
- **C64** The expvar response is JSON. A reader of JSON texts (Spec/JsonText.v) written without reference to the printer; the printed members are shown to be read back, and the reader is shown to reject the text when a name or a value is not plain.
- **C65** Requests served at the same time. The request as a thread of the machine of Conc.v, one mutex per handler; an invariant relates each goroutine's position to what it may rely on (mutual exclusion per handler, ownership of unpublished names by one handler); a measure gives termination. A second invariant, for executions with panics, says that a lost mutex stays locked.
- **C66** Posts to Librato. Encoding of the batch as text, read back by the JSON reader of C56 (extended by arrays); PostMetrics over a network that is any function from requests to answers; Run as a fold over ticks, each with what the program did before it. That the state stays well-formed between reports comes from C62_program.
- **C67** Loops and histories. Calls are shown not to depend on the places at which the program holds its values (renaming of arguments); with C62_program every history of calls, captures and reports is, up to such a renaming, a program of API calls. The loops are folds over cues; at each cue the turn is the one-off report in a reachable state.
- **C68** Many metrics at once. Locality of linearizability is proved for the interleaving machine (an execution restricted to one object is an execution of that object; the instants of the objects are merged along the history). A separate walk over all API calls shows that reservoirs are never shared, and a simulation relates the product of the objects to `World.v`, so the order found is one of calls of `World.v`.
- **C69** Meters and averages in programs. `yields_origin` says where the values that calls return come from; from it follows that no value a program holds is one of a meter's averages (`own_averages`). A frame lemma for all calls (`step_frame`) keeps averages and published structs unless the call reaches them. The rest computes Mark and a tick on a meter whose averages are in the state the history of EwmaSpec.v gives.
- **C70** Samples in programs. `spared_step` is a frame lemma for all calls that names the places a call aims at and says how the others may change: only in ways no reading shows (`calm_obj`). `hidden_run` shows that no program ever holds the slice of a sample. Then the events of a program on one sample are exactly the operations of the sequential models of C14 and C17, whose invariants give the contents.
- **C71** Counters and gauges in programs, from the same frame lemma.
- **C72** Reports beside the running process. A report is a monad of single calls, before each of which the rest of the process runs any program; `weaves_*` turns an execution into one program. The snapshot a report takes of a metric does not change (C04); sorting it for the percentiles fixes even its order (`sorted_run`), so the standard deviation fits too. `live_reading` joins the answers into those of the instant of the snapshot. `LiveLinesProps.v` then reuses the lemmas on the formats (C45, C46, C59-C61) on such a reading, `LiveJsonProps.v` those on the JSON text (C56) on what GetAll returns. `LiveExp.v` does the same for the copying into expvar, metric by metric. `LiveLibrato.v` is the Librato reporter, which takes no snapshots; `live_measured` shows number by number that it is an answer of the metric (or of the sample that `Sample()` returned) in one of the states in which the reporter called. `LiveAloneProps.v` simulates the one-step reports by the live ones call by call (`alone`), for gaps in which nothing happens; `LiveLibratoAloneProps.v` does so for Librato, where the invariant of reachable states is needed: what `Sample()` returns is a sample, also after the sorting done on the way.
- **C73** Captures at the same time. Interleaving model in which every use of a package variable is an action; a call that is alone is run to its end by a function (`finish`), which is shown to make the calls of `Runtime.v`; witnesses for the double and the lost pause.
- **C74** A moving average shared by goroutines. Linearization points (the Update's add, the Tick's subtraction, the load of Rate) for the positive part; a checked search through all linearizations of a history (`LinSearch.v`) for the refutation; invariant of the interleaving model with one ticker for Rate.
- **C75** Health checks used by several goroutines. Interleaving model in which every access to a word of the error is an action; linearization at the last access of a call; witnesses for torn errors.
- **C76** The runtime's metrics are registered by several goroutines. Interleaving model of `sync.Once` around the two Register functions, with the uses of the metrics' variables by captures (`Model/OnceConc.v`); invariant: whoever is past the second look holds the mutex, and what was registered is what its program point says; witness for a capture during the first registration.
- **C77** What m-minute means. Closed form of the recurrence under a constant count (induction), |x^k - y^k| <= k|x - y| for the error of alpha, C23_accuracy for the rounding, C69_rates for meters in programs (`EwmaResponseProps.v`).
- **C78** What the mean rate of a meter is. From `C69_rates` (what the meter publishes after the events of a program) and a rounding analysis of `Duration.Seconds` (two roundings) and the division (two more); division by zero by cases of the float64; refutations by a meter marked in the nanosecond it was made in, and by one read three seconds after its last event (`Props/MeanRateProps.v`).

## Assumptions of each theorem

<!-- assumptions begin -->

**76 theorems** are closed under the global context (no axioms):

`C01_count_returns_it` `C01_every_call_takes_effect_once` `C01_interleaving_independent` `C01_value_is_net_of_effects` `C02_counter_linearizable` `C02_gauge_linearizable` `C06_SampleMax` `C06_SampleMin` `C06_empty` `C07_SampleSum` `C07_SampleSum_exact` `C07_SampleSum_order` `C11_order_stat_unique` `C13_sort_unique` `C14_new` `C14_short_histories` `C16_permb_is_permutation` `C17_size_zero_panics` `C23_every_event_once` `C33_constructor` `C33_linearizable` `C33_one_winner` `C34_no_lock` `C34_snapshot` `C35_constructor_deadlock` `C35_finishes` `C35_health_deadlock` `C35_race_free` `C43_concurrent` `C43_snapshots` `C43_stop_concurrent` `C43_stop_count_refuted` `C49_interval` `C49_minute_refuted` `C49_unit` `C50_once` `C50_which` `C56_quote` `C59_duration` `C59_leading` `C59_suffix` `C59_units` `C64_iff` `C64_response` `C65_all_return` `C65_alone` `C65_requests` `C65_stuck` `C65_two_handlers_refuted` `C66_error` `C66_left_open` `C66_nil_iff` `C66_request` `C66_sent_iff` `C68_objects` `C73_debug_once_refuted` `C73_debug_race` `C73_each_once` `C73_in_turn` `C73_no_pause_lost_refuted` `C73_no_pause_twice_refuted` `C73_pauses_read` `C73_race` `C75_error_refuted` `C75_linearizable` `C75_no_race` `C75_race` `C75_words` `C76_after` `C76_capture` `C76_complete` `C76_no_deadlock` `C76_once` `C76_overlap_refuted` `C76_panics` `C76_uses`

**2 theorems** depend on `ClassicalDedekindReals.sig_forall_dec`, `FunctionalExtensionality.functional_extensionality_dep`:

`C23_constant_flow` `C23_weighted_sum`

**321 theorems** depend on `ClassicalDedekindReals.sig_forall_dec`, `ClassicalDedekindReals.sig_not_dec`, `Classical_Prop.classic`, `FunctionalExtensionality.functional_extensionality_dep`:

`C02_gaugefloat64_linearizable` `C03_bits_onto` `C03_bits_round_trip` `C03_update_then_read` `C04_NewSampleSnapshot_immutable_refuted` `C04_mutators_panic` `C04_reservoir_snapshot_immutable` `C04_snapshot_agrees` `C04_snapshot_harmless` `C04_snapshot_immutable` `C04_statistics` `C04_stop_and_snapshot` `C04_values` `C04_variance_immutable_refuted` `C05_constructors` `C05_methods` `C05_no_ticking` `C05_sequences` `C05_time_does_not_call` `C07_mean_correctly_rounded` `C07_mean_empty` `C07_mean_relative_error` `C08_mean_between_min_max` `C08_mean_overflow_refuted` `C08_mean_rounding_above_refuted` `C08_mean_rounding_refuted` `C09_about_the_mean` `C09_constant` `C09_empty` `C09_rounded_values` `C09_stddev` `C09_stddev_accuracy` `C09_stddev_any_values` `C09_variance` `C09_variance_accuracy` `C09_variance_exact` `C10_empty` `C10_no_panic_iff_no_NaN` `C10_one_score_per_percentile` `C11_percentile_bracketed` `C11_percentile_in_min_max` `C12_percentile_monotone` `C13_order_independent` `C13_percentiles_sort_in_place` `C13_variance_order_refuted` `C14_count_and_size` `C14_update_never_panics` `C15_all_while_not_full` `C15_only_recorded_values` `C16_every_subset_equally_likely` `C16_marginal_probability` `C16_value_oblivious` `C17_count_and_size` `C17_never_panics` `C18_discards_exactly_one` `C18_newest_is_held` `C18_only_recorded_values` `C19_evicts_a_minimum` `C19_min_heap` `C20_all_but_one_outrank_the_discarded` `C20_top_N_refuted` `C21_order_preserved` `C21_rescaling` `C22_long_idle_poisons` `C23_accuracy` `C23_builtin_alphas` `C23_recurrence` `C24_builtin_alphas` `C24_idle_tick` `C24_rate_bounds` `C24_unbounded_counts_refuted` `C25_conservation` `C25_single_ticker` `C25_single_ticker_rate` `C25_two_tickers_refuted` `C26_initialised_once` `C26_mutual_exclusion` `C26_no_deadlock` `C26_one_store_per_tick` `C26_rate_is_some_order_refuted` `C26_stored_rates` `C27_after_stop` `C27_averages_fed` `C27_before_stop` `C27_began_before_stop_refuted` `C27_completed_calls` `C27_count` `C27_reads` `C27_skipped_only_after_stop` `C28_every_stop_refuted` `C28_no_deadlock` `C28_no_tick_after_removal` `C28_one_removal` `C28_removal_between_rounds` `C28_stop_outline` `C29_insert_between_rounds` `C29_one_ticker` `C29_round_set` `C29_round_ticks` `C30_average_is_ewma` `C30_average_is_recurrence` `C30_fresh_when_quiet_refuted` `C30_fresh_without_overlap` `C30_published_rates_existed` `C30_reported_rates` `C30_snapshot_one_moment_refuted` `C30_snapshot_undisturbed` `C31_each` `C31_get` `C31_get_or_register` `C31_get_or_register_lazy` `C31_history` `C31_maps` `C31_others` `C31_register_free` `C31_register_taken` `C31_unregister` `C31_unregister_all` `C32_get_or_register` `C32_only_metrics` `C32_register` `C36_exactly` `C36_frozen` `C36_stays` `C36_unregister` `C36_unregister_all` `C37_free` `C37_leak` `C37_taken` `C38_found` `C38_free` `C38_panics` `C39_each` `C39_names` `C39_new` `C39_same` `C40_get_all_confined_refuted` `C40_run_healthchecks_confined_refuted` `C40_unregister_all_confined_refuted` `C40_whole_base` `C41_health` `C41_keys` `C41_names` `C41_returns` `C41_stddev` `C41_values` `C42_clear` `C42_delegates` `C42_sample` `C42_snapshot` `C43_count` `C43_meter` `C43_records` `C43_statistics` `C43_stop` `C44_elapsed` `C44_not_called` `C44_one_event` `C44_panic` `C44_since` `C45_order` `C45_returns` `C45_write` `C46_graphite` `C46_opentsdb` `C46_returns` `C46_unclean_names_refuted` `C47_graphite` `C47_opentsdb` `C47_zero` `C48_blocks` `C48_forever` `C48_panics_iff` `C48_request` `C49_batch` `C49_numbers` `C49_panics_iff` `C49_sub_second` `C49_time` `C50_count` `C50_history` `C50_pauses` `C50_values` `C51_deltas` `C51_numGC_exact` `C51_sum` `C51_sum_numGC_mod` `C52_capture_any` `C52_capture_before` `C52_debug_capture_any` `C52_debug_capture_before` `C52_debug_first` `C52_debug_later` `C52_first` `C52_later` `C53_pause` `C54_check` `C54_error` `C54_last_verdict` `C54_new` `C54_run_only` `C54_run_returns` `C54_step` `C55_alone` `C55_race` `C55_unsafe_iff` `C56_iff` `C56_json` `C56_nan_gauge` `C56_one_line` `C56_text` `C56_write` `C57_debug_gauges` `C57_debug_timer` `C57_gc_cpu_fraction` `C57_others` `C57_runtime_gauges` `C57_timer` `C58_all_return` `C58_expdecay_counts` `C58_expdecay_linearizable` `C58_race_free` `C58_uniform_counts` `C58_uniform_linearizable` `C59_log` `C59_returns` `C59_scale_refuted` `C60_returns` `C60_syslog` `C61_distinct` `C61_gauge` `C61_gauge_refuted` `C61_health` `C61_names_refuted` `C61_returns` `C61_stathat` `C62_health` `C62_health_runs_refuted` `C62_later_refuted` `C62_meters` `C62_program` `C62_readings` `C62_registries` `C62_variance_refuted` `C63_dial` `C63_error_refuted` `C63_graphite` `C63_opentsdb` `C63_panic_arrives` `C63_panic_arrives_opentsdb` `C63_panics` `C63_prefix` `C63_prefix_opentsdb` `C63_write` `C63_write_panics` `C63_write_prefix_refuted` `C64_name_refuted` `C64_nan_refuted` `C64_request` `C66_independent` `C66_interval` `C66_tick` `C67_answers` `C67_captures` `C67_every_cue` `C67_graphite` `C67_history` `C67_json` `C67_log` `C67_not_positive` `C67_opentsdb` `C67_positive` `C67_stathat` `C67_syslog` `C67_write` `C68_world` `C69_accuracy` `C69_average` `C69_count` `C69_rates` `C69_running` `C70_contents` `C70_returns` `C71_counter` `C71_gauge` `C71_gauge_float64` `C72_alone` `C72_expvar` `C72_expvar_program` `C72_get_all` `C72_get_all_alone` `C72_get_all_returns_refuted` `C72_graphite` `C72_json` `C72_librato` `C72_librato_alone` `C72_librato_instant_refuted` `C72_librato_program` `C72_librato_refuted` `C72_log` `C72_opentsdb` `C72_program` `C72_report` `C72_stathat` `C72_syslog` `C72_write` `C72_write_alone` `C72_write_json` `C74_linearizable` `C74_rate` `C74_single_ticker_refuted` `C77_any_time` `C77_meter` `C77_response` `C77_settles` `C77_window` `C78_at_once` `C78_current_refuted` `C78_finite_refuted` `C78_first` `C78_mean_rate`

<!-- assumptions end -->
