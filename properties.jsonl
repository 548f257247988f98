{"id": "C01", "title": "Counter never loses an update", "statement": "Whatever the number of goroutines and however their calls to Inc, Dec and Clear on one Counter interleave, Count() returns the sum of all Inc amounts minus all Dec amounts applied since the last Clear, reduced to a signed 64-bit value; in particular without Clear the final value does not depend on the interleaving.", "quantifier": "every number of goroutines, every per-goroutine sequence of Inc/Dec/Clear/Count calls, every int64 argument (including math.MinInt64), every schedule", "why_tests_cant": "A test exercises a few schedules and a few amounts; the claim is about all interleavings and about wrap-around at the ends of the int64 range.", "anchors": ["counter.go:StandardCounter.Inc", "counter.go:StandardCounter.Dec", "counter.go:StandardCounter.Clear", "counter.go:StandardCounter.Count"]}
{"id": "C02", "title": "Counter and Gauge are linearizable", "statement": "Every concurrent history of calls on one StandardCounter (Inc, Dec, Clear, Count, Snapshot) or one StandardGauge / StandardGaugeFloat64 (Update, Value, Snapshot) is linearizable with respect to the obvious sequential object: each call appears to take effect at one instant between its invocation and its return. In particular Gauge.Value returns the argument of the most recent Update.", "quantifier": "every number of goroutines, every call history, every schedule of the atomic steps", "why_tests_cant": "Linearizability quantifies over all histories; a test can only sample schedules.", "anchors": ["counter.go:StandardCounter", "gauge.go:StandardGauge", "gauge_float64.go:StandardGaugeFloat64"]}
{"id": "C03", "title": "GaugeFloat64 stores every float64 bit-exactly", "statement": "After Update(v), Value() and Snapshot().Value() return exactly v, bit for bit, for every float64 including both zeros, infinities, subnormals and every NaN payload; the Float64bits/Float64frombits encoding is a bijection between float64 and uint64.", "quantifier": "every float64 value (2^64 bit patterns), every history", "why_tests_cant": "2^64 inputs cannot be enumerated by tests.", "anchors": ["gauge_float64.go:StandardGaugeFloat64.Update", "gauge_float64.go:StandardGaugeFloat64.Value"]}
{"id": "C04", "title": "Snapshots are immutable", "statement": "A snapshot returned by Snapshot() of a counter, gauge, float gauge, EWMA, meter, sample, histogram or timer keeps answering every read with the value current when it was taken (a sample snapshot may permute the order of Values(), never its multiset, so only Variance and StdDev can change, in the rounding of their float sums), no matter which operations are later performed on any object in the program; unless the program built a SampleSnapshot over its own slice with NewSampleSnapshot and snapshots that; its mutators panic and change nothing; its own Snapshot() returns an equal snapshot.", "quantifier": "every program state, every later sequence of API operations on any object", "why_tests_cant": "The claim ranges over every later history and rests on the absence of aliasing between a snapshot's slice and the live reservoir.", "anchors": ["counter.go:CounterSnapshot", "gauge.go:GaugeSnapshot", "ewma.go:EWMASnapshot", "meter.go:MeterSnapshot", "sample.go:SampleSnapshot", "sample.go:UniformSample.Snapshot", "sample.go:ExpDecaySample.Snapshot", "histogram.go:HistogramSnapshot", "timer.go:TimerSnapshot"]}
{"id": "C05", "title": "UseNilMetrics turns everything into a no-op", "statement": "While UseNilMetrics is true every constructor returns a stub; no sequence of operations on stubs panics, changes any state, starts the meter ticker or adds a meter to be ticked; all reads return zero values.", "quantifier": "every sequence of operations on the stub types", "why_tests_cant": "Ranges over all operation sequences and all stub types.", "anchors": ["metrics.go:UseNilMetrics", "counter.go:NilCounter", "gauge.go:NilGauge", "sample.go:NilSample", "histogram.go:NilHistogram", "meter.go:NilMeter", "timer.go:NilTimer", "healthcheck.go:NilHealthcheck", "ewma.go:NilEWMA"]}
{"id": "C06", "title": "SampleMin/SampleMax are the true extrema", "statement": "For every non-empty slice of int64, SampleMin (SampleMax) returns an element of the slice that is no larger (no smaller) than every element; for the empty slice both return 0.", "quantifier": "every slice of int64", "why_tests_cant": "All slices of all lengths and all int64 values, including the extreme values used as loop initialisers.", "anchors": ["sample.go:SampleMax", "sample.go:SampleMin"]}
{"id": "C07", "title": "SampleSum is exact modulo 2^64 and order-independent; SampleMean is the correctly rounded mean when the sum is exactly representable", "statement": "SampleSum returns the mathematical sum reduced to int64 (so the exact sum whenever that fits), independent of element order. SampleMean returns 0 for the empty slice; when the mathematical sum is at most 2^53 in magnitude it returns the exact mean rounded once to float64, and when the sum merely fits int64 its relative error is at most 2^-52 (+2^-106).", "quantifier": "every slice of int64 of length below 2^53", "why_tests_cant": "Rounding and overflow statements over all inputs.", "anchors": ["sample.go:SampleSum", "sample.go:SampleMean"]}
{"id": "C08", "title": "Mean lies between Min and Max", "statement": "If the sum of the values is at most 2^53 in magnitude then Min <= Mean <= Max (as float64). Outside that range the guarantee fails: there are samples whose sum fits int64 with Mean < Min (rounding) and samples of positive values with negative Mean (int64 overflow of the sum).", "quantifier": "every slice of int64", "why_tests_cant": "A universally quantified numerical bound plus its exact failure boundary.", "anchors": ["sample.go:SampleMean", "sample.go:SampleSum", "sample.go:SampleMin", "sample.go:SampleMax"]}
{"id": "C09", "title": "Variance and StdDev are never NaN, never infinite, never negative, and close to the real ones", "statement": "For every slice of int64 (even when the sum overflows) SampleVariance and SampleStdDev return a finite float64 >= 0; both are 0 for the empty slice and for a constant slice whose sum is at most 2^53 in magnitude. For values of magnitude at most 2^53 whose sum fits an int64, SampleVariance is between (1-2^-53)^(n+4) times the population variance and (1+2^-53)^(n+4) times the population variance plus (2^-51 mean)^2, and SampleStdDev is within one more rounding of the square roots of those bounds; if the sum overflows, the variance is the mean square distance from the (wrong) mean SampleMean returned, to within the same n+4 roundings. For values of any magnitude the variance is the mean square distance of the values rounded to float64 from the mean SampleMean returned, to within n+4 roundings; and if the sum fits an int64, SampleStdDev is within (n+6)/2 roundings of a number that differs from the population standard deviation by at most 2^-51 |mean| + 2^-53 max|v|.", "quantifier": "every slice of int64 of length at most 2^53", "why_tests_cant": "Absence of NaN/Inf over all inputs, lengths and rounding errors.", "anchors": ["sample.go:SampleVariance", "sample.go:SampleStdDev"]}
{"id": "C10", "title": "Percentile never panics for a non-NaN argument", "statement": "For every slice of int64 and every list of float64 percentiles none of which is NaN (any value, infinite, negative or above 1 included), SamplePercentiles returns one score per percentile without an index-out-of-range panic, all zero for the empty slice; a NaN percentile on a non-empty slice panics on platforms where int(NaN) is the minimum integer.", "quantifier": "every slice of int64 of length below 2^53, every list of float64", "why_tests_cant": "Index safety depends on the rounding of p*(n+1) for all p and all n.", "anchors": ["sample.go:SamplePercentiles", "sample.go:SamplePercentile"]}
{"id": "C11", "title": "Percentile is bracketed by order statistics and lies in [Min, Max]", "statement": "With n values and rank position pos = p*(n+1) computed in float64: pos < 1 gives the minimum, pos >= n gives the maximum, otherwise the score lies between the floor(pos)-th and (floor(pos)+1)-th smallest values (as float64) and equals the former when pos is an integer. Hence Min <= Percentile(p) <= Max for every non-NaN p, in spite of rounding.", "quantifier": "every non-empty slice of int64 of length below 2^53, every non-NaN float64 p", "why_tests_cant": "The bound must survive three float64 roundings for all inputs, including differences that overflow 2^53.", "anchors": ["sample.go:SamplePercentiles"]}
{"id": "C12", "title": "Percentile is monotone in p", "statement": "If p <= q then Percentile(p) <= Percentile(q), on the same values, for all non-NaN float64 p and q.", "quantifier": "every non-empty slice of int64 of length below 2^53, every pair of float64", "why_tests_cant": "Monotonicity across segment boundaries and through rounding for all pairs.", "anchors": ["sample.go:SamplePercentiles"]}
{"id": "C13", "title": "Statistics depend only on the multiset of values and reading them does not change it", "statement": "Min, Max, Sum, Mean and Percentiles of a slice do not depend on element order; computing percentiles sorts the slice in place, so afterwards the slice is a sorted permutation of itself: no value is lost or invented, and every later statistic is unchanged.", "quantifier": "every slice, every permutation of it, every list of percentiles", "why_tests_cant": "All permutations of all slices.", "anchors": ["sample.go:SamplePercentiles", "sample.go:UniformSample.Percentiles", "sample.go:SampleSnapshot.Percentiles"]}
{"id": "C14", "title": "UniformSample is bounded and counts exactly", "statement": "For every history of Update/Clear/reads, Count() is the number of Updates since the last Clear and Size() = len(Values()) = min(Count(), reservoirSize); no update panics.", "quantifier": "every reservoir size >= 0, every history, every outcome of the random generator", "why_tests_cant": "All histories and all random draws.", "anchors": ["sample.go:UniformSample.Update", "sample.go:UniformSample.Clear", "sample.go:UniformSample.Size"]}
{"id": "C15", "title": "UniformSample holds only values that were recorded", "statement": "The values held are a sub-multiset of the values passed to Update since the last Clear (each retained occurrence stems from a distinct Update); until the reservoir is full it holds all of them.", "quantifier": "every history of Update/Clear/reads, every outcome of the random generator", "why_tests_cant": "All histories and random draws.", "anchors": ["sample.go:UniformSample.Update"]}
{"id": "C16", "title": "UniformSample is uniform (Vitter's Algorithm R)", "statement": "If the random generator draws uniformly, then after n >= reservoirSize Updates every one of the n recorded observations is in the reservoir with probability exactly reservoirSize/n; moreover every reservoirSize-subset of the n observations is equally likely. Interleaved reads that reorder the reservoir do not affect this.", "quantifier": "every reservoir size >= 1, every number of updates n, every observation index, counted over all outcomes of the generator", "why_tests_cant": "A probability statement: a test can only estimate a frequency.", "anchors": ["sample.go:UniformSample.Update"]}
{"id": "C17", "title": "ExpDecaySample is bounded, counts exactly and never panics", "statement": "For every reservoirSize >= 1 and every history of Update/Clear/reads at arbitrary times with arbitrary random draws (including keys that overflow to +Inf or become NaN), no operation panics (no slice bound or capacity violation), Count() is the number of Updates since the last Clear and Size() = len(Values()) = min(Count(), reservoirSize). For reservoirSize = 0 the first Update panics.", "quantifier": "every reservoir size, alpha, history, time sequence (not necessarily monotone), random draw and every behaviour of math.Exp", "why_tests_cant": "All histories, times and random draws, and index arithmetic of an in-place heap of any size.", "anchors": ["sample.go:ExpDecaySample.update", "sample.go:expDecaySampleHeap.Push", "sample.go:expDecaySampleHeap.Pop"]}
{"id": "C18", "title": "ExpDecaySample holds only recorded values, always including the newest", "statement": "The values held are a sub-multiset of the values passed to Update since the last Clear, and right after Update(v) the value v is among them; each update at capacity discards exactly one old value.", "quantifier": "every reservoir size >= 1, every history, times, draws and every behaviour of math.Exp", "why_tests_cant": "All histories and draws; rescaling rewrites the backing array in place while iterating over it.", "anchors": ["sample.go:ExpDecaySample.update", "sample.go:expDecaySampleHeap"]}
{"id": "C19", "title": "ExpDecaySample evicts a minimum-priority value", "statement": "As long as no priority is NaN, the reservoir is a min-heap ordered by priority and an Update at capacity discards a value whose priority is minimal among those held.", "quantifier": "every heap size, every sequence of non-NaN keys (infinite ones included)", "why_tests_cant": "Heap correctness for all sizes and key sequences.", "anchors": ["sample.go:expDecaySampleHeap.up", "sample.go:expDecaySampleHeap.down", "sample.go:expDecaySampleHeap.Pop", "sample.go:expDecaySampleHeap.Push"]}
{"id": "C20", "title": "ExpDecaySample retains the N-1 highest-priority observations", "statement": "With reservoir size N, at every moment all retained values except at most one have a priority at least as high as every discarded observation's (priorities expressed at the current landmark), as long as no priority is NaN. The stronger property 'retains the N highest' is false because the newest value is admitted unconditionally.", "quantifier": "every history of updates without NaN priorities, across landmark rescalings", "why_tests_cant": "An inductive property over the whole history of insertions and evictions.", "anchors": ["sample.go:ExpDecaySample.update"]}
{"id": "C21", "title": "Hourly rescaling loses nothing and preserves priority order", "statement": "When an update comes more than one hour after the landmark, the landmark moves to the update time, every held value is kept exactly once with its priority multiplied by the common factor exp(-alpha*(t-t0)), Count and Size are unaffected by the rescaling, and the relative order of priorities is weakly preserved when the factor is a finite non-negative number.", "quantifier": "every reservoir content and factor", "why_tests_cant": "In-place rewriting through an aliased slice must be right for every heap shape.", "anchors": ["sample.go:ExpDecaySample.update"]}
{"id": "C22", "title": "A long idle period poisons the decaying reservoir", "statement": "The guarantee of C19 breaks after a long idle period: if math.Exp overflows to +Inf for alpha*idle and underflows to 0 for -alpha*idle (about 13.8 h for the default alpha 0.015), the value recorded next gets priority NaN, the reservoir stops being a heap, and a later Update can discard a value while keeping one of strictly lower priority.", "quantifier": "existence of a history; for every math.Exp that overflows/underflows at those arguments", "why_tests_cant": "Needs a 14-hour idle period and the composition of IEEE special values with heap order.", "anchors": ["sample.go:ExpDecaySample.update", "sample.go:expDecaySampleHeap.down"]}
{"id": "C23", "title": "EWMA applies the documented recurrence", "statement": "For a single user, the first Tick sets the rate to (events so far)/5s and each later Tick moves it by alpha times the difference to the instantaneous rate of the events since the previous Tick; in exact arithmetic after k ticks it is the exponentially weighted sum of all past instantaneous rates, and every event is counted in exactly one tick.", "quantifier": "every sequence of Update and Tick calls, every alpha", "why_tests_cant": "All histories.", "anchors": ["ewma.go:StandardEWMA.Tick", "ewma.go:StandardEWMA.updateRate", "ewma.go:StandardEWMA.fetchInstantRate", "ewma.go:StandardEWMA.Update"]}
{"id": "C24", "title": "EWMA rate stays finite, non-negative and bounded by the largest burst", "statement": "If 0 <= alpha <= 1, no Update amount is negative and the events between two ticks sum to less than 2^63, the float64 Rate() is never NaN, infinite or negative after any sequence of Update and Tick; if alpha <= 1/2 (all built-in EWMAs) it never exceeds the largest instantaneous rate fed so far, rounding included; a tick without events never raises it. (Without the bound on the sum the rate can go negative.)", "quantifier": "every float64 alpha in range, every history with non-negative counts", "why_tests_cant": "Rounding errors over unboundedly many ticks.", "anchors": ["ewma.go:StandardEWMA.Tick", "ewma.go:StandardEWMA.Rate"]}
{"id": "C25", "title": "No event is lost between Update and Tick", "statement": "Under every interleaving of any number of Update and Tick calls the sum of the event counts consumed by ticks plus the uncounted remainder equals (mod 2^64) the sum of all Update amounts. With a single ticking goroutine and non-negative amounts each tick consumes a non-negative count and every event is consumed by exactly one tick. With two concurrent Ticks the same events can be consumed twice and the remainder go negative.", "quantifier": "every number of goroutines and schedules of the atomic steps", "why_tests_cant": "The load-then-subtract window is only exposed by specific schedules.", "anchors": ["ewma.go:StandardEWMA.fetchInstantRate", "ewma.go:StandardEWMA.Update", "ewma.go:StandardEWMA.Tick"]}
{"id": "C26", "title": "First concurrent Ticks initialise the rate exactly once", "statement": "Under every interleaving of Tick calls exactly one Tick initialises the rate (the transition from uninitialised happens once), every other Tick applies one step of the recurrence to an earlier rate, the mutex is held by at most one goroutine and no call gets stuck. But a Tick that runs while the first one is initialising can have its update overwritten, so the final rate need not be the recurrence over the consumed counts in any order.", "quantifier": "every number of goroutines and schedules", "why_tests_cant": "Needs all schedules around the double-checked initialisation.", "anchors": ["ewma.go:StandardEWMA.Tick"]}
{"id": "C27", "title": "Meter.Count never loses a Mark and Stop cuts it off", "statement": "Under every interleaving of Mark, Stop, Count, Snapshot and background ticks, Count() equals the sum (mod 2^64) of the amounts of all Marks that have taken effect, and each such Mark gives its amount exactly once to each of the three averages. A Mark is skipped only if a Stop took effect before its check, so every Mark that completed before any Stop began took effect; a Mark that began after a Stop call returned has no effect on Count or rates. (A Mark that merely began before a Stop began may be skipped.)", "quantifier": "every number of goroutines, every schedule", "why_tests_cant": "All schedules, including a Stop racing a Mark.", "anchors": ["meter.go:StandardMeter.Mark", "meter.go:StandardMeter.Stop", "meter.go:StandardMeter.Count"]}
{"id": "C28", "title": "Stop is idempotent and ends ticking", "statement": "Exactly one of any number of Stop calls removes the meter from the set of ticked meters; once the removing Stop has returned no background tick of that meter is running or will ever run, and other meters are unaffected. (A second, concurrent Stop may return earlier.)", "quantifier": "every number of goroutines calling Stop/NewMeter and the ticker, every schedule", "why_tests_cant": "All schedules.", "anchors": ["meter.go:StandardMeter.Stop", "meter.go:meterArbiter.tickMeters"]}
{"id": "C29", "title": "Every live meter is ticked exactly once per tick and one ticker runs", "statement": "Each firing of the 5-second ticker ticks every meter in the set exactly once, whatever the map order, and no other; over every history of NewMeter calls the ticker goroutine is started exactly once.", "quantifier": "every set of meters, every map iteration order, every history", "why_tests_cant": "Map order is arbitrary and histories unbounded.", "anchors": ["meter.go:NewMeter", "meter.go:meterArbiter.tick", "meter.go:meterArbiter.tickMeters"]}
{"id": "C30", "title": "Published meter rates may go stale but are always rates that existed", "statement": "Every rate a Meter reports is 0 or a value its EWMA actually had at some earlier moment. When no Mark overlaps a tick the reported rate equals the EWMA's current rate; but a Mark overlapping a tick can overwrite the fresh rate with the stale one and leave it published when all calls have returned. The numbers of a Snapshot are all those the meter showed at some moment of the call, and of one moment if nobody marks or ticks the meter meanwhile; but a Snapshot taken while others do may combine numbers of no single moment, such as no events and a positive rate.", "quantifier": "every schedule (first part, snapshots); existence of a schedule (stale rates, torn snapshots)", "why_tests_cant": "Needs the exact interleaving of updateSnapshot in two goroutines.", "anchors": ["meter.go:StandardMeter.updateSnapshot", "meter.go:StandardMeter.tick", "meter.go:StandardMeter.Mark"]}
{"id": "C31", "title": "Registry behaves like a finite map", "statement": "Sequentially a StandardRegistry refines a finite map from names to metrics: Get returns the metric most recently registered under that exact name and not unregistered since; Register on a free name adds it and returns nil; on a taken name it returns DuplicateMetric(name) and changes nothing; Unregister removes exactly that name; UnregisterAll empties it; operations on one name never affect another.", "quantifier": "every sequence of registry operations and names", "why_tests_cant": "All histories and all names.", "anchors": ["registry.go:StandardRegistry.Get", "registry.go:StandardRegistry.Register", "registry.go:StandardRegistry.Unregister", "registry.go:StandardRegistry.UnregisterAll", "registry.go:StandardRegistry.register"]}
{"id": "C32", "title": "Registering a non-metric is silently ignored", "statement": "Register of a value that implements none of the seven metric interfaces returns nil on a free name but stores nothing, so a following Get returns nil; GetOrRegister of such a value returns it every time without ever storing it.", "quantifier": "every registry state, name and non-metric value", "why_tests_cant": "Ranges over all states and values; contradicts the natural expectation 'nil error implies registered'.", "anchors": ["registry.go:StandardRegistry.register", "registry.go:StandardRegistry.GetOrRegister"]}
{"id": "C33", "title": "GetOrRegister is atomic: one winner, one construction", "statement": "Every concurrent history of Get, Register, GetOrRegister, Unregister, UnregisterAll and Each on one StandardRegistry is linearizable to the finite-map specification. Hence all concurrent GetOrRegister(name, ...) calls with no Unregister in between return the same metric and a lazy constructor is invoked at most once per registration.", "quantifier": "every number of goroutines, every history, every schedule of the lock and map steps", "why_tests_cant": "All schedules of the double-checked read-then-write locking.", "anchors": ["registry.go:StandardRegistry.GetOrRegister", "registry.go:StandardRegistry.Register"]}
{"id": "C34", "title": "Each visits an atomic snapshot of the registry", "statement": "Each calls the callback exactly once for every (name, metric) pair registered at one single instant, holding no lock, so the callback may call any registry method; entries added or removed by the callback or by other goroutines do not affect the current iteration.", "quantifier": "every registry state, map iteration order, callback behaviour, schedule", "why_tests_cant": "All map orders and all callback behaviours.", "anchors": ["registry.go:StandardRegistry.Each", "registry.go:StandardRegistry.registered"]}
{"id": "C35", "title": "Registry locking is race-free and deadlock-free, except for re-entrant callbacks", "statement": "Under every schedule no goroutine touches the metrics map while another writes it, and with callbacks that do not re-enter the registry every goroutine can always finish (locks are only acquired in the order registry before meter arbiter). A health check that calls Register/Unregister of the same registry while being run by RunHealthchecks, or a lazy constructor that uses the same registry inside GetOrRegister, deadlocks.", "quantifier": "every number of goroutines and schedules", "why_tests_cant": "All schedules; deadlock needs a particular schedule/callback.", "anchors": ["registry.go:StandardRegistry.RunHealthchecks", "registry.go:StandardRegistry.GetOrRegister", "meter.go:NewMeter", "meter.go:StandardMeter.Stop"]}
{"id": "C36", "title": "Unregister stops meters and timers", "statement": "Unregister(name) of a Meter or Timer, and UnregisterAll, stop it: afterwards it is not ticked any more and later Marks do not change it. No other meter is stopped. Meters never registered, or rejected as duplicates, stay in the ticked set until Stop.", "quantifier": "every registry state and history", "why_tests_cant": "All histories.", "anchors": ["registry.go:StandardRegistry.Unregister", "registry.go:StandardRegistry.UnregisterAll", "registry.go:StandardRegistry.stop", "timer.go:StandardTimer.Stop"]}
{"id": "C37", "title": "NewRegistered* on a taken name returns a metric nobody sees", "statement": "NewRegisteredX(name, r) registers its result if the name is free; if the name is taken it silently returns a fresh metric that is not in the registry, leaves the old one registered, and for meters and timers leaks the fresh meter into the ticked set.", "quantifier": "every registry state and name", "why_tests_cant": "All states; the ignored error makes it invisible to callers.", "anchors": ["counter.go:NewRegisteredCounter", "gauge.go:NewRegisteredGauge", "meter.go:NewRegisteredMeter", "timer.go:NewRegisteredTimer", "histogram.go:NewRegisteredHistogram"]}
{"id": "C38", "title": "GetOrRegisterX returns the registered X or panics", "statement": "GetOrRegisterCounter/Gauge/GaugeFloat64/Histogram/Meter/Timer return the metric already registered under the name if it has the requested kind, register and return a fresh one if the name is free, and panic (leaving the registry unchanged) exactly when the name holds a metric of another kind.", "quantifier": "every registry state, name and kind", "why_tests_cant": "All states and kinds.", "anchors": ["counter.go:GetOrRegisterCounter", "gauge.go:GetOrRegisterGauge", "gauge_float64.go:GetOrRegisterGaugeFloat64", "histogram.go:GetOrRegisterHistogram", "meter.go:GetOrRegisterMeter", "timer.go:GetOrRegisterTimer"]}
{"id": "C39", "title": "PrefixedRegistry is the underlying registry under a name prefix", "statement": "Get, GetOrRegister, Register and Unregister of a prefixed registry (nested to any depth) act on the base registry under the concatenation of all prefixes from outermost to innermost and the name; Each visits exactly the base entries whose name starts with that concatenated prefix, with their full names.", "quantifier": "every nesting depth, prefixes, names, base registry state", "why_tests_cant": "All nestings and all strings.", "anchors": ["registry.go:PrefixedRegistry.Get", "registry.go:PrefixedRegistry.Each", "registry.go:findPrefix", "registry.go:NewPrefixedChildRegistry"]}
{"id": "C40", "title": "PrefixedRegistry.UnregisterAll, GetAll and RunHealthchecks are not confined to the prefix", "statement": "The expectation that operations on a prefixed child registry affect or report only names under its prefix fails: UnregisterAll on a child empties the whole base registry, GetAll returns all its entries and RunHealthchecks runs all its checks.", "quantifier": "existence of a state; exact effect for every state", "why_tests_cant": "Characterises the effect for all states.", "anchors": ["registry.go:PrefixedRegistry.UnregisterAll", "registry.go:PrefixedRegistry.GetAll", "registry.go:PrefixedRegistry.RunHealthchecks"]}
{"id": "C41", "title": "GetAll reports every metric with its kind's complete key set", "statement": "GetAll has exactly one entry per registered name; the keys of each entry are exactly those of the metric's kind, integer fields carry the values the metric's own accessors return at that moment; percentile keys correspond to 0.5, 0.75, 0.95, 0.99 and 0.999.", "quantifier": "every registry content and map order", "why_tests_cant": "All registry contents and all map orders.", "anchors": ["registry.go:StandardRegistry.GetAll"]}
{"id": "C42", "title": "Histogram delegates to its sample", "statement": "For every history, a histogram's Count, Min, Max, Sum, Mean, StdDev, Variance and Percentiles equal those of its sample; Clear resets them; its Snapshot agrees with it at the moment it is taken. Snapshot panics when the sample is not one of the built-in samples' snapshot types (e.g. a NilSample).", "quantifier": "every sample state and history", "why_tests_cant": "All histories.", "anchors": ["histogram.go:StandardHistogram", "histogram.go:StandardHistogram.Snapshot"]}
{"id": "C43", "title": "Timer records each event once in both its histogram and its meter", "statement": "For every history the timer's Count is the number of Update/UpdateSince/Time calls; while its meter is not stopped the meter has counted the same number; after Stop durations are still recorded but rates no longer change. Under concurrency a Snapshot never shows a histogram and a meter that disagree by an event. Update, Snapshot and Stop take effect in one instant each, so that a snapshot's meter has counted exactly the events before the first Stop; a Count that overlaps an Update and is followed by Stop can contradict this.", "quantifier": "every history and every schedule of Update and Snapshot", "why_tests_cant": "All schedules of Update against Snapshot.", "anchors": ["timer.go:StandardTimer.Update", "timer.go:StandardTimer.Snapshot", "timer.go:StandardTimer.Stop"]}
{"id": "C44", "title": "Timer.Time records exactly the elapsed time of f", "statement": "Time(f) calls f exactly once and then records the elapsed monotonic time from just before to just after the call as one event; if f panics nothing is recorded.", "quantifier": "every timer state, every start and end time, every behaviour of f", "why_tests_cant": "Ranges over all behaviours of f, including panics.", "anchors": ["timer.go:StandardTimer.Time", "timer.go:StandardTimer.UpdateSince"]}
{"id": "C45", "title": "WriteOnce output is sorted and independent of map order", "statement": "WriteOnce prints every registered metric exactly once, in ascending byte order of names, and its output is the same for every map iteration order (for metrics without side effects on read).", "quantifier": "every registry content, every map iteration order, every correct sorting algorithm", "why_tests_cant": "Map order is random at run time; all orders must agree.", "anchors": ["writer.go:WriteOnce", "writer.go:namedMetricSlice.Less"]}
{"id": "C46", "title": "Graphite and OpenTSDB lines decode to the metric they report", "statement": "If prefix and names contain no space or newline, each emitted line parses back to its metric path, value and timestamp, and integer values are recovered exactly; with a space or newline in a name this fails.", "quantifier": "every registry content, prefix, timestamp", "why_tests_cant": "Injectivity of a text encoding over all strings and integers.", "anchors": ["graphite.go:graphite", "opentsdb.go:openTSDB"]}
{"id": "C47", "title": "Duration scaling in reporters", "statement": "OpenTSDB scales every timer duration field by DurationUnit; Graphite scales min, max, mean and std-dev but not the percentiles; with DurationUnit = 0 both panic with a division by zero as soon as a timer is registered.", "quantifier": "every timer content and unit", "why_tests_cant": "All units and contents.", "anchors": ["graphite.go:graphite", "opentsdb.go:openTSDB"]}
{"id": "C48", "title": "expvar export panics and then deadlocks on a kind change", "statement": "The expvar handler publishes every metric under names derived from its own; it panics exactly when a name is already published with the other numeric type or a health check is registered, and a panic in the type check leaves the handler's lock held so that every later request blocks.", "quantifier": "every registry content and publication history", "why_tests_cant": "Depends on the history of names ever published.", "anchors": ["exp/exp.go:getInt", "exp/exp.go:getFloat", "exp/exp.go:syncToExpvar"]}
{"id": "C49", "title": "Librato batches", "statement": "BuildRequest stamps the largest multiple of the interval (in whole seconds) not after the current time (for non-negative times) and panics when the interval is below one second; counters with non-positive count and empty histograms are omitted; each non-empty histogram contributes 1+len(Percentiles) gauges, each timer with events 4+len(Percentiles). Timers carry a display transform that divides by the unit given to NewReporter and the short name of a unit, which is the right one exactly when that unit is 1 ns, 1 µs, 1 ms or 1 s (minutes and hours are labelled s).", "quantifier": "every registry content, interval, time", "why_tests_cant": "All contents.", "anchors": ["librato/librato.go:BuildRequest", "librato/librato.go:NewReporter", "librato/librato.go:translateTimerAttributes"]}
{"id": "C50", "title": "GC pauses are recorded exactly once", "statement": "Each capture feeds the pause histogram exactly the last min(k,256) pauses, oldest first within the circular buffer segments, where k is the number of GCs since the previous capture, even when the 32-bit GC counter wraps around; no pause is recorded twice.", "quantifier": "every pair of uint32 GC counters and every buffer content", "why_tests_cant": "All 2^64 pairs of counters, including wrap-around.", "anchors": ["runtime.go:CaptureRuntimeMemStatsOnce"]}
{"id": "C51", "title": "Runtime delta gauges", "statement": "Frees, Lookups, Mallocs, NumGC and NumCgoCall report the change since the previous capture modulo the counter's width, so over any sequence of captures the reported deltas sum to the total change.", "quantifier": "every sequence of runtime statistics", "why_tests_cant": "All sequences, including wrap-around.", "anchors": ["runtime.go:CaptureRuntimeMemStatsOnce"]}
{"id": "C52", "title": "Runtime metrics are registered once per process", "statement": "Only the first RegisterRuntimeMemStats registers metrics, in the registry it was given; later calls with any registry do nothing. Capturing before any registration panics; capturing with a registry that was never given to RegisterRuntimeMemStats does not panic (contrary to its documentation) but updates the first registry's metrics.", "quantifier": "every sequence of Register/Capture calls and registries", "why_tests_cant": "All call sequences.", "anchors": ["runtime.go:RegisterRuntimeMemStats", "runtime.go:CaptureRuntimeMemStatsOnce", "debug.go:RegisterDebugGCStats"]}
{"id": "C53", "title": "Debug GC capture records at most the latest pause", "statement": "CaptureDebugGCStatsOnce records the most recent pause once if a GC has happened since the previous capture and nothing otherwise; pauses of earlier GCs in between are never recorded.", "quantifier": "every sequence of GC statistics", "why_tests_cant": "All sequences.", "anchors": ["debug.go:CaptureDebugGCStatsOnce"]}
{"id": "C54", "title": "Health checks report the last verdict", "statement": "Error() is nil before any check; after any sequence of calls it is nil if the last of Healthy/Unhealthy was Healthy and otherwise the error given to the last Unhealthy; Check runs the user function exactly once on the check itself; RunHealthchecks checks every registered health check exactly once and nothing else.", "quantifier": "every history and registry content", "why_tests_cant": "All histories.", "anchors": ["healthcheck.go:StandardHealthcheck", "registry.go:StandardRegistry.RunHealthchecks"]}
{"id": "C55", "title": "Sharing a sample snapshot between concurrent readers is unsafe", "statement": "Two goroutines concurrently calling Percentile on one SampleSnapshot sort its slice in place without a lock; there is a schedule of their element reads and writes after which the snapshot has lost a value and duplicated another.", "quantifier": "existence of a schedule", "why_tests_cant": "Needs one specific interleaving of memory accesses.", "anchors": ["sample.go:SampleSnapshot.Percentile", "sample.go:int64Slice.Swap"]}
{"id": "C56", "title": "JSON export fails as a whole on a non-finite value", "statement": "MarshalJSON / WriteJSONOnce succeed iff no reported float is NaN or infinite; a single float gauge holding NaN, or a meter whose elapsed time reads zero, makes the whole registry unexportable. When they succeed, the text is a JSON object with one member for each metric of the registry, each an object with the fields' values. It is one line without control characters, and without < > &.", "quantifier": "every registry content", "why_tests_cant": "All contents.", "anchors": ["json.go:MarshalJSON", "json.go:WriteJSONOnce", "registry.go:StandardRegistry.GetAll"]}
{"id": "C57", "title": "Captures set every runtime and debug metric to its statistic, and nothing else", "statement": "After any successful CaptureRuntimeMemStatsOnce, every non-delta gauge registered by RegisterRuntimeMemStats shows the statistic of the same name as just read (as int64; booleans as 0/1), GCCPUFraction shows the float read, and the ReadMemStats timer's sample has received exactly one more value: the time the read took. The same holds for CaptureDebugGCStatsOnce. Gauges the program had before the registration are not changed by runtime captures.", "quantifier": "every history of API calls, registrations and captures, and every statistics read", "why_tests_cant": "31 metrics times all statistics and all histories.", "anchors": ["runtime.go:CaptureRuntimeMemStatsOnce", "runtime.go:RegisterRuntimeMemStats", "debug.go:CaptureDebugGCStatsOnce"]}
{"id": "C58", "title": "UniformSample and ExpDecaySample are safe for concurrent use", "statement": "When any number of goroutines call the methods of one UniformSample or one ExpDecaySample (Update, Clear, Count, Size, Values, Snapshot, the statistics, Percentile and Percentiles, which sorts the live reservoir), every call looks as if it had happened at one instant between its invocation and its return; no two goroutines access the fields at the same time; every call returns, whatever the scheduling, also after calls that panicked; and when all have returned, without Clear, Count is exactly the number of Updates, Size is the smaller of that number and the reservoir size, and all values held are values that were passed to Update.", "quantifier": "every initial state of the sample, every number of goroutines, every sequence of calls and every interleaving of their memory accesses", "why_tests_cant": "Ranges over all interleavings; the race detector sees only those that happen.", "anchors": ["sample.go:UniformSample", "sample.go:ExpDecaySample"]}
{"id": "C59", "title": "Log reports every metric on each cue, with timings in the given scale", "statement": "On each cue, Log and LogScaled print for every registered metric (run first, if it is a health check) one block of messages: the kind and name, then one line for each field of that kind with a number equal to the answer of the metric's accessor, padded to the column width; durations of timers are divided by the scale and followed by the unit. No scale, not even 0, makes it panic. The text of every duration reads back as that duration. A printed number with its suffix reads as the duration it stands for exactly when the scale is one of the six units of package time; for other scales (such as 10 ms) it reads as a wrong duration.", "quantifier": "every history of API calls, every registry content, map order and scale", "why_tests_cant": "Ranges over all registry contents and histories; tests check no log output.", "anchors": ["log.go:LogScaledOnCue", "log.go:LogScaled"]}
{"id": "C60", "title": "Syslog sends exactly one message per metric, with all its fields", "statement": "Each Syslog report consists of exactly one message for each registered metric: its kind, its name and then, labelled and in order, one number for every field of that kind of metric, equal to the answer of the metric's accessor as printed (integers exactly, floats to the stated number of decimals, nearest); for a health check, which is run first, the error.", "quantifier": "every history of API calls, every registry content and map order", "why_tests_cant": "Ranges over all registry contents and histories; there is no test of Syslog.", "anchors": ["syslog.go:Syslog"]}
{"id": "C61", "title": "Stathat posts the accessors' values under the metric's name", "statement": "A StatHat report makes, for every registered metric, one post for each field of that kind: counts as counts and exactly, other numbers as values (the accessor's answer as a float64), under the metric's name with the field's suffix; nothing is posted for health checks and they are not run. A gauge of absolute value at most 2^53 is posted exactly, a larger one need not be. If no metric's name contains a dot, no name is posted twice; otherwise two metrics can be posted under one name.", "quantifier": "every history of API calls, every registry content and map order", "why_tests_cant": "Ranges over all registry contents and histories; there is no test of the StatHat reporter.", "anchors": ["stathat/stathat.go:sh"]}
{"id": "C62", "title": "Reports only read", "statement": "A report to Graphite, OpenTSDB, StatHat, Librato, expvar, Log, Syslog, Write or JSON, and GetAll, leaves every metric the program holds reading as before (counts, values, rates, sums, extrema, means, percentiles), every registry with the same names and metrics, no meter started or stopped and UseNilMetrics unchanged, whether the report returns or panics. Graphite, OpenTSDB, StatHat, Librato and expvar also leave the error of every health check. Not so: the variance of a histogram may change in its last bits and the readings a full reservoir loses later may differ after a Librato report, which sorts the live reservoir; and Write, Log, Syslog, JSON and GetAll run the health checks. A report does nothing that a sequence of reading API calls (Each, Count, Value, statistics, percentiles, Snapshot, rates, Sample, Error; Check and GetAll for those that run the health checks) would not do, so what holds of every history of API calls holds of histories with reports in them.", "quantifier": "every history of API calls, every registry content, map order and reporter configuration", "why_tests_cant": "An effect on an unrelated metric or a later reading has to be excluded for every registry and every metric outside it; tests look at single reports.", "anchors": ["graphite.go:graphite", "opentsdb.go:openTSDB", "stathat/stathat.go:sh", "librato/librato.go:BuildRequest", "exp/exp.go:syncToExpvar", "log.go:LogScaledOnCue", "syslog.go:Syslog", "writer.go:WriteOnce", "json.go:WriteJSONOnce", "registry.go:GetAll"]}
{"id": "C63", "title": "Graphite and OpenTSDB deliver the report or a prefix of it, and hide failures", "statement": "Over a connection that works, GraphiteOnce and the OpenTSDB report send exactly the report's text and return nil. Over a connection that fails at any point it accepts a prefix of that text and is not written to after a failed call; the metrics and the outcome are the same, so the error returned is nil although the documentation promises an error on failed connections. When a report panics over a working connection, every metric before the one it panics at has arrived completely, and of that one nothing, except the count of a timer whose line exceeds the 4096 bytes of the buffer. If dialing fails, its error is returned and no metric is touched. WriteOnce hands every line to the writer in one call each, in order, whatever happened to earlier ones: a writer that fails once receives text with a gap.", "quantifier": "every registry content and state, every sequence of successes and failures (after any number of bytes) of the connection", "why_tests_cant": "Failures after any byte of any write; the repository's tests use a working connection only.", "anchors": ["graphite.go:graphite", "graphite.go:GraphiteOnce", "opentsdb.go:openTSDB", "writer.go:WriteOnce"]}
{"id": "C64", "title": "The expvar handler's response is JSON exactly if the names are plain and the values finite", "statement": "The response of the handler of package exp is a JSON object with one member for each variable of package expvar, in ascending order of names, holding that variable's value, provided the names contain no control character except those that Go and JSON write alike and the floats are finite. Given ASCII names, it is not JSON otherwise: NaN and infinities are printed as Go prints them, and a name with, say, a bell or escape character is printed in Go's notation. After a request that is answered, every metric of the registry is a member with the value its accessor had.", "quantifier": "every set of published variables, every registry content and state", "why_tests_cant": "All names and all float64 values; the repository has no test of the handler.", "anchors": ["exp/exp.go:expHandler", "exp/exp.go:syncToExpvar"]}
{"id": "C65", "title": "Requests to the expvar handler that are served at the same time", "statement": "However requests to the handlers of package exp interleave, if the variables they export have one type each and a variable that is not published yet is exported by one handler only, then no request panics, all requests return, each sets its variables in order, and every variable has the value that was set last. Two handlers that export the same new variable can make each other panic. Once a request to a handler has panicked, every later request to it waits for its mutex for ever.", "quantifier": "every interleaving of any number of requests to any number of handlers, with any variables and values, from any set of published variables", "why_tests_cant": "The interleavings of the lock, the look-up, the publication and the setting are unbounded, and waiting for ever cannot be observed in a test.", "anchors": ["exp/exp.go:getInt", "exp/exp.go:getFloat", "exp/exp.go:syncToExpvar"]}
{"id": "C66", "title": "What the Librato reporter posts", "statement": "PostMetrics makes a request if and only if the batch contains a measurement and every float in it is finite, and then exactly one: a POST to the metrics URL as application/json with the reporter's e-mail and token, whose body a JSON reader reads back as the batch (gauges and counters, each left out when empty, measure_time, source). It returns nil if and only if there was nothing to send or the answer had status 200; otherwise the error carries the status and the body of the answer, or the client's error. The body of a response is never closed, and not read if the status is 200. Run, at each tick it reaches, fails if and only if a percentile cannot be computed at that time, and otherwise sends the measurements of the metrics as they are at that time, with the tick's time rounded down to the interval, and logs an error if they were not accepted; what it sends does not depend on what was answered before. With an interval of at most 0 nothing is ever sent, with one below a second the first tick panics.", "quantifier": "every batch, network behaviour, history of API calls before and between the ticks, registry content, map order and reporter configuration", "why_tests_cant": "Tests would need a server that fails at every possible tick, and every content of the registry; one NaN gauge suppresses all other metrics only when it is present.", "anchors": ["librato/client.go:PostMetrics", "librato/client.go:Batch", "librato/librato.go:Run", "librato/librato.go:NewReporter"]}
{"id": "C67", "title": "Reporting loops and histories with reports", "statement": "Whatever a process does - API calls, captures of runtime statistics and reports of any kind, in any order - a program that only calls the API reaches the same state, up to the places at which it holds its values, and every call answers the same at those places; so what holds in all states reached by API calls holds in histories with reports. The loops around Graphite, OpenTSDB, Write, WriteJSON, Log, Syslog and Stathat do at every cue exactly what one report does in the state the process is in at that moment, and go on after a connection that fails; they end only if a report panics. The capture loops are the captures, one at each tick. With an interval of at most 0 none of them ever does anything, except Stathat, which reports at once and goes on.", "quantifier": "every history of calls, captures and reports, every number of cues with any calls between them, every registry content, map order and reporter configuration, every behaviour of the connections", "why_tests_cant": "The loops never end and use real time; tests run one report on one state.", "anchors": ["graphite.go:GraphiteWithConfig", "opentsdb.go:OpenTSDBWithConfig", "writer.go:Write", "json.go:WriteJSON", "log.go:LogScaled", "log.go:LogScaledOnCue", "syslog.go:Syslog", "stathat/stathat.go:Stathat", "runtime.go:CaptureRuntimeMemStats", "debug.go:CaptureDebugGCStats"]}
{"id": "C68", "title": "Goroutines that use many metrics at once", "statement": "However goroutines that call methods of the counters, gauges, float64 gauges, samples and histograms of a process interleave, the calls answer as if each happened at one instant between its invocation and its response, in one order for all the metrics: two histograms over one sample, or one metric known under several names, are seen alike. More generally, objects that share no fields and are linearizable one by one are linearizable together.", "quantifier": "every state a process can reach by API calls, any number of goroutines and calls on any number of these metrics, every interleaving of their actions, every random draw and clock reading", "why_tests_cant": "The interleavings of many goroutines over many objects are unbounded, and whether one order explains all answers cannot be seen from a sample of runs.", "anchors": ["counter.go:StandardCounter", "gauge.go:StandardGauge", "gauge_float64.go:StandardGaugeFloat64", "sample.go:UniformSample", "sample.go:ExpDecaySample", "histogram.go:StandardHistogram"]}
{"id": "C69", "title": "What meters and averages show in a program", "statement": "After any program, every meter made by it - by NewMeter, NewTimer, GetOrRegisterMeter and so on, reached by whatever reference, registry name or timer that has it - shows as count the events marked while it was running (modulo 2^64), as 1-, 5- and 15-minute rates the exponentially weighted averages of the events per tick with the weights of 1, 5 and 15 minutes, and as mean rate the count over the seconds from its making to the last event or tick; nothing that is done to other meters, averages, timers or samples changes this. Within a stated rounding error these are the averages of exact arithmetic. An average made by NewEWMA likewise shows what follows from its own updates and ticks.", "quantifier": "every program of API calls before and after the meter or average is made, every clock reading, every order in which the arbiter visits the meters", "why_tests_cant": "A test marks one meter a few times; that no other of the unboundedly many calls, on any other metric, changes a rate, and that the rate is right after every history, cannot be sampled.", "anchors": ["meter.go:StandardMeter", "meter.go:meterArbiter", "ewma.go:StandardEWMA", "timer.go:StandardTimer"]}
{"id": "C70", "title": "What samples, histograms and timers hold in a program", "statement": "After any program, a sample made by NewUniformSample(n) or NewExpDecaySample(n, alpha), every histogram over it and every timer over such a histogram, by whatever reference or registry name they are reached, count exactly the values recorded through any of them since the last Clear, and compute minimum, maximum, sum, mean, variance and percentiles from one collection of values: at most n of the recorded ones, none invented or doubled, min(n, count) of them, and all of them while no more than n were recorded. Nothing done to other samples, histograms or timers, no snapshot and no slice handed out by Values changes them. Update and Clear on a sample and on histograms over it return without panicking.", "quantifier": "every program of API calls before and after the sample is made, every reservoir size, every random draw and clock reading (for ExpDecaySample: fewer than 2^63 values)", "why_tests_cant": "That no call of an arbitrary program on another metric, on a snapshot or on a returned slice reaches into a sample is a statement about all programs.", "anchors": ["sample.go:UniformSample", "sample.go:ExpDecaySample", "histogram.go:StandardHistogram", "timer.go:StandardTimer"]}
{"id": "C71", "title": "What counters and gauges show in a program", "statement": "After any program, a counter made by it, by whatever reference or registry name it is reached, shows the int64 sum (with wraparound) of what Inc and Dec were given since the last Clear; a gauge shows the value last given to Update, 0 before the first; a float64 gauge likewise, bit by bit. Snapshots of them show the same. Nothing that is done to other metrics changes this.", "quantifier": "every program of API calls before and after the metric is made, all int64 and float64 arguments, every clock reading, random draw and map order", "why_tests_cant": "A test makes a few calls on one counter; that no other of the unboundedly many calls on other metrics or the registry changes it cannot be sampled.", "anchors": ["counter.go:StandardCounter", "gauge.go:StandardGauge", "gauge_float64.go:StandardGaugeFloat64"]}
{"id": "C72", "title": "Reports while the process goes on", "statement": "While other goroutines go on using the metrics and the registry, a Graphite, OpenTSDB, textual (WriteOnce, Log, Syslog) or StatHat report, and GetAll, only make calls that read; a report that returns covers exactly the metrics that were registered when it began, each of them once, and all it says about one metric are the answers this metric gives at one single instant during the report: count, minimum, maximum, mean, standard deviation, percentiles and rates of a histogram, meter or timer fit together. A health check is run before its error is read. The lines, messages and posts are those of C45, C46 and C59 to C61, with the numbers of that instant; WriteOnce gives the names in ascending order. Likewise the JSON export of a registry, which fails only if some metric answered NaN or an infinity at an instant during it, and a request to the expvar handler: it runs no health check, and when it is answered the variables of each metric registered at its beginning have been set to that metric's answers at one single instant, and no other variable has changed. GetAll, however, asks a health check twice and panics if the check becomes healthy in between, and the Librato reporter takes no snapshots: its batch covers the metrics registered at its beginning, each once, with the measurements of C49, and each single number was the metric's answer at some instant, but the numbers of one metric may fit no instant (a minimum above the maximum, a histogram or counter sent with a count of 0 although those are left out, a timer's sum that it never had). A report that is left alone - nothing else happens while it is made - returns, or panics with, just what the report made in one step does (C45, C46, C49, C59 to C61, GetAll).", "quantifier": "every program before the report, every interleaving of any calls of the rest of the process with the calls of the report (calls being atomic - which Meter.Snapshot is not while the meter is marked or ticked, see C30; NewSampleSnapshot not used), every registry, set of metrics and percentiles, every clock reading, random draw and map order", "why_tests_cant": "There are unboundedly many interleavings; torn reports show only under particular timing.", "anchors": ["graphite.go:graphite", "opentsdb.go:openTSDB", "writer.go:WriteOnce", "log.go:LogScaled", "syslog.go:Syslog", "stathat/stathat.go:Stathat", "registry.go:StandardRegistry.GetAll", "json.go:StandardRegistry.MarshalJSON", "json.go:WriteJSONOnce", "librato/librato.go:BuildRequest", "exp/exp.go:exp.syncToExpvar"]}
{"id": "C73", "title": "Captures of the runtime's statistics at the same time", "statement": "CaptureRuntimeMemStatsOnce and CaptureDebugGCStatsOnce may be called by several goroutines as long as no two calls overlap: they then update the metrics as successive captures do, and record each garbage collection's pause as C50 says. Two overlapping calls use the same unsynchronized variables, one of them writing (a data race); even if every single access is atomic, a pause may then be recorded twice, or never although fewer than 256 collections happened, and the debug capture may record the latest pause twice. A recorded pause is always one that some capture read.", "quantifier": "every schedule of any number of captures by any goroutines that do not overlap (first part); every schedule (race, last sentence); existence of schedules (double and lost pauses)", "why_tests_cant": "Overlapping captures go wrong only for particular interleavings.", "anchors": ["runtime.go:CaptureRuntimeMemStatsOnce", "debug.go:CaptureDebugGCStatsOnce"]}
{"id": "C74", "title": "A moving average shared by goroutines", "statement": "If nothing but Updates overlaps a Tick, each call of Update, Tick, Rate and Snapshot on one EWMA takes effect at a single instant between its call and its return, as on an average used by one goroutine: a Tick consumes exactly the events added since the previous one, Rate is the documented recurrence of the counts so far. This is lost as soon as a Rate overlaps a Tick, even if only one goroutine ticks: a Rate that still shows the old average may return although the Tick has already decided which events it counts, so that events added before that Rate are not counted by that Tick. With one ticking goroutine what Rate and Snapshot return is still, at some instant of the call, the average of the counts of the first k ticks, with k at least the number of ticks that had returned and at most the number that had been called.", "quantifier": "every alpha, every schedule of any number of goroutines and calls in which only Updates overlap Ticks (first part); every schedule with one ticking goroutine and non-negative amounts summing to less than 2^63 (last part); existence of a schedule (second part)", "why_tests_cant": "Unboundedly many interleavings; the anomaly needs a Rate between two particular atomic operations of a Tick.", "anchors": ["ewma.go:StandardEWMA.Tick", "ewma.go:StandardEWMA.Update", "ewma.go:StandardEWMA.Rate", "ewma.go:StandardEWMA.Snapshot"]}
{"id": "C75", "title": "Health checks used by several goroutines", "statement": "A StandardHealthcheck may be used by several goroutines as long as no call overlaps one that sets the error (Healthy, Unhealthy, or a Check whose function calls them): each call then takes effect at a single instant, Error returning what was set last, and there is no data race; calls of Error may overlap each other. A call that sets the error and another goroutine's call that sets or reads it race as soon as both have begun. The error being an interface value of two words, Error may then return an error nobody has set: the type of one and the data of another, or a type without data, which is not nil and panics when asked for its text. Each of the two words is one of an error that was set, or of nil.", "quantifier": "every schedule of any number of goroutines and calls in which setting calls are alone (first part); every reachable state, any two idle goroutines and any such calls (race); every schedule (last sentence); existence of a schedule (torn errors)", "why_tests_cant": "Torn interface values need a read between two machine stores; reports run checks and read errors while other goroutines do (registry.go, writer.go), which tests rarely hit.", "anchors": ["healthcheck.go:StandardHealthcheck.Check", "healthcheck.go:StandardHealthcheck.Error", "healthcheck.go:StandardHealthcheck.Healthy", "healthcheck.go:StandardHealthcheck.Unhealthy"]}
{"id": "C76", "title": "The runtime's metrics are registered by several goroutines", "statement": "If RegisterRuntimeMemStats (or RegisterDebugGCStats) is called by any number of goroutines, with any registries, what is created and registered at any time is the beginning of a single registration, in the order of the code and with the registry of one of the calls; when any of the calls has ended it is complete, whichever call made it. A call panics only if its registry is nil, and then nothing is ever registered. A capture made at the same time calls all its metrics' methods or panics at the first one that is nil; no capture does so once a call of the Register function has ended, but one that overlaps the first registration can. As long as there is a call, some goroutine can go on.", "quantifier": "every schedule of any number of goroutines calling the Register and the capture function", "why_tests_cant": "The window between the creation of the first and the last metric is short; tests would have to hit it, and cannot show that no other schedule leaves a nil metric or registers twice.", "anchors": ["runtime.go:RegisterRuntimeMemStats", "runtime.go:CaptureRuntimeMemStatsOnce", "debug.go:RegisterDebugGCStats", "debug.go:CaptureDebugGCStatsOnce"]}
{"id": "C77", "title": "What m-minute means: moving averages respond with a time constant of m minutes", "statement": "From any history on, if each of the next k ticks finds c events, the rate of the m-minute average moves to c/5 + e^(-k/(12m)) times its distance from c/5 per second, up to an explicit rounding error; so when events stop, 1/e of the rate is left after m minutes, and under a steady flow the rate settles at the flow. The same holds for Rate1, Rate5 and Rate15 of a meter in any program, whatever else the program does. The rounding error does not build up: for averages of up to 1000 minutes there is a bound that holds after any number of ticks.", "quantifier": "every history, every m, count and number of ticks, every math.Exp accurate to 2^-20 at the one argument used", "why_tests_cant": "Holds for all histories and all numbers of ticks with one error bound; tests compare a few decimals of one sequence.", "anchors": ["ewma.go:NewEWMA1", "ewma.go:NewEWMA5", "ewma.go:NewEWMA15", "ewma.go:StandardEWMA.Tick", "meter.go:StandardMeter.tick"]}
{"id": "C78", "title": "What the mean rate of a meter is", "statement": "RateMean of a meter, or of a timer with it, in any program is the number of events divided by the seconds between the making of the meter and the last event or tick, to within 2^-50 of that; it is 0 before the first event or tick. If the clock still shows the time at which the meter was made it is n divided by 0: infinite for n events, NaN for a tick without events. So it is not always finite; and it is not the rate up to now: it does not change while nothing happens, until the next tick.", "quantifier": "every program, every count that fits an int64, every positive time that fits a Duration", "why_tests_cant": "Tests look at one sleep with a tolerance of percents; the rounding bound and the division by zero need all counts and times.", "anchors": ["meter.go:StandardMeter.updateSnapshot", "meter.go:StandardMeter.RateMean", "timer.go:StandardTimer.RateMean"]}
