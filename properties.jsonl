{"id": "C01", "title": "Rendered series names do not collide", "statement": "Two series (measurement, tag set, field) that differ in any component render to different strings through SeriesKey.WithField, as long as no measurement, tag key or tag value ends in a backslash. (Without that proviso the claim is false: a backslash is never escaped, so measurement 'a\\\\' with tag b=c and measurement 'a,b=c' render identically.)", "quantifier": "all measurements, all finite tag maps, all field names, over arbitrary byte strings", "why_tests_cant": "injectivity ranges over all pairs of unbounded strings; an escaping bug only shows up on specific adversarial pairs", "anchors": ["stats.go: SeriesKey.String, SeriesKey.WithField", "tags.go: TagSet.String, writeTags, writeMeasurement, writeTag"]}
{"id": "C02", "title": "Series rendering is canonical", "statement": "The string form of a TagSet (and of a SeriesKey) depends only on which key/value associations it holds: it does not depend on map iteration order nor on the sequence of Set/SetTags/SetAll calls that produced it, and tags appear in strictly increasing key order.", "quantifier": "all tag maps, all enumeration orders of the map, all construction histories", "why_tests_cant": "Go map iteration order is random; a test samples a few orders only", "anchors": ["tags.go: TagSet.writeTags, TagSet.String"]}
{"id": "C03", "title": "TagSet operations are persistent, last write wins", "statement": "Set, SetTags and SetAll return a set in which the given keys have the last given value and every other key is unchanged; the receiver (including a nil receiver) keeps reporting exactly what it reported before, for every sequence of operations over any number of sets, and Get/Len/All agree with each other.", "quantifier": "all histories of operations over a growing collection of tag sets", "why_tests_cant": "aliasing bugs need a specific history over several sets", "anchors": ["tags.go: TagSet.Get, All, Len, Set, SetTags, SetAll", "stats.go: SeriesKey.WithTag, WithTags"]}
{"id": "C04", "title": "One source per scope name under any schedule", "statement": "However many goroutines concurrently ask a Scope for a source by the same name, all of them get the same object, its constructor runs at most once, and a name once bound to a (non gauge) source is never rebound; asking for a name already bound to a different kind of source panics and never hands out an object of the wrong kind.", "quantifier": "all interleavings of any number of goroutines and lookups", "why_tests_cant": "double-checked locking bugs only appear under particular schedules", "anchors": ["scope.go: Scope.newSource, FuncNamed, Meter, Counter, ..., Gauge"]}
{"id": "C05", "title": "Different source names do not share a source", "statement": "Two lookups on one Scope with different (kind of source, name, ordered tag list) use different objects when names, tag keys and tag values contain no ',', tag keys contain no '=' and non-Func names do not start with 'func:'. Without these provisos the claim is false: FuncNamed(\"a\", tag b=c) and FuncNamed(\"a,b=c\") share one Func, and Counter(\"func:f\") clashes with FuncNamed(\"f\").", "quantifier": "all names and all tag lists", "why_tests_cant": "collisions need particular pairs of unbounded strings", "anchors": ["scope.go: sourceName, FuncNamed, Meter, Counter"]}
{"id": "C06", "title": "Counter value, low and high follow the history", "statement": "After any sequence of Set/Inc/Dec/Reset, Current is the sum (mod 2^64) of the deltas since the last Set or Reset plus that Set's value, High/Low are the maximum/minimum of the values the counter took since construction or the last Reset, every call returns the documented value, and Stats emits exactly high, low and value, with NaN high and low iff no update happened since the last Reset.", "quantifier": "all operation histories, all int64 arguments including wrap-around", "why_tests_cant": "holds for every history and every 64-bit operand", "anchors": ["counter.go: Counter.set, Set, Inc, Dec, High, Low, Current, Reset, Stats"]}
{"id": "C07", "title": "Meter totals are conserved", "statement": "After any interleaving of Mark, Mark64, background ticks, SetTotal and Reset, Total equals (mod 2^64) the base given by the last Reset (or the construction) plus all marks since, with SetTotal replacing only the part that already left the 24-bucket window; a background tick never changes Total; DiffMeter's total is the difference of the two totals.", "quantifier": "all histories of marks and ticks, any number of ticks, all amounts", "why_tests_cant": "loss or double counting depends on the position of ticks in the history (10 minutes apart in production)", "anchors": ["meter.go: Meter.Mark, Mark64, tick, stats, SetTotal, Reset, Total, DiffMeter.Stats"]}
{"id": "C08", "title": "Meter rate covers exactly the sliding window", "statement": "Rate is (sum of the marks of the last 24 buckets) divided by the time since the oldest of them started, where a tick starts a new bucket only if something was marked since the previous bucket started; Rate is 0 when no time has elapsed, and a quiet meter keeps its window; a DiffMeter's rate is the difference of its two meters' rates.", "quantifier": "all histories of marks and ticks with arbitrary non-decreasing clock values", "why_tests_cant": "needs histories of more than 24 ticks, four hours in production", "anchors": ["meter.go: Meter.tick, stats, Rate"]}
{"id": "C09", "title": "Distribution counters are exact", "statement": "After any sequence of Insert/Query/ReservoirAverage/Copy/Reset, Count, Sum (mod 2^64), Low, High and Recent of an IntDist/DurationDist are the number, sum, minimum, maximum and last of the values inserted since construction or the last Reset, all 0 if none. Stats reports exactly these under count, sum, min, max and recent (only count if nothing was recorded), and the reservoir's quantiles and average under their names.", "quantifier": "all operation histories, all int64 values, all quantiles, all random number streams", "why_tests_cant": "holds for every history; the empty/first-value cases and wrap-around are easy to miss", "anchors": ["intdist.go, durdist.go: Insert, Reset, Query, FullAverage, Copy"]}
{"id": "C10", "title": "The reservoir only ever holds recorded values", "statement": "At every point the reservoir holds min(Count,64) observations, each of them the float32 image of a distinct insertion since the last Reset, and as long as Count <= 64 it holds exactly all of them; sorting caused by Query never loses, duplicates or invents an observation, and values recorded before a Reset never come back once a new value is inserted.", "quantifier": "all histories of inserts, queries and resets, all random streams, all values of the Window variable", "why_tests_cant": "random replacement and in-place sorting interact with insertion order in unboundedly many ways", "anchors": ["distgen.go.m4, intdist.go: Insert, Query, Reset"]}
{"id": "C11", "title": "Quantile queries are bounded and monotone", "statement": "Provided the observations are finite as float32 (always so for int64 and Duration, for float64 up to 2^127 in magnitude), with the exact IEEE-754 arithmetic the code uses and whether or not the compiler fuses the final multiply-add: Query never panics and returns a finite value for every quantile but NaN; Query(q<=0) is the smallest and Query(q>=1) the largest value held; for 0<q<1 and n values held the answer lies between the order statistics around the rank q*(n-1), at the corresponding fraction of the way up to relative error 2^-50; and q1 <= q2 implies Query(q1) <= Query(q2). IntDist and DurationDist return the integer part, within the same bounds and monotone, for observations up to 2^63-2^39. Without the provisos it is false: values beyond the float32 range make quantiles NaN, MaxInt64 comes back as an implementation-defined integer, and a compiler that fuses the computation of the fraction (which Go permits) yields answers below the minimum.", "quantifier": "all histories of inserts, queries, copies and resets, all random streams, all value types, all quantiles that are not NaN", "why_tests_cant": "floating point rounding of the interpolation cannot be explored exhaustively", "anchors": ["distgen.go.m4, floatdist.go, intdist.go: Query", "dist.go: float32Slice"]}
{"id": "C12", "title": "Reset makes a distribution fresh", "statement": "After Reset a distribution is indistinguishable from a new one fed the same later operations and random numbers, except that Query before the first new Insert still returns a value recorded before the Reset (so the unrestricted claim is false).", "quantifier": "all histories before and after the reset", "why_tests_cant": "stale state shows up only for particular histories", "anchors": ["distgen.go.m4, intdist.go: Reset, Query", "funcstats.go: FuncStats.Reset"]}
{"id": "C13", "title": "Replacement probability has the documented floor and never goes out of range", "statement": "From the 65th observation on, an insert replaces a reservoir slot exactly when the drawn 64-bit number modulo min(Count, Window) (or Count when Window <= 0) is below 64; it never indexes outside the reservoir nor divides by zero, and the number of 64-bit draws causing a replacement is at least 64/Window of all draws up to rounding.", "quantifier": "all counts, all values of Window including negative and tiny, all 64-bit random numbers", "why_tests_cant": "probability over 2^64 draws", "anchors": ["dist.go: Window, ReservoirSize", "distgen.go.m4: Insert"]}
{"id": "C14", "title": "The random generators do not degenerate", "statement": "Each step of the lcg, xorshift64, xorshift128 and xorshift1024 generators is a permutation of its state space (every state has exactly one predecessor), results fit in 64 bits and Int63 is non-negative; a xorshift generator seeded with any non-zero seed never reaches the all-zero state, while seed 0 yields 0 forever.", "quantifier": "all 64/128/1024-bit states, any number of steps", "why_tests_cant": "state space 2^64..2^1024", "anchors": ["rng.go: lcg, xorshift64, xorshift128, xorshift1024"]}
{"id": "C15", "title": "Ids are non-negative and rarely repeat", "statement": "NewId never returns a negative number, consecutive calls return different ids, and among any 2^64 consecutive calls, from any number of goroutines, every non-negative int64 is returned exactly twice; two calls k apart return the same id only if k*inc is congruent to 0, 1 or -1 modulo 2^64. (Outright uniqueness is false: some seeds repeat an id 7 calls later.)", "quantifier": "all seeds, all call counts, all interleavings", "why_tests_cant": "period arguments over 2^64 calls", "anchors": ["id.go: NewId, init"]}
{"id": "C16", "title": "Func.Parents reports every distinct caller once", "statement": "Under any interleaving of concurrent starts, Parents reports each distinct parent Func (nil for entry points) exactly once, includes every parent whose start completed before the call, and never reports something that was not added.", "quantifier": "all interleavings of any number of Add and Iterate calls", "why_tests_cant": "the lock-free fast path races with the map only under specific schedules", "anchors": ["funcset.go: funcSet.Add, Iterate", "func.go: Parents", "funcstats.go: start"]}
{"id": "C17", "title": "Every finished call is counted exactly once", "statement": "For every sequence of starts, ends and Resets of a Func, Success + sum of Errors + Panics equals the number of ends since the last Reset, each end lands in exactly one of success, error-by-name or panic (panic winning over error), the failure time distribution holds exactly the failures, and the emitted total/failures/errors fields are the corresponding sums.", "quantifier": "all histories of outcomes, all error names", "why_tests_cant": "must hold for every history", "anchors": ["funcstats.go: end, Success, Panics, Errors, Stats, Reset, Observe"]}
{"id": "C18", "title": "Current and Highwater under concurrency", "statement": "In any interleaving without Reset, Current equals the number of starts minus ends performed, is never negative, and whenever no start is half-way done Highwater equals the largest value Current has had. (With Reset while calls are running, Current becomes negative: refuted.)", "quantifier": "all interleavings of the atomic operations of any number of goroutines", "why_tests_cant": "CAS-loop races need specific schedules", "anchors": ["funcstats.go: start, end, Current, Highwater, Reset"]}
{"id": "C19", "title": "Children bag is a multiset", "statement": "The running-children container reports a span iff it was added more often than removed, for any sequence of adds and removes in which no span is removed more often than added; Children lists each such span exactly once, in (full name, id) order.", "quantifier": "all add/remove histories", "why_tests_cant": "the one-element fast path interacts with the map in unboundedly many histories", "anchors": ["spanbag.go: spanBag.Add, Remove, Iterate", "span.go: Children"]}
{"id": "C20", "title": "Running spans are exactly the reported spans", "statement": "In any interleaving of span starts and finishes by any number of goroutines, whenever no start or finish is half-way done, AllSpans reports every running span exactly once and no finished span, RootSpans reports exactly the running spans that have no parent or whose parent has finished, in (full name, id) order, and once all spans finished nothing is retained. (While a parent's finish is half-way, AllSpans may list a span twice: refuted.)", "quantifier": "all interleavings of lock-protected steps, any tree shape, any number of spans", "why_tests_cant": "orphan hand-over races between parent finish, child start and child finish need specific schedules", "anchors": ["ctx.go: newSpan", "span.go: addChild, removeChild, orphan, Children", "registry.go: rootSpanStart, rootSpanEnd, orphanedSpan, orphanEnd, RootSpans, AllSpans, walkSpan"]}
{"id": "C21", "title": "Trace span count", "statement": "Trace.Spans equals the number of spans started minus finished on that trace at any moment of any interleaving, is never negative, and is 0 once all its spans finished.", "quantifier": "all interleavings", "why_tests_cant": "must hold for every schedule", "anchors": ["trace.go: incrementSpans, decrementSpans, Spans", "ctx.go: newSpan"]}
{"id": "C22", "title": "Orphaned means the parent finished first", "statement": "Whenever no operation is half-way done, a running span reports Orphaned iff it has a local parent and that parent has finished. A span still running when its parent's exit function has returned reports Orphaned from then on, also after it finishes. A span that began finishing before its parent did never reports Orphaned. (When the two finishes overlap the result may go either way; both are shown possible.)", "quantifier": "all interleavings", "why_tests_cant": "race between parent finish and child start/finish", "anchors": ["span.go: orphan, Orphaned, addChild", "ctx.go: newSpan"]}
{"id": "C23", "title": "Contexts carry the innermost span and keep all other values", "statement": "For every context built from any nesting of Task calls, user values and ResetContextSpan, SpanFromCtx returns the innermost span not hidden by a reset, every non-monkit key looks up exactly as in the original context, and repeated Task calls on the same context do not grow the lookup chain.", "quantifier": "all context expressions of any depth", "why_tests_cant": "unbounded nesting", "anchors": ["ctx.go: SpanFromCtx, newSpan, resetContext, ResetContextSpan", "span.go: Span.Value"]}
{"id": "C24", "title": "Span parentage and trace membership", "statement": "A Task started with a context holding a span joins that span's trace and becomes its child; with no span it starts a new observed trace as a root; ResetTrace always starts a new observed trace with no parent; RemoteTrace never gets a local parent and reports the given parent id; a nil context pointer always yields a root and never links later nil-context tasks to it.", "quantifier": "all contexts and all call sequences", "why_tests_cant": "must hold for every history of calls", "anchors": ["ctx.go: newSpan, Func.Task, RemoteTrace, ResetTrace, cleanCtx", "span.go: ParentId"]}
{"id": "C25", "title": "Span observers are notified exactly while registered", "statement": "In any interleaving of ObserveSpans, cancel and span notifications, a notification pass calls every observer registered before the pass began and not cancelled before it ended exactly once, most recently registered first, never calls one whose cancel returned before the pass began, never calls any observer twice, and cancelling one observer never removes another.", "quantifier": "all interleavings of the atomic pointer operations of any number of goroutines", "why_tests_cant": "lock-free list removal races", "anchors": ["trace.go: getObserver, ObserveSpansCtx, removeObserver, removeObserverFrom", "ctx.go: spanObserverTuple.Start, Finish"]}
{"id": "C26", "title": "Trace watchers are called exactly while registered", "statement": "Every new trace is passed exactly once to every callback registered through ObserveTraces and not cancelled, for any history of registrations and cancellations; cancel is idempotent and affects only its own registration.", "quantifier": "all histories and interleavings of registration, cancellation and trace creation", "why_tests_cant": "must hold for every history", "anchors": ["registry.go: ObserveTraces, updateWatcher, observeTrace"]}
{"id": "C27", "title": "ObserveAllTraces leaves nothing behind", "statement": "In any interleaving ObserveAllTraces attaches the collector to each trace at most once, to every trace that starts after it is set up or has a running root when it scans, and once its cancel returned the collector is attached to no trace and will never be attached again, nor is anything of it called for traces that start later.", "quantifier": "all interleavings of trace starts, the initial scan and cancel", "why_tests_cant": "the cancel/attach race needs a specific schedule", "anchors": ["collect/trace.go: ObserveAllTraces"]}
{"id": "C28", "title": "SpanCollector ends once and returns the tree of collected spans", "statement": "In any interleaving of Start, Finish, ForceStart and Stop, the done channel is closed at most once (never a double-close panic), and - with span ids distinct and each span finishing once - Spans returns nothing, or the triggering span first followed by exactly the collected spans connected to it through collected parents, each once; it returns something if the triggering span's end was recorded before it was called; spans of other traces never appear, and the walk ends for any parent ids (remote ones too).", "quantifier": "all interleavings and all span trees", "why_tests_cant": "double close needs a race; tree shape unbounded", "anchors": ["collect/collect.go: SpanCollector.Start, Finish, Stop, ForceStart, Spans, spanFinder.Stop"]}
{"id": "C29", "title": "Collected but unconnected spans are dropped", "statement": "WatchForSpans returns all spans of the trace that finished between the trigger and the end of the triggering span - only if every ancestor up to the trigger also finished in that period; the unrestricted documented claim ('All collected spans are returned') is false.", "quantifier": "all finish orders and tree shapes", "why_tests_cant": "depends on asynchronous finish order", "anchors": ["collect/collect.go: Spans, Finish", "collect/ctx.go: WatchForSpans, CollectSpans"]}
{"id": "C30", "title": "Delta transformer reports exact differences", "statement": "For every stream of stats through a DeltaTransformer, every stat is forwarded unchanged and in order, and each 'total' is followed by a 'delta' equal to it minus the previous total of the same rendered series (equivalently of the same key, unless a measurement, tag key or tag value ends in a backslash), exactly when there was one; hence, up to rounding, deltas telescope to last minus first. When several goroutines use the transformer, their totals take effect one after another in an order that respects real time.", "quantifier": "all streams of stats, any number of series, all schedules", "why_tests_cant": "must hold for every history", "anchors": ["transform.go: DeltaTransformer.Transform"]}
{"id": "C31", "title": "Transformers compose in the documented registry order without affecting other registries", "statement": "Stats delivered through a registry with transformers t1..tn pass through tn first and t1 last; WithTransformers never changes what the original registry or any previously derived registry delivers, while all of them share scopes.", "quantifier": "all derivation histories of registries, all transformer lists", "why_tests_cant": "slice aliasing after append shows up only for particular capacities/histories", "anchors": ["registry.go: WithTransformers, Stats", "transform.go: TransformStatSource"]}
{"id": "C32", "title": "Scope stats are complete and tagged", "statement": "Scope.Stats, whatever registrations run concurrently, visits every source and gauge registered before the call exactly once, every chained source registered before it in order, and nothing unregistered; it forwards every stat they emit exactly once, with field and value untouched and the key changed only by setting tag 'scope' to the scope name (overriding any user tag of that name).", "quantifier": "all scopes, all sources and all emitted stats", "why_tests_cant": "unbounded collections", "anchors": ["scope.go: Scope.Stats, allNamedSources, Chain", "registry.go: Stats, Scopes"]}
{"id": "C33", "title": "Collect keeps the last value of every rendered series", "statement": "Collect returns a map whose keys are exactly the rendered series emitted and whose values are the last value emitted for each.", "quantifier": "all stat streams", "why_tests_cant": "unbounded streams", "anchors": ["stats.go: Collect"]}
{"id": "C34", "title": "StatSourceFromStruct reports exactly the float/bool-convertible fields", "statement": "For every struct value, Stats reports each non-ignored numeric or bool field exactly once in declaration order under its dotted path (bools as 0/1), descends into exported structs and through pointers, skips everything else, and panics iff a nil pointer field is met (even an ignored one); a non-struct yields nothing.", "quantifier": "all nested struct values", "why_tests_cant": "unbounded nesting of types", "anchors": ["struct.go: StatSourceFromStruct, deref", "val.go: StructVal.Stats"]}
{"id": "C35", "title": "BoolVal is consistent under concurrency", "statement": "In any interleaving of Observe and Stats (fewer than 2^63 steps), the emitted disposition equals true minus false of the same report, each count lies between the observations completed before the report began and those started before its end, and a report made with no call in flight gives exactly the numbers of observed trues and falses, with recent the value of an observation after whose end no other observation began (0 if there was none).", "quantifier": "all interleavings of the atomic operations", "why_tests_cant": "needs specific schedules", "anchors": ["val.go: BoolVal.Observe, Stats"]}
{"id": "C36", "title": "A RunningTimer records at most one observation", "statement": "However often and from however many goroutines Stop is called, a RunningTimer adds exactly one value to its Timer (the elapsed time of one Stop, the first to get the lock, which no other Stop of that RunningTimer had finished before), every Stop returns its own elapsed time, and Values contains every RunningTimer one of whose Stops finished before Values was called.", "quantifier": "all interleavings of Stop calls", "why_tests_cant": "needs specific schedules", "anchors": ["timer.go: RunningTimer.Stop, Timer.Values"]}
{"id": "C37", "title": "Error names follow the documented precedence", "statement": "The name recorded for an error is the result of the most recently added handler that accepts it, else its own Name if it offers one, else the built-in name of the known standard errors, else 'System Error'; handlers added concurrently never disturb a lookup in progress. Builds for appengine and tinygo name some errors ('Errno' there, four net types here) as 'Network Error' instead, and agree with the ordinary build on all others.", "quantifier": "all handler lists and all errors, all interleavings of additions", "why_tests_cant": "unbounded handler lists; slice sharing", "anchors": ["error_names.go: AddErrorNameHandler, getErrorName", "error_names_net.go: getNetErrorName"]}
{"id": "C38", "title": "Function names are extracted correctly", "statement": "For every fully qualified name consisting of a package path whose last element contains no dot, a dot, and a non-empty function part without '/', the function part is returned unchanged; names without such a part are rejected; the function never indexes out of range.", "quantifier": "all byte strings", "why_tests_cant": "unbounded strings", "anchors": ["callers.go: extractFuncName"]}
{"id": "C39", "title": "Package names are extracted correctly", "statement": "For every fully qualified function name with a '/' in its package path, the scope name used by Package() is exactly the package path; for a path-less package such as main it is '/main' (so the claim without the proviso is false).", "quantifier": "all byte strings", "why_tests_cant": "unbounded strings", "anchors": ["callers.go: callerPackage"]}
{"id": "C40", "title": "Trace headers round-trip", "statement": "For every TraceInfo with non-negative TraceId and ParentId, writing it with SetHeader onto any header and reading it back with TraceInfoFromHeader yields the same ids and sampling flag; if either id is negative the receiver gets no trace information at all (so the unrestricted claim is false); without both ids, on a header that holds no trace headers yet, exactly the sampling flag survives (on a reused header a stale traceparent survives too, so that proviso is needed).", "quantifier": "all int64 ids", "why_tests_cant": "2^128 id pairs", "anchors": ["http/info.go: SetHeader, TraceInfoFromHeader, hexToUint64"]}
{"id": "C41", "title": "Baggage round-trips and is filtered", "statement": "For every header, the keys imported from the baggage are exactly the allowed keys that occur in it, each with the value of its last occurrence; a baggage map whose keys contain no ',' or '=' and whose values contain no ',' is recovered exactly, restricted to the allowed keys, whatever the map iteration order, provided non-negative trace ids are present. No request can put annotations with other keys on the server's span.", "quantifier": "all maps, orders and allow lists", "why_tests_cant": "unbounded strings and orders", "anchors": ["http/info.go: SetHeader, TraceInfoFromHeader"]}
{"id": "C42", "title": "Malformed trace headers are ignored as a whole", "statement": "For every header content TraceInfoFromHeader terminates without panic and returns either both ids or neither; ids are returned iff traceparent consists of exactly four '-'-separated fields that are hex numbers below 2^64 with version 0; in particular every 128-bit trace id with non-zero upper half is rejected.", "quantifier": "all byte strings", "why_tests_cant": "unbounded strings", "anchors": ["http/info.go: TraceInfoFromHeader, hexToUint64"]}
{"id": "C43", "title": "Recorded HTTP status matches what was sent", "statement": "For every underlying writer and every handler that uses http.ResponseWriter and http.Flusher only, running it on the writer returned by Wrap makes exactly the same calls in the same order on the underlying writer and gets the same answers as running it on the writer itself. If it calls WriteHeader at most once, with a final (not 1xx informational) status, before writing or flushing, the status recorded by Wrap (and annotated by the handler of TraceHandler when it returns) is the status net/http sends. Outside that protocol (second WriteHeader, WriteHeader after Flush, informational statuses) the recorded code can differ, and other interfaces of the writer such as http.Hijacker are hidden: the unrestricted claims are refuted. The span of TraceRequest gets the same status as http.responsecode when a response arrives, and none otherwise.", "quantifier": "all sequences of handler calls", "why_tests_cant": "unbounded call sequences", "anchors": ["http/http.go: Wrap, responseWriterObserver"]}
{"id": "C44", "title": "DOT labels are safe and lossless", "statement": "For every byte string the escaped DOT label contains no double quote, no newline and no backslash except in the sequence '\\l', and different strings have different escapes; the quoted strings of the graph written by SpansDot are exactly the labels of the spans, whatever their names, arguments and annotations.", "quantifier": "all byte strings", "why_tests_cant": "unbounded strings", "anchors": ["present/dot.go: escapeDotLabel"]}
{"id": "C45", "title": "JSON lists are well formed and errors are sticky", "statement": "For every sequence of elements and every pattern of write failures, the list writer emits '[', the elements separated by ',', and ']' when nothing fails, and otherwise stops writing at the first failure and reports it from done; an element that cannot be marshalled truncates the output: with a Counter that was never set (its high and low are NaN) StatsJSON always returns an error and an unclosed list, and over HTTP, when what precedes fits in 4096 bytes, the client gets status 200 and an empty page.", "quantifier": "all element lists and failure patterns", "why_tests_cant": "unbounded lists, all fault positions", "anchors": ["present/json.go: listWriter", "present/stats.go: StatsJSON", "counter.go: Stats"]}
{"id": "C46", "title": "Request routing is total and matches the documentation", "statement": "For every path and query FromRequest returns a page exactly for the documented paths (plus / and /stats/old), with any number of extra slashes and trailing segments; a trace page exactly when the parameters are valid, with a matcher accepting exactly the spans whose Func matches the regex (and was known at the time of the request, unless preselect is off) and whose trace id is the given one; a bad-request error (400) exactly when the path starts with trace and the parameters are invalid; and not-found (404) otherwise. That every link of the index page leads to a page is refuted: stats/svg is not found.", "quantifier": "all paths and queries", "why_tests_cant": "unbounded strings", "anchors": ["present/path.go: FromRequest, shift", "present/errs.go: getStatusCode"]}
{"id": "C47", "title": "Keep-alive pings stop", "statement": "In any interleaving of ticks, ping outcomes (including panics), cancellation of ctx and calls of stop: when a stop returns no ping is running and none starts or ends afterwards; a failed ping is the last one; stop returns exactly the failure that happened before it, and all calls of stop return the same; pings never overlap and each needs its own tick; the derived context is cancelled iff ctx was or a ping failed and the loop has taken its next two steps; every call of stop can be carried through to its return once a running ping returns; a panicking ping counts as failed, except panic(nil). That no ping starts after stop is called (before it returns), and that the derived context is already cancelled when stop returns a failure, are refuted.", "quantifier": "all interleavings", "why_tests_cant": "races between ticker and stop", "anchors": ["present/utils.go: keepAlive, catchPanics"]}
{"id": "C48", "title": "Trace diagrams do not overlap bars", "statement": "For finished spans with distinct ids, no parent id 0, no cycle of parents, and each span within the time of its parent (if present), SpansToSVG's layout terminates, and whatever the map iteration order: two different spans in the same row do not overlap in time, each bar lies strictly below its parent's bar, and every bar lies inside the picture's height. A span outliving its parent can be drawn over another one, and a span that is its own parent with id 0 makes the layout recurse forever (refuted).", "quantifier": "all span forests and timings", "why_tests_cant": "unbounded trees and timings", "anchors": ["present/trace.go: computeSpanTree, includeSpanInLayoutInformation, computeRow, computeLayoutInformation"]}
{"id": "C49", "title": "Bar coordinates", "statement": "For non-empty spans with non-zero times and finish >= start whose overall duration is positive and below 2^63/1200 ns, each bar starts at floor(1200*(start-min)/(max-min)), lies within 0..1201, is at least 1 wide, and covers its span's scaled end; bars are ordered like the start times; min and max are the earliest start and latest finish. With zero overall duration drawing panics (division by zero), and over about 89 days a bar can get a negative position (refuted).", "quantifier": "all span lists and int64 times", "why_tests_cant": "all 64-bit times", "anchors": ["present/trace.go: SpansToSVG timeToX"]}
{"id": "C50", "title": "Windows monotonic clock", "statement": "The Windows clock used for all durations is non-decreasing as long as at most 2^63/10^9 performance-counter ticks have elapsed (about 15 minutes at 10 MHz); beyond that it overflows and goes backwards (the unrestricted claim is false).", "quantifier": "all counter values and frequencies", "why_tests_cant": "needs long uptimes", "anchors": ["monotime/monotime_windows.go: elapsed"]}
{"id": "C51", "title": "Span spin lock excludes", "statement": "In any interleaving at most one goroutine is between Lock and Unlock of the same spin lock, and an unlocked lock can always be acquired.", "quantifier": "all interleavings", "why_tests_cant": "mutual exclusion over all schedules", "anchors": ["spinlock.go: spinLock.Lock, Unlock"]}
{"id": "C52", "title": "GC pauses recorded by the Runtime source", "statement": "Each Stats call of environment.Runtime after the first garbage collection inserts the most recent pause into runtime_gcstats; earlier calls insert nothing and nothing else is inserted. So with exactly one collection before each call every pause is recorded once. In general pauses are not recorded once: the last-seen GC number is never updated, so repeated calls re-insert the same pause, and pauses between calls are missed (refuted).", "quantifier": "all histories of collections and Stats calls", "why_tests_cant": "depends on runtime history", "anchors": ["environment/runtime.go: Runtime"]}
{"id": "C53", "title": "Task.Func returns the task's Func", "statement": "Func() on a Task obtained from Func.Task or TaskNamed returns that Func without starting a span; on a Task from Scope.Task it returns the Func the task records to - only after the task has been called once, before that it panics (so the unrestricted claim is false).", "quantifier": "all call sequences", "why_tests_cant": "depends on call history", "anchors": ["task.go: Task.Func, taskArgs", "ctx.go: Scope.Task, Func.Task"]}
{"id": "C54", "title": "Snapshots are stable", "statement": "A slice returned by Annotations, a handler list in use and a map returned by GetAll/Errors never changes after it was returned, no matter how many later Annotate/Add/Set calls happen, even though appends reuse the backing array.", "quantifier": "all histories of appends and reads, all growth policies of append", "why_tests_cant": "sharing of backing arrays depends on capacities", "anchors": ["span.go: Annotate, Annotations", "error_names.go: AddErrorNameHandler", "trace.go: GetAll"]}
{"id": "C55", "title": "Panics are recorded and propagate unchanged", "statement": "The exit function of a Task or FuncStats.Observe records a panic as a panic (never as error or success), performs all span bookkeeping, and re-panics with the same value; without a panic it does not panic and records nil error pointers as success. (panic(nil), whose recover() result is nil under this module's language version, is swallowed and counted as a success: refuted.)", "quantifier": "all outcomes and nesting depths", "why_tests_cant": "every outcome at every nesting depth", "anchors": ["ctx.go: newSpan exit", "funcstats.go: Observe"]}
{"id": "C56", "title": "Gauges report the latest callback", "statement": "After any sequence of Gauge registrations on a Scope, Stats reports for each gauge name exactly one value, from the most recently registered callback; registering over a non-gauge source panics and changes nothing.", "quantifier": "all registration histories", "why_tests_cant": "must hold for every history", "anchors": ["scope.go: Gauge"]}
{"id": "C57", "title": "Function series keys carry name and tags", "statement": "FuncNamed(name, tags) reports ShortName equal to name and its three families of series carry exactly the given tags plus name/kind/error_name - only if the tags do not use those reserved keys; with reserved keys names and series are overwritten (refuted in general).", "quantifier": "all names and tag lists", "why_tests_cant": "unbounded tag lists", "anchors": ["scope.go: FuncNamed", "func.go: ShortName, FullName", "funcstats.go: initFuncStats, Stats"]}
{"id": "C58", "title": "Funcs enumerates every Func once", "statement": "Scope.Funcs calls its callback exactly once for every Func registered on the Scope, and for nothing else, in any map iteration order.", "quantifier": "all registration histories and schedules, all iteration orders", "why_tests_cant": "iteration order and histories are unbounded", "anchors": ["scope.go: Scope.Funcs"]}
{"id": "C59", "title": "Values behind a mutex are linearizable", "statement": "In any interleaving of Observe, Quantile and Stats on an IntVal, FloatVal or DurationVal, and of Stop and Values on a Timer, there is one order of the calls, consistent with which calls finished before which others began, such that every call returns or reports what it would have if the calls had been made one at a time in that order; in particular a Stats report describes a single moment.", "quantifier": "all interleavings of the calls; any value type, random stream, Window values", "why_tests_cant": "needs specific schedules", "anchors": ["val.go: IntVal, FloatVal, DurationVal", "timer.go: Timer, RunningTimer"]}
{"id": "C60", "title": "Trace values are those last set", "statement": "Trace.Get returns the value most recently Set for the key (nil if none), and changing a map returned by GetAll never changes what Get or another GetAll returns.", "quantifier": "all histories of Set, Get, GetAll and writes by callers to the maps they got", "why_tests_cant": "unbounded histories; sharing of maps", "anchors": ["trace.go: GetAll, Get, Set"]}
{"id": "C61", "title": "Sampled traces are carried across services", "statement": "When TraceRequest is made from a span of a sampled trace whose ids are non-negative, whatever headers the request already had, the span started by TraceHandler on the receiving side belongs to the same trace id, is sampled, and has as parent id the parent of the client's span (or the client's span itself if it has no parent); across any number of local child spans and requests in any order the trace id and the sampling decision stay the same. From an unsampled span, unless the request already had trace headers, the server starts an unsampled trace of its own. A request that only asks for sampling (tracestate sampled=true) gets a sampled trace and the response carries its trace and span id. The server's span being a child of the client's span is refuted: they are siblings when the client's span has a parent.", "quantifier": "all spans, ids, headers, handlers and journeys of any length", "why_tests_cant": "unbounded chains of services and 2^63 ids each", "anchors": ["http/info.go: TraceInfoFromSpan, SetHeader, TraceInfoFromHeader", "http/server.go: ServeHTTP", "http/client.go: TraceRequest"]}
{"id": "C62", "title": "Reports are written completely or the error is returned", "statement": "StatsText, SpansText, SpansDot and FuncsDot, on any io.Writer, write their whole text and return nil, or stop at the first Write that fails and return its error, having written exactly what came before plus what that Write took. Through FromRequest's buffering the same holds up to a prefix. FuncsText is complete if no Write fails; that it returns an error whenever something is missing is refuted: a failed Write of a parent is overwritten by the next successful one.", "quantifier": "all reports and all patterns of write failures", "why_tests_cant": "every position of a fault in reports of any size", "anchors": ["present/stats.go: StatsText", "present/spans.go: SpansText, SpansDot", "present/funcs.go: FuncsDot, FuncsText", "present/path.go: FromRequest"]}
{"id": "C63", "title": "Keep-alive bytes only reach the client when the buffer fills", "statement": "The bytes written by keep-alive pings go through FromRequest's 4096-byte buffer: until buffered bytes and pings together exceed 4096, nothing is written to the client's connection. That every ping sends something to the client, as the keep-alive intends, is refuted.", "quantifier": "all numbers of pings and buffered bytes", "why_tests_cant": "unbounded runs (4096 pings take hours)", "anchors": ["present/path.go: FromRequest", "present/utils.go: keepAlive"]}
{"id": "C64", "title": "proc_stat and proc_statm values", "statement": "For every /proc/self/stat or statm line with the documented fields separated by single spaces, each numeric field (and the state byte) is reported exactly once, in order, under its field name with its value, for every int64/uint64 value; an unreadable file reports nothing. A process whose name contains white space (up to 64 bytes) reports no proc_stat value at all (refuted for such names).", "quantifier": "all field values, all process names, all trailing text", "why_tests_cant": "parses data whose extreme values and process names are not under the test's control", "anchors": ["environment/proc_linux.go: proc, readProcSelfStat, readProcSelfStatm"]}
{"id": "C65", "title": "environment.Register attaches every source", "statement": "Register attaches all registered sources, in order and behind what was already chained, to the scope named after the package's import path, once per call. The scope is not called 'env' as the comment says (refuted).", "quantifier": "all registration lists, any number of calls", "why_tests_cant": "needs a statement about all call counts and lists", "anchors": ["environment/env.go: Register", "registry.go: Package", "callers.go: callerPackage"]}
{"id": "C66", "title": "Process and OS values", "statement": "Every Stats call of environment.Process reports control 1 and the uptime, and the CRC obtained by the first call, even if the file changes later; if the first read failed the CRC is never reported. The descriptor count is the total number of names over all directory batches, and is not reported if opening or listing fails.", "quantifier": "all histories of calls and read results, all batchings", "why_tests_cant": "depends on files and histories", "anchors": ["environment/process.go: Process, processCRC", "environment/os.go: OS", "environment/os_unix.go: fdCount"]}
{"id": "C67", "title": "Registry walks its scopes in name order", "statement": "Registry.Scopes calls its callback once for every scope, in strictly increasing order of scope names, no matter in which order the scopes were created or how the runtime iterates the scope map. Registry.Funcs and Registry.Stats go through the scopes in that same order, so two walks over the same scopes whose contents are reported in the same order give the same sequence.", "quantifier": "all sets of scopes with distinct names, all contents of them, all map iteration orders", "why_tests_cant": "Go randomises map iteration, a test with a few scopes sees a handful of the orders, and a sort that is wrong only for some names (prefixes, empty names, bytes above 127) passes on typical ones.", "anchors": ["registry.go:211-222 (Scopes)", "registry.go:225-227 (Funcs)", "registry.go:230-235 (Stats)", "registry.go:271-275 (scopeSorter)"]}
{"id": "C68", "title": "Reservoir generator has the full period 2^128 - 1", "statement": "The xorshift128 generator that every distribution uses to pick reservoir slots, started from any state other than all zeros, comes back to the same state after exactly the multiples of 2^128 - 1 draws, and its stream of results repeats after exactly those shifts too. In one period every non-zero state occurs exactly once, so every 64-bit result occurs 2^64 times (0 one time less). Every seed other than 0 starts it from a non-zero state; seed 0 gives the all-zero state, from which every draw is 0.", "quantifier": "all non-zero 128-bit states, all shifts, all non-zero 64-bit seeds", "why_tests_cant": "The period has 39 decimal digits, so no run can observe it or the equal frequency of results; a mistyped shift constant gives a generator that looks equally random on any sample while its period may be far shorter (as happens in xorshift1024 of the same file).", "anchors": ["rng.go:151-166 (xorshift128, Seed)", "rng.go:174-181 (xorshift128.Uint64)", "rng.go:51-66 (xorshift64.Uint64, used by Seed)", "intdist.go:52,91 (rng, Insert)", "floatdist.go, durdist.go (same code)"]}
{"id": "C69", "title": "Jump of xorshift1024 commutes with drawing but is not 2^512 draws", "statement": "xorshift1024.Jump keeps the state valid, and jumping after n draws gives exactly the state reached by jumping first and drawing n results then, so streams separated by jumps stay the same distance apart wherever the jump is made. The comment on Jump (it advances the state 2^512 iterations) is false for the generator as written: Uint64 shifts s1 right by 1 where the published xorshift1024* generator, for which the jump table was computed, shifts by 11. There is a non-zero state from which the first result after Jump differs from result number 2^512, and from that state the results repeat every 4369 draws, so the published period 2^1024 - 1 is false as well.", "quantifier": "all valid states of 16 64-bit words and a position, all numbers of draws", "why_tests_cant": "Nobody can draw 2^512 results to compare, random states almost never lie on the short cycles, and the output looks equally random with either shift.", "anchors": ["rng.go:110-122 (xorshift1024.Uint64)", "rng.go:124-140 (Jump)", "rng.go:142-149 (xorshift1024jump)"]}
{"id": "C70", "title": "WatchForSpans returns one matching span with its collected descendants, or the context's error", "statement": "A call of collect.WatchForSpans waits until a span for which the matcher answered true has finished, and returns that span's outcome followed by the collected spans of its trace that descend from it through collected spans: each span once, all finished since the call, and among them every span that finished, with all its ancestors up to the matching span, between the matching span's start and its finish. It returns an error only if ctx was cancelled, and once select takes the cancellation it returns after a fixed number of steps of its own whatever notifications are in progress. After it has returned, span notifications that begin later change nothing. (Every span finishes once and ids are distinct; if both a result and the cancellation are ready, either may be returned.)", "quantifier": "every interleaving of span starts and finishes on any number of goroutines, the context's cancellation and the call's own steps", "why_tests_cant": "a test sees one schedule; the claim needs cancellation, the trigger, Finish and Spans to race in every order", "anchors": ["collect/ctx.go:32-46", "collect/collect.go:59-146"]}
{"id": "C71", "title": "FindSpan returns exactly for a matching span start or a cancelled context", "statement": "collect.FindSpan returns only if ctx was cancelled or a span for which the matcher answered true was started. Once that span's Start notification has returned (and no other notification is about to close the channel), or once ctx is done, FindSpan returns within five steps of its own. With a nil matcher it returns at once. After it has returned later starts do nothing.", "quantifier": "every interleaving of span starts, cancellation and FindSpan's own steps", "why_tests_cant": "concurrent matches race to close one channel; tests try one order", "anchors": ["collect/ctx.go:75-90", "collect/collect.go:158-192"]}
{"id": "C72", "title": "CollectSpans returns the task it ran work in and the spans finished under it", "statement": "collect.CollectSpans called with a span in ctx returns a list that begins with the finished span of the task it ran work in and goes on with spans of the same trace that descend from it through collected spans, each once, all finished since the call; every span whose whole Finish happened while work ran, and all of whose ancestors up to the task also finished while work ran, is in the list. If work panics no list is returned. (Every span finishes once and ids are distinct.)", "quantifier": "every interleaving of span starts and finishes with the call's own steps, however many spans work creates and on however many goroutines", "why_tests_cant": "work may use any number of goroutines that finish spans while the result is assembled", "anchors": ["collect/ctx.go:52-70", "collect/collect.go:59-146"]}
{"id": "C73", "title": "SpansToSVG writes a well-formed SVG file that shows every span", "statement": "If present.SpansToSVG returns without an error what it wrote is UTF-8 text and well-formed XML: one svg root, every element closed, no attribute twice. In it there is exactly one group of elements per span, in the order of their start times (if these lie between 1678 and 2262), so that the bars come from left to right, whose label is the function name, the arguments joined by spaces and the duration, and whose tooltip also has the time since the earliest start of all. Names and arguments of valid XML characters are shown exactly; bytes that are not UTF-8 and characters XML forbids are each shown as U+FFFD. Durations are exact: read back they give the nanoseconds (for differences that fit an int64).", "quantifier": "for all lists of finished spans, names and arguments of arbitrary bytes, times, map iteration orders and sort results", "why_tests_cant": "any byte string can be a name or argument: a single character that is not escaped makes the file unreadable, and samples do not cover all positions in all multi-byte sequences", "anchors": ["present/trace.go:36-139", "present/trace.go:247-371"]}
{"id": "C74", "title": "The tooltip script of a span passes its text on only if that has no quote, backslash or line end", "statement": "If the function name and the arguments of a span contain no single quote, backslash or line end, the span's onmouseover script is a single call of mouseover with three string literals: the span's id, its parent's id, and the text name(args) Duration:d Started:s. Without the proviso this is false: the text is escaped for XML only, and XML readers undo that before the script runs, so an argument such as '); alert(1); (' ends the literal and its middle is run as a script.", "quantifier": "for all lists of finished spans, names and arguments", "why_tests_cant": "the failure needs a particular character in an argument, and shows only when an SVG viewer runs the script", "anchors": ["present/trace.go:132-138", "present/trace.go:336-350"]}
{"id": "C75", "title": "The colour of a span's bar tells how it ended", "statement": "The bar of a span in SpansToSVG is red if the span panicked; otherwise blue if it ended without an error, yellow if following WrappedErr from its error as far as it goes ends at context.Canceled, and orange for any other error. An error that wraps context.Canceled only with Unwrap (as fmt.Errorf with %w does) is drawn orange.", "quantifier": "for all lists of finished spans and all chains of wrapped errors", "why_tests_cant": "chains of wrapped errors have any length and mix both ways of wrapping", "anchors": ["present/trace.go:288-296", "present/trace.go:373-389"]}
{"id": "C76", "title": "SpansToSVG draws bars where the layout puts them and joins them to their parents", "statement": "Every bar of SpansToSVG has the row, the left edge and the width computed by the layout, with its text inside of it. The line of a span starts halfway down the left edge of its bar; if its parent is among the spans (with distinct ids), it ends halfway down the left edge of the parent's bar and the span's class names the parent's id, so that hovering highlights the right spans; if not, it ends at (0,0) and the class names parent 0.", "quantifier": "for all lists of finished spans, map iteration orders and sort results", "why_tests_cant": "the coordinates of the line are computed a second time, separately from those of the parent's bar, and have to agree for all layouts", "anchors": ["present/trace.go:262-371"]}
{"id": "C77", "title": "TraceQuerySVG and TraceQueryJSON write keepalive newlines only before the document, one Write at a time, and report a failed Write", "statement": "While a trace query waits it writes a newline per tick of its keepalive timer; once the spans are found it writes their document. Calls of w.Write never overlap, none is made after the query returned, and what is written is always some newlines (not more than the ticker fired) followed by a beginning of the document; all of it if nil is returned. The document is that of the spans WatchForSpans found. An error is returned only if a Write failed, and then that error: if a ping failed (or panicked with a non-nil value), nothing of the document is written, the wait ends without any span having to match, and the query returns the ping's error, never the cancelled context's. Not guaranteed: that TraceQuerySVG's output is well-formed XML; it is not as soon as one newline precedes the XML declaration.", "quantifier": "for all interleavings of the ticker, the keepalive goroutine, the notifications of spans and the query itself, all results (also panics) of the writer, all ways the document is cut into Writes", "why_tests_cant": "the keepalive goroutine and the query share the writer without a lock around both; an overlap or a late ping needs a tick within a window of microseconds every 30 seconds", "anchors": ["present/trace.go:391-444", "present/utils.go:34-87"]}
{"id": "C78", "title": "Span.Args gives each argument one printable text from which strings, byte slices and times can be read back", "statement": "Args has one string per argument of the task, in order. The string of a string argument is a Go string literal whose value is exactly the argument's bytes, whatever they are (also invalid UTF-8, quotes, newlines). From the comma-separated line shown by SpansText, SpansDot and TraceQuerySVG's tooltip any sequence of strings, byte slices, times and slices of these can be read back unambiguously: two different sequences never give the same line. Quoted text consists of printable runes only, so no string argument can break the line; the whole line is printable if what %#v writes for arguments of other types is. Not guaranteed: that arguments of other types can be told apart (a value of a defined string type is written like a string), nor that their text has no newline.", "quantifier": "for all argument lists, all byte strings, all tables of printable runes", "why_tests_cant": "ambiguities appear only for arguments containing separators, quotes, escapes or invalid UTF-8 in particular combinations", "anchors": ["span.go:105-150", "present/spans.go:33", "present/spans.go:91"]}
{"id": "C79", "title": "The JSON reports are JSON that stands for the values, and a report cut short is not JSON", "statement": "What SpansJSON, FuncsJSON, StatsJSON and TraceQueryJSON write when they return nil is a JSON text in UTF-8 holding one array with an element per value, in order; so it is with the keepalive newlines of TraceQueryJSON before it. Each element stands for its value: integers and strings can be read back exactly (of strings that are not UTF-8 each offending byte is replaced by U+FFFD), map entries become members in increasing order of key whatever the order of iteration, and an element is on one line without <, > and &, so that no name, argument or error can break out of it. A report cut short anywhere before the end of the closing bracket, by a failed Write or by a value that cannot be marshalled, is not JSON, so the reader notices. Not guaranteed: that strings or map keys that are not UTF-8 stay distinct.", "quantifier": "for all values, all byte strings, all map orders, all places at which writing stops", "why_tests_cant": "escaping errors show only for particular bytes in names, arguments and error messages; truncation has to be detected at every position of every document", "anchors": ["present/json.go:27-207", "present/utils.go:34-87"]}
{"id": "C80", "title": "The JSON reports show what the spans, functions and statistics are", "statement": "SpansJSON gives for every span the id, the parent's id if it has one, package and function name, trace id, start, elapsed time, whether it is orphaned, its arguments and its annotations, in order; TraceQueryJSON gives the finish time, error text and panicked flag as well. From the args member, arguments that are strings, byte slices, times and slices of these can be recovered exactly. FuncsJSON gives for every function id, names, counters, error counts, the ids of its parents (null if it has none), entry exactly if it was called without a parent, and for success and failure times the averages, extremes, the most recent time and each observed quantile under its two-decimal name. StatsJSON gives measurement, tags (null if there are none), field and value. Not guaranteed: an error with an empty message looks like success, and of observed quantiles with the same two decimals only the last is shown.", "quantifier": "for all spans, functions, statistics with 64-bit integers and finite values", "why_tests_cant": "a report is compared with particular values in tests; that no combination of fields, escapes and omitted members is misread needs all of them", "anchors": ["present/json.go:27-172", "present/spans.go:128-136", "present/funcs.go:182-190", "present/stats.go:39-47", "present/trace.go:419-426"]}
{"id": "C81", "title": "The DOT reports are graphs of exactly the spans and functions", "statement": "When SpansDot returns nil, what it wrote is a graph in the DOT language with one node per span, named after its id, whose label shows name, arguments, elapsed time, orphaned flag and annotations whatever bytes they hold, and with exactly one edge from each span to each of its children; edges only join nodes of the graph, and different spans have different nodes. When FuncsDot returns nil, what it wrote is such a graph with one node per function, whose label shows the counters, the error counts and, if there were any, the success and failure times, one more node if it was called without a parent, and an edge from each parent. A failed Write is reported.", "quantifier": "for all forests of spans and lists of functions with ids as NewId makes them, all names, arguments, annotations and durations, error counts that fit an int64", "why_tests_cant": "a label that ends too early, swallows a node or makes the graph unreadable shows only for particular bytes; that the graph has exactly the right nodes and edges has to hold for all trees", "anchors": ["present/spans.go:25-83", "present/funcs.go:25-120", "present/dot.go"]}
{"id": "C82", "title": "SpansText can be read back: the trees and all that is said of each span", "statement": "From the text of SpansText, provided no name, argument or annotation contains a line end, one can read for every span its id and trace id, name(arguments), elapsed time to the nanosecond, whether it is orphaned and each annotation, and which span it is below: two forests with the same report have the same trees. Not guaranteed: with a line end in an annotation the report can show a span that does not exist.", "quantifier": "for all forests of spans with 64-bit ids and durations, all line-free names, arguments and annotations (including ones that contain brackets, colons or the words of the report)", "why_tests_cant": "ambiguities between annotations, indentation and spans show only for particular strings and shapes of trees", "anchors": ["present/spans.go:85-128"]}
{"id": "C83", "title": "FuncsText can be read back: parents, counters, errors and times of each function", "statement": "From the text of FuncsText, written to a writer that does not fail and provided names and error names contain no line end, one can read for every function its id and name, its parents (entry for none), the five counters with the errors added up, the count for each error name, and each quantile, average, recent and sum of the success and failure times to the nanosecond. Not guaranteed: with a line end in an error name the report can show errors that do not exist.", "quantifier": "for all lists of functions with 64-bit numbers, error counts that fit an int64, all line-free names", "why_tests_cant": "names may contain the separators of the report (colons, commas, brackets); that nothing is ever misread needs all names", "anchors": ["present/funcs.go:25-36", "present/funcs.go:122-182"]}
{"id": "C84", "title": "The reservoir is a fair sample", "statement": "Each distribution (IntDist, FloatDist, DurationDist) keeps 64 of the values it was given, for its quantiles. If the numbers drawn are uniform, then as long as no more than Window values were inserted (any number if Window is not positive) every inserted value is equally likely to be among the kept ones: the chance is 64/n after n values (1 up to 64), whatever the order in which values, queries and averages came. After that the chance of a value decays by exactly the factor 1 - 1/Window with every later value, and a later value is never less likely to be kept than an earlier one. With uniform 64-bit numbers (what the generator provides) reduced modulo the window, the chance differs by the rounding of 2^64/window only. Sorting the reservoir for a query does not change any of these chances, nor do the values themselves. Not guaranteed: any of this if Window is between 1 and 63; then values in high slots are never replaced and the sample is biased towards old values.", "quantifier": "for all histories of inserts, queries and averages, all values, all Window settings (positive windows at least 64), all positions; chances are exact counts over all sequences of draws", "why_tests_cant": "fairness is a statement about all sequences of random draws at once; a test can only sample some and look at frequencies", "anchors": ["intdist.go:63-97", "dist.go:21-44", "floatdist.go:63-97"]}
{"id": "C85", "title": "The statistics text report can be read back", "statement": "Every statistic the Registry reports appears in StatsText (and so at /stats and /stats/text) as one line name=value, in the order reported: splitting the text into lines and each line at its last equals sign gives exactly the series names with their fields and the values. A value is shown to within half a millionth, with its sign, or as NaN, +Inf or -Inf; whole numbers are shown exactly, and a larger value is never shown as a smaller one. Therefore two reports that read the same are about the same series and fields in the same order (if no name ends in a backslash, see C01), with values no more than a millionth apart. This holds for however much of the report the writer accepted before failing. Not guaranteed: that different values look different (everything below half a millionth is 0.000000); any of this if a measurement, tag or field contains a line break.", "quantifier": "for all lists of series, fields and float64 values (normal, subnormal, zero with sign, infinite, NaN), all writers", "why_tests_cant": "values range over all float64s and names over all strings with the report's own separators in them; rounding, sign and escaping interact", "anchors": ["present/stats.go:24-38", "stats.go:56-62"]}
{"id": "C86", "title": "The JSON statistics report gives values exactly", "statement": "In StatsJSON (and at /stats/json) every value is a JSON number that stands for exactly the float64 reported: rounding it to the nearest float64, as JSON parsers do, gives that float64 again, including the sign of zero, and no other. No decimal with fewer digits would do. The document as a whole is a JSON array with one element [measurement, tags, field, value] per statistic, in order. Not guaranteed: if any value is NaN or infinite StatsJSON fails with an error, whatever the other statistics are.", "quantifier": "for all lists of statistics with any float64 values, all writers; the rounding is IEEE 754 to nearest, ties to even", "why_tests_cant": "there are 2^64 float64s; that seventeen digits are always enough, and that the digits chosen always round back, is an argument about all of them", "anchors": ["present/stats.go:40-48", "present/json.go:174-207"]}
{"id": "C87", "title": "Meters are advanced every ten minutes by one goroutine", "statement": "However many meters are made, from however many goroutines, monkit starts one background goroutine for all of them, when the first is made. Every ten minutes at the soonest it advances each meter made so far exactly once, in the order they were made, with the same meters even if others are registered meanwhile; those are advanced from the next pass on. No meter is ever missed or advanced twice in a pass, and when ten minutes pass and the goroutine gets to run, every meter is advanced again. So what was marked on a meter in the last 230 minutes (and since the last Reset) is counted in its rate: Rate divides the sum of all marks since some moment, no later than that mark, by the time since then. Not guaranteed: that it is still counted after exactly 230 minutes (23 ticks of ten minutes); that passes are no more than ten minutes apart.", "quantifier": "for all numbers of meters, all interleavings of NewMeter, Mark, SetTotal, Reset and the steps of the goroutine, all times between them, all capacities append may choose", "why_tests_cant": "the goroutine sleeps for ten minutes and reads the shared slice without the lock while NewMeter appends to it; a test would take hours and see one interleaving", "anchors": ["meter.go:24-31", "meter.go:59-68", "meter.go:183-210"]}
{"id": "C88", "title": "Averages are close to the mean of what was recorded", "statement": "ReservoirAverage of a distribution is close to the exact mean of the values in its reservoir, which are all the recorded values if there are no more than 64 and 64 of them otherwise. For an IntDist or DurationDist whose values lie within 2^62 of 0 it differs from that mean by less than one unit plus a 65536th part of the mean magnitude of these values; for a FloatDist whose values are finite and within 2^120 of 0 it is finite and differs by no more than a 65536th part of their mean magnitude (plus 2^-148), though it is computed with float32 additions. While Sum of a FloatDist has not overflowed, it differs from the exact sum of the n recorded values (n < 2^50) by no more than n*2^-52 times the sum of their magnitudes, and FullAverage is finite and about as close to the exact mean. If no recorded value is NaN, Low and High of a FloatDist are a smallest and a largest of the recorded values and Recent is the last one. In general, if the first value recorded (since the last Reset) is not NaN, they are a smallest and a largest of those that are not NaN; if it is NaN, Low and High are NaN from then on; and Sum is NaN as soon as any value was. Without values all averages are 0. Not guaranteed: that an average lies between Low and High (that of three times 16777214 is 16777213); a finite average for float values near the top of the range of float32, nor a representable one for int64 values near 2^63; exact sums of floats; numbers as Low and High after a NaN was recorded first.", "quantifier": "all operation histories, all int64 values within 2^62, all finite float64 values within 2^120 (for Sum: all float64 values), all random number streams", "why_tests_cant": "the rounding errors of up to 2^50 additions cannot be enumerated, and the values for which averages go wrong are rare", "anchors": ["intdist.go 100-121, durdist.go 101-122, floatdist.go 38-120: ReservoirAverage, FullAverage, Insert"]}
{"id": "C89", "title": "The App Engine build behaves like the other", "statement": "Built with the tag appengine, the library replaces its atomic pointer operations (load, store, swap, compare-and-swap) by plain reads and writes under one global mutex per package. Whatever a program that touches these pointers only through those functions does in one build, it can do in the other: for every interleaving in the App Engine build there is one in the other, following it step by step, with the same shared state at every moment and every goroutine outside these functions in the same state, and conversely. At most one goroutine is inside the functions, it leaves them after at most three more of its own steps, and a goroutine waiting for the mutex waits for nothing else. So also in that build Func.Parents reports every parent once, observers are notified as documented, and a SpanCollector is triggered by one span and closes its channel once.", "quantifier": "all programs that use the pointers only through these functions, all interleavings of their steps and of the locked reads and writes", "why_tests_cant": "there is no way to run the App Engine build, and the interleavings inside the critical sections cannot be forced", "anchors": ["cas_safe.go 26-76, cas_unsafe.go 29-71, collect/cas_safe.go 30-55, collect/cas_unsafe.go 27-45; callers: funcset.go 41-80, trace.go 56-109, ctx.go 332-355, collect/collect.go 82-123"]}
{"id": "C90", "title": "Goroutines may use monkit at the same time without data races", "statement": "Whatever functions of the library goroutines call, in whatever order, with whatever registries, scopes, funcs, spans, traces, counters, meters, vals, timers and collectors they have, also from inside callbacks, and however their steps interleave: no two of them access the same variable at the same time unless both read it or both use sync/atomic. More exactly, in the sense of the Go memory model one of the two accesses happens before the other, by locks, Once, atomic operations that observe each other, the start of goroutines, or synchronization of the caller's own by which the goroutine got the object. Hence for every plain read there is exactly one write that it may observe, and it is the last one before it: the library behaves as if memory were sequentially consistent. Not guaranteed for three functions. Collect (or StatsText and the like) called directly on one source with tags by two goroutines: the string of a key is cached in the key without a lock. The source of environment.Runtime, whose distribution has no lock, when two goroutines collect statistics. The method Func of a Task made by Scope.Task, called while another goroutine makes the first call of the Task.", "quantifier": "all programs of any number of goroutines calling the library's functions with any objects they have been given, all interleavings, all branches and numbers of loop iterations", "why_tests_cant": "the race detector sees only the accesses of one execution, and only if the two goroutines happen to run close to each other", "anchors": ["span.go, ctx.go, task.go, trace.go, registry.go, scope.go, func.go, funcset.go, funcstats.go, counter.go, meter.go, val.go, timer.go, error_names.go, id.go, stats.go, tags.go, transform.go, collect/collect.go, collect/ctx.go, collect/trace.go, present/utils.go 37-87, present/path.go 233-264, environment/process.go 39-61, environment/runtime.go 31-53"]}
{"id": "C91", "title": "Goroutines that use monkit do not deadlock", "statement": "Whatever functions of the library goroutines call, in whatever order, with whatever objects, also from inside callbacks, and however their steps interleave: there is never a circle of goroutines each of which waits for a lock (a sync.Mutex, a sync.RWMutex, a spin lock, or a sync.Once that is running) that the next one holds, nor a reader that waits for a waiting writer in such a circle, nor a goroutine that waits for itself. Whoever waits, waits in the end for a goroutine that does not wait and may take the lock it is about to take. A goroutine that is in no function of the library holds none of its locks. Functions of the user (observers, stat sources, callbacks of Stats, Spans, Scopes, Funcs, transformers, matchers) run under no lock of the library, so that they may call the library, with these exceptions: error-name handlers and the Name method of an error run under the lock of the Func or FuncStats that ends; the writer of a request and the sampling callback of a trace run under locks that belong to that request. Assumed is that those functions neither call the library nor panic. Not guaranteed without this: an error-name handler that asks the same Func for its statistics waits forever for its own goroutine, and one that panics leaves the Func locked forever.", "quantifier": "all programs of any number of goroutines calling the library's functions with any objects they have been given, all interleavings, all branches and numbers of loop iterations", "why_tests_cant": "a deadlock needs two goroutines to be between two particular statements at the same time, and a test sees it only if they happen to be", "anchors": ["span.go, ctx.go, task.go, trace.go, registry.go, scope.go, func.go, funcset.go, funcstats.go 88-141, counter.go, meter.go, val.go, timer.go, error_names.go 37-97, transform.go, collect/collect.go, collect/ctx.go, present/utils.go 37-87, present/path.go 233-264, environment/process.go 39-61"]}
{"id": "C92", "title": "Counts, durations, rates and differences are reported as nearly as a float64 can", "statement": "A statistic that is an integer (counts, totals, high and low marks, current and highwater, crc) is reported as the float64 nearest to it: exactly if it is at most 2^53 in size, otherwise with a relative error of at most 2^-53; larger integers are never reported as smaller numbers, and only 0 as 0. A duration is reported in seconds with a relative error of at most about 2^-52, whole seconds exactly, longer durations never as less, and with the right sign; up to 2*10^15 ns (23 days) the nanoseconds can be recovered by multiplying by 10^9 and taking the nearest integer. The rate of a Meter is the number of marks in its window per second of the age of the window's oldest bucket with a relative error of at most 2^-50, and 0 if that bucket is not older than now; it is finite, has the sign of the number of marks, and does not become lower by more marks in the same time or by as many in less time. A delta of a DeltaTransformer, and the rate of a DiffMeter, is the float64 nearest to the difference of the two reported numbers, zero only if they are equal and otherwise with the right sign; it is exact if both are integers that are reported exactly and at most 2^53 apart, or if they are within a factor of 2. The rate of a DiffMeter differs from that of the true rates by at most 2^-49 of their sum. Not guaranteed: integers above 2^53 and durations from 98 days on that differ by 1 can be reported as the same number, and the delta between them as 0.", "quantifier": "all int64 counts and durations, all histories of calls to a Meter, all float64 numbers whose difference does not overflow", "why_tests_cant": "rounding errors show only for particular values; a test compares a few of them", "anchors": ["counter.go 111-127", "meter.go 117-153", "meter.go 175-181", "dist.go 51-57", "funcstats.go 147-171", "transform.go 61-80", "environment/process.go 39-47"]}
{"id": "C93", "title": "What functions, counters and meters did can be read from the statistics page", "statement": "The text that StatsText writes for a registry without transformers, from calls of monitored functions to bytes: the report, as far as the writer takes it, has one line for every stat of every source of every scope, and it begins with the name of the series, tagged with the scope's name. For a monitored function that goroutines call while the statistics are read there are lines that give, exactly, the numbers of successes, errors, panics, failures, all calls and calls for each error name as they were at one moment, and current and highwater as they were at two moments before it. For a Counter there are lines that give exactly its value and the largest and smallest value since the last Reset, or NaN for the last two if there was none. For a Meter there are lines that give exactly the sum of all marks, and the rate to six places with a relative error of at most 2^-50 besides. Durations are given to six places (microseconds). Provisos: no line breaks in the names and tags; integers of at most 2^53. Not guaranteed: that small numbers are not shown as 0 (a rate of less than one in two million seconds is).", "quantifier": "all executions of any number of calls of the function, all histories of the counter and the meter, all other sources and scopes of the registry, all writers with or without errors", "why_tests_cant": "a test compares the text for a few histories; the claim joins what concurrent calls count, what is computed from it in floating point and what is printed", "anchors": ["present/stats.go 29-37", "registry.go 211-234", "scope.go 306-322", "funcstats.go 147-175", "counter.go 116-128", "meter.go 117-153"]}
{"id": "C94", "title": "Recorded times are what passed on the monotonic clock", "statement": "The time recorded for a call (by a Task or by FuncStats.Observe) is exactly what passed on the machine's monotonic clock between its start and its end, never negative, however the time of day is set meanwhile; it is also the difference between the finish time observers get and Span.Start. The same is true of Span.Duration, of the elapsed time in SpansJSON, of RunningTimer and of the uptime. Hence a call made during another one is never recorded as longer than that one, nor are calls made one after the other during it together; and starts and finishes, as shown in traces, are in the order in which they happened, so that a span that ran within its parent is drawn within it (what C48 presupposes). On Windows the time of a call is no more than a nanosecond away from what passed on the performance counter as long as C50's clock does not overflow. Not guaranteed: on Windows RunningTimer and Span.Duration compare that clock with Go's own, and can be negative if that one ticks less often; the times shown are not the time of day once that was set after the program started.", "quantifier": "all histories of any number of calls and timers, overlapping or nested in any way, all readings of the three clocks with the monotonic one (or the performance counter) non-decreasing", "why_tests_cant": "tests see the clock of one machine for some milliseconds and cannot set the time of day; the claims are sums and inequalities over all ways to nest calls", "anchors": ["monotime/monotime.go 5-7", "monotime/monotime_fallback.go 8", "monotime/monotime_windows.go 9-21", "ctx.go 86-123", "funcstats.go 201-217", "span.go 63-71", "timer.go 49-79", "environment/process.go 31-46", "present/json.go 53"]}
{"id": "C95", "title": "Nobody repeats an attempt unless somebody else's succeeded", "statement": "The operations that try again do so only because another call changed what they had looked at. ObserveSpans is done after at most 2(m+1) atomic steps of its own, where m is the number of observers others added to or removed from the trace while it was running. A notification of observers (at the start or finish of a span) never tries again and never waits: after its first step it needs at most 2k+1 more, where k is the number of observers registered by then, however many are added or removed meanwhile. A cancel function waits for nobody except another cancel function that is removing an observer from the same trace; once it is its turn it walks along the list at most twice, however many observers are added meanwhile, and is done after at most 2k+5 steps, k being the number of observers ever added. Entering an observed function takes at most 6 steps and two more for every time another call (or Reset) changed the highwater mark meanwhile. Not guaranteed: a fixed number of steps for ObserveSpans; others who keep registering can keep it from finishing.", "quantifier": "all schedules of any number of ObserveSpans, cancel functions and notifications on a trace, and of any number of calls, Reset, Parents and Stats on a FuncStats", "why_tests_cant": "the number of repetitions depends on the scheduler; a test sees a few interleavings and cannot tell a loop that is bounded from one that rarely spins", "anchors": ["trace.go 56-109", "ctx.go 332-355", "funcstats.go 76-86", "funcset.go 40-57"]}
{"id": "C96", "title": "The pages of running spans show all of them and nothing else", "statement": "A GET of /ps, /ps/text, /ps/dot or /ps/json, whatever else is in the path and the query, is answered with status 200, the page's content type and a body that shows exactly the spans that are running: those whose exit function was not called. The text page has one line for each, at its depth in the tree of running spans; the running children of a span follow it, one deeper, by full name and id; traces start with the spans that have no local parent or whose parent has finished, and exactly the latter are marked as orphaned. The line gives the span's ids, scope and name, arguments, elapsed time and annotations. The graph has one node for each running span with the same text and exactly the edges from running spans to their running children. The JSON list has one object for each, with its parent's id. Not guaranteed: any of this while a span is just starting or finishing (a running child of a span that is finishing can show up twice); the text page also needs names, arguments and annotations without line ends.", "quantifier": "all schedules of any number of spans in any trees after which no start or finish is half-way, all orders of ranging over maps, all names, ids, arguments and annotations, all paths and queries", "why_tests_cant": "the trees of spans, their orders of finishing and the texts in them are unbounded; a test looks at a page for a few of them, usually by eye", "anchors": ["present/spans.go 26-136", "present/http.go 34-42", "present/path.go 84-133", "registry.go 178-208", "span.go 87-104", "span.go 156-163", "json.go 27-65"]}
{"id": "C97", "title": "The pages of functions show every registered function once, with what happened to it", "statement": "A GET of /funcs or /funcs/text, whatever else is in the path and the query, is answered with status 200, content type text/plain and one entry for each Func registered in any scope of the registry, and no other, sorted by the name of the scope. Even while goroutines go on calling the functions, an entry gives the Func's id, the name of its scope and its own name; different parents, each of them a caller, and every caller that started before the report asked is among them; the number of successful calls, of failed calls in total and by error name and of panicked calls, of those in progress and the most that were in progress at once, each true at the moment it was read; the latest, the sum and the average of the durations of the successful calls and of the others. /funcs/json answers with a JSON list of the same, an object for each Func, with the extremes of the durations instead of their sum. /funcs/dot has a node for each Func, one more for each Func that is called without a parent, and exactly the edges from the parents to their Funcs. Not guaranteed: that the numbers of one entry belong to the same moment (the page can show the second call, which succeeded, without the first, which failed); the numbers of calls in progress if the function's statistics were reset, and the most of them while a call is just starting; in the text page names and error names need to be without line ends.", "quantifier": "all registries, scopes and series keys, all schedules of any number of concurrent calls, reports and resets, all moments of reading, all orders of ranging over maps, all ids, names, durations, paths and queries", "why_tests_cant": "the interleavings of calls with the reading of the counters are unbounded, and so are the numbers of scopes, functions, parents and error names; a test looks at one page for one history", "anchors": ["present/funcs.go:26-190", "present/json.go:113-172", "registry.go:210-227", "scope.go:108-120", "funcstats.go:109-147", "funcstats.go:177-191", "func.go:44-58", "present/http.go:34-42"]}
{"id": "C98", "title": "Statistics and spans of the same calls agree", "statement": "Calls of Tasks as a whole, with everything they do to spans and to the statistics of Funcs, any number of them at once: at every moment at which no call is just starting or ending, Current of each Func is the number of spans of that Func that AllSpans yields, its Highwater is the most there were at any moment so far, its numbers of panics and of errors by name and the durations in its success and failure times are those of its spans that ended that way, and its Parents are exactly the Funcs of the parents of its spans, and nil if and only if some had none. So the number shown as current for a Func on /funcs/text is the number of lines of its spans on /ps/text of the same moment, and likewise for /funcs/json and /ps/json. When all calls have returned, AllSpans yields nothing and Current of every Func is 0; and from every moment the calls made so far can all go on to their end, without waiting for new calls. Besides, what the calls do to the spans and to each Func is at every moment something that the models of each by itself do, so what is proved of those holds for whole calls. Not guaranteed: that the numbers agree while a call is starting or ending (its span can still be listed though the call is not counted as current any more), or after a Reset of the statistics.", "quantifier": "all numbers of Funcs and calls, all interleavings of their atomic steps, all trees of spans, outcomes and durations, all orders of ranging over maps", "why_tests_cant": "a race between ending one call and starting another that lost a count or a parent only shows in few of unboundedly many interleavings; tests look at spans and at statistics separately", "anchors": ["ctx.go:59-158", "func.go:25-50", "funcstats.go:76-107", "funcset.go:35-79", "span.go:28-104", "registry.go:140-208", "present/spans.go:79-136", "present/funcs.go:118-190"]}
{"id": "C99", "title": "Resource usage and memory statistics are complete", "statement": "environment.Rusage reports every member of what getrusage returned, times as Utime.Sec, Utime.Usec, Stime.Sec and Stime.Usec, each once and with its value, and nothing else; it reports nothing if the system call fails. environment.Runtime reports the number of goroutines and every field of runtime.MemStats that is a number or a truth value (as 1 or 0), each under its own name and with its value. Neither panics. Not reported: the arrays of MemStats (PauseNs, PauseEnd, BySize).", "quantifier": "all values of all members (structs of 64-bit Linux)", "why_tests_cant": "tests see the values of one process on one machine, many of which are 0 there, so exchanged or lost members go unnoticed", "anchors": ["environment/rusage.go:29-37", "environment/runtime.go:31-41", "struct.go:33-79"]}
