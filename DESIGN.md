# Formal model of monkit — design

The subject is `spacemonkeygo/monkit` (Go) as found in `/repo`, read as text.
The model is written in Rocq/Coq 8.16.1 under `rocq/theories`.

## Layout

Every area `X` has up to four files:

* `XModel.v` — total, computable Gallina transcriptions of the Go functions, one
  definition per function, each with a comment giving file and lines in `/repo`
  and every simplification. No proofs.
* `XSpec.v` — small specification vocabulary, written without the model's helpers.
* `XProofs.v` — lemmas.
* `XProps.v` — only the property theorems (each closed by `exact lemma.` and
  followed by `Print Assumptions`) and, next to each, an `Example` showing that
  a concrete non-trivial case meets the hypotheses.

`Base.v` holds shared vocabulary (byte strings, 64-bit wrap-around, outcomes),
`Conc.v` the interleaving framework.

Naming: a theorem `Cnn_...` states property `Cnn`.  `..._refuted` theorems give a
witness for which an unrestricted English claim is false of the code as written;
`..._partial` theorems prove a part only and say what is missing.

## Modelling conventions

* Go `string` = `list ascii` (arbitrary bytes).  Go `int64` = `Z` in range with
  explicit wrap (`wrap64`), `uint64` = `Z` or `N` modulo 2^64.  `float64`/`float32` are
  Flocq binary floats in Query (C11), the averages (C88) and the numbers of reports (C92, C93), which are about rounding; elsewhere
  they are symbolic terms (`Fval.v`) or an arbitrary type with arbitrary operations, so
  the theorems hold for every arithmetic.
* Go maps = finite maps (`gmap`); when the code ranges over a map, the iteration
  order is universally quantified (any permutation of the association list).
* Panics are explicit results, never totalised away.
* Random numbers, clocks, the environment's answers are inputs (streams) that the
  theorems quantify over.
* Concurrency: shared state + per-goroutine program counters; a schedule is an
  arbitrary list of "spawn call" / "goroutine i does its next atomic step";
  theorems are for all schedules (induction over the schedule).  Each
  `sync/atomic` operation is one step.  A critical section under one mutex is
  one step (sound for data that is only accessed under that mutex; mutual
  exclusion of the project's own spin lock is property C51).  Sequentially consistent
  atomics are assumed, as the Go memory model gives for `sync/atomic`; that plain accesses
  may be taken as sequentially consistent too is property C90 (no data races).

## Plan per property

| id | model | proof |
|----|-------|-------|
| C01 | `writeMeasurement/writeTag/writeTags/String/WithField` over byte strings | decode function inverse to the escape under the proviso; refutation witness |
| C02 | same, the map given as any permutation of its associations | sorted lists with unique keys are equal if permutations of each other |
| C03 | heap of maps with explicit allocation; TagSet = pointer | invariant over histories: every live object's contents never change |
| C04 | newSource as interleaved steps (RLock read; Lock section) | inductive invariant: log of constructor runs has unique names and agrees with the table |
| C05 | `sourceName` | unique parsing of the comma separated list; refutation witnesses |
| C06 | Counter fields, all methods | invariant relating state to the history |
| C07,C08 | Meter: array of 24 buckets, all methods | invariant over histories (sum conservation, window = last buckets of the history) |
| C09,C10,C12,C13 | IntDist/DurationDist with explicit random stream and sort | history invariants; permutation/sub-multiset arguments; counting residues |
| C11 | Query over Flocq binary64 | rounding monotonicity, bound on the interpolation weight |
| C14 | xorshift step functions over N | linear-algebra-free inversion of shifts and xor by bit extensionality |
| C15 | idCounter, inc, atomic add | modular arithmetic with odd increment |
| C16 | funcSet as interleaved atomic steps | inductive invariant: no value both in first and rest |
| C17,C18 | FuncStats | history invariant; interleaved invariant for the CAS loop |
| C19 | spanBag | refinement to multisets |
| C20,C21,C22 | newSpan/exit as interleaved lock sections over all span objects | global inductive invariant: each running span sits in exactly one container |
| C23,C24 | contexts as inductive terms; newSpan's context handling | induction over contexts |
| C25 | observer list as heap of nodes with CAS steps | inductive invariant on reachability |
| C26,C27 | watcher table; ObserveAllTraces steps | history and interleaving invariants |
| C28,C29 | SpanCollector | interleaving invariant for close; characterisation of the tree search |
| C30,C31,C32,C33 | stat pipelines as functions stream -> stream | list induction, finite maps; slices with capacity for aliasing |
| C34 | reflected struct values as an inductive type | induction |
| C35,C36 | atomics / lock sections | interleaving invariant |
| C37 | handler list, error classification | list induction; snapshots |
| C38,C39 | extractFuncName, callerPackage with Go's index functions | list search lemmas |
| C40,C41,C42 | hex printing/parsing, split, headers | print/parse inversion |
| C43 | response writer wrapper composed with a model of the net/http contract | call-sequence induction |
| C44 | escapeDotLabel over bytes (>=128 kept) | decode inverse |
| C45 | listWriter with failing writer | list induction |
| C46 | FromRequest, shift | case analysis against a table specification |
| C47 | keepAlive goroutine and stop as interleaved steps | invariant |
| C48,C49 | span trees and layout | induction over trees; interval reasoning; int64 arithmetic |
| C50 | elapsed on Windows | Z arithmetic with wrap |
| C51 | spinLock | invariant |
| C52 | the loop of Runtime over PauseNs | list induction; refutation for wrapped rings |
| C53 | Task closures, secret context | case analysis |
| C54 | Go slices with backing arrays and capacity | ownership invariant over all interleaved appends |
| C55 | Observe/Task end functions with an explicit panic outcome | case analysis; refutation for panic(nil) |
| C56 | Gauge and the sources table | history induction |
| C57,C58 | FuncNamed, ShortName, FullName, Funcs | finite maps; permutation of the enumeration |
| C59 | IntVal/FloatVal/DurationVal/Timer: steps around one mutex | the order of lock acquisitions is a linearization |
| C60 | Trace.Get/Set/GetAll as lock sections | interleaving invariant |
| C61 | TraceInfoFromSpan, SetHeader, TraceInfoFromHeader, TraceRequest, ServeHTTP composed | composition over any chain of services |
| C62,C63 | writers of package present over a failing writer, with and without the buffer | list induction on the write log |
| C64,C65,C66 | /proc readers (Fscanf), Register, Process, OS | print/parse inversion; list induction |
| C67 | Registry.Scopes/Stats/Funcs | sortedness and permutation |
| C68 | xorshift128 as a GF(2)-linear map | characteristic polynomial; its order computed by repeated squaring and the factorisation of 2^128 - 1 |
| C69 | xorshift1024 and Jump | Jump is a polynomial in the step, so it commutes; a short cycle found by computation refutes the distance and the period |
| C70,C71,C72 | WatchForSpans, FindSpan, CollectSpans as drivers of the collector model, their own steps interleaved with notifications | invariants on the history of calls; C28/C29 lemmas transfer |
| C73,C74,C75,C76 | SpansToSVG: the templates, xml.EscapeText, time.Duration.String, colours, lines (SvgModel), the order by StartTimeSorter (SvgOrderModel; sort.Sort is any sorted permutation) | an XML reader (state machine over bytes), a UTF-8 encoder, a reader of durations and one of JavaScript literals as specification; the reader is run symbolically over the templates, lemmas say what it does on escaped and on inert text |
| C77 | TraceQuerySVG/JSON and watchForSpansWithKeepalive (TraceQueryModel): the models of keepAlive and WatchForSpans composed, with the writer both use; the document is any function from spans to a sequence of Writes | invariant over the composition, from the invariants of both parts (C47, C70); the XML reader of C73 refutes well-formedness after a newline |
| C78 | Span.Args, interfacesToString, strconv.Quote and hex.EncodeToString (ArgsModel), for any table of printable runes; the texts of time.Format and of %#v are given | an independent reader of Go string literals and of the argument line; induction over the runes, a round-trip lemma per kind of escape |
| C79,C80 | encoding/json.Marshal for the kinds of values used (JsonModel: strings with HTML escaping, structs, sorted maps, slices), formatSpan, formatFinishedSpan, formatDuration, formatFunc, StatsJSON elements, through the list writer of C45 | a JSON reader after RFC 8259 as specification, run symbolically over encoded values; induction over values; truncation by bracket counting; composed with C77 (keepalive) and C78 (arguments) |
| C81,C82,C83 | SpansDot, FuncsDot, SpansText, FuncsText with their numbers (ReportModel on top of PresentModel: durations through time.Duration.String, counters through %d, formatDist, the wrapping error total) | readers as specification: a lexer and parser of the DOT language with HTML character references and \\l in labels, a line reader for the two text reports; the reader applied to the document gives exactly the expected nodes, edges, spans, functions; tree injectivity from depths |
| C84 | the dist.Insert of DistModel run on positions instead of values, its random numbers handed in as a list | chances are counts: `favourable` sums, over all sequences of draws (draw i ranging over the window at its turn), whether value k is in the reservoir at the end; exact product formula by induction over the history from the back, invariant under the permutations a query's sort makes; simulation lemma: a run on any values with any generator is the image of the run on positions. The uniformity of the generator itself is not proved (C68 gives its period) |
| C85,C86 | StatsText and StatsJSON with their values (FloatTextModel): `%f`, `%.02f` and the float64 text of encoding/json on float64s given as sign, mantissa and exponent | strconv is modelled after its documentation (correct rounding; least number of digits that parses back), not its code; a reader of decimal numbers and IEEE 754 rounding (nearest, ties to even, over all float64s) as specification; integers only, all scaled by 2^1074 and 10^400; neighbours of a float64, 2^53 < 10^16 for the seventeen digits, convexity of the rounding interval for the least number of digits; the model was compared with another implementation of both formats on 130 numbers |
| C87 | the ticker (TickerModel): register, run and NewMeter as steps of goroutines; slices as backing array and length, append in place or into a new array of any capacity; the clock only moves forward; tick, Mark, SetTotal and Reset of MeterModel as single steps | that NewMeter returns before a meter is used, and that time.Sleep returns no sooner than asked, are assumptions; the invariant: what run has read is what append will not write to, a log of events cut at each pass, and a lower bound for the time of each later pass; the history of a meter cut at its bucket boundaries for the 230 minutes |
| C88 | ReservoirAverage and FullAverage (AvgModel) over Flocq binary32/binary64; DistModel run with float64 values | standard model of rounding: error of a chain of additions by induction, (1+u)^n <= 1 + n*u*(1+d); underflow only in the division; the reservoir's contents from C10; NaN: invariant by the first value (AvgNanProps) |
| C89 | the pointer functions of both builds (CasModel) around any program; CasUse gives funcSet, the observer list and SpanCollector as such programs | refinement both ways: a step function on schedules picks the step at which each locked operation takes effect; invariant: one goroutine inside, what it read still stands; the programs of CasUse are shown equal to those of C16-C18, C25, C28 |
| C90 | RaceModel: a language of reads, writes, atomic operations, locks, Onces, allocation, goroutines and calls of the user, with small-step executions and the Go memory model's happens-before on their events; RaceCode: 186 functions in it | a type-like check of each function against a table of what protects which field (RaceCheck, RaceTable), proved sound: the invariant says of every past access which release, pass or publication orders it before whoever may access the field now; refutations by computed executions |
| C91 | the executions of RaceModel and the functions of RaceCode again; LockSpec: who waits for whom in a state, and executions in which a function of the user that runs under a lock does not call the library or panic | a check that each function takes locks in the order of a rank (LockCheck, LockTable), proved sound: invariant relating the locks a goroutine holds to the check's context; along a chain of waiting goroutines the rank goes up; a chain without a circle ends; refutations by computed executions |
| C92 | float64(int64), Duration.Seconds, the division of Meter.stats and subtraction (NumModel) over Flocq binary64, and an interpretation of the symbolic values of Fval.v as such numbers; NumSpec: about, exactly, same_sign | correct rounding of each operation; relative errors multiplied out; monotonicity of rounding; a sum or difference of doubles is 0 only if exactly so; Sterbenz's lemma; the float comparison of Meter.stats equals the integer one of MeterModel |
| C93 | composition of FuncStatsModel, CounterModel, MeterModel, ScopeModel, TransformModel (registry_source), NumModel and FloatTextModel (LineModel); the reader of C85 | the two representations of float64 denote the same numbers; C06, C07, C17, C85, C92 put together |
| C94 | monotime.Now on both platforms, Go's time.Time with its monotonic part (its documentation), all uses of the clock for calls, timers and uptime (TimeModel) | the clock is a function of the reading, induction over the history for what is kept, Z arithmetic |
| C95 | the step models of observer lists (ObserverModel) and FuncStats (FuncStatsModel), unchanged | potential functions: own steps against the number of additions and removals (registration), the position in the list (notification), two walks at most because an observer that is no longer first never becomes first again while the mutex is held (cancel), own steps still needed plus two for each change of the mark (entering); an explicit family of schedules for the refutation |
| C96 | PsModel: the trees that the reports of ReportModel and JsonModel take as given, read off the registry of SpanModel by RootSpans, Children and AllSpans; ParentId; the handler for these pages over a connection that does not fail, all texts of a report as one write (C62_buffered says this makes no difference) | induction on the depth: what is read from the text of a tree is a block of lines of running spans; the flattened trees next to AllSpans of C20; then C46, C62, C80, C81, C82 |
| C97 | FuncPageModel: the functions that the reports of ReportModel take as given, found by Registry.Funcs in the tables of ScopeModel, and read accessor by accessor, each at its own moment of a schedule of FuncStatsModel; Query and ReservoirAverage are parameters here (C11, C88); the handler as for C96 | the function list of C58 over all scopes, C16, C17 and C18 at the moment of each read, C09 for the copies of the distributions, then C46, C81, C83; a schedule for the refutation |
| C98 | TaskModel: newSpan and its exit function on SpanModel and FuncStatsModel at once, in the order of the code (no Reset; that a span's parent belongs to the Func given to start is a hypothesis, ctx.go 101) | refinement: schedules of both models after which they are as the whole is, by induction; calls of other Funcs are reports that never begin; then C16, C17, C18, C20, and that the recorded ends are those of the ended calls, by permutation; the pages: C96 and C97 at the same moment (TaskPageProps); that calls can end: backwards from the last step, one call after the other (TaskSettle) |
| C99 | RusageModel: Rusage and the first part of Runtime on StructModel, with the structs of the standard library | by computation on symbolic members; names differ |

## What is modelled

Per file of `/repo` (tests, examples, documentation left out).  "All" means every
function; constructors and one-line getters are folded into the initial state or
into the projection they return.

| file | modelled in | not modelled |
|------|-------------|--------------|
| callers.go | CallersModel: all | runtime.Callers/FuncForPC: their answer is an input |
| cas_safe.go, cas_unsafe.go, collect/cas_*.go | CasModel: all (elsewhere as single atomic steps where they are called) | that both packages have a mutex of their own is seen one package at a time; registry.go's use of loadTraceWatcherRef and storeTraceWatcherRef is not among the programs of CasUse |
| collect/collect.go | CollectModel: all but StartTimeSorter, SvgOrderModel: that | the recorded finish time (TimeModel) |
| collect/ctx.go | WatchModel: all | the case of CollectSpans without a span in ctx (it only calls work) |
| collect/trace.go | CollectModel: all | |
| counter.go | CounterModel: all | |
| ctx.go | CtxModel, SpanModel, ObserverModel: all; TaskModel: newSpan with spans and statistics together; TimeModel: start and finish times | |
| dist.go, intdist.go, durdist.go, floatdist.go | DistModel, QueryModel, AvgModel, ValModel: all; one model for the three, they are generated from one template (distgen.go.m4) | architectures whose float arithmetic is not IEEE 754 |
| environment/ | EnvModel: env, os, os_unix, proc_linux, process, runtime; RusageModel: rusage, runtime (memory) | Rusage of systems other than 64-bit Linux, Windows and Darwin variants, the operating system's answers (inputs) |
| error_names*.go | ErrNamesModel, SnapModel: all three builds | errors.Unwrap/As chains of foreign types beyond the wrapper interface: an inductive type of errors |
| func.go, funcset.go, funcstats.go | FuncStatsModel, ScopeModel: all | |
| http/ | HttpModel: all | net/http itself: its documented contract for ResponseWriter is part of the model |
| id.go, rng.go | RngModel, JumpModel: all | seeding from math/rand (arbitrary seeds) |
| meter.go | MeterModel: all but the ticker (tick is an action that may happen at any time); TickerModel: the ticker and its timing | the Go memory model: the reads of the slice in run see the writes made before the lock was taken |
| monotime/ | ClockModel: the Windows elapsed; TimeModel: all | time.Time of the standard library: its documentation is modelled; the years 1885 to 2157 within which it keeps monotonic readings |
| present/dot, errs, funcs, http, json, path, spans, stats, utils | PresentModel, ReportModel, RouteModel, KeepAliveModel, JsonModel, FloatTextModel | strconv's code (its documentation is modelled); the names of quantiles in C80, C81, C83 are any texts |
| present/trace.go | LayoutModel: the tree, rows and coordinates; SvgModel: SpansToSVG with its templates; TraceQueryModel: TraceQuerySVG/JSON, watchForSpansWithKeepalive | how text/template cuts its output into Writes |
| registry.go | ObserverModel, SpanModel, TransformModel, ScopeModel: all | |
| scope.go | ScopeModel, TransformModel: all | IntValf and friends (fmt.Sprintf of the name) |
| span.go, spanbag.go, spinlock.go | SpanModel, CtxModel, SnapModel, ClockModel, ArgsModel | the text fmt and time.Format give (%#v of other types) |
| stats.go, tags.go | SeriesModel, TagSetModel: all | |
| struct.go, val.go, timer.go | StructModel, ValModel: all | reflect: struct values are an inductive type |
| task.go, trace.go, transform.go | CtxModel, ObserverModel, SnapModel, TransformModel: all | |

RaceCode has, for C90, the accesses to shared memory of all of the above except: http/
(the response writer's status code belongs to one request), the distributions used by
themselves (they have no lock and their documentation asks for one), the struct a StructVal is
given, the io.Writer of a report (C77), the App Engine build (C89).  Edges made by the channels of
the library are left out, and what is not public may be called too; both only add
executions or races.  That the functions are written down rightly is trusted, as everywhere.

Simplifications are stated at each definition.  The common ones: memory is
sequentially consistent (justified by C90 where it covers the code); a critical section whose data is only touched under one
lock may be one step; goroutines that block are goroutines that are not scheduled;
allocation never fails.

## Trusted base

* The Coq kernel (8.16.1) including its virtual machine (`vm_compute`).
* Libraries: the Coq standard library, std++ (finite maps, lists), Flocq (floats, only
  for C11, C88, C92 and C93).  No axioms are declared in this development.
* `coqchk` reports, for the files loaded, seven parameters of the standard library's
  `Coq.ssr.ssrunder` (`Under_rel`, `under_rel_done` and their relatives: an implemented
  module type, loaded by std++); no theorem depends on them.
* The reading of the Go code: the definitions in `*Model.v` are hand
  transcriptions; nothing connects them mechanically to the Go source.
* The specification vocabulary in `*Spec.v` and the English in `properties.jsonl`.

<!-- the rest of this file is written by tools/assumptions.py -->

## Print Assumptions, theorem by theorem

### Closed under the global context

* ArgsProps: `C78_quote`, `C78_quote_ends`, `C78_each`, `C78_read`, `C78_injective`, `C78_line`, `C78_types_refuted`, `C78_line_refuted`
* CallersProps: `C38_extract`, `C38_rejects`, `C38_caller`, `C39_path`, `C39_pathless`, `C39_refuted`
* CasProps: `C89_refines`, `C89_excludes`, `C89_completes`, `C89_funcs`, `C89_observers`, `C89_collectors`, `C89_safe_parents`, `C89_safe_observers`, `C89_safe_collector`
* ClockProps: `C50_clock_exact`, `C50_clock_monotone`, `C50_clock_monotone_refuted`, `C51_spin_lock_excludes`, `C51_spin_lock_available`, `C51_spin_lock_released`
* CollectProps: `C27_attach_once`, `C27_new_traces`, `C27_running_traces`, `C27_cancelled`, `C27_unregistered`, `C28_closed_once`, `C28_finder_closed_once`, `C28_spans`, `C28_spans_nonempty`, `C28_one_trigger`, `C28_collected_between`, `C29_collected`, `C29_returned`, `C29_refuted`
* CounterProps: `C06_counter_views`, `C06_counter_results`, `C06_counter_sum_since_set`, `C06_counter_sum_since_reset`, `C06_counter_stats`
* CtxProps: `C23_context`, `C23_no_growth`, `C24_task_child`, `C24_task_root`, `C24_reset_trace`, `C24_remote_trace`, `C24_context_updated`, `C24_nil_context`, `C24_scope_task`, `C53_func_task`, `C53_scope_task`, `C53_scope_task_refuted`
* DistProps: `C09_exact_counters`, `C09_full_average`, `C10_reservoir_holds_recorded_values`, `C12_reset_is_fresh`, `C13_insert_never_panics`, `C13_replacement_rule`, `C13_replacement_floor`, `C13_replacement_count_exact`, `C12_query_after_reset_refuted`
* EnvProps: `C52_inserts`, `C52_once`, `C52_refuted`, `C64_reported`, `C64_unreadable`, `C64_name_refuted`, `C65_scope`, `C65_env_refuted`, `C65_attached`, `C66_process`, `C66_descriptors`
* FloatTextProps: `C85_stats`, `C85_same`, `C85_whole`, `C85_ordered`, `C86_exact`, `C86_shortest`, `C86_stats`, `C86_infinite`, `C85_value_refuted`, `C85_line_refuted`
* FuncPageProps: `C97_text`, `C97_dot`, `C97_json`, `C97_http`, `C97_moment_refuted`
* FuncStatsProps: `C16_parents_distinct`, `C16_parents_sound`, `C16_parents_complete`, `C17_finished_once`, `C17_history_sound`, `C17_counts`, `C17_sum`, `C17_stats`, `C18_current`, `C18_highwater`, `C18_current_refuted`, `C55_observe_panic`, `C55_observe_return`, `C55_panic_nil_refuted`
* HttpProps: `C40_ids`, `C40_no_ids`, `C40_negative`, `C40_refuted`, `C40_reuse_refuted`, `C41_round_trip`, `C41_read`, `C41_allowed`, `C41_annotations`, `C41_comma_refuted`, `C42_ids`, `C42_sampled`, `C42_both_or_neither`, `C42_malformed`, `C42_long_ids`, `C43_transparent`, `C43_status`, `C43_annotated`, `C43_both_ends`, `C43_flush_refuted`, `C43_twice_refuted`, `C43_informational_refuted`, `C43_interfaces_refuted`, `C61_propagated`, `C61_journey`, `C61_unsampled`, `C61_orphan`, `C61_parent_refuted`
* JsonProps: `C79_value`, `C79_string`, `C79_inline`, `C79_order`, `C79_refused`, `C79_list`, `C79_query`, `C79_truncated`, `C79_marshal_error`, `C79_invalid_refuted`, `C80_spans`, `C80_finished`, `C80_funcs`, `C80_stats`, `C80_args`, `C80_err_refuted`, `C80_quantiles_refuted`
* JumpProps: `C69_jump_commutes`, `C69_jump_stream`, `C69_jump_distance_refuted`, `C69_period_refuted`
* KeepAliveProps: `C47_stopped`, `C47_one_failure`, `C47_result`, `C47_agree`, `C47_paced`, `C47_context`, `C47_cancelled`, `C47_progress`, `C47_panics`, `C47_called_refuted`, `C47_context_refuted`
* LayoutProps: `C48_total`, `C48_rows`, `C48_below`, `C48_inside`, `C48_rows_refuted`, `C48_total_refuted`, `C49_bars`, `C49_order`, `C49_extent`, `C49_instant`, `C49_bars_refuted`
* LockProps: `C91_no_deadlock`, `C91_somebody_goes_on`, `C91_released`, `C91_callbacks`, `C91_checked`, `C91_handler_refuted`, `C91_panic_refuted`
* MeterProps: `C07_total_is_sum_of_marks`, `C07_total_after_reset`, `C07_total_after_set_total`, `C07_total_every_history`, `C07_tick_preserves_total`, `C07_diffmeter_total`, `C07_set_total_is_total_refuted`, `C08_rate_is_window_rate`, `C08_quiet_meter_keeps_window`, `C08_diffmeter_rate`
* ObserverProps: `C25_observers`, `C26_watchers`, `C26_current`
* PeriodProps: `C68_state_period`, `C68_stream_period`, `C68_every_state`, `C68_every_result`, `C68_seeded`
* PresentProps: `C44_safe`, `C44_injective`, `C44_strings`, `C45_complete`, `C45_marshal`, `C45_fresh_counter`, `C45_http_empty`, `C62_stats_text`, `C62_spans_text`, `C62_spans_dot`, `C62_funcs_dot`, `C62_funcs_text`, `C62_buffered`, `C62_funcs_text_refuted`, `C63_buffered`, `C63_refuted`
* ProgressProps: `C95_register`, `C95_register_refuted`, `C95_notify`, `C95_cancel`, `C95_cancel_waits`, `C95_enter`
* PsProps: `C96_text`, `C96_dot`, `C96_json`, `C96_http`, `C96_refuted`
* RaceProps: `C90_race_free`, `C90_reads`, `C90_checked`, `C90_collect_refuted`, `C90_runtime_refuted`, `C90_task_func_refuted`
* ReportProps: `C81_spans`, `C81_closed`, `C81_funcs`, `C81_failed`, `C82_read`, `C82_trees`, `C82_refuted`, `C83_read`, `C83_no_error`, `C83_refuted`
* RngProps: `C14_lcg_permutes`, `C14_xorshift64_permutes`, `C14_xorshift128_permutes`, `C14_xorshift1024_permutes`, `C14_results_fit`, `C14_xorshift64_never_zero`, `C14_xorshift128_never_zero`, `C14_xorshift1024_never_zero`, `C14_seed_zero_stuck`, `C15_ids_non_negative`, `C15_ids_at_most_twice`, `C15_ids_at_least_twice`, `C15_ids_collision_gap`, `C15_ids_adjacent_distinct`, `C15_ids_unique_refuted`
* RouteProps: `C46_segments`, `C46_pages`, `C46_trace`, `C46_trace_given`, `C46_bad_request`, `C46_not_found`, `C46_index_refuted`
* RusageProps: `C99_rusage`, `C99_runtime`
* SampleProps: `C84_uniform`, `C84_chance`, `C84_decay`, `C84_newer`, `C84_bias`, `C84_values`, `C84_small_window_refuted`
* ScopeProps: `C04_same_object`, `C04_constructor_once`, `C04_never_rebound`, `C04_right_kind`, `C04_panic_iff_other_kind`, `C04_lookup_terminates`, `C05_table_names_distinct`, `C05_objects_distinct`, `C05_distinct_refuted`, `C32_stats_visits_everything`, `C32_stats_tagged`, `C56_gauge_latest`, `C56_gauge_reported`, `C56_gauge_over_source_panics`, `C57_func_name_and_tags`, `C57_func_families`, `C57_reserved_tags_refuted`, `C58_funcs_exact`
* SeriesProps: `C01_with_field_injective`, `C01_unrestricted_refuted`, `C02_tags_sorted_and_complete`, `C02_tags_text_unique`, `C02_series_string_canonical`, `C33_collect_last_value`
* SnapProps: `C37_precedence`, `C37_builds`, `C37_concurrent`, `C54_annotations`, `C54_stable`, `C54_maps`, `C60_get`
* SpanProps: `C19_bag`, `C19_children`, `C20_roots`, `C20_all`, `C20_nothing_retained`, `C20_all_refuted`, `C21_trace_count`, `C22_orphaned`, `C22_orphaned_after_parent`, `C22_not_orphaned_before_parent`, `C55_task`
* StructProps: `C34_report`, `C34_panics`, `C34_names`, `C34_non_struct`, `C34_struct_val`
* SvgOrderProps: `C73_order`, `C73_left_to_right`, `C73_order_refuted`
* SvgProps: `C73_document`, `C73_exact`, `C73_numbers`, `C73_total`, `C74_tooltip`, `C74_tooltip_refuted`, `C75_colours`, `C75_last`, `C75_unwrap_refuted`, `C76_bars`, `C76_lines`
* TagSetProps: `C03_existing_sets_never_change`, `C03_views_agree`, `C03_set_tags_last_wins`, `C03_set_all`, `C03_set`, `C02_string_depends_on_associations`
* TaskPageProps: `C98_pages`, `C98_pages_json`
* TaskProps: `C98_refines`, `C98_current`, `C98_ended`, `C98_parents`, `C98_highwater`, `C98_moment_refuted`
* TaskSettleProps: `C98_finished`, `C98_settles`
* TickerProps: `C87_one_goroutine`, `C87_pass`, `C87_apart`, `C87_goes_on`, `C87_history`, `C87_recent_marks`, `C87_longer_refuted`
* TimeProps: `C94_call`, `C94_running`, `C94_nested`, `C94_order`, `C94_windows`, `C94_windows_timer_refuted`, `C94_time_of_day_refuted`
* TraceQueryProps: `C77_exclusive`, `C77_after`, `C77_output`, `C77_complete`, `C77_spans`, `C77_error`, `C77_no_context_error`, `C77_ping_error`, `C77_gives_up`, `C77_svg_late`, `C77_svg_refuted`
* TransformProps: `C30_stream`, `C30_by_key`, `C30_by_key_refuted`, `C30_telescope`, `C30_concurrent`, `C31_order`, `C31_source_order`, `C31_with`, `C31_new`, `C31_unaffected`, `C31_scopes_shared`, `C31_scopes_separate`, `C67_scopes`, `C67_stats`, `C67_funcs`
* ValProps: `C35_reports`, `C35_at_rest`, `C59_linearizable`, `C36_once`, `C36_returns`, `C09_report`
* WatchProps: `C70_result`, `C70_error`, `C70_cancel`, `C70_no_more`, `C71_why`, `C71_returns`, `C71_nil`, `C71_no_more`, `C72_result`, `C72_panic`

### Axioms: `ClassicalDedekindReals.sig_forall_dec`, `ClassicalDedekindReals.sig_not_dec`, `Classical_Prop.classic`, `FunctionalExtensionality.functional_extensionality_dep` (all from the standard library)

* AvgNanProps: `C88_float_nan`
* AvgProps: `C88_int_reservoir`, `C88_int_few`, `C88_float_reservoir`, `C88_float_sum`, `C88_float_counters`, `C88_empty`, `C88_between_refuted`, `C88_large_refuted`, `C88_max_int_refuted`, `C88_nan_refuted`, `C88_exact_sum_refuted`
* LineProps: `C93_integer`, `C93_duration`, `C93_lines`, `C93_function`, `C93_counter`, `C93_meter`, `C93_rate_refuted`
* NumProps: `C92_integers`, `C92_integers_refuted`, `C92_seconds`, `C92_seconds_back`, `C92_seconds_back_refuted`, `C92_rate`, `C92_rate_ordered`, `C92_meter`, `C92_difference`, `C92_difference_exact`, `C92_diffmeter`
* QueryProps: `C11_bounded`, `C11_extremes`, `C11_interpolates`, `C11_monotone`, `C11_finite_values`, `C11_integers`, `C11_integers_monotone`, `C11_large_values_refuted`, `C11_fused_position_refuted`, `C11_max_int_refuted`

### Axioms: `ClassicalDedekindReals.sig_forall_dec`, `FunctionalExtensionality.functional_extensionality_dep` (all from the standard library)

* LineProps: `C93_number`
