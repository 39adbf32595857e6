# Formal model of opencensus-go in Rocq: design

The code under study is `/repo` (census-instrumentation/opencensus-go, pinned commit).
It is read as text only, never built.  The deliverable is a model of that code in Gallina
(`rocq/theories/*Model.v`), small independent specifications (`*Spec.v`), proofs
(`*Proofs.v`) and files of property theorems (`*Props.v`).  `properties.jsonl` lists the
properties in English, `MANIFEST.json` the theorems that prove each.
`seeded/LOG.jsonl` records how the theorems reacted to wrong versions of the model.

## Layout and conventions

* `Base.v`: bytes (`Coq.Init.Byte`), byte strings, machine integers (`uint64` as `N`
  modulo 2^64, `int64` as `Z` wrapped).  `Text.v`, `Utf8.v`: decimal, hex, UTF-8.
  `GoMap.v`: Go maps as association lists without duplicate keys, and `order`, an
  arbitrary permutation per `range` statement.  `GoSort.v`: `sort.Slice` as a stable sort
  where stability cannot be observed, otherwise preceded by an arbitrary permutation.
* `Float64.v`: float64 as `Coq.Floats.SpecFloat` (executable IEEE-754, axiom-free).
  `FloatAdd.v`, `FloatInt.v` and `SamplerProps.v` connect it to Flocq's reals
  where a theorem needs real arithmetic.
* For each area `X`: `XModel.v` (definitions only, each citing file and lines),
  `XSpec.v` (the specification in the words of the API), `XProofs.v`, `XProps.v`
  (theorems `Cnn_...`, examples showing that hypotheses are met, `Print Assumptions`).
* Panics and Go errors are explicit values.  Nothing is left to a default that could hide
  a panic.  Fuel, where used, is shown to suffice.
* Goroutines are small-step interleavings: a configuration holds the shared memory and
  one program counter per goroutine; one step is one atomic action (atomic load, CAS,
  lock-protected block, channel operation).  Theorems quantify over all reachable
  configurations of any number of goroutines.
* The environment (clock, random numbers, what the runtime, gRPC, net/http, user
  callbacks and exporters return) is an argument or an event of the run, universally
  quantified.
* Properties that are false of the code are proved false (`..._refuted`, with a witness
  or as a general statement of what happens instead); the exact guard under which they
  hold is proved next to them.  They are listed under Findings.

## Properties

| id | property | code | theorems in | method | status |
|----|----------|------|-------------|--------|--------|
| C01 | Tag map wire round trip | `tag/map.go`, `tag/map_codec.go` | `TagProps.v` | the codec byte for byte; round trip by induction on the tag list; the parser against a separate grammar, totality by induction on fuel = input length | proved |
| C02 | Tag decoding of untrusted bytes | `tag/map_codec.go`, `tag/validate.go` | `TagProps.v` | the codec byte for byte; round trip by induction on the tag list; the parser against a separate grammar, totality by induction on fuel = input length | proved. Never-panics is false on inputs whose length prefix overflows int; exact guard proved. |
| C03 | tag.New applies mutators in order and is atomic | `tag/map.go` | `TagProps.v` | contexts are references into a heap of tag maps; invariant over all histories, frame property of the heap | proved |
| C04 | Tag validity invariant | `tag/key.go`, `tag/map.go`, `tag/validate.go` | `TagProps.v` | contexts are references into a heap of tag maps; invariant over all histories, frame property of the heap | proved. The zero Key (not built by NewKey) can put an empty name in a map. |
| C05 | View row signature is injective | `internal/tagencoding/tagencoding.go`, `stats/view/collector.go` | `CollectorProps.v` | injectivity of the length-prefixed encoding; refinement of the collector to a group-by | proved. Values of at most 255 bytes, as the tag package enforces (C04). |
| C06 | View rows are an exact group-by of the recorded samples | `stats/view/collector.go`, `stats/view/view.go` | `CollectorProps.v` | injectivity of the length-prefixed encoding; refinement of the collector to a group-by | proved |
| C07 | Count and sum aggregations are exact | `stats/measure_int64.go`, `stats/view/aggregation_data.go` | `AggProps.v`, `IntSumProps.v`, `SumErrProps.v` | aggregation data over an abstract number type with float64 and rational instances; induction on the samples | proved. C07_sum_error and C07_sum_order are about float64 and at most 2^52 recordings whose sizes add up to at most 2^1022. Sums of integers are exact while they stay within 2^53; beyond that recordings are lost (refuted case). |
| C08 | Distribution buckets partition the samples | `stats/view/aggregation_data.go` | `AggProps.v` | aggregation data over an abstract number type with float64 and rational instances; induction on the samples | proved |
| C09 | Distribution minimum, maximum | `stats/view/aggregation_data.go` | `AggProps.v` | aggregation data over an abstract number type with float64 and rational instances; induction on the samples | proved. Max fails when every sample is <= 0; Min fails when every sample is +Inf (refuted cases). |
| C10 | Distribution mean and squared deviation (Welford) | `stats/view/aggregation_data.go` | `AggProps.v`, `MeanProps.v`, `SsdProps.v` | the same aggregation model run on rationals (algebraic identity) and on float64 (Flocq: one step of the mean stays between the old mean and the sample, with its rounding error, and the rounding error of the squared deviations, by the identity relating their increment to the error of the mean; induction on the samples) | proved. C10_welford is over exact rationals; the others are about float64. The error of SumOfSquaredDev is bounded for samples of size at most 2^480, so that squares do not overflow. Sums of integers are not exact (C10_sum_refuted) and means of values beyond 2^1022 may be infinite or NaN (C10_mean_refuted). |
| C11 | Distribution exemplars | `stats/view/aggregation_data.go` | `AggProps.v` | aggregation data over an abstract number type with float64 and rational instances; induction on the samples | proved |
| C12 | View data snapshots are isolated | `stats/view/aggregation_data.go`, `stats/view/collector.go` | `CollectorProps.v` | explicit heap of the mutable aggregation objects; frame property | proved |
| C13 | View registration is conflict-free and atomic per view | `stats/view/view.go`, `stats/view/worker.go`, `stats/view/worker_commands.go` | `WorkerProps.v` | the worker as a state machine over commands, refined to an abstract history | proved. The code compares only name, measure and aggregation pointer, and unregisters by name: three refuted readings recorded. |
| C14 | A view collects exactly the measurements recorded while it is registered | `stats/record.go`, `stats/view/worker.go`, `stats/view/worker_commands.go` | `WorkerProps.v` | the worker as a state machine over commands, refined to an abstract history | proved |
| C15 | Asynchronous recording is lossless and in order per goroutine | `stats/record.go`, `stats/view/worker.go` | `QueueProps.v` | bounded FIFO, any number of goroutines, worker goroutine; invariants over all interleavings; a measure for termination | proved. Holds without Stop; with Stop calls can hang or panic (refuted cases). |
| C16 | Recording with no subscribed measure is a no-op | `stats/measure.go`, `stats/record.go` | `RecordProps.v` | case analysis and induction; sorting lemmas | proved |
| C17 | Canonical form of a view | `stats/view/view.go` | `WorkerProps.v` | case analysis and induction; sorting lemmas | proved |
| C18 | View to metric conversion | `stats/view/view_to_metric.go` | `IntSumProps.v`, `TestExporterProps.v`, `WorkerProps.v` | case analysis and induction; sorting lemmas | proved. Integers beyond 2^53 are shown as others; out of range conversions are those of amd64 (refuted case). |
| C19 | Metric label values identify entries | `metric/common.go` | `MetricProps.v` | injectivity of the label encoding; the registry refined to an abstract map | proved. Values shorter than 255 bytes; longer ones collide (refuted case). |
| C20 | Metric read decodes the labels it was given | `metric/common.go`, `metric/registry.go` | `MetricProps.v` | injectivity of the label encoding; the registry refined to an abstract map | proved. A 255-byte value makes Read panic (refuted case). |
| C21 | Cumulatives never decrease | `metric/cumulative.go` | `MetricConcProps.v` | entries with atomic operations, any number of goroutines; linearization invariants over all interleavings | proved. Integers while the sum stays below 2^63, floats for increments that are numbers; both limits refuted beyond. Float monotonicity rests on the standard library's real number axioms (through Flocq). |
| C22 | Gauge updates are linearizable | `metric/gauge.go` | `MetricConcProps.v` | entries with atomic operations, any number of goroutines; linearization invariants over all interleavings | proved |
| C23 | GetEntry returns one shared entry per label list under concurrency | `metric/common.go` | `MetricConcProps.v`, `MetricUpsertProps.v` | entries with atomic operations, any number of goroutines; linearization invariants over all interleavings | proved. Holds when append has no spare slot to share; refuted with three constant labels, and for UpsertEntry's delete-then-store. |
| C24 | Metric registry type safety | `metric/registry.go` | `MetricAddProps.v`, `MetricConcProps.v`, `MetricProps.v` | invariant of the registry over all histories, and over all interleavings of concurrent calls of AddXxx | proved. Adding a name again with the same type replaces the metric and hides its entries (refuted case). |
| C25 | Label arity is enforced | `metric/common.go`, `metric/registry.go` | `MetricProps.v` | invariant of the registry over all histories, and over all interleavings of concurrent calls of AddXxx | proved |
| C26 | Span IDs are non-zero and unique per process | `trace/trace.go` | `IdGenProps.v` | the generator with atomic add modulo 2^64; odd increments generate Z/2^64 | proved. NewTraceID can return the zero ID (refuted case). |
| C27 | Trace and parent identity of spans | `trace/trace.go` | `TracerProps.v` | the tracer as a state machine; invariants over all interleavings | proved. A parent with a zero trace ID but another non-zero field counts as a parent (refuted case). |
| C28 | Sampling decision | `trace/sampling.go`, `trace/trace.go` | `DefaultSamplingProps.v`, `TracerProps.v` | the tracer as a state machine; invariants over all interleavings | proved |
| C29 | Probability sampler is consistent and exact | `trace/sampling.go` | `SamplerProps.v` | uint64 arithmetic and Flocq for the float64 bound; counting of the sampled IDs | proved. Rests on the standard library's real number axioms (through Flocq). |
| C30 | A sampled span is exported exactly once | `trace/trace.go` | `TracerProps.v` | the tracer as a state machine with per-call states; invariants over all interleavings | proved |
| C31 | Bounded span data keeps the newest and counts the dropped | `trace/config.go`, `trace/evictedqueue.go`, `trace/trace.go` | `TracerProps.v` | the tracer as a state machine with per-call states; invariants over all interleavings | proved |
| C32 | Span attributes are last-write-wins with bounded size | `trace/lrumap.go`, `trace/trace.go` | `TracerProps.v` | the tracer as a state machine with per-call states; invariants over all interleavings | proved. ReportActiveSpans changes which keys are kept (refuted case). |
| C33 | Child span counting | `trace/trace.go` | `TracerProps.v` | the tracer as a state machine with per-call states; invariants over all interleavings | proved |
| C34 | Non-recording and nil spans are inert | `trace/trace.go`, `trace/trace_api.go` | `TracerProps.v` | the tracer as a state machine with per-call states; invariants over all interleavings | proved. NewSpan(nil) gives a span whose methods panic (refuted case). |
| C35 | Configuration merge | `trace/config.go`, `trace/trace.go` | `TracerProps.v` | the tracer as a state machine with per-call states; invariants over all interleavings | proved |
| C36 | Exporter registration is a set and snapshot-consistent | `trace/export.go` | `ExporterProps.v`, `TracerProps.v` | the tracer as a state machine with per-call states; invariants over all interleavings | proved. An exporter that cannot be a map key panics with the mutex locked (refuted case). |
| C37 | Span store buckets are bounded, newest-first and rate limited | `trace/spanbucket.go` | `SpanStoreProps.v` | circular buckets and store; abstraction function to a list of the last spans | proved |
| C38 | Latency buckets partition all durations | `trace/spanbucket.go` | `SpanStoreProps.v` | circular buckets and store; abstraction function to a list of the last spans | proved |
| C39 | Active spans are exactly the started, unfinished ones | `trace/spanstore.go` | `TracerProps.v` | circular buckets and store; abstraction function to a list of the last spans | proved |
| C40 | Span store reports only matching spans | `trace/spanstore.go` | `TracerProps.v` | circular buckets and store; abstraction function to a list of the last spans | proved. A span renamed by SetName stays in the store of its first name (refuted case). |
| C41 | Binary span context round trip | `trace/propagation/propagation.go` | `PropagationProps.v` | the formats byte for byte; round-trip laws and characterisation of the accepted inputs | proved |
| C42 | B3 propagation round trip | `plugin/ochttp/propagation/b3/b3.go` | `PropagationProps.v` | the formats byte for byte; round-trip laws and characterisation of the accepted inputs | proved |
| C43 | W3C TraceContext round trip | `plugin/ochttp/propagation/tracecontext/propagation.go` | `PropagationProps.v` | the formats byte for byte; round-trip laws and characterisation of the accepted inputs | proved. A tracestate header already on the request is not removed (refuted case). |
| C44 | Stackdriver propagation round trip | `exporter/stackdriver/propagation/http.go` | `PropagationProps.v` | the formats byte for byte; round-trip laws and characterisation of the accepted inputs | proved. Trace IDs of any length are accepted. |
| C45 | Tracestate construction | `trace/tracestate/tracestate.go` | `TracestateProps.v` | the formats byte for byte; round-trip laws and characterisation of the accepted inputs | proved |
| C46 | Tracestate memory isolation | `trace/tracestate/tracestate.go` | `TracestateProps.v` | the formats byte for byte; round-trip laws and characterisation of the accepted inputs | proved. Isolation holds for literal arguments; refuted for slices passed with .... |
| C47 | Resource label encoding round trip | `resource/resource.go` | `ResourceAcceptProps.v`, `ResourceProps.v` | regexp as an explicit matcher with the priority of Go; quoting and UTF-8; induction | proved. Round trip for every non-empty map of safe keys and values (any iteration order); the maps that do not survive (empty map, quote-comma values, a label inside a key, leading space, non-ASCII printable, over 256 bytes) are refuted with witnesses; DecodeLabels never panics or loops |
| C48 | Resource merge | `resource/resource.go` | `ResourceProps.v` | regexp as an explicit matcher with the priority of Go; quoting and UTF-8; induction | proved |
| C49 | Sanitised names | `internal/sanitize.go` | `ResourceProps.v` | regexp as an explicit matcher with the priority of Go; quoting and UTF-8; induction | proved. Holds for ASCII digits; a first rune that is a non-ASCII digit gets no prefix, and idempotence fails for results over 100 bytes (both refuted with witnesses) |
| C50 | Interval reader lifecycle | `metric/metricexport/reader.go` | `ReaderProps.v` | reader, ticker, channels and callers as step machines; invariants over all schedules | proved. Every interleaving of any number of callers, the loop and the ticker. Fails for an exporter that calls Stop on its own reader (refuted with witness) |
| C51 | Producer manager is a set | `metric/metricproducer/manager.go` | `ReaderProps.v` | reader, ticker, channels and callers as step machines; invariants over all schedules | proved |
| C52 | Reader exports exactly one snapshot per producer | `metric/metricexport/reader.go` | `ReaderProps.v` | reader, ticker, channels and callers as step machines; invariants over all schedules | proved |
| C53 | HTTP client stats are recorded exactly once per request | `plugin/ochttp/client_stats.go` | `HttpProps.v` | the plugins as the calls they make, interleaved where goroutines meet; induction over runs, composed with the tracer and tag models | proved. Every sequence and every interleaving of Read and Close; composed with tag.New (C03) and RecordWithTags (C16). The documented deviations are refuted with witnesses |
| C54 | HTTP client span ends exactly once | `plugin/ochttp/trace.go` | `HttpTraceProps.v` | the plugins as the calls they make, interleaved where goroutines meet; induction over runs, composed with the tracer and tag models | proved. Composed with the tracer: what exporters get |
| C55 | HTTP server records one span and one set of stats per request | `plugin/ochttp/server.go` | `HttpServerProps.v` | the plugins as the calls they make, interleaved where goroutines meet; induction over runs, composed with the tracer and tag models | proved. Every handler behaviour, panics included |
| C56 | HTTP status to span status mapping | `plugin/ochttp/trace.go` | `HttpTraceProps.v` | the plugins as the calls they make, interleaved where goroutines meet; induction over runs, composed with the tracer and tag models | proved |
| C57 | gRPC RPC accounting | `plugin/ocgrpc/stats_common.go` | `GrpcProps.v` | the plugins as the calls they make, interleaved where goroutines meet; induction over runs, composed with the tracer and tag models | proved. Every interleaving of HandleRPC calls; composed with RecordWithOptions (C16). Deviations refuted with witnesses |
| C58 | gRPC span lifecycle and propagation | `plugin/ocgrpc/client_stats_handler.go`, `plugin/ocgrpc/server_stats_handler.go`, `plugin/ocgrpc/trace_common.go` | `GrpcTraceProps.v` | the plugins as the calls they make, interleaved where goroutines meet; induction over runs, composed with the tracer and tag models | proved. Composed with Binary/FromBinary (C41) and the tracer; a value already in the metadata wins (refuted with witness) |
| C59 | Status code names | `plugin/ocgrpc/stats_common.go`, `zpages/tracez.go` | `GrpcProps.v`, `ZpagesProps.v` | the plugins as the calls they make, interleaved where goroutines meet; induction over runs, composed with the tracer and tag models | proved |
| C60 | zPages agree with the span store | `zpages/tracez.go` | `ZpagesProps.v` | the page queries on top of the tracer model; refutation by witness and exact characterisation | proved. The claim is refuted with three witnesses; C60_agree proves it for all other latencies and C60_latency says exactly what is listed |
| C61 | Runtime metrics are live | `plugin/runmetrics/producer.go` | `RunmetricsProps.v` | the create and read statements as lists over the registry model; invariant over all histories | proved. C61_read gives, for every options and history, the exact metrics and values; the claim is proved with UseDerivedCumulative and refuted without it: every memory metric stays 0 forever. Concurrent Reads of one producer (a data race in the code) are not modelled |
| C62 | A trace continues from HTTP client to HTTP server | `plugin/ochttp/client.go`, `plugin/ochttp/propagation`, `plugin/ochttp/server.go`, `plugin/ochttp/trace.go` | `HttpServerProps.v` | composition of the client, format and server models | proved. B3, W3C TraceContext and Stackdriver formats |
| C63 | Wrapped writers and bodies keep optional interfaces | `plugin/ochttp/server.go`, `plugin/ochttp/wrapped_body.go` | `HttpServerProps.v` | composition of the client, format and server models | proved |
| C64 | RoundTrip leaves the caller's request alone | `plugin/ochttp/trace.go` | `HttpServerProps.v` | composition of the client, format and server models | proved |
| C65 | gRPC tag propagation | `plugin/ocgrpc/client_stats_handler.go`, `plugin/ocgrpc/server_stats_handler.go` | `GrpcTraceProps.v` | composition of the client, format and server models | proved. The remote panic is refuted with a witness; C65_no_panic characterises exactly when it happens |
| C66 | Rows of a span on /tracez | `zpages/tracez.go` | `ZpagesProps.v` | the page rows as functions; induction over events and exported rows | proved. fmt, the local date and html are arguments or outside; short elapsed times are refuted with witnesses |
| C67 | /rpcz shows the last exported data | `zpages/rpcz.go` | `RpczProps.v` | the page rows as functions; induction over events and exported rows | proved. C67_count and C67_errors use Flocq and so the axioms of the real numbers |
| C68 | Runtime metrics are registered once | `metric/metricproducer/manager.go`, `plugin/runmetrics/producer.go` | `RunmetricsProps.v` | invariant of Enable, Disable and the manager over all histories | proved. Enable and Disable are one step each, as their lock makes them |
| C69 | A view shows exactly what was recorded since its registration | `stats/record.go`, `stats/view/collector.go`, `stats/view/worker.go`, `tag/map.go` | `ProcessProps.v` | composition of the tag, record and worker models; invariant over all runs of the process | proved. one action of the process is one API call, with the delivery handled by the worker in the same action; C15 covers the queue in between |
| C70 | The gRPC views show exactly the RPCs since their registration | `plugin/ocgrpc/client_metrics.go`, `plugin/ocgrpc/server_metrics.go`, `plugin/ocgrpc/stats_common.go`, `stats/record.go`, `stats/view/worker.go` | `CustomViewProps.v`, `GrpcProcProps.v` | composition of the ocgrpc model with the process of C69; invariant over all runs, permutations of the recorded samples | proved. C70_distribution: the row's data are the aggregation of the values of exactly the RPCs finished since, in some order; C70_buckets gives count and histogram and uses the axioms of the real numbers; the server's methods must be legal tag values, what happens otherwise is refuted with a witness |
| C71 | The resource in the environment | `resource/resource.go` | `ResourceEnvProps.v` | prefix-free encodings of white space; composition with the round trip of C47 | proved. the environment variables are arguments |
| C72 | The HTTP views show exactly the requests since their registration | `plugin/ochttp/client_stats.go`, `plugin/ochttp/server.go`, `plugin/ochttp/stats.go`, `stats/record.go`, `stats/view/worker.go` | `CustomViewProps.v`, `HttpProcProps.v` | composition of the ochttp model with the process of C69; invariant over all runs, permutations of the recorded samples | proved. C72_count allows overlapping calls of Read and Close; C72_distribution and C72_buckets exclude them, because tracker.Read adds to the size without synchronisation; C72_buckets uses the axioms of the real numbers; for views by method host, path and method must be legal tag values, what happens otherwise is refuted with a witness |
| C73 | The test exporter finds the recorded point | `metric/metricexport/reader.go`, `metric/test/exporter.go`, `stats/view/worker.go` | `TestExporterProps.v` | composition of the exporter with the process of C69 and the reader of C43; induction over exports, prefix-freeness of the signature with one key | proved. sort.Slice is an argument (any sorting by key); C73_one_label and C73_one_key_samples: with at most one label key no two series can be confused; what happens otherwise is refuted with a witness |
| C74 | The client trace annotates the span with every event | `plugin/ochttp/span_annotating_client_trace.go`, `trace/evictedqueue.go`, `trace/trace.go` | `ClientTraceProps.v` | each hook is one update of the span machine of C31; case analysis of the hooks | proved. the texts of durations, addresses and errors are arguments |
| C75 | Reading metrics while views change | `stats/view/view.go`, `stats/view/worker.go`, `stats/view/worker_commands.go` | `MeterStepProps.v` | small-step interleaving of the worker and a Read; invariant relating every intermediate state to a state of the sequential worker of C14; linearisation point chosen when the Read returns | proved. a step is what happens between two operations another goroutine can see; the unsynchronised accesses to the collector's map and to w.r, data races in Go, are taken to be sequentially consistent; SetResource during a Read is refuted with a witness |
| C76 | Measures are one per name, whoever creates them | `stats/measure.go`, `stats/measure_float64.go`, `stats/measure_int64.go`, `stats/record.go` | `MeasureProps.v` | small-step interleaving with the lock explicit; invariant over all runs, linearisation by the order of the critical sections | proved. one step is one operation another goroutine can see; the subscription to a foreign Measure is refuted with a witness |
| C77 | A registered view keeps its definition | `stats/view/aggregation.go`, `stats/view/view.go`, `stats/view/worker_commands.go` | `SliceViewProps.v` | heap of arrays and slices; invariant of every aggregation (as made, or sorted with its positive part kept) over all histories; sorting a sorted slice changes nothing; refinement to the model of C17 when nothing is shared | proved. C77_unshared: without sharing this model agrees with that of C17, which the other view properties use; slices that overlap in part are refuted with a witness |
| C78 | What is recorded is what was passed to Record | `stats/record.go`, `stats/view/aggregation_data.go`, `stats/view/worker.go`, `stats/view/worker_commands.go` | `RecordAliasProps.v` | heap of arrays and maps, queue and worker in small steps; invariant of one call (what has been read of it, where its request is, that its slice is intact while unread) over all continuations | proved. data races in Go are taken to be sequentially consistent; reuse of the slice or the map is refuted with witnesses |
| C79 | What the text pages of zpages show | `trace/basetypes.go`, `zpages/formatter.go`, `zpages/rpcz.go`, `zpages/templates.go`, `zpages/tracez.go` | `ZpagesTextProps.v` | the text as lists of cells between tabs and newlines; splitting lemmas; the query parser characterised by the decimal value | proved. cells are what tabwriter gets: its padding is not modelled; the texts of durations, two-digit floats and times of day are arguments |
| C80 | The numbers on the HTML rpcz page | `zpages/internal/templates/rpcz.html`, `zpages/rpcz.go`, `zpages/templates.go` | `ZpagesNumProps.v` | float64 conversion, product and quotient with the error bounds and monotonicity of Flocq; integer rounding in decimal | proved. strconv's %.3f is modelled as exact rounding of the binary value; C80_latency is for latencies from -10^15 ns, C80_data_rate for rates up to 2^50 bytes per second |
| C81 | What an exporter may call while it is called | `stats/view/export.go`, `stats/view/worker.go`, `stats/view/worker_commands.go` | `CallbackProps.v` | threads as lists of lock, unlock, send, wait and reply operations; an invariant that fits operations to mutexes and replies to waiting callers; a lexicographic measure for termination | proved. exporters call only methods of the meter that calls them; the synchronising operations are modelled, not the data; that a meter works as documented whatever the exporter calls is refuted with a witness |
| C82 | A span exports what was attached when it was attached | `trace/basetypes.go`, `trace/export.go`, `trace/trace.go` | `SpanAliasProps.v` | the span on a heap of maps in lockstep with the span of values of TraceModel; an invariant that tells maps of the program, of annotations and of SpanData apart | proved. one span; maps that come from a SpanData are not passed to AddLink; that links are safe from writes of the program, and SpanData from edits of others, is refuted with witnesses |
| C83 | Which rows are equal | `stats/view/aggregation_data.go`, `stats/view/collector.go`, `stats/view/view.go` | `RowEqualProps.v` | rounding errors of difference and square from Flocq; bounds in integers over 2^1074; witnesses for what does not hold | proved. math.Pow(x, 2) is modelled as the rounded product: they differ only in subnormal results; the data of a row is not nil |
| C84 | Package trace has no data races and no deadlocks | `trace/config.go`, `trace/export.go`, `trace/spanstore.go`, `trace/trace.go` | `TraceRaceProps.v` | threads as lists of lock, unlock, read, write and Once operations; an invariant that fits the rest of each thread to the mutexes it holds and the spans it knows; ranks of mutexes; a measure for termination | proved. atomic fields are no accesses; the deadlock theorems are for exporters that do not End recording spans in ExportSpan; that any exporter is safe is refuted with a witness |
| C85 | Which calls of meters race | `stats/view/aggregation.go`, `stats/view/view.go`, `stats/view/worker.go`, `stats/view/worker_commands.go` | `MeterRaceProps.v` | threads as lists of lock, unlock, read and write operations, one of them the worker of each meter; an invariant that fits the rest of each thread to the mutexes it holds; case analysis of two threads at one variable | proved. calls do not wait for the answer in this model: it has more schedules than the program; the fields that user code reads itself are not modelled |
| C86 | Tag maps shared between contexts and user-defined mutators | `tag/context.go`, `tag/map.go`, `tag/map_codec.go`, `tag/profile_19.go` | `TagApiProps.v` | programs over the whole API of package tag with a heap of maps; frame properties of each mutator, induction on the program | proved. Mutate on the map of a context, or a mutator that returns the map of another, changes contexts in place; Do panics without tags and keeps labels of deleted tags (refuted cases). |
| C87 | Successive exports and reads of a view never go back | `stats/record.go`, `stats/view/aggregation_data.go`, `stats/view/collector.go`, `stats/view/worker.go`, `stats/view/worker_commands.go` | `MonotoneProps.v` | the meter specification of C14: the samples of an entry only grow while its name is not unregistered; one row as the aggregate of a longer list of samples (Flocq: adding a non-negative float64 does not decrease the sum) | proved. sums do go back when negative values are recorded, although their metric type is cumulative; a Record overtaken by Unregister and Register gives a series a start before the end of the previous one: both refuted with a witness |
| C88 | The z-pages are where the prefix says | `zpages/internal/resources.go`, `zpages/internal/templates/header.html`, `zpages/rpcz.go`, `zpages/templates.go`, `zpages/zpages.go` | `ZMuxMoreProps.v`, `ZMuxProps.v` | path.Clean, path.Join, http.ServeMux and http.FileServer as functions on byte strings; the patterns of a prefix are computed for every list of plain elements by induction, then the lookup is compared before and after | proved. http.ServeMux is modelled as in Go before 1.22, without CONNECT; that a prefix without a slash at its start works like one with it is refuted with a witness; a prefix with empty, dot or dot-dot elements works like the tidy one it leads to (C88_dotted) |
| C89 | An exporter gets whole traces | `trace/export.go`, `trace/sampling.go`, `trace/trace.go` | `WholeTraceProps.v` | the tracer machine of C27, C28, C30 and C33: sampling and trace ID by induction on the tree of spans, a bijection between the children made and the children exported | proved. different non-zero span IDs are a hypothesis, proved for the default generator in C26; one root per trace also needs different trace IDs; without the condition on samplers it is refuted with a witness |

No property had to be given up as inexpressible.  What is left out of each is said in
its note and in the comments of the model.

## What is modelled and what is not

Modelled, function by function:

* `tag/`: keys, validation, maps, contexts, `New` and the mutators, metadata (TTL), the
  wire codec (`TagModel`).  `Do`, its labels
  and `String` are in `TagApiModel`.
* `internal/tagencoding` (`TagEncodingModel`), `internal/sanitize.go` (`ResourceModel`).
* `stats/`: measures, units, `Record*` with its options (`RecordModel`; what it keeps of its
  arguments, `RecordAliasModel`), the registry of
  measures with goroutines (`MeasureModel`).
* `stats/view/`: aggregations and their data, exemplars (`AggModel`), collector
  (`CollectorModel`), view definition, canonicalisation, conversion to metrics
  (`ViewModel`; on slices the user's views share, `SliceViewModel`), the worker's commands (`WorkerModel`), the same in small steps with
  concurrent `Read` (`MeterStepModel`), its queue with goroutines and Stop
  (`QueueModel`), export.  Not: what data races outside locks mean beyond interleaving
  (see Findings).
* How the methods of a Meter and its exporters block each other (`CallbackModel`).
* When rows are equal (`RowEqualModel`).
* Which maps a span and the SpanData it makes share with each other and with the program (`SpanAliasModel`).
* Which fields package trace reads and writes with which mutexes held (`TraceRaceModel`), and the same for meters (`MeterRaceModel`).
* Where the z-pages are served (`ZMuxModel`).
* Package tag with shared, nil and zero maps, direct calls of Mutate, mutators of the user's own, `Do` and `String` (`TagApiModel`).
* tag, stats and view together as one process (`ProcessModel`).
* `metric/`: gauges, cumulatives, derived ones, registry, sequentially (`MetricModel`) and
  interleaved (`MetricConcModel`); `metricdata` as far as values carry it;
  `metricexport` and `metricproducer` (`ReaderModel`); `metric/test` (`TestExporterModel`).
* `trace/`: ID generator (`IdGenModel`), samplers, StartSpan, span data, evicted queues,
  LRU attribute map (`TraceModel`), configuration, exporters, End, span store as one
  machine (`TracerModel`, `ExporterModel`, `SpanStoreModel`), binary propagation
  (`PropagationModel`), tracestate (`TracestateModel`).  Not: `runtime/trace` tasks.
* `plugin/ochttp` with `propagation/{b3,tracecontext}` and the Stackdriver format
  (`HttpModel`, `PropagationModel`; with its views, tag, stats and view in one process:
  `HttpProcModel`; the client trace: `ClientTraceModel`), `plugin/ocgrpc` (`GrpcModel`; with its views, tag, stats and view
  in one process: `GrpcProcModel`),
  `plugin/runmetrics` (`RunmetricsModel`), `resource/` (`ResourceModel`),
  `zpages/` tracez and rpcz data (`ZpagesModel`), the text pages and the parameters of the
  tracez page (`ZpagesTextModel`), the number formats (`ZpagesNumModel`).
* Not modelled: `examples/`, `internal/testpb`, `internal/readme`, generated files,
  `html/template` and `text/tabwriter` and the rest of the HTTP handlers of zpages.

Trusted descriptions of code outside the repository (they are definitions in the model,
cited there): `groupcache/lru`, `strconv.Quote/Unquote/Itoa/ParseUint`, `encoding/hex`,
`encoding/binary` varints, `path.Clean/Join`, `http.ServeMux`, `http.FileServer`, `sort`, `strings.Trim*`, the subset of `regexp` used by the
resource label and tracestate patterns, `time.Time` as nanoseconds (`Sub` saturates),
`time.Ticker` and channels in `ReaderModel`, `sync.Mutex/Once/Map`, `sync/atomic`
(sequentially consistent), `net/http.Header`.  Unicode tables and `fmt` are arguments.

## Trusted base

Coq 8.16.1's kernel (and `coqchk`).  No axiom is added, no kernel check is switched off.
Of the 504 theorems named in `MANIFEST.json`, `Print Assumptions` answers
"Closed under the global context" for 471.  The others,

`C07_int_sum`, `C07_int_sum_refuted`, `C07_sum_error`, `C07_sum_order`, `C10_mean_bounds`, `C10_mean_min_max`, `C10_mean_error`, `C10_ssd_nonneg`, `C10_ssd_error`, `C10_sum_error`, `C18_int_sum`, `C18_int_last`, `C21_float_never_decreases`, `C28_unconfigured`, `C29_decision`, `C29_monotone`, `C29_none`, `C29_count`, `C67_count`, `C67_errors`, `C70_buckets`, `C72_buckets`, `C80_count`, `C80_count_order`, `C80_latency`, `C80_data_rate`, `C83_equal`, `C83_close`, `C83_symmetric`, `C83_copy`, `C87_rows`, `C87_read`, `C87_export`,

list exactly these axioms of the standard library, which come with its real numbers and
are used through Flocq's link between floating point and reals:
`ClassicalDedekindReals.sig_forall_dec`, `ClassicalDedekindReals.sig_not_dec`,
`FunctionalExtensionality.functional_extensionality_dep`, `Classical_Prop.classic`.

The model itself is the remaining assumption: it was written by reading the Go text.

## Findings

Behaviour of the code that contradicts what its documentation or a reasonable reader
says.  Each is proved about the model (theorem in brackets) unless marked "noted".

### tag
* A tag map on the wire whose length prefix is 2^63 or more makes `Decode` panic
  [`C02_never_panics_refuted`]; over gRPC a remote peer can so crash a server
  [`C65_remote_panic_refuted`].
* The zero `Key` can put an empty key into a map [`C04_zero_key_refuted`].

### stats and views
* Tag values longer than 255 bytes would collide in row signatures
  [`C05_long_values_refuted`]; the tag package's limit is what prevents it.
* The maximum of a distribution is wrong if no sample is positive, the minimum if all are
  +Inf [`C09_max_refuted`, `C09_min_refuted`].
* Registering compares only name, measure and aggregation pointer, and unregistering goes
  by name [`C13_different_keys_refuted`, `C13_equal_definition_refuted`,
  `C13_unregister_by_name_refuted`].
* `Register` sorts the user's tag keys and bounds in place and keeps the slices: views made with
  overlapping slices change each other, and rows already collected show the wrong tags
  [`C77_overlap_refuted`, `C77_overlap_rows_refuted`].
* `Record(ctx, ms...)` and `WithAttachments` keep the caller's slice and map, which the worker
  reads later: reusing them changes what was recorded [`C78_reused_slice_refuted`,
  `C78_rewritten_attachments_refuted`].
* An exporter that calls `Find`, `Register`, `Unregister`, `RetrieveData`, `SetReportingPeriod`,
  `RegisterExporter`, `UnregisterExporter` or `Stop`, or `Read` in a report by the timer, hangs, and with it
  everybody who needs the worker [`C81_hang`, `C81_read_tick`].  An exporter that records, say by
  sending with an instrumented client, hangs if the channel is full [`C81_record_refuted`].
* `AddLink` keeps the map of attributes it is given: a program that reuses it changes links it
  has already added [`C82_link_refuted`].  All SpanData of a span share the maps of its annotations
  and links, so an exporter that edits them edits what others get [`C82_shared_refuted`].
* `Row.Equal` is not reflexive on copies (NaN, infinities), not transitive, ignores the bounds of
  distributions and distinguishes nil from empty tags [`C83_copy_refuted` and others]; since its
  tolerance is absolute, large sums of the same measurements in another order differ
  [`C83_order_refuted`].
* An exporter that calls `End` on the span it is exporting hangs: `ExportSpan` runs inside the span's
  `sync.Once` [`C84_exporter_refuted`].
* `Unregister` clears the rows of a view without the mutex, while `Read` may be reading them
  [`C85_unregister_refuted`]; `SetResource` races with `Read` [`C85_resource_refuted`].  Meters are not
  independent: registering writes to the Aggregation of the view, and `Count()` and `Sum()` return the same
  one each time, so two meters race on it [`C85_meters_refuted`, `C85_views_refuted`].
* `tag.Do` panics on a context without tags, and a tag deleted from the context stays a profiler label
  in a nested `Do` [`C86_do_refuted`, `C86_labels_refuted`].  `Mutate` on the map `FromContext` returns
  changes the context, as does `New` with a mutator that returns the map of another context
  [`C86_mutate_refuted`, `C86_custom_refuted`].
* The metric of a `view.Sum()` view has a cumulative type, but a negative measurement makes it go
  back (`C87_sum_refuted`). A Record that is overtaken by Unregister and Register gives the new
  series a start before the end of the old one (`C87_restart_refuted`).
* `zpages.Handle(mux, "debug")`, without a slash at the start, registers the pages for a host named debug
  (`C88_relative`, `C88_relative_refuted`). `path.Join(prefix, "public/")` loses its slash, so the embedded
  stylesheet is never served (`C88_stylesheet`, `C88_stylesheet_missing`; the file is empty).
* A sampler given to a child span can make an exporter get a span without its parent (`C89_sampler_refuted`).
* The sum of a distribution is its mean times its count, so sums of small integers need not be exact: after
  0, 1 and 6 it is 6.999999999999999 (`C10_sum_refuted`); and two samples beyond 2^1022 of opposite sign make
  the mean infinite, and NaN from the next sample on (`C10_mean_refuted`).
* Integers are summed and kept as float64: after 2^53 further ones are lost, an int64 beyond 2^53 may be
  shown as another, and on amd64 the largest int64 as the smallest [`C07_int_sum_refuted`,
  `C18_int_last_refuted`].
* After `Stop`, calls hang or panic [`C15_stop_loses_calls_refuted`,
  `C15_record_after_stop_refuted`, `C15_concurrent_stop_refuted`].
* The zero `Measurement` makes `Record` panic [`C16_zero_measurement_refuted`].
* `SetResource` is not synchronised with `Read`: the metrics of one `Read` can have different
  resources [`C75_resource_refuted`].  `unregister` clears rows outside the lock that `Read`
  takes, a data race that no `Read` shows if loads and stores are taken in order [`C75_read`].
* A view over a `stats.Measure` that package stats has not created (the interface has only
  exported methods) panics with a nil pointer in the worker's goroutine, which ends the
  program [`C76_foreign_refuted`].
* Noted: `canonicalize` sorts the user's tag keys and bounds in place, so that a view whose
  `TagKeys` share an array with another one's can permute a registered view's keys; `Record` keeps the
  caller's slice; a custom
  `Measure` implementation panics; int64 sums go through float64.

### metric
* Label values of 255 bytes or more are cut or collide; `Read` panics on one of 255 bytes
  [`C19_long_values_refuted`, `C20_long_value_read_panics_refuted`].
* int64 cumulatives wrap, float64 ones can become NaN [`C21_int_overflow_refuted`,
  `C21_float_nan_refuted`].
* `GetEntry` appends to the shared slice of constant labels: with three or more of them
  two goroutines can get each other's entry [`C23_shared_append_refuted`].  `UpsertEntry`
  deletes before it stores, so a concurrent `Read` misses the series
  [`C23_upsert_window_refuted`].
* Adding a name again hides the entries of the first metric
  [`C24_readd_hides_entries_refuted`]; concurrent adds can leave either
  [`C24_concurrent_add_refuted`].

### metric/test
* `GetPoint` confuses series whose sorted keys and values run together equally:
  {a:x, b:by}, {a:xb, b:y} and {axbby:} [`C73_labels_refuted`].
* `ExportMetrics` panics on a series with too few label values or without points
  [`C73_panic`].

### trace
* `NewTraceID` can return the invalid zero ID [`C26_trace_id_zero_refuted`]; a parent with
  a zero trace ID counts as a parent [`C27_zero_trace_refuted`].
* Reporting active spans changes the LRU order of attributes, renaming a span leaves it in
  the store of its first name, an exporter of an unhashable type panics with the lock
  held, `NewSpan(nil)` panics [`C32_report_reorders_refuted`, `C40_renamed_refuted`,
  `C36_unhashable_refuted`, `C34_nil_internal_refuted`].
* Noted: `executionTracerTaskEnd` runs on every `End`; attribute maps of links are
  aliased; exporters and the span store share one `*SpanData`.

### propagation
* W3C TraceContext: a flags section longer than two hex digits and upper case hex are
  accepted, several traceparent headers are joined (what is accepted: `C43_accepts_iff`).
* A tracestate header already on the request is not removed
  [`C43_stale_tracestate_refuted`].
* Stackdriver: trace IDs of any length are accepted [`C44_trace_id_length_refuted`].
* `tracestate.New` keeps the slice it is given with `...`, so the caller can change a
  tracestate later, also into an invalid one [`C46_shared_slice_refuted`,
  `C46_caller_write_refuted`].

### resource and sanitize
* `DecodeLabels(EncodeLabels m)` fails for the empty map, for values with a quote before a
  comma, for keys that contain a label, and for values the pattern does not admit
  [`C47_empty_refuted`, `C47_quote_comma_refuted`, `C47_injection_refuted`,
  `C47_other_refuted`].
* `Sanitize` is not idempotent on results over 100 bytes, and a non-ASCII digit in front
  gets no prefix [`C49_idempotent_refuted`, `C49_digit_first_refuted`].

### metricexport
* An exporter that calls `Stop` on its own reader deadlocks
  [`C50_exporter_stop_refuted`]; `Flush` on a nil reader
  panics (noted).

### ochttp
* `ClientSentBytes` records -1 for requests without body; a transport error is tagged
  "500" although the documentation says "error"; `ReceivedBytes` is the announced content
  length if nothing was read; one overlong path drops every tag of the request; bytes
  written through `ReadFrom` are not counted; the recorded status is the last
  `WriteHeader`, even a superfluous or 1xx one; a panicking handler is recorded as 200; on
  a health endpoint the status goes to the caller's span; an invalid route loses the
  whole recording [`C53_sent_bytes_refuted`, `C53_error_status_refuted`,
  `C53_unread_refuted`, `C53_long_path_refuted`, `C55_read_from_refuted`,
  `C55_status_sent_refuted`, `C55_panic_refuted`, `C55_health_outer_refuted`].
* As a consequence a GET of an overlong path, made by the handler of a POST, is counted as a
  POST by `ClientRequestCountByMethod` [`C72_method_refuted`], and a request whose handler
  sets a route outside printable ASCII is counted as begun but never as answered
  [`C72_route_refuted`].
* Noted: a nil response body is wrapped and then panics on `Read`; a stale tracestate
  header is kept.

### ocgrpc
* The server's `started_rpcs` is tagged with the client method key; an error that is no
  gRPC status gives an empty status tag while the span says Internal; `HandleRPC` for
  Begin without `TagRPC` panics; an invalid method name loses recordings; trace metadata
  already present wins; a nil `RPCTagInfo` panics; the server hides the tags the context
  had [`C57_server_started_refuted`, `C59_other_error_refuted`, `C57_untagged_refuted`,
  `C58_forwarded_refuted`].
* A server RPC whose method is no legal tag value keeps the `grpc_server_method` tag the
  peer sent, so the peer chooses the row it is counted in [`C70_server_method_refuted`].
* `grpc.io/client/server_latency` is never recorded: `ClientServerLatencyView` is always
  empty [`C70_server_latency_never`].

### zpages
* The last latency bound on the page (100 s) is not the store's (1 min); a span exactly at
  a bound is listed under two ranges; spans with negative latency are counted but not
  listed [`C60_minute_refuted`, `C60_bound_refuted`, `C60_negative_refuted`].
* Elapsed times are padded with blanks after the point and lose the sign under one second
  [`C66_blanks_refuted`, `C66_sign_refuted`].
* The server's input rate is never filled in [`C67_server_input_refuted`].
* In the rpcz text the heading MaxLat has no cells, so every cell after it stands under the
  wrong heading; and bytes are divided by 1024 once under the heading MiB/s
  [`C79_rpcz_columns_refuted`].
* Names and messages are written as they are: with a tab or a newline they forge cells and
  rows of the text pages [`C79_forged_refuted`, `C79_name_refuted`].
* Spans with the empty name have a row in the summary, but its links list nothing
  [`C79_empty_name_refuted`].
* The HTML page heads as kb/s what is in millions of bytes per second, and shows 999999999
  as 1000.000 M [`C80_kb_refuted`, `C80_unit_refuted`].
* Noted: error subtypes are ignored; methods are never removed.

### runmetrics
* With the default options the memory metrics stay 0 forever: `Read` never calls the
  method that reads them [`C61_default_memory_refuted`].
* `process/heap_release` is declared cumulative but can go down [`C61_release_refuted`].
* Noted: concurrent `Read`s share one `runtime.MemStats`.
