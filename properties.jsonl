{"id": "C01", "title": "Tag map wire round trip", "statement": "For every tag map whose keys came from tag.NewKey and whose values passed tag.Insert/Update/Upsert, tag.Decode(tag.Encode(m)) succeeds and yields exactly the tags of m that carry TTLUnlimitedPropagation, whatever order the runtime iterates the map in; tags with TTLNoPropagation never reach the wire.", "quantifier": "every tag map (any number of tags, any key/value bytes allowed by validation), every map iteration order", "why_tests_cant": "Keys and values range over all byte strings up to 255 bytes and the iteration order of a Go map is random on each run; tests sample a few maps and one order.", "anchors": ["tag/map_codec.go: Encode, Decode, DecodeEach, eachTag encoder writeStringWithVarintLen/readBytesWithVarintLen", "tag/map.go: Map"]}
{"id": "C02", "title": "Tag decoding of untrusted bytes", "statement": "tag.Decode never returns a map containing an invalid key or value, rejects unsupported versions and unknown fields with an error, never reads past the end of the input, and does not panic as long as the read position after a length prefix plus that length stays below 2^63; a length prefix large enough to overflow the int index makes it panic.", "quantifier": "every byte string received from the network", "why_tests_cant": "The input space is all byte strings; the panic needs a 10-byte varint that fuzzing tests in the repo do not contain.", "anchors": ["tag/map_codec.go: Decode, DecodeEach, readBytesWithVarintLen", "tag/validate.go: checkKeyName, checkValue"]}
{"id": "C03", "title": "tag.New applies mutators in order and is atomic", "statement": "tag.New(ctx, m1..mn) yields a context whose tag map is the map of ctx with m1..mn applied left to right (Insert only if absent, Update only if present, Upsert always, Delete always); if any mutator fails, the original context is returned with an error; no tag map reachable from any previously created context ever changes.", "quantifier": "every history of tag.New calls branching arbitrarily over existing contexts, every list of mutators", "why_tests_cant": "Aliasing between parent and child maps only shows for particular branching histories; a test covers one or two.", "anchors": ["tag/map.go: New, Insert, Update, Upsert, Delete, insert, update, upsert, delete, FromContext, NewContext"]}
{"id": "C04", "title": "Tag validity invariant", "statement": "Every tag in every context produced by tag.New (with keys made by tag.NewKey) or by tag.Decode has a key of 1..255 printable ASCII bytes and a value of 0..255 printable ASCII bytes. The zero tag.Key{} escapes validation: it can be inserted and makes the next tag.New on that context fail.", "quantifier": "every sequence of tag.New / tag.Decode operations and every argument", "why_tests_cant": "An invariant over all reachable contexts; tests check individual bad inputs.", "anchors": ["tag/key.go: NewKey", "tag/validate.go", "tag/map.go: New, Insert"]}
{"id": "C05", "title": "View row signature is injective", "statement": "Two tag maps are aggregated into the same row of a view if and only if they agree on every tag key of the view, where a missing tag counts the same as an empty value; the row's reported tags are exactly the non-empty tags of the map restricted to the view's keys, in the view's key order.", "quantifier": "every list of tag keys, every pair of tag maps with values of at most 255 bytes", "why_tests_cant": "A collision would merge two unrelated rows; it depends on all pairs of byte strings.", "anchors": ["stats/view/collector.go: encodeWithKeys, decodeTags", "internal/tagencoding/tagencoding.go: WriteValue, ReadValue"]}
{"id": "C06", "title": "View rows are an exact group-by of the recorded samples", "statement": "After any sequence of recordings, a view's collected rows contain one row per distinct tag combination seen, and each row's aggregate is the aggregate of exactly the samples recorded under that combination in recording order; no sample is lost, duplicated or attributed to another row.", "quantifier": "every sequence of (tag map, value, attachments, time) samples", "why_tests_cant": "Depends on arbitrary-length histories and all key combinations.", "anchors": ["stats/view/collector.go: addSample, collectedRows, clearRows", "stats/view/view.go: viewInternal.addSample"]}
{"id": "C07", "title": "Count and sum aggregations are exact", "statement": "After n recordings a Count row is n, and a Sum row equals the left-to-right floating-point sum of the recorded values starting at 0; LastValue equals the last recorded value. For int64 measures the sum is exactly that of the integers as long as each of them and each partial sum is at most 2^53 in size. For float64 measures n recordings (up to 2^52, no NaN or infinity, sizes adding up to at most 2^1022) give a finite sum that is off by at most n 2^-52 times the sum of the sizes, and the order of the recordings makes at most twice that difference (but may make one).", "quantifier": "every sequence of samples", "why_tests_cant": "Universally quantified over histories.", "anchors": ["stats/view/aggregation_data.go: CountData, SumData, LastValueData", "stats/measure_int64.go: M"]}
{"id": "C08", "title": "Distribution buckets partition the samples", "statement": "For every distribution view with increasing bounds b0<...<bk-1, after any sequence of non-NaN samples bucket i counts exactly the samples in [b(i-1), b(i)), the bucket counts add up to the number of samples, and the number of buckets stays k+1.", "quantifier": "every list of strictly increasing bounds (float64), every sequence of float64 samples", "why_tests_cant": "Boundary cases (sample equal to a bound, below the first, above the last, infinities) over all bounds lists.", "anchors": ["stats/view/aggregation_data.go: DistributionData.addSample, addToBucket, newDistributionData"]}
{"id": "C09", "title": "Distribution minimum, maximum", "statement": "The distribution's Min equals the least sample, for every non-empty sequence of non-NaN samples that are not all +Inf; Max equals the greatest sample provided it is greater than the smallest positive float64. When every sample is <= 0, Max is instead reported as 4.9e-324 (defect).", "quantifier": "every non-empty sequence of non-NaN float64 samples", "why_tests_cant": "Tests use positive latencies only, so the wrong initial Max is never observed.", "anchors": ["stats/view/aggregation_data.go: newDistributionData, addSample"]}
{"id": "C10", "title": "Distribution mean and squared deviation (Welford)", "statement": "In exact arithmetic, after samples x1..xn the distribution's Mean is (x1+..+xn)/n and SumOfSquaredDev is the sum of (xi-Mean)^2, and Sum() is x1+..+xn. In float64, for at most 2^53 samples of size at most 2^1022, the mean is a number between the least and the greatest sample (so equal samples have exactly that mean) and between the Min and Max shown, it is off by at most (n+11)2^-54 times the largest sample, SumOfSquaredDev is never negative or NaN, and for samples of size at most M, where M is at most 2^480, it is finite and off by at most n((9n+79)2^-53 M^2 + 2^-1072) (with M + 2^-1021 for M), and Sum() is off by at most n(n+13)2^-54 times the largest sample; Sum() of integers need not be exact (0, 1, 6 sum to less than 7), and beyond 2^1022 the mean may become infinite and then NaN.", "quantifier": "every finite sequence of rational samples, in exact arithmetic; every sequence of at most 2^53 float64 samples of size at most 2^1022 for the float64 claims", "why_tests_cant": "An algebraic identity over all sequences; a test checks a few numbers.", "anchors": ["stats/view/aggregation_data.go: DistributionData.addSample, Sum, variance"]}
{"id": "C11", "title": "Distribution exemplars", "statement": "A bucket's exemplar, if present, is the last sample that fell in that bucket and carried attachments; samples without attachments never replace an exemplar with attachments.", "quantifier": "every sequence of samples with and without attachments", "why_tests_cant": "Depends on the full interleaving of samples among buckets.", "anchors": ["stats/view/aggregation_data.go: addToBucket, getExemplar"]}
{"id": "C12", "title": "View data snapshots are isolated", "statement": "Rows returned to the caller (RetrieveData, exporters) never change when further samples are recorded, and mutating the aggregation afterwards does not alter previously delivered rows.", "quantifier": "every interleaving of snapshots and recordings", "why_tests_cant": "Aliasing through shared slices only manifests for particular interleavings.", "anchors": ["stats/view/aggregation_data.go: clone", "stats/view/collector.go: collectedRows"]}
{"id": "C13", "title": "View registration is conflict-free and atomic per view", "statement": "At all times at most one view is registered under a name; registering a view under a name already taken by a different view is an error that leaves the registered view and its data unchanged; registering the identical view again succeeds and keeps its collected data; a view with an invalid name, nil measure or nil aggregation makes the whole Register call fail with nothing registered.", "quantifier": "every history of Register/Unregister/Record/SetReportingPeriod calls", "why_tests_cant": "State-machine property over all histories.", "anchors": ["stats/view/worker.go: tryRegisterView, unregisterView", "stats/view/worker_commands.go: registerViewReq.handleCommand", "stats/view/view.go: canonicalize, same"]}
{"id": "C14", "title": "A view collects exactly the measurements recorded while it is registered", "statement": "RetrieveData(view) returns the aggregation of exactly those measurements of the view's measure recorded (in channel order) since the view's latest registration; measurements of other measures, or recorded before registration or after unregistration, do not contribute; unregistering clears the data.", "quantifier": "every history of commands", "why_tests_cant": "Quantifies over all histories of register, unregister, record and retrieve.", "anchors": ["stats/view/worker_commands.go", "stats/view/worker.go", "stats/record.go: RecordWithOptions"]}
{"id": "C15", "title": "Asynchronous recording is lossless and in order per goroutine", "statement": "With any number of goroutines calling Record and the worker draining its bounded queue, every accepted Record is processed exactly once, records of one goroutine are processed in program order, and a RetrieveData issued after a Record by the same goroutine sees that record.", "quantifier": "every interleaving of goroutines and the worker, every queue occupancy up to capacity", "why_tests_cant": "Schedules are unbounded; tests see a handful.", "anchors": ["stats/view/worker.go: start, NewMeter, Record", "stats/record.go: RecordWithOptions"]}
{"id": "C16", "title": "Recording with no subscribed measure is a no-op", "statement": "Record/RecordWithTags/RecordWithOptions return nil and deliver nothing when no measurement's measure has ever had a view; otherwise the mutators are applied first and a mutator error is returned with nothing recorded.", "quantifier": "every list of measurements, mutators and registration histories", "why_tests_cant": "Combination of registration history and options.", "anchors": ["stats/record.go: RecordWithOptions", "stats/measure.go: subscribe, subscribed"]}
{"id": "C17", "title": "Canonical form of a view", "statement": "A successfully canonicalised view has its tag keys sorted by name, a name of at most 255 printable ASCII characters, a description, distribution bounds with leading zero bounds removed; canonicalising is idempotent and does not change which tag keys the view has.", "quantifier": "every view value", "why_tests_cant": "All field combinations and all orders of tag keys.", "anchors": ["stats/view/view.go: canonicalize, dropZeroBounds, checkViewName"]}
{"id": "C18", "title": "View to metric conversion", "statement": "Converting a view's rows to a metric yields exactly one time series per row whose label values line up one-to-one with the metric's label keys: present with the row's tag value when the row has the tag, absent otherwise; the descriptor's type is determined by aggregation and measure kind; the start time is that of the row, none for a last value; for an int64 measure the value of a Sum or LastValue point is exactly the integer recorded (up to 2^53 in size), and fractions are truncated.", "quantifier": "every view and every set of rows", "why_tests_cant": "Alignment has to hold for every subset of present tags.", "anchors": ["stats/view/view_to_metric.go: toLabelValues, rowToTimeseries, viewToMetric, getType"]}
{"id": "C19", "title": "Metric label values identify entries", "statement": "GetEntry/UpsertEntry with two lists of label values refer to the same entry if and only if the lists are equal (present/absent included; the text of an absent value does not count), provided each value is shorter than 255 bytes; for longer values the length byte wraps so distinct values can collide and a value of exactly 255 bytes makes Read panic.", "quantifier": "every pair of label value lists", "why_tests_cant": "All pairs of byte-string lists; the wrap needs >=255-byte values.", "anchors": ["metric/common.go: encodeLabelVals, decodeLabelVals, entryForValues"]}
{"id": "C20", "title": "Metric read decodes the labels it was given", "statement": "Registry.Read reports each entry with exactly the constant label values followed by the label values it was created with.", "quantifier": "every history of entry creations with label values shorter than 255 bytes", "why_tests_cant": "Universally quantified round trip.", "anchors": ["metric/common.go: read, decodeLabelVals", "metric/registry.go: initBaseMetric, Read"]}
{"id": "C21", "title": "Cumulatives never decrease", "statement": "An Int64Cumulative or Float64Cumulative entry's observed value never decreases: under any interleaving of Inc calls by any number of goroutines the final value is the sum of all positive increments (no lost updates), non-positive increments being ignored; integer overflow breaks this (value wraps and reads as 0).", "quantifier": "every interleaving of any number of goroutines doing Inc (atomic add, CAS loop)", "why_tests_cant": "Lost updates depend on the schedule.", "anchors": ["metric/cumulative.go: Int64CumulativeEntry.Inc, Float64CumulativeEntry.Inc"]}
{"id": "C22", "title": "Gauge updates are linearizable", "statement": "Concurrent Set and Add on a gauge entry behave as if executed atomically in some order consistent with each goroutine's program order; every Add takes effect exactly once. Reading a negative gauge reports 0.", "quantifier": "every interleaving of Set/Add/Read by any number of goroutines", "why_tests_cant": "Schedules.", "anchors": ["metric/gauge.go: Float64Entry.Add, Set, Int64GaugeEntry.Add, read"]}
{"id": "C23", "title": "GetEntry returns one shared entry per label list under concurrency", "statement": "When several goroutines call GetEntry with equal label values concurrently, all of them obtain the same entry, and updates through any of them appear in Read. A Read that runs while UpsertEntry replaces entries shows at most one entry per list of label values, each one that was current at some moment of the Read, and shows the entry of labels nobody replaces meanwhile.", "quantifier": "every interleaving of LoadOrStore-based lookups", "why_tests_cant": "Race between check and insert only shows under particular schedules.", "anchors": ["metric/common.go: entryForValues"]}
{"id": "C24", "title": "Metric registry type safety", "statement": "A registry never holds two metrics of one name; adding a metric under a name already used with a different type or kind is an error that leaves the registry unchanged; Read returns one metric per registered name, also when it has no entries, each with its declared type.", "quantifier": "every history of AddXxx/GetEntry/Read calls", "why_tests_cant": "State-machine property.", "anchors": ["metric/registry.go: initBaseMetric, Read, bmTypeToMetricType"]}
{"id": "C25", "title": "Label arity is enforced", "statement": "GetEntry/UpsertEntry with a number of label values different from the declared number of label keys fails and creates nothing, so every time series reported by Read has exactly as many label values as the descriptor has label keys.", "quantifier": "every history of calls", "why_tests_cant": "Invariant over histories.", "anchors": ["metric/common.go: entryForValues, upsertEntry", "metric/registry.go"]}
{"id": "C26", "title": "Span IDs are non-zero and unique per process", "statement": "Span IDs generated by the default generator are never zero and any two among the first 2^64-1 generated in a process differ, under any interleaving of goroutines.", "quantifier": "every seed, every interleaving, every number of calls below 2^64", "why_tests_cant": "2^64 calls and all interleavings cannot be tested.", "anchors": ["trace/trace.go: defaultIDGenerator.NewSpanID, init"]}
{"id": "C27", "title": "Trace and parent identity of spans", "statement": "A span started with a parent (local or remote) has the parent's trace ID, the parent's span ID as ParentSpanID, a fresh span ID and the parent's tracestate; a span without parent gets a freshly generated trace ID and zero ParentSpanID; HasRemoteParent is set exactly for spans started with StartSpanWithRemoteParent.", "quantifier": "every tree of spans built by any sequence of StartSpan / StartSpanWithRemoteParent calls with any options", "why_tests_cant": "Property of all trees.", "anchors": ["trace/trace.go: StartSpan, StartSpanWithRemoteParent, startSpanInternal"]}
{"id": "C28", "title": "Sampling decision", "statement": "A child of a local parent without its own sampler inherits the parent's decision; otherwise the per-span sampler if given, else the global default sampler, decides; the decision is visible in bit 0 of TraceOptions and all other option bits are inherited unchanged.", "quantifier": "every parent context (all 2^32 option values), sampler and configuration", "why_tests_cant": "All combinations of option bits, samplers and parent kinds.", "anchors": ["trace/trace.go: startSpanInternal, setIsSampled, IsSampled", "trace/sampling.go"]}
{"id": "C29", "title": "Probability sampler is consistent and exact", "statement": "ProbabilitySampler(p) always samples a child of a sampled parent; otherwise the decision depends only on the trace ID, is monotone in p (a trace sampled at p is sampled at every q>=p), samples nothing for p<=0 or NaN and everything for p>=1, and the number of 63-bit prefixes sampled is exactly floor(p*2^63).", "quantifier": "every float64 fraction and every trace ID", "why_tests_cant": "2^64 fractions times 2^128 trace IDs.", "anchors": ["trace/sampling.go: ProbabilitySampler, AlwaysSample, NeverSample"]}
{"id": "C30", "title": "A sampled span is exported exactly once", "statement": "However many goroutines call End on a span and however often, each exporter registered at the time of the (unique) effective End receives the span exactly once if the span is sampled, and never otherwise; the end time is set once.", "quantifier": "every interleaving of End calls by any number of goroutines", "why_tests_cant": "Schedules.", "anchors": ["trace/trace.go: End, makeSpanData"]}
{"id": "C31", "title": "Bounded span data keeps the newest and counts the dropped", "statement": "For annotations, message events and links: the exported list is the last min(n,limit) recorded items in recording order and the dropped count is n minus that; the limits in force are always positive.", "quantifier": "every sequence of additions, every configured limit", "why_tests_cant": "All sequence lengths and limits.", "anchors": ["trace/evictedqueue.go: add", "trace/trace.go: makeSpanData, AddLink, addMessageEvent", "trace/config.go: ApplyConfig"]}
{"id": "C32", "title": "Span attributes are last-write-wins with bounded size", "statement": "Exported attributes map each key to the last value set for it; at most the configured number of keys is kept, the kept keys are those most recently set, and the dropped count is the number of evictions.", "quantifier": "every sequence of AddAttributes calls without intermediate reads", "why_tests_cant": "All sequences.", "anchors": ["trace/lrumap.go", "trace/trace.go: copyToCappedAttributes, lruAttributesToAttributeMap"]}
{"id": "C33", "title": "Child span counting", "statement": "A recording span's exported ChildSpanCount is the number of StartSpan calls that used it as local parent before it was exported; remote children are not counted.", "quantifier": "every tree of spans and every order of calls", "why_tests_cant": "All histories.", "anchors": ["trace/trace.go: addChild, StartSpan"]}
{"id": "C34", "title": "Non-recording and nil spans are inert", "statement": "All Span methods on a nil span or a span that is not recording events have no observable effect and never panic; IsRecordingEvents is false for them.", "quantifier": "every method sequence on non-recording spans", "why_tests_cant": "All sequences.", "anchors": ["trace/trace.go", "trace/trace_api.go"]}
{"id": "C35", "title": "Configuration merge", "statement": "After any sequence of ApplyConfig calls each setting equals the last effective (non-nil sampler/generator, positive limit) value given for it, or the default; every limit is therefore always positive.", "quantifier": "every sequence of ApplyConfig calls", "why_tests_cant": "All sequences.", "anchors": ["trace/config.go: ApplyConfig", "trace/trace.go: init"]}
{"id": "C36", "title": "Exporter registration is a set and snapshot-consistent", "statement": "After any interleaving of RegisterExporter/UnregisterExporter calls the exporter set is as if they ran one after the other; a concurrent End observes a set that was current at some instant, never a partially updated one.", "quantifier": "every interleaving", "why_tests_cant": "Schedules.", "anchors": ["trace/export.go: RegisterExporter, UnregisterExporter"]}
{"id": "C37", "title": "Span store buckets are bounded, newest-first and rate limited", "statement": "A sample bucket of size n holds at most n spans; it keeps the last accepted spans in order of acceptance; two accepted spans are at least the sampling period apart; resizing keeps the newest spans that fit.", "quantifier": "every sequence of additions (with arbitrary times) and resizes", "why_tests_cant": "Circular-buffer arithmetic over all sequences.", "anchors": ["trace/spanbucket.go: add, size, span, resize"]}
{"id": "C38", "title": "Latency buckets partition all durations", "statement": "Every non-negative latency falls in exactly one latency bucket and the bucket's reported bounds contain it; the bounds of consecutive buckets tile the half line without gap or overlap.", "quantifier": "every duration (int64)", "why_tests_cant": "All int64 values.", "anchors": ["trace/spanbucket.go: latencyBucket, latencyBucketBounds"]}
{"id": "C39", "title": "Active spans are exactly the started, unfinished ones", "statement": "With the local span store enabled from the beginning, ReportActiveSpans(name) lists exactly the spans of that name started but not yet ended, and a finished span is offered to exactly one latency or error bucket of its name.", "quantifier": "every history of starts and ends", "why_tests_cant": "All histories.", "anchors": ["trace/spanstore.go: add, finished, ReportActiveSpans"]}
{"id": "C40", "title": "Span store reports only matching spans", "statement": "ReportSpansByLatency(name,min,max) returns only finished successful spans of that name with latency in [min, max] (max=0 meaning unbounded), and never misses a stored one; ReportSpansByError(name,code) returns exactly the stored failed spans with that code (code 0: all failed).", "quantifier": "every store content and query", "why_tests_cant": "All contents and bounds.", "anchors": ["trace/spanstore.go: ReportSpansByLatency, ReportSpansByError, finished"]}
{"id": "C41", "title": "Binary span context round trip", "statement": "propagation.FromBinary(propagation.Binary(sc)) returns sc's trace ID, span ID and low 8 option bits for every sc other than the zero value; FromBinary accepts exactly inputs with version 0 and well-formed field order and never panics.", "quantifier": "every span context, every byte string", "why_tests_cant": "All 2^200 contexts and all byte strings.", "anchors": ["trace/propagation/propagation.go: Binary, FromBinary"]}
{"id": "C42", "title": "B3 propagation round trip", "statement": "Headers written by the B3 format and read back yield the same trace ID, span ID and sampled bit; a 64-bit trace ID header is read as the low 8 bytes with zero high bytes; non-hex or over-long IDs are rejected.", "quantifier": "every span context, every header value", "why_tests_cant": "All header strings.", "anchors": ["plugin/ochttp/propagation/b3/b3.go"]}
{"id": "C43", "title": "W3C TraceContext round trip", "statement": "Headers written by the TraceContext format and read back yield the same trace ID, span ID and low 8 option bits and tracestate, for every span context with non-zero IDs (tracestate if its header is at most 512 bytes); a context with a zero trace or span ID is never accepted from the wire.", "quantifier": "every span context including tracestate, every header value", "why_tests_cant": "All header strings and contexts.", "anchors": ["plugin/ochttp/propagation/tracecontext/propagation.go"]}
{"id": "C44", "title": "Stackdriver propagation round trip", "statement": "X-Cloud-Trace-Context headers written by HTTPFormat and read back yield the same trace ID, span ID and options for every span context; headers without the required structure are rejected.", "quantifier": "every span context, every header", "why_tests_cant": "All contexts; decimal/hex parsing over all strings.", "anchors": ["exporter/stackdriver/propagation/http.go"]}
{"id": "C45", "title": "Tracestate construction", "statement": "tracestate.New(parent, entries) succeeds iff entries have distinct valid keys, valid values and the merged list has at most 32 members; the result lists the new entries first in order followed by the parent's entries whose keys are not overridden, in their order; keys in any tracestate are distinct; the parent is unchanged.", "quantifier": "every parent and every entry list", "why_tests_cant": "All lists of entries; append aliasing depends on slice capacities.", "anchors": ["trace/tracestate/tracestate.go: New, add, remove"]}
{"id": "C46", "title": "Tracestate memory isolation", "statement": "A tracestate built by tracestate.New is not affected by later writes to other slices; this holds unless the caller passes a slice (entries...) with spare capacity or mutates it later, in which case the tracestate shares the caller's memory (defect).", "quantifier": "every heap and slice capacity", "why_tests_cant": "Depends on slice capacities, which tests do not vary.", "anchors": ["trace/tracestate/tracestate.go: New, add"]}
{"id": "C47", "title": "Resource label encoding round trip", "statement": "resource.DecodeLabels(resource.EncodeLabels(m)) = m for every label map whose keys and values consist of safe characters; values with a quote followed by a comma do not survive (defect). Whatever DecodeLabels accepts is a comma separated list of labels of the documented form (keys of 1 to 256 and quoted values of up to 256 ASCII bytes), and its map is what is written there, the last label of a key deciding.", "quantifier": "every label map; every input of DecodeLabels", "why_tests_cant": "All byte strings.", "anchors": ["resource/resource.go: EncodeLabels, DecodeLabels"]}
{"id": "C48", "title": "Resource merge", "statement": "Merging resources keeps every label of the first, adds labels only present in the second, takes the first non-empty type, is associative, and MultiDetector(d1..dn) returns the merge in order or the first error; neither input is modified.", "quantifier": "every pair/list of resources", "why_tests_cant": "All maps.", "anchors": ["resource/resource.go: merge, detectAll, MultiDetector"]}
{"id": "C49", "title": "Sanitised names", "statement": "Sanitize output never exceeds 100 input bytes plus the prefix, contains only letters, digits and underscores, and does not start with a digit or underscore; sanitising a sanitised short name changes nothing.", "quantifier": "every input string", "why_tests_cant": "All strings.", "anchors": ["internal/sanitize.go: Sanitize"]}
{"id": "C50", "title": "Interval reader lifecycle", "statement": "An IntervalReader never has more than one export loop; when Stop returns, every export begun has ended, and until the next successful Start nothing is exported except by Flush, which exports on a stopped reader only; exports never overlap and the loop exports at most once per tick; Start succeeds exactly on a stopped reader with interval 0 or at least 1 s; no call panics or blocks for ever (unless the exporter itself calls Stop: defect).", "quantifier": "every interleaving of Start/Stop/Flush calls and timer ticks", "why_tests_cant": "Schedules and call histories.", "anchors": ["metric/metricexport/reader.go: Start, Stop, Flush, startInternal"]}
{"id": "C51", "title": "Producer manager is a set", "statement": "After any interleaving of AddProducer/DeleteProducer the manager's GetAll returns each added and not deleted producer exactly once.", "quantifier": "every history", "why_tests_cant": "All histories.", "anchors": ["metric/metricproducer/manager.go"]}
{"id": "C52", "title": "Reader exports exactly one snapshot per producer", "statement": "ReadAndExport passes to the exporter exactly the concatenation of the metrics of all producers registered at that time, once.", "quantifier": "every producer list", "why_tests_cant": "All lists.", "anchors": ["metric/metricexport/reader.go: ReadAndExport"]}
{"id": "C53", "title": "HTTP client stats are recorded exactly once per request", "statement": "For every way a caller consumes the response (any sequence of Read and Close, also by several goroutines at once, and after EOF or error) the client round trip counts one request when it starts and records its completion measurements exactly once, when a Read meets EOF or the body is closed, with the response size equal to the bytes read before completion, tagged with the caller's tags plus host, path, method and status; a transport error records one completion with status 500 before RoundTrip returns. (Found false: the documented status \"error\", bytes sent of a request without body, bytes received of a response that was not read, tags of a request with a long path.)", "quantifier": "every request, context and sequence or interleaving of Read results and Close calls", "why_tests_cant": "All sequences and schedules.", "anchors": ["plugin/ochttp/client_stats.go: statsTransport.RoundTrip, tracker"]}
{"id": "C54", "title": "HTTP client span ends exactly once", "statement": "The client round trip starts one client span; for every sequence or interleaving of body Read/Close it is ended when a Read meets EOF or the body is closed and not before, on transport error immediately; the exported span has the attributes of request and response and the status that belongs to the HTTP status, or the last read error before completion.", "quantifier": "every request, context and sequence or interleaving of Read/Close outcomes", "why_tests_cant": "All sequences and schedules.", "anchors": ["plugin/ochttp/trace.go: traceTransport.RoundTrip, bodyTracker"]}
{"id": "C55", "title": "HTTP server records one span and one set of stats per request", "statement": "For every handler behaviour (any sequence of Write, WriteHeader, SetRoute, WithRouteTag and panic) the server counts the request before the handler runs and records its completion exactly once afterwards, with ResponseBytes equal to bytes passed to Write, the status of the last WriteHeader (200 if none), the last route, and the caller's tags plus host, path and method; it starts one server span before the handler runs and ends it last, with status and attributes set; a panic goes on to the caller; a health endpoint gets no span. (Found false: counting of ReadFrom bytes, status actually sent, a panic reported as 200, invalid routes.)", "quantifier": "every request, header and handler behaviour", "why_tests_cant": "All sequences.", "anchors": ["plugin/ochttp/server.go: ServeHTTP, startTrace, startStats, trackingResponseWriter"]}
{"id": "C56", "title": "HTTP status to span status mapping", "statement": "TraceStatus maps every HTTP status code to a canonical code: 200..399 to OK, the listed 4xx/5xx to their gRPC equivalents, everything else to UNKNOWN; the result is always a valid canonical code.", "quantifier": "every integer status code", "why_tests_cant": "All ints.", "anchors": ["plugin/ochttp/trace.go: TraceStatus"]}
{"id": "C57", "title": "gRPC RPC accounting", "statement": "However the HandleRPC calls of one RPC interleave, the sent/received byte and message counts recorded at End equal the sums over the payload events whose calls returned before End (and lie between those and the ones begun), with the method and status tags; started and completed are recorded once per Begin and End. The recording is lost if the method is no legal tag value, and the server's started count carries the client's method tag (defects).", "quantifier": "every sequence of events and every interleaving of concurrent HandleRPC calls", "why_tests_cant": "All sequences and schedules.", "anchors": ["plugin/ocgrpc/stats_common.go"]}
{"id": "C58", "title": "gRPC span lifecycle and propagation", "statement": "The client span's context is injected into outgoing metadata and the server handler continues that trace: same trace ID with the client span as remote parent (or a link, when the endpoint is public), unless the application put grpc-trace-bin into the metadata itself; the span is ended by the End event, last, with one message event per payload, and status OK iff the RPC had no error.", "quantifier": "every span context, event sequence and interleaving, and program history on both sides", "why_tests_cant": "All contexts.", "anchors": ["plugin/ocgrpc/trace_common.go", "plugin/ocgrpc/client_stats_handler.go", "plugin/ocgrpc/server_stats_handler.go"]}
{"id": "C59", "title": "Status code names", "statement": "The gRPC status tag and the trace canonical code string are injective on codes 0..16 and total.", "quantifier": "every code", "why_tests_cant": "All uint32 codes.", "anchors": ["plugin/ocgrpc/stats_common.go: statusCodeToString", "zpages/tracez.go: canonicalCodeString"]}
{"id": "C60", "title": "zPages agree with the span store", "statement": "For every latency row of /tracez the number shown in the summary equals the number of spans listed when the row is opened. This fails: the page's last bound is 100s while the store's is 60s, and the error subtype is ignored (defect).", "quantifier": "every store content", "why_tests_cant": "Spans of 60..100 s never occur in tests.", "anchors": ["zpages/tracez.go: traceSpans, defaultLatencies, getSummaryPageData"]}
{"id": "C61", "title": "Runtime metrics are live", "statement": "With memory metrics enabled, every Read refreshes the memory gauges from the runtime. This fails for the default (non-derived) option: the gauges stay at their initial zero forever (defect).", "quantifier": "every history of Read calls", "why_tests_cant": "The repo's test checks names only, not freshness.", "anchors": ["plugin/runmetrics/producer.go: producer.Read, deprecatedMemStats.read"]}
{"id": "C62", "title": "A trace continues from HTTP client to HTTP server", "statement": "For each propagation format of the repository: if the server's Handler uses the Transport's format and the request arrives with the headers the Transport sent, the server's span is in the client span's trace, has it as remote parent and sees its sampling decision; at a public endpoint the server's span starts its own trace and links to the client's span.", "quantifier": "every client span context, request, header content and program history on both sides", "why_tests_cant": "All contexts and histories of two programs.", "anchors": ["plugin/ochttp/client.go: Transport.RoundTrip", "plugin/ochttp/trace.go: traceTransport.RoundTrip", "plugin/ochttp/server.go: startTrace", "plugin/ochttp/propagation"]}
{"id": "C63", "title": "Wrapped writers and bodies keep optional interfaces", "statement": "The ResponseWriter a handler gets offers http.Hijacker, http.CloseNotifier, http.Pusher, http.Flusher and io.ReaderFrom exactly if the server's ResponseWriter does; the response body offers io.Writer exactly if the base transport's does.", "quantifier": "every combination of interfaces", "why_tests_cant": "32 combinations, of which the test covers some.", "anchors": ["plugin/ochttp/server.go: wrappedResponseWriter", "plugin/ochttp/wrapped_body.go: wrappedBody"]}
{"id": "C64", "title": "RoundTrip leaves the caller's request alone", "statement": "Transport.RoundTrip modifies no header map of its caller; the base transport is called exactly once, with a new header map that differs from the caller's only in the trace headers.", "quantifier": "every request, header content and format", "why_tests_cant": "All headers; aliasing.", "anchors": ["plugin/ochttp/trace.go: traceTransport.RoundTrip"]}
{"id": "C65", "title": "gRPC tag propagation", "statement": "The tags with unlimited propagation in the client's context, and no others, are in the server's context, together with the method; a request without legal tags yields the method alone; TagRPC does not fail on any input from the peer. The last part fails: a crafted grpc-tags-bin makes the server panic (defect).", "quantifier": "every tag map, program history on both sides and byte string from the peer", "why_tests_cant": "All maps and all bytes.", "anchors": ["plugin/ocgrpc/client_stats_handler.go: statsTagRPC", "plugin/ocgrpc/server_stats_handler.go: statsTagRPC, extractPropagatedTags"]}
{"id": "C66", "title": "Rows of a span on /tracez", "statement": "A span is shown as one row with its start and identity, one for the status and one for the attributes if there are any, and one row per annotation or message event in the order of time, each with the time since the row before; the elapsed column can be read back. The last part fails under 100 ms and for negative times under a second: the decimals are padded with blanks and the sign is lost (defect).", "quantifier": "every span data, order of equal events and map order", "why_tests_cant": "All span contents.", "anchors": ["zpages/tracez.go: traceRows, formatElapsed, formatAttributes"]}
{"id": "C67", "title": "/rpcz shows the last exported data", "statement": "After any sequence of view exports the page has one row for each method and direction some view had data of, sorted by method, and each number in it is that of the last export of the view it comes from; errors are the number of completed calls with a status other than OK, counts are exact up to 2^53, and no method or direction influences another. The input rate of servers is never filled in (defect).", "quantifier": "every sequence of exports", "why_tests_cant": "All sequences and rows.", "anchors": ["zpages/rpcz.go: ExportView, getStatsPage"]}
{"id": "C68", "title": "Runtime metrics are registered once", "statement": "Enable always succeeds and replaces whatever runtime producer was registered before; after any calls the producer manager holds exactly the producer of the last Enable that no Disable followed, and other producers are left alone.", "quantifier": "every history of Enable, Disable, Read and of registrations of other producers, and all options", "why_tests_cant": "Tests call Enable once or twice with fixed options.", "anchors": ["plugin/runmetrics/producer.go: Enable, Disable", "metric/metricproducer/manager.go"]}
{"id": "C69", "title": "A view shows exactly what was recorded since its registration", "statement": "From the registration of a view under a free name until it is unregistered, RetrieveData returns the measurements of its measure recorded in the process with Record, RecordWithTags or RecordWithOptions, all of them and no others, one row for each combination of values of the view's tag keys, with the aggregate of the row's measurements in order; a measurement counts with the tags its context had and the mutators of the call; a call with an illegal tag value or with a recorder of its own adds nothing. No call panics.", "quantifier": "every program: any sequence of uses of package tag, recordings with any options, and view commands", "why_tests_cant": "Each package is tested alone; the claim spans tag, stats and view over all histories.", "anchors": ["stats/record.go: RecordWithOptions", "stats/view/worker.go: Register, RetrieveData, Record", "stats/view/collector.go", "tag/map.go: New"]}
{"id": "C70", "title": "The gRPC views show exactly the RPCs since their registration", "statement": "In a process that uses plugin/ocgrpc's handlers on either side, from the registration of a default view until it is unregistered, RetrieveData returns for completed_rpcs one row per method and status with the number of RPCs completed with them since the registration, for started_rpcs one row per method with the number started, and for the bytes, messages and latency views one row per method with the distribution of the sizes, counts and latencies of the RPCs finished since; no other rows. Nothing panics for an RPC tagged by TagRPC. A server RPC whose method is no legal tag value is counted under the method its peer claims, and the client's server_latency view is always empty (defects).", "quantifier": "every program: any mix of uses of tag, stats and view, any number of concurrent RPCs on both sides with any schedule of their events", "why_tests_cant": "The plugin is tested with one RPC at a time and fixed events; the claim spans tag, stats, view and ocgrpc over all histories and schedules.", "anchors": ["plugin/ocgrpc/stats_common.go: handleRPCBegin, handleRPCEnd", "plugin/ocgrpc/client_metrics.go", "plugin/ocgrpc/server_metrics.go", "stats/view/worker.go", "stats/record.go"]}
{"id": "C71", "title": "The resource in the environment", "statement": "resource.FromEnv returns the type in OC_RESOURCE_TYPE and the labels in OC_RESOURCE_LABELS, both without the white space around them; it has no labels if the variable is empty or blank, it returns DecodeLabels' error otherwise if there is one, it never panics, and what EncodeLabels wrote, in white space or not, is read back.", "quantifier": "all values of the two variables", "why_tests_cant": "All byte strings, all kinds of Unicode white space.", "anchors": ["resource/resource.go: FromEnv, DecodeLabels, EncodeLabels"]}
{"id": "C72", "title": "The HTTP views show exactly the requests since their registration", "statement": "In a process that uses plugin/ochttp's Transport and Handler, from the registration of any of the package's sixteen views until it is unregistered, RetrieveData returns one row for each method and status (as far as the view is by method, by status) with which requests have begun (request counts) or completed since, with their number or with the distribution of their sizes or latencies, and no other rows. A client request completes when its RoundTrip fails or its response body is closed or read to the end, once whatever is done afterwards; health endpoints are left out by the client. Whatever view a user makes of one of the plugins' measures, its metric has the documented unit (none for a count) and the type of its aggregation. Nothing panics. A request whose path is no legal tag value is shown under the method in its caller's context, and a handler that sets an illegal route loses the completion (defects).", "quantifier": "every program: any mix of uses of tag, stats and view, any number of concurrent requests on both sides with any schedule of their steps and of Read and Close (sizes and latencies: Read and Close of one body not overlapping)", "why_tests_cant": "The plugin is tested with a few requests one after the other; the claim spans tag, stats, view and ochttp over all histories and schedules.", "anchors": ["plugin/ochttp/stats.go", "plugin/ochttp/client_stats.go: statsTransport, tracker", "plugin/ochttp/server.go: Handler, trackingResponseWriter", "stats/view/worker.go", "stats/record.go"]}
{"id": "C73", "title": "The test exporter finds the recorded point", "statement": "metric/test's Exporter panics exactly on a time series whose number of label values differs from that of its keys or that has no point. Otherwise GetPoint returns the last point of the last exported time series with that name and those labels, or nothing if none was exported, as long as no other exported series' keys and values, run together, read the same. At the end of a process that records, Read and Export followed by GetPoint gives the aggregate of exactly the measurements recorded with these tags since the view's registration. Series whose labels run together equally are confused (defect).", "quantifier": "every sequence of exports with any metrics; every program that records, registers and unregisters", "why_tests_cant": "All label sets, all histories.", "anchors": ["metric/test/exporter.go: ExportMetrics, GetPoint, getKey, labelSignature", "stats/view/worker.go: Read", "metric/metricexport/reader.go: ReadAndExport"]}
{"id": "C74", "title": "The client trace annotates the span with every event", "statement": "A span passed to NewSpanAnnotatingClientTrace is exported with one annotation for each httptrace event since it was started, with the name, time, arguments and error of the event (no error attribute if there was none), in order, among the annotations made by other calls; if there are more than the limit, the newest are kept and the others counted.", "quantifier": "every history of the tracer and every sequence of events with any arguments, mixed with any other updates of the span", "why_tests_cant": "All sequences of events and arguments; tests see the events of a local server.", "anchors": ["plugin/ochttp/span_annotating_client_trace.go", "trace/trace.go: Annotate", "trace/evictedqueue.go"]}
{"id": "C75", "title": "Reading metrics while views change", "statement": "A Meter's Read that overlaps registrations, unregistrations, exports and changes of exporters returns what a Read at one moment between its beginning and its end returns: one metric for each view registered at that moment that has data, with all of its data, none half removed. Every command answers for what took effect before it, Unregister exports a view's data before it removes it, a tick exports every registered view once. Nothing panics or deadlocks. If SetResource is called meanwhile, the metrics of one Read can have different resources (defect).", "quantifier": "every interleaving of the worker's steps with those of any number of Reads, one after the other as w.mu makes them, and of changes of exporters and resource", "why_tests_cant": "The windows are a few instructions wide; tests cannot force the schedules.", "anchors": ["stats/view/worker.go: Read, toMetric, tryRegisterView, unregisterView, reportUsage, reportView, SetResource", "stats/view/worker_commands.go", "stats/view/view.go: subscribe, unsubscribe, clearRows"]}
{"id": "C76", "title": "Measures are one per name, whoever creates them", "statement": "Creating measures and registering views over them from any number of goroutines is linearizable: each creation returns a measure with the name asked for and the description and the unit asked for by the first creation of that name; two creations return the same measure exactly if the names are equal; a measure never changes afterwards. Record hands measurements over if a view over one of their measures, whichever creation of the name either used, was registered before, and only if one has been; from outside the subscriptions are a set of names. No call waits for ever, and none panics but two: a subscription to a Measure that package stats has not created (which ends the program; defect) and the recording of a zero Measurement.", "quantifier": "every interleaving of any number of creations, subscriptions and Records", "why_tests_cant": "Two goroutines creating the same measure at package initialisation or later is a race a test cannot force; 'first' depends on the schedule.", "anchors": ["stats/measure.go: registerMeasureHandle, subscribe, subscribed", "stats/measure_int64.go: Int64", "stats/measure_float64.go: Float64", "stats/record.go: init, Record, RecordWithOptions"]}
{"id": "C77", "title": "A registered view keeps its definition", "statement": "Registering views never changes what was registered before: whatever arrays, aggregations and views the user makes and registers later, a registered view keeps its name, description, tag keys, measure and bounds, also if views share one aggregation, or slices of tag keys or bounds, as long as two slices are the same or have no element in common. At its registration its keys are sorted and its positive bounds kept, sorted; none is lost or added. If slices overlap in part, registering one view changes the keys of another, and rows collected before are shown with the wrong tags (defect: the user's slices are sorted in place and kept).", "quantifier": "all histories of making arrays, aggregations and views over slices of them and of Register calls, successful or not; all slices, keys, bounds (also NaN, zeros, infinities)", "why_tests_cant": "Which views share memory is up to the program; tests use one literal slice per view.", "anchors": ["stats/view/view.go: View, canonicalize, dropZeroBounds", "stats/view/aggregation.go: Distribution", "stats/view/worker_commands.go: registerViewReq.handleCommand"]}
{"id": "C78", "title": "What is recorded is what was passed to Record", "statement": "For every call of Record, whatever the program and the worker do afterwards: the worker reads for this call the measurements that were passed, with the values they had at the call, in their order, with the call's tags and time, provided the program does not write to the slice before the worker has read it; measurements passed one by one are always safe. Calls are handled in order. An exemplar shows the attachments as they were at the call, provided the map is never written again. Otherwise a program that reuses its slice or map can record one value twice and lose another, or change exemplars already collected (defect: the caller's slice and map are kept).", "quantifier": "all histories of calls, writes to slices and maps of the program, and steps of the worker, at the granularity of one measurement", "why_tests_cant": "Whether the worker is late is up to the scheduler; a test that reuses a slice passes nearly always.", "anchors": ["stats/record.go: Record, RecordWithOptions, WithMeasurements, WithAttachments", "stats/view/worker.go: recordMeasurement", "stats/view/worker_commands.go: recordReq.handleCommand", "stats/view/aggregation_data.go: getExemplar"]}
{"id": "C79", "title": "What the text pages of zpages show", "statement": "The identity line of a span shows its trace ID, span ID and parent (if any) in hexadecimal and determines them; the list of spans has one line per entry, in order, with time, elapsed time and text; the summary has one line per name, sorted, with the counts under the heading of their column, a dot for none. Every link on the page (running, each latency column, errors) requests exactly the spans counted there; of a repeated parameter the first value counts, a number out of range is the nearest int, text is 0. The rpcz text shows per method the count, mean latency, rates and errors. Refuted: a name or message with a tab or newline forges cells or rows, the row of the empty name has links that list nothing, and in the rpcz text all cells after the first group stand under the wrong heading (MaxLat has no cells).", "quantifier": "all spans, span contexts, names, annotations, requests, numbers, stored spans and collected statistics; formats of durations and floats as arguments", "why_tests_cant": "Identifiers, names, counts and query strings are arbitrary; tests compare no page with the data behind it.", "anchors": ["zpages/tracez.go: tracezHandler, WriteTextTracezSpans, WriteTextTracezSummary, writeTextTraces, traceRow, getSummaryPageData, traceSpans", "zpages/rpcz.go: WriteTextRpczPage, writeTextRow, getStatsPage", "zpages/templates.go: summary template links", "zpages/formatter.go", "trace/basetypes.go: TraceID.String, SpanID.String"]}
{"id": "C80", "title": "The numbers on the HTML rpcz page", "statement": "Counts below a million are shown exactly, none as blank; larger ones as a number of units M, G, T, P, E with three digits, off by at most 0.501 of the last digit, and a larger count is never shown as a smaller value. Latencies below 10 ms are shown within 0.501 microseconds, others in whole milliseconds, rounded down. Rates are the nearest thousandth, ties to even, infinities and NaN named. Data rates are shown in millions of bytes per second within 0.501 of the last digit. Every total stands under its heading. Refuted: counts just below the next unit show as 1000.000 of the smaller unit, and the data rates are headed kb/s.", "quantifier": "all uint64 counts, all durations, all float64 rates including NaN and infinities, all collected statistics", "why_tests_cant": "The formats divide in float64 and round in decimal; the unit tests have fewer than ten literals.", "anchors": ["zpages/templates.go: countFormatter, msFormatter, rateFormatter, dataRateFormatter", "zpages/internal/templates/rpcz.html", "zpages/rpcz.go: WriteHTMLRpczSummary"]}
{"id": "C81", "title": "What an exporter may call while it is called", "statement": "While a Meter calls ExportView, the exporter may call SetResource, and, in the report made by Unregister, Read: with such exporters, and a meter nobody stops, no interleaving of any calls by any goroutines deadlocks, between two ticks of the timer only finitely many steps are possible, and every call returns without waiting for the timer. If the exporter calls Find, Register, Unregister, RetrieveData, SetReportingPeriod, RegisterExporter, UnregisterExporter or Stop, or Read in a report by the timer, the call never returns, and every goroutine that waits for the worker, the exporters' mutex or room in the channel hangs forever. Record by an exporter returns as long as the channel has room and otherwise hangs it all: a program and an exporter that only record can deadlock (defect, met by exporters that send with an instrumented client).", "quantifier": "all programs of any number of goroutines, all exporters, all interleavings, any capacity of the channel", "why_tests_cant": "Deadlocks need a particular interleaving or a full channel; no test has an exporter that calls back.", "anchors": ["stats/view/worker.go: Meter, reportView, reportUsage, Read, RegisterExporter, UnregisterExporter, Stop, start", "stats/view/worker_commands.go: handleCommand methods", "stats/view/export.go: Exporter"]}
{"id": "C82", "title": "A span exports what was attached when it was attached", "statement": "A SpanData shows, whenever it is read, the attributes the span had when it was made, the annotations and message events with the attributes passed to Annotate at the time of the call, and the links with theirs, whatever is done later with the span, by the program with the slices it passed, or by a receiver with the Attributes of another SpanData. Exceptions: AddLink keeps the program's map, so the contents of a link hold only if the program does not write to it afterwards (refuted otherwise: a map filled anew for the next link changes the first); the SpanData of one span share the maps of its annotations and links, so a receiver that edits those of one edits those of all, also of SpanData made later.", "quantifier": "all sequences of calls of a span, writes of the program to its slices and maps, SpanData made, and edits by their receivers; all limits", "why_tests_cant": "What is shared shows only after a write at the right moment to the right object; tests build one span and read it once.", "anchors": ["trace/trace.go: makeSpanData, AddAttributes, copyToCappedAttributes, printStringInternal, lruAttributesToAttributeMap, AddLink, addChild, End", "trace/export.go: SpanData", "trace/basetypes.go: Annotation, Link"]}
{"id": "C83", "title": "Which rows are equal", "statement": "Two rows that Row.Equal takes for equal have the same tags in the same order and data of the same kind with the same start and counts, the same minimum and maximum (or last value), and sums, means and variances that differ by less than 1/31000; rows with all this and differences of at most 1/32000 are equal; Equal is symmetric. A row is equal to a copy of itself exactly if no NaN is in it and no infinity in its sum, mean or variance. Not so, with witnesses: rows collected twice in a row may be unequal; the same measurements in another order may give unequal rows (the tolerance is absolute); Equal is not transitive; rows of distributions with different bounds can be equal; a collected row without tags is unequal to one written with an empty slice.", "quantifier": "all rows with data of any kind, all float64 values", "why_tests_cant": "The claims are about all pairs of float64 values, with rounding in the difference and its square; tests compare a few exact rows.", "anchors": ["stats/view/view.go: Row, Equal", "stats/view/aggregation_data.go: equal methods, variance, epsilon", "stats/view/collector.go: collectedRows, decodeTags"]}
{"id": "C84", "title": "Package trace has no data races and no deadlocks", "statement": "Whatever goroutines call of package trace concurrently (starting, ending, changing and printing spans, registering exporters, changing the configuration, reading the samples of span stores), no two of them access the same field at the same time with one writing, with any exporters. If exporters do not end, in ExportSpan, spans that are still recording, some call can always go on, every run without new calls is finite, and from every state all calls can return. Not so in general: an exporter that ends the very span it is exporting hangs its goroutine for ever.", "quantifier": "any number of goroutines, spans, stores and calls, all schedules, exporters that call the package", "why_tests_cant": "The race detector and stress tests see a few schedules; absence of races and deadlocks is about all of them.", "anchors": ["trace/trace.go: StartSpan, startSpanInternal, End, AddAttributes, String, SetStatus, SetName, addChild, makeSpanData, traceIDGenerator", "trace/spanstore.go: spanStoreForName, spanStoreForNameCreateIfNew, spanStoreSetSize, add, finished, ReportActiveSpans", "trace/export.go: RegisterExporter, UnregisterExporter", "trace/config.go: ApplyConfig"]}
{"id": "C85", "title": "Which calls of meters race", "statement": "Whatever goroutines and exporters call of the meters of a program concurrently, the only data races are: SetResource with Read or SetResource of the same meter; Unregister with Read of the same meter, on the rows that Unregister clears; and between the workers of two meters that register the same View for the first time at the same time, or use the same Aggregation while one of them registers a View with it. So without SetResource, without Unregister or without Read, and with no Aggregation shared between meters (in particular with one meter), there are none. That Unregister and SetResource are safe to use with Read, and that meters are independent, is refuted with witnesses: views with Count() or Sum() share one Aggregation.", "quantifier": "any number of meters, goroutines, views and calls, all schedules, exporters that call meters", "why_tests_cant": "The race detector sees the schedules that happen; which pairs of calls can race, and that no others can, is about all of them.", "anchors": ["stats/view/worker.go: Read, SetResource, RegisterExporter, reportView, reportUsage, tryRegisterView, unregisterView, getMeasureRef, start", "stats/view/worker_commands.go: handleCommand methods", "stats/view/view.go: canonicalize, same, clearRows, addSample", "stats/view/aggregation.go: Count, Sum"]}
{"id": "C86", "title": "Tag maps shared between contexts and user-defined mutators", "statement": "Programs may call the whole of package tag in any order: FromContext, NewContext, New with the package's mutators, with nil and with mutators of their own, Mutate directly on any map, Decode, new(Map), Do, Value, Encode, String. What a context shows never changes unless the program calls Mutate on the very map of the context or has a mutator of its own that names it; New with the package's mutators never panics, has a map of its own and shows what the mutators say, also over nil, zero and shared maps; Mutate changes the map in place, leaves it alone on an illegal value, and panics exactly for nil and for storing into a zero Map; all tags in reach have legal values and keys; Do adds exactly the tags as profiler labels and panics exactly without a map; String lists the tags by key however the map is ranged over.", "quantifier": "every program over the API, every user mutator built from the package's, every iteration order", "why_tests_cant": "Aliasing between contexts and maps shows only in particular histories.", "anchors": ["tag/map.go: New, Mutator, mutator.Mutate, String, Do", "tag/context.go: FromContext, NewContext", "tag/profile_19.go: do", "tag/map_codec.go: Encode, Decode"]}
{"id": "C87", "title": "Successive exports and reads of a view never go back", "statement": "While a view stays registered, every row it has shown (to an exporter, to RetrieveData, as a time series of Read) is still there the next time it is looked at, under the same tags, labels, descriptor and start time; counts, bucket counts and the count of a distribution have not decreased, its minimum has not grown and its maximum not shrunk, and a sum has not decreased if no negative value was recorded in between. After Unregister the rows of a view registered again start no earlier than the Unregister, if the measurements handled afterwards were taken afterwards.", "quantifier": "every meter history, every later continuation of it in which the view is not unregistered, every map iteration order, all float64 values; fewer than 2^63 measurements", "why_tests_cant": "Relates two points of time in an unbounded history; a test compares a few exports.", "anchors": ["stats/view/worker.go: reportView, toMetric, Read", "stats/view/worker_commands.go: registerViewReq, unregisterFromViewReq, recordReq", "stats/view/collector.go: addSample, collectedRows", "stats/view/aggregation_data.go: addSample, toPoint", "stats/record.go: RecordWithOptions"]}
{"id": "C88", "title": "The z-pages are where the prefix says", "statement": "zpages.Handle with a prefix that starts with a slash serves the traces page at prefix/tracez and the RPC page at prefix/rpcz, for every host and whether or not the prefix ends in a slash; a prefix with empty elements, dots or double dots works like the tidy prefix it leads to; requests for all other paths than these and prefix/public are answered as before; it panics exactly if one of the three is registered already, so always the second time. A prefix without a slash at its start is read as the name of a host instead. A request whose path has empty elements, dots or double dots and leads to a page is redirected to it, one for a directory of the program without its slash to the directory. The program's own registrations take effect as if the pages were not there. No request gets the embedded stylesheet that the pages refer to. All the templates the pages are made of are embedded, so importing the package does not panic. Importing the package is enough to turn the span store on and to register the RPC views and their exporter, once; the deprecated Handler goes on serving the pages at the root whatever else is registered elsewhere.", "quantifier": "every mux with handlers of the program, every prefix (of plain elements if it does not start with a slash, except for the stylesheet), every host and request path, every program of Handle calls and registrations", "why_tests_cant": "Prefixes, hosts and paths are strings without bound, and the mux may hold anything the program has put there.", "anchors": ["zpages/zpages.go: Handler, init, Handle, enable", "zpages/rpcz.go: registerRPCViews", "zpages/internal/resources.go: Open, IsDir, _escData", "zpages/internal/templates/header.html", "zpages/templates.go: parseTemplate"]}
{"id": "C89", "title": "An exporter gets whole traces", "statement": "If only spans without parent have samplers of their own, an exporter is registered whenever End is called and every sampled span has ended, then the exporter gets all the spans below a span or none; the spans it got have different IDs; each has no parent or its parent is among them, exactly once and in the same trace; following the parents leads to a root, and there is one root per trace; and the children of a span among them are as many as its ChildSpanCount says, plus those started after it ended. With a sampler on a child span it may get spans without their parents.", "quantifier": "every history of StartSpan, End and updates by any number of goroutines in one process, with any generator that draws different non-zero span IDs", "why_tests_cant": "A property of all the spans of a trace together, over trees of any size and any order of starting and ending.", "anchors": ["trace/trace.go: StartSpan, startSpanInternal, End, addChild, makeSpanData", "trace/export.go: RegisterExporter", "trace/sampling.go: Sampler"]}
