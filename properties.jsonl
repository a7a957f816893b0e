{"id": "C01", "title": "ID text round-trip", "statement": "ParseID(id.String()) returns id with no error, and id.String() is always exactly 16 lower-case hexadecimal digits.", "quantifier": "every 64-bit ID", "why_tests_cant": "2^64 IDs; tests sample a handful", "anchors": ["id.go:ID.String", "id.go:ParseID"]}
{"id": "C02", "title": "ParseID accepts exactly the hexadecimal numerals below 2^64", "statement": "ParseID(s) succeeds if and only if s is a non-empty string of hexadecimal digits (either case) whose value is below 2^64, and then returns exactly that value; every other string is rejected with an error.", "quantifier": "every byte string s", "why_tests_cant": "the set of strings is infinite; boundary at 2^64 and leading zeros", "anchors": ["id.go:ParseID"]}
{"id": "C03", "title": "Textual order of IDs is numeric order", "statement": "For IDs a and b, a.String() sorts before b.String() bytewise exactly when a < b, so the web UI's string sort of traces is the numeric sort; in particular distinct IDs have distinct strings.", "quantifier": "every pair of 64-bit IDs", "why_tests_cant": "2^128 pairs", "anchors": ["id.go:ID.String", "traceapp/trace.go:tracesByID.Less"]}
{"id": "C04", "title": "SpanID text round-trip", "statement": "ParseSpanID(s.String()) returns exactly s, for spans with and without a parent.", "quantifier": "every SpanID made of three 64-bit IDs", "why_tests_cant": "2^192 values", "anchors": ["span.go:SpanID.String", "span.go:ParseSpanID"]}
{"id": "C05", "title": "ParseSpanID accepts exactly two or three slash-separated hex IDs", "statement": "ParseSpanID(s) succeeds exactly when s consists of two or three '/'-separated components each of which ParseID accepts; the result is then those components (parent 0 when there are only two); every other string yields ErrBadSpanID.", "quantifier": "every byte string s", "why_tests_cant": "infinite set of strings", "anchors": ["span.go:ParseSpanID"]}
{"id": "C06", "title": "Child spans stay in their parent's trace", "statement": "Any span ID obtained from a root span ID by any chain of NewSpanID / Recorder.Child calls has the root's Trace, its Parent is the Span of the span it was derived from, and only IDs from NewRootSpanID (or derived from a span with Span 0) are roots.", "quantifier": "every derivation chain and every stream of generated IDs", "why_tests_cant": "unbounded chains, random IDs", "anchors": ["span.go:NewRootSpanID", "span.go:NewSpanID", "span.go:IsRoot", "recorder.go:Recorder.Child"]}
{"id": "C07", "title": "ID generator never reuses keystream", "statement": "The IDs handed out by the generator are, in call order, the successive 64-bit halves of the encryptions of successive values of a 128-bit counter starting at the random initial value; no half is skipped or handed out twice, and the counter does not repeat within 2^128 blocks, for any interleaving of callers.", "quantifier": "every key, every initial counter, every number of calls, every order in which goroutines obtain the lock", "why_tests_cant": "counter carries and wrap-around happen far outside any test run", "anchors": ["id.go:generateID", "id.go:init"]}
{"id": "C08", "title": "ID JSON round-trip", "statement": "Unmarshalling the JSON produced by marshalling an ID gives back that ID; unmarshalling a JSON integer literal below 2^64 gives that integer.", "quantifier": "every 64-bit ID", "why_tests_cant": "2^64 IDs", "anchors": ["id.go:MarshalJSON", "id.go:UnmarshalJSON", "id.go:parseJSONString", "id.go:parseJSONInt"]}
{"id": "C09", "title": "MemoryStore.Collect never fails or panics", "statement": "After any sequence of Collect and Delete calls, a further Collect returns nil and does not panic, including for duplicate spans, several roots, self-parented spans and cyclic parent references.", "quantifier": "every history of Collect/Delete with arbitrary IDs", "why_tests_cant": "histories are unbounded; the panic('dst == src') guard depends on the whole history", "anchors": ["store.go:MemoryStore.Collect", "store.go:collectNoLock", "store.go:reattachChildren"]}
{"id": "C10", "title": "A trace shows every collected span exactly once, under its parent", "statement": "At every point of any history in which the collected parent references of a trace are acyclic, Trace(t) is a finite tree containing each collected span of t exactly once; every span other than the displayed root is a direct child of its own parent if that parent has been collected, and a direct child of the displayed root otherwise.", "quantifier": "every interleaving/order of Collect and Delete calls over all traces, with acyclic parents within the trace", "why_tests_cant": "number of arrival orders is factorial; the fix-up code moves subtrees", "anchors": ["store.go:collectNoLock", "store.go:insert", "store.go:reattachChildren", "store.go:Trace"]}
{"id": "C11", "title": "The displayed tree is independent of arrival order", "statement": "If the spans collected for a trace form one complete tree (exactly one root, every other span's parent collected, no span ID zero), then whatever the order in which they arrived and however they were split into several Collect calls, Trace(t) has that root and that parent/child structure.", "quantifier": "every complete span tree and every arrival order of its Collect calls", "why_tests_cant": "n! orders; existing test samples 10 permutations", "anchors": ["store.go:collectNoLock", "store_test.go:TestMemoryStore_Collect_traceTreeRearrangement"]}
{"id": "C12", "title": "Annotations accumulate in collection order", "statement": "The annotations shown for a span are exactly the concatenation, in call order, of the annotations of all Collect calls for that trace and span since the trace was last deleted, and its SpanID is the one of the first such call.", "quantifier": "every history of Collect/Delete calls", "why_tests_cant": "unbounded histories", "anchors": ["store.go:collectNoLock"]}
{"id": "C13", "title": "Traces are isolated from each other", "statement": "Collecting into or deleting other traces never changes the tree that Trace(t) shows for t.", "quantifier": "every history and every operation on other traces", "why_tests_cant": "unbounded histories; nodes of all traces share one heap", "anchors": ["store.go:collectNoLock", "store.go:deleteNoLock"]}
{"id": "C14", "title": "Delete removes exactly the named traces", "statement": "After Delete(ids...), Trace returns ErrTraceNotFound for each named ID and every other trace is unchanged; a later Collect for a deleted trace starts an empty trace.", "quantifier": "every history and every list of IDs, present or not", "why_tests_cant": "unbounded histories", "anchors": ["store.go:Delete", "store.go:deleteNoLock"]}
{"id": "C15", "title": "Trace finds exactly the collected traces, Traces lists each once", "statement": "Trace(t) succeeds iff t has been collected and not deleted since; Traces with empty options returns each such trace exactly once, the same trees Trace returns, whatever the map iteration order.", "quantifier": "every history, every iteration order", "why_tests_cant": "unbounded histories, random map order", "anchors": ["store.go:Trace", "store.go:Traces"]}
{"id": "C16", "title": "Traces honours TraceIDs", "statement": "When TracesOpts.TraceIDs is non-empty, Traces returns only traces whose IDs are listed (documented in TracesOpts).", "quantifier": "every store content and every list of IDs", "why_tests_cant": "universally quantified over stores and options", "anchors": ["store.go:TracesOpts", "store.go:MemoryStore.Traces", "multi.go:multiQueryer.Traces"]}
{"id": "C17", "title": "A returned Trace is a stable snapshot", "statement": "The tree obtained from Trace(t) is not changed by later Collect calls.", "quantifier": "every later history", "why_tests_cant": "depends on schedules of concurrent Collect calls", "anchors": ["store.go:Trace", "store.go:collectNoLock"]}
{"id": "C18", "title": "No collected span is ever lost from its trace", "statement": "Every collected span of a (non-deleted) trace is shown by Trace(t), whatever parent IDs clients send.", "quantifier": "every history with arbitrary (also malformed or cyclic) parent IDs", "why_tests_cant": "adversarial parent references; the fuzz test only checks for panics", "anchors": ["store.go:collectNoLock", "store.go:insert"]}
{"id": "C19", "title": "Write/ReadFrom round-trip", "statement": "Reading, into any MemoryStore, the data written by Write from another MemoryStore makes Trace and Traces of the former return the same trees as the latter (except that a present but empty annotation value may come back as an absent one) and returns the number of traces.", "quantifier": "every store reachable with acyclic parents", "why_tests_cant": "unbounded stores", "anchors": ["store.go:Write", "store.go:ReadFrom"]}
{"id": "C20", "title": "Collect works on a store restored by ReadFrom", "statement": "After ReadFrom, a further Collect is reflected by Trace exactly as it would have been in the original store.", "quantifier": "every store content and every later Collect", "why_tests_cant": "depends on pointer sharing between the two persisted maps", "anchors": ["store.go:ReadFrom", "store.go:collectNoLock"]}
{"id": "C21", "title": "PersistEvery is crash-atomic", "statement": "At every point at which the process running PersistEvery may crash, the persisted file is either absent/unchanged or contains a complete snapshot of the store as it was at one moment of one Write; it never contains a truncated or mixed snapshot, and later content never is an older snapshot.", "quantifier": "every history of store updates, every failure of a file operation, every crash point", "why_tests_cant": "crash points between any two system calls", "anchors": ["store.go:PersistEvery"]}
{"id": "C22", "title": "LimitStore capacity", "statement": "With Max > 0 and non-zero trace IDs, at most Max traces are ever in the underlying store, after any history of Collect/Delete calls through the LimitStore.", "quantifier": "every history, every Max > 0", "why_tests_cant": "unbounded histories, ring wrap-around", "anchors": ["store.go:LimitStore.Collect"]}
{"id": "C23", "title": "LimitStore keeps the newest traces, complete", "statement": "With non-zero trace IDs, after any history of Collect calls the kept traces are exactly those of a first-in-first-out window of size Max over the traces in order of (re)appearance, and each kept trace contains everything collected for it since it (re)entered the window.", "quantifier": "every history, every Max > 0", "why_tests_cant": "unbounded histories, ring wrap-around and re-entry after eviction", "anchors": ["store.go:LimitStore.Collect"]}
{"id": "C24", "title": "LimitStore capacity for every trace ID", "statement": "At most Max traces are in the underlying store after any history whatsoever, including trace ID 0.", "quantifier": "every history including trace ID 0", "why_tests_cant": "sentinel value collides with a legal ID", "anchors": ["store.go:LimitStore.Collect"]}
{"id": "C25", "title": "RecentStore never evicts a young trace", "statement": "Whenever RecentStore decides to delete a trace, that trace was first seen (since its last eviction) more than MinEvictAge before the moment of the decision.", "quantifier": "every history of Collect calls and every non-decreasing clock", "why_tests_cant": "time-dependent; unbounded histories", "anchors": ["store.go:RecentStore.Collect", "store.go:evictBefore"]}
{"id": "C26", "title": "RecentStore evicts every old trace", "statement": "When an eviction pass runs, every tracked trace first seen more than MinEvictAge earlier is handed to Delete, exactly once, and an eviction pass runs on every Collect that comes more than MinEvictAge after the previous pass.", "quantifier": "every history and every non-decreasing clock", "why_tests_cant": "time-dependent; unbounded histories", "anchors": ["store.go:RecentStore.Collect", "store.go:evictBefore"]}
{"id": "C27", "title": "RecentStore keeps recently collected spans", "statement": "A span collected less than MinEvictAge ago is still in the underlying store.", "quantifier": "every history and every scheduling of the asynchronous Delete", "why_tests_cant": "races between the delete goroutine and Collect", "anchors": ["store.go:RecentStore.Collect", "store.go:evictBefore"]}
{"id": "C28", "title": "MultiStore.Collect stops at the first failure", "statement": "MultiStore.Collect forwards the same span and annotations to the underlying stores in order up to and including the first one that fails, leaves later stores untouched, and returns that first error, or nil iff all succeeded.", "quantifier": "every list of stores with arbitrary behaviour", "why_tests_cant": "quantifies over all store behaviours", "anchors": ["multi.go:multiStore.Collect"]}
{"id": "C29", "title": "MultiStore.Trace returns the first hit", "statement": "MultiStore.Trace(t) returns the result of the first store that does not answer ErrTraceNotFound, and ErrTraceNotFound iff every store answers so.", "quantifier": "every list of stores", "why_tests_cant": "quantifies over all store behaviours", "anchors": ["multi.go:multiStore.Trace"]}
{"id": "C30", "title": "MultiQueryer returns the union", "statement": "MultiQueryer.Traces returns every trace ID known to any queryer exactly once, and for each ID the trace of the first queryer that has it; it fails iff some queryer fails.", "quantifier": "every list of queryers", "why_tests_cant": "quantifies over all queryer results", "anchors": ["multi.go:multiQueryer.Traces"]}
{"id": "C31", "title": "ChunkedCollector loses and invents nothing silently", "statement": "At every point of every schedule of Collect, Flush and Stop calls, the annotations accepted by Collect are, per span and counted with multiplicity, exactly those passed to the underlying collector plus those still queued or being flushed plus those discarded by calls that reported ErrQueueDropped.", "quantifier": "every schedule, every map iteration order, every outcome of underlying calls and time-outs", "why_tests_cant": "concurrent flushes and random map order", "anchors": ["collector.go:ChunkedCollector.Collect", "collector.go:ChunkedCollector.Flush"]}
{"id": "C32", "title": "ChunkedCollector preserves per-span order", "statement": "If flushes do not overlap, nothing is dropped and underlying calls are made, the underlying collector sees each span's annotations in exactly the order they were collected.", "quantifier": "every schedule without overlapping flushes", "why_tests_cant": "schedules are unbounded", "anchors": ["collector.go:ChunkedCollector.Collect", "collector.go:ChunkedCollector.Flush"]}
{"id": "C33", "title": "ChunkedCollector per-span order under overlapping flushes", "statement": "The underlying collector sees each span's annotations in the order they were collected for every schedule, including a manual Flush overlapping the background one.", "quantifier": "every schedule", "why_tests_cant": "races between two flushes", "anchors": ["collector.go:ChunkedCollector.Flush", "collector.go:start"]}
{"id": "C34", "title": "ChunkedCollector queue is bounded", "statement": "With MaxQueueSize > 0 the bytes of queued keys, values and span IDs never exceed MaxQueueSize; a Collect that would exceed it empties the queue and returns ErrQueueDropped.", "quantifier": "every history of Collect/Flush, all sizes below 2^64", "why_tests_cant": "unbounded histories; 64-bit arithmetic", "anchors": ["collector.go:ChunkedCollector.Collect"]}
{"id": "C35", "title": "ChunkedCollector refuses data after Stop", "statement": "After Stop every Collect returns an error and queues nothing: whatever reaches the underlying collector was accepted before Stop.", "quantifier": "every schedule after Stop", "why_tests_cant": "races with background flush", "anchors": ["collector.go:Stop", "collector.go:Collect", "collector.go:start"]}
{"id": "C36", "title": "Stop may be called at any time", "statement": "Stop never panics, whether or not anything was collected, however often it is called.", "quantifier": "every history", "why_tests_cant": "depends on whole history", "anchors": ["collector.go:ChunkedCollector.Stop"]}
{"id": "C37", "title": "ChunkedCollector reports flush errors", "statement": "Flush returns nil iff every underlying Collect it made succeeded and no time-out happened, in which case it made exactly one underlying call per queued span; a background flush's error is returned by exactly one later Collect unless a newer one replaces it first.", "quantifier": "every schedule and every outcome of underlying calls", "why_tests_cant": "oracle outcomes and schedules", "anchors": ["collector.go:Flush", "collector.go:start", "collector.go:Collect"]}
{"id": "C38", "title": "Wire packet round-trip", "statement": "Encoding a span ID and annotations as a collect packet and decoding it yields exactly the same span ID and annotations in order, including arbitrary bytes and nil versus empty values.", "quantifier": "every SpanID, every list of annotations, arbitrary bytes and sizes", "why_tests_cant": "infinite domain; varint/tag boundaries", "anchors": ["collector.go:newCollectPacket", "span.go:wire", "span.go:spanIDFromWire", "span.go:annotationsFromWire", "internal/wire/collector.proto"]}
{"id": "C39", "title": "Server collects exactly the complete packets received", "statement": "If a client writes packets (each at most 1 MB encoded) to a connection and the connection is cut after any number of bytes, the server passes exactly the completely received packets, in order and unaltered, to its collector, nothing else, as long as the collector succeeds.", "quantifier": "every list of packets, every cut point", "why_tests_cant": "every byte position is a crash point", "anchors": ["collector.go:handleConn", "collector.go:RemoteCollector.collect", "collector.go:maxMessageSize"]}
{"id": "C40", "title": "Server stops a connection at the first collector error", "statement": "When the server's collector fails on a packet, the packets before it have been collected in order, that connection is closed and no later packet of that connection is collected.", "quantifier": "every packet list and every failure position", "why_tests_cant": "oracle outcomes", "anchors": ["collector.go:handleConn"]}
{"id": "C41", "title": "Any accepted Collect reaches the server", "statement": "If RemoteCollector.Collect returns nil and the connection delivers all bytes, the server's collector receives the packet, whatever its size.", "quantifier": "every annotation size", "why_tests_cant": "1 MB boundary", "anchors": ["collector.go:maxMessageSize", "collector.go:RemoteCollector.Collect", "collector.go:handleConn"]}
{"id": "C42", "title": "No client input can crash the server", "statement": "Whatever bytes a client sends, handleConn either collects packets or closes the connection with an error; it never panics (a panic in it terminates the whole process).", "quantifier": "every byte stream", "why_tests_cant": "adversarial inputs", "anchors": ["collector.go:handleConn", "span.go:spanIDFromWire", "internal/wire/collector.proto"]}
{"id": "C43", "title": "RemoteCollector.Collect returning nil means the packet was fully written once to a live connection", "statement": "Every Collect that returns nil wrote the complete frame of its packet to the current connection; on connections whose failures are permanent every connection's byte stream is a sequence of complete frames followed by at most one truncated one; per Collect the packet is attempted at most twice.", "quantifier": "every schedule of dial/write outcomes incl. partial writes", "why_tests_cant": "failure injection at every byte", "anchors": ["collector.go:collectAndRetry", "collector.go:connect", "collector.go:collect"]}
{"id": "C44", "title": "Recorder delivers its events once, at Finish, in order", "statement": "For a Recorder whose collector succeeds, no annotation produced by Name/Msg/Log/Event reaches the collector before Finish; Finish passes all of them in one Collect call for the recorder's span, in recording order; further Finish calls deliver none of them again.", "quantifier": "every sequence of Recorder calls", "why_tests_cant": "unbounded call sequences", "anchors": ["recorder.go:Event", "recorder.go:Finish", "recorder.go:Annotation"]}
{"id": "C45", "title": "Recorder errors are reported exactly once", "statement": "Every error met by a Recorder without Logger (marshalling, collecting, repeated Finish) is returned by exactly one Errors call, in order; with a Logger each error is logged once and Errors stays empty.", "quantifier": "every sequence of Recorder calls and collector outcomes", "why_tests_cant": "unbounded call sequences", "anchors": ["recorder.go:error", "recorder.go:Errors"]}
{"id": "C46", "title": "Schema gate of UnmarshalEvent", "statement": "UnmarshalEvent refuses exactly those annotation lists that carry no schema annotation of the target's schema, reporting all schemas found; MarshalEvent always appends its schema, so marshalled events are never refused.", "quantifier": "every annotation list and event", "why_tests_cant": "infinite domain", "anchors": ["event.go:MarshalEvent", "event.go:UnmarshalEvent", "span.go:schemas"]}
{"id": "C47", "title": "Marshalled events unmarshal to themselves", "statement": "For event structs whose fields are scalars (bool, ints, uints, string, time), nested structs of such, and non-empty string-keyed maps/slices of scalars, with field names that are prefix-free and free of bytes sorting below '.', UnmarshalEvent(MarshalEvent(e)) restores e.", "quantifier": "every such event type and value", "why_tests_cant": "reflection over all types and values; sorting of keys", "anchors": ["event.go:MarshalEvent", "event.go:UnmarshalEvent", "reflect.go:flattenValue", "reflect.go:unflattenValue", "reflect.go:parseValue"]}
{"id": "C48", "title": "Any event type round-trips", "statement": "UnmarshalEvent(MarshalEvent(e)) restores e for every event struct built from the supported kinds, including empty slices, field names that are prefixes of one another, and float64 or duration fields.", "quantifier": "every event of supported kinds", "why_tests_cant": "infinite domain of types and values", "anchors": ["reflect.go:unflattenValue", "reflect.go:parseValueToPtr"]}
{"id": "C49", "title": "Several events on one span are all recovered", "statement": "UnmarshalEvents on the annotations of a span returns, in order, every event of a registered schema that was recorded on the span, with its own field values.", "quantifier": "every sequence of recorded events", "why_tests_cant": "infinite domain", "anchors": ["event.go:UnmarshalEvents", "span.go:StringMap"]}
{"id": "C50", "title": "Unregistered schemas are ignored, registered ones yield one event each", "statement": "UnmarshalEvents produces exactly one event per schema annotation of a registered schema, in annotation order, and ignores all others without error.", "quantifier": "every annotation list and registry", "why_tests_cant": "infinite domain", "anchors": ["event.go:UnmarshalEvents"]}
{"id": "C51", "title": "Span name is the first Name annotation", "statement": "Span.Name returns the value of the first annotation with key Name and the empty string iff there is none; later annotations cannot change it.", "quantifier": "every annotation list", "why_tests_cant": "infinite domain", "anchors": ["span.go:Name", "span.go:get"]}
{"id": "C52", "title": "Redacted headers never leak", "statement": "The recorded headers of a request or response do not depend on the values of any header or trailer whose name equals a redacted name ignoring case; such headers are recorded as REDACTED.", "quantifier": "every header and trailer map, every iteration order, every list of redacted names", "why_tests_cant": "infinite domain; random map order", "anchors": ["httptrace/client.go:redactHeaders", "httptrace/client.go:isRedacted"]}
{"id": "C53", "title": "Span ID header propagation", "statement": "After SetSpanIDHeader(h, s), GetSpanID(h) returns exactly s, whatever else is in h.", "quantifier": "every header map and every SpanID", "why_tests_cant": "infinite domain", "anchors": ["httptrace/header.go:SetSpanIDHeader", "httptrace/header.go:GetSpanID"]}
{"id": "C54", "title": "Span ID selection", "statement": "GetSpanID uses the Span-ID header if present, otherwise a fresh child of the Parent-Span-ID header's span if present, otherwise a fresh root; a malformed header actually consulted yields an error.", "quantifier": "every header map", "why_tests_cant": "infinite domain", "anchors": ["httptrace/header.go:getSpanID", "httptrace/header.go:getSpanIDHeader"]}
{"id": "C55", "title": "Middleware serves requests with malformed span headers", "statement": "A request whose Span-ID or Parent-Span-ID header is malformed is still handled by the next handler (the code logs 'Continuing with request handling').", "quantifier": "every request", "why_tests_cant": "adversarial headers", "anchors": ["httptrace/server.go:Middleware"]}
{"id": "C56", "title": "Recorded status and length are those sent", "statement": "If a handler calls WriteHeader at most once and before any Write or Flush, the recorded status code and content length are the status and number of body bytes passed to the underlying ResponseWriter.", "quantifier": "every such sequence of handler calls", "why_tests_cant": "unbounded call sequences", "anchors": ["httptrace/server.go:responseInfoRecorder"]}
{"id": "C57", "title": "Recorded status is the one sent, for every handler", "statement": "The recorded status code is the status sent to the client for every sequence of WriteHeader and Write calls.", "quantifier": "every sequence of handler calls", "why_tests_cant": "unbounded call sequences", "anchors": ["httptrace/server.go:responseInfoRecorder"]}
{"id": "C58", "title": "Middleware records one server span per request", "statement": "For a well-formed request the middleware calls next exactly once with the chosen span in its context, and then makes exactly one Collect call, for the chosen span, carrying the name and the server event.", "quantifier": "every request, configuration and handler", "why_tests_cant": "infinite domain", "anchors": ["httptrace/server.go:Middleware"]}
{"id": "C59", "title": "Transport leaves the caller's request untouched and propagates a child span", "statement": "RoundTrip does not modify the original request's headers; the request sent carries a Span-ID header that parses to a child of the recorder's span; it records exactly one client span, also a child, with status -1 iff the transport failed; afterwards no bookkeeping entry remains.", "quantifier": "every request and transport outcome", "why_tests_cant": "infinite domain", "anchors": ["httptrace/client.go:RoundTrip", "httptrace/client.go:cloneRequest", "httptrace/client.go:setCloneRequest"]}
{"id": "C60", "title": "Profile times add up", "statement": "For every trace the profile has one entry per span in depth-first order; each entry's cumulative time is the sum of the times of all spans in its subtree and its children time is its own plus its direct children's; times are the largest timespan duration rounded to milliseconds and never negative.", "quantifier": "every trace tree", "why_tests_cant": "unbounded trees", "anchors": ["traceapp/prof.go:calcProfile"]}
{"id": "C61", "title": "Aggregation totals", "statement": "Aggregation yields one item per label; its value is the sum of the contributing times plus one exactly when the first contribution is zero, hence always positive.", "quantifier": "every list of traces and every mode", "why_tests_cant": "unbounded inputs", "anchors": ["traceapp/aggregate.go:aggregate"]}
{"id": "C62", "title": "Timeline items are always drawable", "statement": "Every item returned by the timeline has a non-empty label and at least one timespan; a non-root span has exactly one timespan spanning from the earliest start to the latest end of its events with non-zero times.", "quantifier": "every trace tree", "why_tests_cant": "unbounded trees", "anchors": ["traceapp/vis.go:d3timelineInner"]}
{"id": "C63", "title": "Timeline shows every timed span", "statement": "Every span of the trace that has a name and a timespan event with non-zero times appears in the timeline.", "quantifier": "every trace tree", "why_tests_cant": "unbounded trees", "anchors": ["traceapp/vis.go:d3timelineInner"]}
{"id": "C64", "title": "Uploading an exported trace recreates it", "statement": "Collecting an exported trace (as upload and permalinks do) into a store that does not contain it recreates exactly the same tree, and uploads never alter a trace that already exists.", "quantifier": "every trace the store can show, every store content", "why_tests_cant": "unbounded trees", "anchors": ["traceapp/trace.go:collectTrace", "traceapp/app.go:uploadTraces"]}
{"id": "C65", "title": "Failed page handlers leak no partial output", "statement": "When a page handler fails or panics, the response carries status 500 and the error only, none of the body or status the handler had produced; when it succeeds the response is exactly what it produced.", "quantifier": "every handler behaviour", "why_tests_cant": "infinite domain", "anchors": ["traceapp/handler.go:ServeHTTP", "traceapp/httputil.go:responseBuffer"]}
{"id": "C66", "title": "FindSpan finds the first matching span", "statement": "FindSpan returns the first span in depth-first order with the given span ID and nil iff there is none.", "quantifier": "every tree and ID", "why_tests_cant": "unbounded trees", "anchors": ["trace.go:FindSpan"]}
{"id": "C67", "title": "Trace time range", "statement": "When all timespan events have non-zero start times, the reported start is the earliest start and the reported end the latest end of all of them; none is reported iff there is no timespan event.", "quantifier": "every list of events", "why_tests_cant": "unbounded lists", "anchors": ["trace.go:findTraceTimes", "trace.go:TimespanEvent"]}
{"id": "C68", "title": "Trace time range for every event list", "statement": "The reported range covers every timespan event of the span, also when some start times are zero.", "quantifier": "every list of events", "why_tests_cant": "unbounded lists", "anchors": ["trace.go:findTraceTimes"]}
{"id": "C69", "title": "Basic auth admits exactly the configured credentials", "statement": "With --basic-auth user:passwd the wrapped application sees a request iff its Authorization header is exactly 'Basic ' followed by the base64 of user:passwd; distinct credential strings never share a header.", "quantifier": "every header value and every credential pair", "why_tests_cant": "infinite domain", "anchors": ["cmd/appdash/serve_cmd.go:newBasicAuthHandler", "cmd/appdash/serve_cmd.go:basicAuthHandler.ServeHTTP"]}
{"id": "C70", "title": "randomSplit splits exactly", "statement": "randomSplit(value, n) with n >= 1 and value >= 0 returns n non-negative integers whose sum is value, for every outcome of the random source, and never asks it for a non-positive range.", "quantifier": "every value, n and random outcome", "why_tests_cant": "random outcomes", "anchors": ["cmd/appdash/sample_data.go:randomSplit"]}
{"id": "C71", "title": "OpenTracing spans are recorded completely and only if sampled", "statement": "RecordSpan makes no Collect call for an unsampled span; for a sampled one all calls are for the same SpanID and, when the collector succeeds, carry exactly the name, one log event per log, one annotation per tag and baggage item and the timespan, with name first and timespan last.", "quantifier": "every raw span, every map iteration order", "why_tests_cant": "infinite domain, random map order", "anchors": ["opentracing/recorder.go:RecordSpan", "opentracing/json.go:materializeWithJSON"]}
{"id": "C72", "title": "Spans created through the API are never lost or duplicated", "statement": "If generated IDs are distinct and non-zero, then for every program of NewRootSpanID/NewSpanID/Child calls and every order of collecting any of the spans it made, each trace is a finite tree that shows every collected span exactly once, under its parent when collected.", "quantifier": "every program making spans, every collection history over those spans", "why_tests_cant": "unbounded programs and histories", "anchors": ["span.go:NewRootSpanID", "span.go:NewSpanID", "store.go:MemoryStore.collectNoLock"]}
{"id": "C73", "title": "Write ends for every store content", "statement": "MemoryStore.Write returns for every content a store can have.", "quantifier": "every history of Collect and Delete calls", "why_tests_cant": "the encoder follows pointers, which may be cyclic", "anchors": ["store.go:MemoryStore.Write", "store.go:insert"]}
{"id": "C74", "title": "MultiQueryer honours the query options", "statement": "MultiQueryer.Traces(opts) returns only traces that satisfy opts when each underlying queryer does, and none that satisfies them is missing.", "quantifier": "every list of queryers and all options", "why_tests_cant": "quantifies over all queryers", "anchors": ["multi.go:multiQueryer.Traces"]}
{"id": "C75", "title": "Nothing is sent after Stop", "statement": "After Stop has returned, no more data is sent to the underlying collector (as its documentation says).", "quantifier": "every schedule", "why_tests_cant": "races with background flush", "anchors": ["collector.go:Stop", "collector.go:start", "collector.go:Flush"]}
{"id": "C76", "title": "A failed Collect has queued nothing", "statement": "When ChunkedCollector.Collect returns an error the annotations of that call are not queued (so that retrying does not duplicate them); when it returns nil they are.", "quantifier": "every schedule", "why_tests_cant": "the error may belong to an earlier flush", "anchors": ["collector.go:Collect"]}
{"id": "C77", "title": "Flush reports drops exactly", "statement": "Flush returns ErrQueueDropped iff it discarded queued data.", "quantifier": "every schedule and timing", "why_tests_cant": "depends on timing", "anchors": ["collector.go:Flush"]}
{"id": "C78", "title": "Server reports a connection that ends inside a packet", "statement": "When a connection ends before a packet was completely received, the server's handler returns an error rather than treating the connection as cleanly closed.", "quantifier": "every list of packets, every cut point", "why_tests_cant": "every byte position is a cut point; false at exactly the boundary after a length prefix", "anchors": ["collector.go:handleConn", "collector.go:Start"]}
{"id": "C79", "title": "Malformed annotations cannot break event decoding", "statement": "UnmarshalEvents returns without panic and with a nil error for every list of annotations, when the registered event types are the library's (name, log, msg, timespan, Timespan, HTTPClient, HTTPServer, SQL) or consist of plain scalar, time, struct and map fields.", "quantifier": "every list of annotations (any keys, values, orders and repetitions)", "why_tests_cant": "annotations come from the network; no finite set of malformed inputs is enough", "anchors": ["event.go:UnmarshalEvents", "event.go:UnmarshalEvent", "reflect.go:unflattenValue"]}
{"id": "C80", "title": "Annotation order does not matter for decoding", "statement": "UnmarshalEvent gives the same event for every order of annotations with different keys, and among annotations with the same key only the last one counts.", "quantifier": "every event type, every list of annotations and every permutation of it", "why_tests_cant": "all permutations of lists of any length", "anchors": ["event.go:UnmarshalEvent", "span.go:StringMap", "reflect.go:mapToKVs"]}
{"id": "C81", "title": "Recorded events are delivered or reported", "statement": "Every event recorded on a Recorder that is finished reaches the collector, or an error is reported for it.", "quantifier": "every sequence of Recorder calls and collector answers", "why_tests_cant": "the calls may come in any order and number", "anchors": ["recorder.go:Event", "recorder.go:Finish"]}
{"id": "C82", "title": "IDs are read from hex strings and integers only", "statement": "ID.UnmarshalJSON succeeds exactly on JSON strings of hexadecimal digits and on JSON integers that denote a 64-bit number, and yields that number.", "quantifier": "every byte string", "why_tests_cant": "infinitely many inputs, including escapes and white space", "anchors": ["id.go:UnmarshalJSON", "id.go:parseJSONString", "id.go:parseJSONInt"]}
{"id": "C83", "title": "Requests of panicking handlers are recorded", "statement": "A request whose handler panics is still recorded as a span by the middleware.", "quantifier": "every request, configuration and handler", "why_tests_cant": "the panic may come after any sequence of calls", "anchors": ["httptrace/server.go:Middleware"]}
{"id": "C84", "title": "Clients receive the span ID", "statement": "The response that the client receives carries the Span-ID header of the span under which the request was recorded.", "quantifier": "every request and every handler", "why_tests_cant": "depends on every sequence of handler calls", "anchors": ["httptrace/server.go:Middleware", "httptrace/header.go:SetSpanIDHeader"]}
{"id": "C85", "title": "CancelRequest cancels the right request", "statement": "CancelRequest(r) cancels the request that was sent for r if a round trip of r is under way and nothing otherwise, provided no request is used for two round trips at the same time; when no round trip is under way the transport keeps nothing, however they ended.", "quantifier": "every interleaving of round trips and cancellations", "why_tests_cant": "unboundedly many interleavings", "anchors": ["httptrace/client.go:CancelRequest", "httptrace/client.go:setCloneRequest", "httptrace/client.go:RoundTrip"]}
{"id": "C86", "title": "Timeline bars have their own length", "statement": "The duration and the label of each timespan in the timeline are those of the timespan itself: its end minus its start when it ends after it starts, and zero otherwise.", "quantifier": "every trace tree and every timespan in its timeline", "why_tests_cant": "unbounded trees and times", "anchors": ["traceapp/vis.go:d3timelineInner"]}
{"id": "C87", "title": "What was put into an OpenTracing span can be read back", "statement": "After a sampled OpenTracing span was recorded with a collector that accepts everything, a reader of the collected annotations finds the operation as the span's name, all logs, all tags and baggage items under their keys, and the start and end times.", "quantifier": "every raw span, every map iteration order", "why_tests_cant": "infinite domain; depends on clashes between user-chosen keys and the library's own keys", "anchors": ["opentracing/recorder.go:RecordSpan", "event.go:UnmarshalEvents", "span.go:Name"]}
{"id": "C88", "title": "Python span IDs are read by Go", "statement": "The text that str() makes of a span ID in the Python client is parsed by ParseSpanID as the same trace, span and parent.", "quantifier": "every triple of 64-bit IDs", "why_tests_cant": "2^192 inputs; padding depends on the number of digits", "anchors": ["python/appdash/spanid.py:SpanID.__str__", "span.go:ParseSpanID"]}
{"id": "C89", "title": "The Python socket collector delivers", "statement": "Every collect call of the Python RemoteCollector that returned is received by the collector server, in order and with the same span ID and annotations, and nothing of a call that raised is received.", "quantifier": "every sequence of calls, every way in which the socket accepts portions of the bytes, every exception", "why_tests_cant": "unboundedly many partial writes and failure points", "anchors": ["python/appdash/sockcollector.py:RemoteCollector.collect", "python/appdash/encode.py", "collector.go:handleConn"]}
{"id": "C90", "title": "Python events are read by Go", "statement": "A name, message, log, timespan or SQL event recorded by the Python client is read by UnmarshalEvent as the event of its schema with the same strings and times, whatever else is recorded for the span under other keys.", "quantifier": "every event, every order of the dictionary, every set of further annotations", "why_tests_cant": "infinite domain", "anchors": ["python/appdash/event.py:MarshalEvent", "event.go:UnmarshalEvent"]}
{"id": "C91", "title": "Python HTTP events are read by Go", "statement": "An HTTPServerEvent or HTTPClientEvent recorded by the Python client is read by UnmarshalEvent with its route, user, times, request and response.", "quantifier": "every HTTP event", "why_tests_cant": "infinite domain", "anchors": ["python/appdash/event.py:HTTPServerEvent.marshal", "python/appdash/event.py:HTTPClientEvent.marshal", "httptrace/server.go:ServerEvent", "httptrace/client.go:ClientEvent"]}
{"id": "C92", "title": "The Python recorder records spans completely", "statement": "record_span hands the name, the times, every tag and every baggage item of a sampled span to the collector, under the span's ID, and returns; it does nothing for a span that is not sampled.", "quantifier": "every span with any tags and baggage", "why_tests_cant": "unbounded maps in any order", "anchors": ["python/appdash/recorder.py:AppdashRecorder.record_span"]}
{"id": "C93", "title": "The Twisted collector sends everything once, to its own server", "statement": "Whatever is collected with a RemoteCollectorFactory is written once, in order, to a connection of that factory once it has one, and to no connection of another factory.", "quantifier": "every interleaving of collections, connections, losses and flushes of any number of factories", "why_tests_cant": "unboundedly many interleavings", "anchors": ["python/appdash/twcollector.py:RemoteCollectorFactory"]}
{"id": "C94", "title": "Addresses show their trace", "statement": "A GET request shows the page (profile) of a trace or sub-span exactly if its path is /traces/ID or /traces/ID/SPAN (followed by /profile) where ID names a stored trace and SPAN a span in it, in any hexadecimal notation; the URLs built for a trace or span lead to it.", "quantifier": "every path, every store content", "why_tests_cant": "infinite set of paths; routes overlap", "anchors": ["traceapp/router.go:NewRouter", "traceapp/router.go:URLToTrace", "traceapp/app.go:serveTrace"]}
{"id": "C95", "title": "The profile link belongs to the page", "statement": "The profile link on the page of a trace or sub-span leads to the profile of that trace or sub-span.", "quantifier": "every history of a MemoryStore, every page", "why_tests_cant": "the link depends on the tree's shape", "anchors": ["traceapp/app.go:serveTrace", "traceapp/router.go:URLToTraceProfile"]}
{"id": "C96", "title": "Permalinks contain the whole compressed trace", "statement": "The permalink's text decodes to exactly the bytes of the compressed trace.", "quantifier": "every compressed trace, however it is written in portions", "why_tests_cant": "depends on the length modulo 3 and the chunking of writes", "anchors": ["traceapp/app.go:serveTrace"]}
{"id": "C97", "title": "Permalinks show the page they were taken from", "statement": "Opening the permalink of a page shows the same trace or sub-span, on the same server and on any other.", "quantifier": "every history of both stores, every sub-span", "why_tests_cant": "unbounded histories", "anchors": ["traceapp/app.go:serveTrace", "traceapp/app.go:uploadTraces"]}
{"id": "C98", "title": "The trace list shows the listed traces only", "statement": "The traces page shows just the traces named in its show parameter, and a dashboard row's link shows the row's slowest traces.", "quantifier": "every list of items, every store content", "why_tests_cant": "infinite set of lists", "anchors": ["traceapp/app.go:serveTraces", "traceapp/dashboard.go:serveDashboardData"]}
{"id": "C99", "title": "Aggregation covers each selected trace once", "statement": "The aggregate view covers all traces without a selection; with one, each trace whose ID is named exactly once and no other; an item that is no ID is an error.", "quantifier": "every list of traces, every selection", "why_tests_cant": "infinite set of selections", "anchors": ["traceapp/app.go:serveAggregate"]}
{"id": "C100", "title": "The dashboard's window is the requested one", "statement": "A bound of v hours in the dashboard's query is passed on as v-72 hours relative to now, whatever integer v is; an absent bound is now and text that is no integer is refused.", "quantifier": "every integer", "why_tests_cant": "2^64 values, overflow", "anchors": ["traceapp/dashboard.go:serveDashboardData"]}
{"id": "C101", "title": "serve --delete-after deletes every old trace", "statement": "With --delete-after set, every trace older than that age is eventually deleted, also those read from the store file at start.", "quantifier": "every store file, every history and schedule of collected spans, every age", "why_tests_cant": "unbounded histories and schedules", "anchors": ["cmd/appdash/serve_cmd.go:Execute", "store.go:RecentStore"]}
{"id": "C102", "title": "The send command reports failed deliveries", "statement": "appdash send succeeds only if the spans of the sample data were delivered, each once with its annotations.", "quantifier": "every sequence of collector answers, every outcome of marshaling", "why_tests_cant": "failures at every point", "anchors": ["cmd/appdash/sample_data.go:sampleData", "cmd/appdash/send_cmd.go:Execute"]}
{"id": "C103", "title": "Sample traces are well formed", "statement": "Every sample trace is a root with a chain of 3 to 6 descendants, one name and one timed event each, whose times follow one another and add up exactly to the root's.", "quantifier": "every sequence of random draws", "why_tests_cant": "all random choices", "anchors": ["cmd/appdash/sample_data.go:sampleData", "cmd/appdash/sample_data.go:randomSplit"]}
{"id": "C104", "title": "The default URL is the listen address", "statement": "Without --url the base URL's host is an address of the host and port given with --http, with localhost for an empty host; text that is no address is refused.", "quantifier": "every address", "why_tests_cant": "infinite set of addresses", "anchors": ["cmd/appdash/serve_cmd.go:urlOrDefault"]}
{"id": "C105", "title": "The trace page shows the recorded data", "statement": "The verbose table of a span shows exactly the data of the events recorded for it, without schema markers; the default table shows exactly those rows that a registered event type calls important, among them SQL statements and HTTP status codes.", "quantifier": "every list of events of every type", "why_tests_cant": "infinite set of event types and values", "anchors": ["traceapp/tmpl.go:filterAnnotations", "span.go:Important", "event.go:MarshalEvent"]}
{"id": "C106", "title": "An exported trace imports as the same trace", "statement": "The JSON text a trace page exports, in either of its two forms, is accepted by the upload of every other instance, and an instance without that trace then shows exactly the exported tree: spans, order of children, annotation keys and bytes, nil values included.", "quantifier": "every trace and sub-trace any store can show, every key and value, every state of the other store", "why_tests_cant": "infinite set of traces, keys and values", "anchors": ["traceapp/app.go:serveTrace", "traceapp/app.go:serveTraceUpload", "trace.go:String", "id.go:MarshalJSON", "id.go:UnmarshalJSON"]}
{"id": "C107", "title": "A permalink opens as the same trace", "statement": "Opening a trace's permalink in any instance shows exactly that trace, or leaves the trace of that ID as it is if there is one; the link needs no escapes.", "quantifier": "every trace, every state of the other store, every compression that tolerates a missing trailer", "why_tests_cant": "infinite set of traces; depends on where streams are cut", "anchors": ["traceapp/app.go:serveTrace"]}
{"id": "C108", "title": "An upload is taken as a whole or not at all", "statement": "An uploaded text is either refused, with the store unchanged, or all its traces that do not exist yet are stored; no text makes the store panic.", "quantifier": "every byte sequence, every state of the store", "why_tests_cant": "infinite set of texts", "anchors": ["traceapp/app.go:serveTraceUpload", "traceapp/app.go:uploadTraces", "traceapp/trace.go:collectTrace"]}
{"id": "C109", "title": "What is recorded is what is read back", "statement": "If no collector drops anything and no connection breaks, then each trace in the server's store shows exactly the spans that the applications finished, each once under its parent, and the events read from a shown span are exactly the events recorded on it, in order.", "quantifier": "every number of applications, spans and events, every interleaving of their goroutines, flushes and connections", "why_tests_cant": "composition of six concurrent components over unbounded inputs and schedules", "anchors": ["recorder.go:Finish", "collector.go:ChunkedCollector", "collector.go:RemoteCollector", "collector.go:CollectorServer", "store.go:MemoryStore", "event.go:UnmarshalEvents"]}
{"id": "C110", "title": "Durations survive an event", "statement": "A time.Duration field of an event, written into an annotation in milliseconds and read back, is the same duration.", "quantifier": "every duration (up to 52 days) and every decimal text that denotes the number written", "why_tests_cant": "2^53 values and floating-point rounding", "anchors": ["reflect.go:flattenValue", "reflect.go:parseValueToPtr"]}
{"id": "C111", "title": "Floats survive an event", "statement": "A float32 or float64 field of an event, written into an annotation and read back, is the same number.", "quantifier": "every finite number and every decimal text that denotes it", "why_tests_cant": "2^64 values; double rounding", "anchors": ["reflect.go:flattenValue", "reflect.go:parseValueToPtr"]}
{"id": "C112", "title": "A store's data changes only through Collect", "statement": "What a store has been given for a span stays as it is: recording on a Recorder, and collecting elsewhere, never changes annotations that a store already has.", "quantifier": "every interleaving of recorders, chunked collectors and stores, and every capacity the runtime gives to slices", "why_tests_cant": "aliasing of slice arrays depends on schedules and capacities; every test of one component alone passes", "anchors": ["recorder.go:Event", "recorder.go:Finish", "store.go:collectNoLock", "collector.go:ChunkedCollector.Collect"]}
{"id": "C113", "title": "A MultiStore's stores all hold what was collected", "statement": "Each MemoryStore behind a MultiStore holds exactly the annotations collected through the MultiStore.", "quantifier": "every number of stores, every history of Collects, every interleaving", "why_tests_cant": "needs particular interleavings and slice capacities", "anchors": ["multi.go:Collect", "store.go:collectNoLock"]}
{"id": "C114", "title": "Clients of one collector server do not disturb each other", "statement": "For each client exactly its completely arrived packets are collected, in the order it wrote them, whatever the other clients do and however the network splits and interleaves the bytes.", "quantifier": "every number of clients, every byte stream, every splitting and interleaving, every collector behind the server, failing Accepts included", "why_tests_cant": "tests use one well-behaved client on a fast local connection", "anchors": ["collector.go:CollectorServer.Start", "collector.go:CollectorServer.handleConn"]}
{"id": "C115", "title": "Requests between services become one trace of the right shape", "statement": "When all services use the Middleware and handlers make their requests through a Transport with the Recorder of the span they run in, one request from outside becomes one trace: its root is the first server's span and it has exactly one client span per request made and one server span per request served, each below the span within which the request was made.", "quantifier": "every tree of requests (any number, any depth, served or not), all configurations, requests, responses and log results, every order in which the services' calls reach the store, any other traces in the same store", "why_tests_cant": "tests make one request between one client and one server", "anchors": ["httptrace/client.go:Transport.RoundTrip", "httptrace/server.go:Middleware", "store.go:MemoryStore.Collect", "store.go:MemoryStore.Trace"]}
{"id": "C116", "title": "What a chunked collector accepts is sent in the end", "statement": "If a ChunkedCollector is not stopped, every collection it accepts is handed to the underlying collector after finitely many steps, or was discarded because of MaxQueueSize or FlushTimeout; without these limits everything is sent, in order if no two flushes overlap. Every Flush that begins returns.", "quantifier": "every infinite execution in which the underlying collector's calls return and Go keeps scheduling the goroutines; all interleavings of Collect, Flush and the background goroutine, all spans and annotations, every failure of the underlying collector", "why_tests_cant": "liveness of infinite schedules cannot be observed in a finite run", "anchors": ["collector.go:ChunkedCollector.Collect", "collector.go:ChunkedCollector.Flush", "collector.go:ChunkedCollector.start"]}
{"id": "C117", "title": "The fields of an OpenTracing log can be read from its message", "statement": "The message recorded for an OpenTracing log entry holds the entry's fields: it is a JSON object with, for each key, the text of the last value given for it, and the numbers and booleans parse back to the values given. A log of an event only has the event's payload as its message.", "quantifier": "all lists of fields: every key, string, boolean, integer and float, repeated keys, any Unicode text and escapes", "why_tests_cant": "tests log one or two fixed fields", "anchors": ["opentracing/json.go:materializeWithJSON", "opentracing/recorder.go:Recorder.RecordSpan"]}
{"id": "C118", "title": "TreeString shows the whole trace", "statement": "Trace.TreeString shows everything about a trace but the root's own span ID: two traces have the same text only if they have the same trace ID, the same annotations at the root, and below it the same tree of spans with the same span IDs, parents and annotations; and equal traces have equal texts.", "quantifier": "all trees of any depth and width, all IDs, all annotations", "why_tests_cant": "tests print one trace of three spans", "anchors": ["trace.go:Trace.TreeString", "trace.go:Trace.treeString"]}
{"id": "C119", "title": "A trace can be read from its text", "statement": "Unmarshalling the text of Trace.String with encoding/json gives the same trace: all spans in their places, IDs, keys and values.", "quantifier": "all traces of any depth and width, all IDs, keys and values, every way encoding/json may write them", "why_tests_cant": "no test parses the text again", "anchors": ["trace.go:Trace.String", "id.go:ID.MarshalJSON", "id.go:ID.UnmarshalJSON"]}
{"id": "C120", "title": "Annotations.String shows the annotations", "statement": "Two lists of annotations have the same text only if they have the same keys and values in the same order.", "quantifier": "all lists of annotations; all keys and values, valid UTF-8 or not", "why_tests_cant": "the text is not tested", "anchors": ["span.go:Annotations.String"]}
{"id": "C121", "title": "Errors of a Recorder shared by goroutines are reported once", "statement": "Whatever calls of a Recorder overlap, Errors returns no error twice and none that did not occur, and an Errors call that ends while no other call is running completes the account: every error that occurred so far has been returned exactly once. With a Logger, each error has exactly one line once its call has returned, and Errors returns nothing.", "quantifier": "all numbers of goroutines, all calls of Event, Annotation, Finish and Errors, all interleavings, every answer of the collector", "why_tests_cant": "tests use a Recorder from one goroutine", "anchors": ["recorder.go:Recorder.Errors", "recorder.go:Recorder.error", "recorder.go:Recorder.Annotation"]}
{"id": "C122", "title": "Finish delivers what was recorded, under concurrent use", "statement": "When several goroutines record events on one Recorder, Finish gives the collector, in one call, the annotations of all events whose calls returned before, and a span is delivered only once.", "quantifier": "all numbers of goroutines, all interleavings of the reads and writes of the methods", "why_tests_cant": "a race shows only under some schedules", "anchors": ["recorder.go:Recorder.Event", "recorder.go:Recorder.Finish"]}
{"id": "C123", "title": "Programs of different versions share spans", "statement": "An event written by one version of a program is read by another version whose event type of the same schema has other fields: fields both types have come back with the written values, and fields only the reader has come back as zero values.", "quantifier": "all event types of the modelled kinds, all common, removed and added fields, all values, all other annotations of the span", "why_tests_cant": "a test compares two versions of one type", "anchors": ["reflect.go:unflattenValue", "event.go:UnmarshalEvent", "event.go:UnmarshalEvents"]}
{"id": "C124", "title": "Concurrent events share the cache of field names safely", "statement": "Whatever goroutines marshal events at once, of the same or of different types, each event is recorded with exactly the exported fields of its type, under their tags or names; the process never ends with a concurrent map access, and the calls never block each other for good.", "quantifier": "all struct types, all numbers of goroutines, all interleavings of the lock and map operations", "why_tests_cant": "races and deadlocks show only under some schedules", "anchors": ["reflect.go:fieldNames", "reflect.go:fieldName", "reflect.go:cachedFieldNames"]}
{"id": "C125", "title": "Servers understand clients with a later version of the protocol", "statement": "A CollectorServer collects from each packet what the fields it knows say, whatever the order of the fields and whatever fields it does not know are added, of any wire type, at any place in the packet, its span ID or its annotations.", "quantifier": "all packets, all additional fields (also nested groups), all orders of fields, all numbers of packets", "why_tests_cant": "no test has a client of a later version", "anchors": ["collector.go:handleConn", "internal/wire/collector.proto:CollectPacket", "internal/wire/collector.pb.go:CollectPacket"]}
{"id": "C126", "title": "The sampling decision is taken once per trace", "statement": "Of a trace made with the OpenTracing tracer, either all spans that finish are written or none is: the first span's tracer asks its ShouldSample once, about the trace's ID, and the spans started below it, by any tracer, carry its answer. With DefaultOptions all are written. Items of baggage go to the spans started below their span later. Options must have a ShouldSample: without one the first span panics.", "quantifier": "all sequences of starts, finishes and SetBaggageItem calls with any tracers and references, all ShouldSample functions", "why_tests_cant": "the tests have the default options only", "anchors": ["opentracing/tracer.go:NewTracer", "opentracing/tracer.go:DefaultOptions", "opentracing/recorder.go:RecordSpan"]}
{"id": "C127", "title": "Uploads understand any JSON text", "statement": "A JSON text that describes a list of traces is accepted as the upload of these traces and stored, however it is written: with any white space, escapes in strings, order of members, letter case of member names, and with members the server does not know. A text that is not JSON, has anything but white space after its value, or has a fault anywhere (an ID that is not the hexadecimal string of a 64-bit number, a value that is not base64 bytes, a wrong kind of value) is refused and stores nothing.", "quantifier": "all texts, all trees of traces and all JSON texts describing them", "why_tests_cant": "the tests upload only what the client package itself encodes", "anchors": ["traceapp/app.go:serveTraceUpload", "traceapp/app.go:uploadTraces", "id.go:UnmarshalJSON", "trace.go:Trace", "span.go:SpanID"]}
{"id": "C128", "title": "Every address of the web application has one handler", "statement": "A request for a plainly written path (starting with a slash, without empty, '.' or '..' components, except that it may end in a slash) is answered by the one handler that the table of addresses gives for its method and path: the root page, the static files below /static/, the list of traces, a trace or span or its profile, the upload (POST only), the dashboard and its data, the aggregation; and with the IDs in the path as variables. What is not in the table is not found, other paths are redirected. The URLs that Router.URLTo gives lead to their route.", "quantifier": "all methods and paths", "why_tests_cant": "the tests request a handful of addresses; two patterns overlap (a span called profile, a trace called upload)", "anchors": ["traceapp/router.go:NewRouter", "traceapp/router.go:URLTo"]}
{"id": "C129", "title": "Events are read field by field from texts written by anyone", "statement": "UnmarshalEvent sets each field of an event to the value that the text of its annotation stands for: integers in decimal with an optional sign, unsigned numbers in decimal, the twelve spellings of a bool, any string. A text that stands for no value of the field's type leaves this field as it was, and the other fields are not affected.", "quantifier": "all annotations, all event types with simple fields, all previous values of the event", "why_tests_cant": "tests read only what the package has written, other clients write other texts", "anchors": ["reflect.go:unflattenValue", "reflect.go:parseValueToPtr", "event.go:UnmarshalEvent"]}
{"id": "C130", "title": "Every reference of every page leads where it should", "statement": "With the application mounted at the base URL given to New, each link, script, style, form and data request of each page is resolved by the browser (by RFC 3986, against the page's base element) to a URL at which this application serves what the reference is for: the static files, the list of traces, a trace or span, its profile, the permalink, the aggregated view, the dashboard and its data, the upload.", "quantifier": "all base URLs, pages, trace and span IDs, selections of traces", "why_tests_cant": "the tests serve from one address; whether a relative reference works depends on how the base URL and the reference are written", "anchors": ["traceapp/app.go:New", "traceapp/tmpl/data/layout.html", "traceapp/tmpl/data/root.html", "traceapp/tmpl/data/traces.html", "traceapp/tmpl/data/trace.html", "traceapp/tmpl/data/dashboard.html", "traceapp/tmpl/data/aggregate.html", "traceapp/router.go:URLTo"]}
{"id": "C131", "title": "Aggregate Selected is about the selected traces", "statement": "The view that the button for the selected traces of the trace list opens aggregates exactly the traces selected in the list.", "quantifier": "all stores, lists shown and selections", "why_tests_cant": "the page's script and the handler each are right about single lists; the case of all of a list that is not complete needs both", "anchors": ["traceapp/tmpl/data/traces.html", "traceapp/app.go:serveAggregate"]}
{"id": "C132", "title": "The timeline's context menu acts on all and only the spans below the chosen one", "statement": "On the page of a trace or span, Show Children, Hide Children and the filter set the visibility of all spans shown below the chosen span, however deep, as asked, leave every other item as it is, and end. A filter of the form Key:\"value\" shows exactly the spans whose data has that value at that key.", "quantifier": "all traces, orders of arrival, spans chosen, filters", "why_tests_cant": "the recursion runs over arbitrary trees of spans; the templates have no tests", "anchors": ["traceapp/tmpl/data/trace.html", "traceapp/vis.go:d3timeline"]}
{"id": "C133", "title": "What clients recorded is shown as text", "statement": "Names, keys and values of annotations appear on the pages as exactly the text that was recorded, in any place of a page, and never as markup: a browser shows it verbatim, the JSON exports in the pages read back exactly, and no recorded text can end the script that holds the timeline's data.", "quantifier": "all recorded texts, places of a page", "why_tests_cant": "texts are arbitrary; one unescaped place suffices for a client to run scripts in the browser of the operator", "anchors": ["traceapp/tmpl/data/trace.html", "traceapp/tmpl/data/traces.html", "traceapp/tmpl/data/layout.html", "traceapp/vis.go:timelineItem", "traceapp/app.go:renderTemplate"]}
{"id": "C134", "title": "The timeline's buttons order the lines and change nothing else", "statement": "The buttons above the timeline order its lines by start, end, duration or name; a first click on a button gives the ascending order, every further click on it turns the order round. Lines that are equal keep their order. However clicks on the buttons and entries of the context menu are mixed, every span keeps exactly one line, what is shown and hidden is as the last menu entry above it says, the order is that of the last button clicked, and the root stays visible.", "quantifier": "all traces, sequences of clicks and menu entries", "why_tests_cant": "the state is the history of clicks, which has no bound; numbers of any size occur", "anchors": ["traceapp/tmpl/data/trace.html", "traceapp/vis.go:d3timelineInner"]}
{"id": "C135", "title": "Export Selected carries exactly the selected traces", "statement": "On the list of traces, Export Selected gives a JSON text as soon as a trace is selected. Uploaded to any appdash, in this layout or any other, the text is accepted; each selected trace that was not there is then shown exactly as it was (spans, parents, annotations and their order), and all other traces are as before. With nothing selected nothing is exported.", "quantifier": "all traces, selections, contents of both stores, layouts of the text", "why_tests_cant": "the text passes through two JSON printers and two readers; trees, names and values are arbitrary", "anchors": ["traceapp/tmpl/data/traces.html", "traceapp/app.go:serveTraceUpload", "trace.go:String"]}
{"id": "C136", "title": "The view mode menu keeps the selection", "statement": "In the aggregated view, choosing a view mode shows the aggregation of the same traces in that mode: however often modes are chosen, the address asks for the mode chosen last and for everything else it asked for before, for every address that the pages lead to. Without a choice root spans are aggregated.", "quantifier": "all selections, sequences of choices, traces", "why_tests_cant": "addresses are rewritten by a regular expression again and again; a lost parameter shows other traces", "anchors": ["traceapp/tmpl/data/aggregate.html", "traceapp/app.go:serveAggregate", "traceapp/aggregate.go:parseAggMode"]}
{"id": "C137", "title": "The dashboard's slider shows the hours it names", "statement": "On the dashboard, the table shows the results of the hours that the slider's heading names (\"Timeline: a-b hours ago\"), for every position of the slider.", "quantifier": "all positions of the slider, Aggregators", "why_tests_cant": "the script, the query and the server each shift or negate the hours; only some positions agree", "anchors": ["traceapp/tmpl/data/dashboard.html", "traceapp/dashboard.go:serveDashboardData"]}
{"id": "C138", "title": "The dashboard's table shows the aggregated results", "statement": "The data that the dashboard loads for a window has one row per result of the Aggregator, in its order and no others: with the result's name (bytes that are not UTF-8 replaced), its average, minimum, maximum and deviation in whole milliseconds, and its number of samples. The link of a row leads to the list of just the slowest traces of the result, if there are any. A window whose bounds are not integers and a failing Aggregator give an error; without an Aggregator the dashboard says so.", "quantifier": "all results, windows, queries", "why_tests_cant": "names, times and trace IDs are arbitrary and pass through JSON, addresses and a query", "anchors": ["traceapp/dashboard.go:dashboardRow", "traceapp/dashboard.go:serveDashboardData", "store.go:AggregatedResult"]}
{"id": "C139", "title": "Toggle Selection selects all or none", "statement": "On the list of traces, Toggle Selection selects all traces or none, alternately with what is selected: if all are selected it deselects them, if none are it selects them.", "quantifier": "all lists, sequences of clicks", "why_tests_cant": "the script keeps its own state beside that of the boxes; sequences of clicks are unbounded", "anchors": ["traceapp/tmpl/data/traces.html"]}
{"id": "C140", "title": "The library's events are stored under fixed keys", "statement": "Each event of the library is stored under the keys and texts of one published table and its schema, and under nothing else, whatever its contents: span names, messages, logs, time spans, SQL statements, and the client's and the server's HTTP events with any headers.", "quantifier": "all events of the library, all contents", "why_tests_cant": "stored traces are read by other programs, other versions and other languages, whose contents are arbitrary; the keys come from reflection over nested structures and maps", "anchors": ["event.go:MarshalEvent", "event.go:SpanNameEvent", "reflect.go:flattenValue", "httptrace/client.go:ClientEvent", "httptrace/server.go:ServerEvent", "sqltrace/sql.go:SQLEvent"]}
{"id": "C141", "title": "A trace opened several times at once is shown as recorded", "statement": "Opening an exported or permalinked trace in several requests at the same time changes nothing beyond opening it once: afterwards the trace is shown with every span under its parent and every annotation as exported.", "quantifier": "all traces, any number of concurrent requests each with any traces, all interleavings of their calls with each other and with other users of the store", "why_tests_cant": "the handler asks for the trace and then collects its spans, one call at a time; the outcome depends on how the requests interleave", "anchors": ["traceapp/app.go:uploadTraces", "traceapp/trace.go:collectTrace", "traceapp/app.go:serveTrace", "traceapp/app.go:serveTraceUpload"]}
{"id": "C142", "title": "Clients that follow the documented protocol are understood", "statement": "An event sent by a program in another language as the documentation of the protocol describes it, with its annotations in any order and among any other annotations, is read back as that event with the values sent.", "quantifier": "all events the documentation describes, all values, all orders of annotations, all further annotations with other keys", "why_tests_cant": "clients in other languages are written from the documentation; values, orders and further annotations are arbitrary", "anchors": ["other-languages.md", "event.go:UnmarshalEvent", "httptrace/server.go:ServerEvent", "httptrace/client.go:ClientEvent", "sqltrace/sql.go:SQLEvent"]}
{"id": "C143", "title": "A page drawn while spans arrive shows the trace", "statement": "While a page reads the trace it was given, spans and annotations of that trace keep arriving. The page shows every span the trace had when it was looked up, once, in its place and with the annotations it had then, and shows nothing that the trace does not have in the end.", "quantifier": "all histories before the lookup, all calls made during the reading, all interleavings of the reader's single reads with the single writes of those calls", "why_tests_cant": "the reader follows pointers into the store after the lock has been released; what it meets depends on the schedule and on the order of arrival", "anchors": ["store.go:MemoryStore.Trace", "store.go:MemoryStore.collectNoLock", "store.go:MemoryStore.reattachChildren", "store.go:MemoryStore.insert", "traceapp/app.go:serveTrace"]}
{"id": "C144", "title": "The spans of an HTTP request tell what it was", "statement": "The events read from the span that a traced client recorded tell the request as it was sent (method, URI, protocol, headers with the redacted ones hidden, host, length) and the status, length and headers of the response it got; those of a traced server's span tell the request as it was served and the response as it was written.", "quantifier": "all requests, responses, headers and trailers, all configurations and handlers that return, all span IDs, with and without a name for the span", "why_tests_cant": "requests, headers, handlers and their writes are arbitrary; what is written is split into annotations and put together again by reflection", "anchors": ["httptrace/client.go:RoundTrip", "httptrace/client.go:requestInfo", "httptrace/client.go:redactHeaders", "httptrace/server.go:Middleware", "httptrace/server.go:responseInfo", "event.go:UnmarshalEvents"]}
{"id": "C145", "title": "A Collect that a LimitStore refuses changes nothing", "statement": "If Collect on a LimitStore fails because the oldest trace could not be deleted, the store shows what it showed before, and later calls have the effect they would have had without it.", "quantifier": "all capacities, all histories before and after, all failures of the underlying Delete", "why_tests_cant": "the bookkeeping is changed before the deletion is known to have succeeded; the effect shows only in certain later histories", "anchors": ["store.go:LimitStore.Collect"]}
{"id": "C146", "title": "A deletion of a RecentStore that fails is tried again", "statement": "A trace that is older than MinEvictAge and whose deletion failed is deleted by a later eviction pass.", "quantifier": "all histories and clocks, all schedules of the deleting goroutines, all failures of the underlying Delete", "why_tests_cant": "depends on time, on the schedule and on a failing store", "anchors": ["store.go:RecentStore.Collect", "store.go:RecentStore.evictBefore"]}
{"id": "C147", "title": "The demo's pages lead to the traces of their requests", "statement": "Every page of the demo application has a link to the demo's Appdash, and the link shows the trace in which the page's request was recorded. The trace of the page that says it made three API calls has the page's span and beneath it, and nowhere else, the spans of the three calls. The span of a page is named after its path.", "quantifier": "all requests with all span headers, all listen addresses, all outcomes of the three calls, all orders in which the spans arrive", "why_tests_cant": "requests, addresses, failures and orders of arrival are arbitrary", "anchors": ["cmd/appdash/example_app.go:demoApp.ServeHTTP", "cmd/appdash/example_app.go:DemoCmd.Execute", "httptrace/server.go:SpanID"]}
{"id": "C148", "title": "Deleting through a store with eviction leaves a clean slate", "statement": "A user of a RecentStore may delete a trace. Spans collected for the same trace ID afterwards are a new trace: it is shown with exactly those spans and is not evicted before it has reached the minimum age.", "quantifier": "all histories of Collect and Delete calls, all clocks, all schedules of the evicting goroutines", "why_tests_cant": "histories, clocks and schedules are unbounded", "anchors": ["store.go:RecentStore", "store.go:RecentStore.Collect", "store.go:RecentStore.evictBefore"]}
{"id": "C149", "title": "Stores and collectors never deadlock", "statement": "Calls on stores and collectors return, however these are nested and shared and whatever other goroutines do with them at the same time: no set of calls waits for each other, and a client of the web pages or of the collector server that does not read or send keeps nobody else waiting.", "quantifier": "all nestings of MemoryStore, LimitStore, RecentStore, MultiStore, ChunkedCollector and RemoteCollector, all programs with any number of goroutines, all schedules", "why_tests_cant": "schedules, programs and nestings are unbounded; a deadlock needs one particular schedule", "anchors": ["store.go:MemoryStore", "store.go:RecentStore.Collect", "store.go:LimitStore.Collect", "multi.go:multiStore", "collector.go:ChunkedCollector", "collector.go:RemoteCollector", "traceapp/tmpl.go:renderTemplate", "traceapp/handler.go:handlerFunc.ServeHTTP"]}
{"id": "C150", "title": "Recording through a ChunkedCollector never waits for the network", "statement": "A goroutine that records through a ChunkedCollector (Collect, or Stop) is never blocked by the underlying collector: its calls return even if the collector server accepts no connection or no data, for ever.", "quantifier": "all programs with any number of goroutines, all nestings of collectors, all schedules, all points at which the network hangs", "why_tests_cant": "schedules and hanging points are unbounded", "anchors": ["collector.go:ChunkedCollector.Collect", "collector.go:ChunkedCollector.Flush", "collector.go:ChunkedCollector.Stop", "collector.go:RemoteCollector.Collect"]}
{"id": "C151", "title": "A browser is told what a response is, whatever was recorded", "statement": "Every page is sent as HTML, and every error message and every table's data as plain text, so that no recorded name, no error text and no request can make a browser take a response for something else.", "quantifier": "all names, errors, Aggregator results, traces and queries; all headers set around the application", "why_tests_cant": "names and error texts are unbounded, and the type of data without one is guessed from its bytes", "anchors": ["traceapp/tmpl.go:renderTemplate", "traceapp/httputil.go:responseBuffer.WriteTo", "traceapp/handler.go:handleError", "traceapp/dashboard.go:serveDashboardData", "traceapp/prof.go:profile"]}
{"id": "C152", "title": "The profile table has one row for every span, with its times", "statement": "The data behind the profile table of a trace's page is a JSON text which a browser reads as one row for every span of the trace, depth first: the span's name (its ID if it has none), the address of its page, the milliseconds of its longest timespan, the sum of these over it and its children, and over it and all its descendants. There are no other rows.", "quantifier": "all traces whose times add up to less than 292 million years, all names, all registries of events", "why_tests_cant": "traces and names are unbounded", "anchors": ["traceapp/prof.go:calcProfile", "traceapp/prof.go:profile", "traceapp/tmpl/data/trace.html"]}
{"id": "C153", "title": "Names are shown as text in tables", "statement": "In the tables of the dashboard and of a profile, the name of a span is shown as it was recorded; no name can add elements or scripts to the page.", "quantifier": "all names", "why_tests_cant": "names are unbounded", "anchors": ["traceapp/tmpl/data/trace.html", "traceapp/tmpl/data/dashboard.html", "traceapp/tmpl/data/layout.html", "traceapp/prof.go:profile", "traceapp/dashboard.go:serveDashboardData"]}
{"id": "C154", "title": "Nothing is shown that was not recorded, however the network fails", "statement": "Any number of processes record spans through a ChunkedCollector over a RemoteCollector to one server with a MemoryStore. Whatever is dropped, flushed concurrently, timed out, refused or cut off at any byte, and however often connections are remade: the store shows only spans that were recorded, and a span's annotations are whole recordings of that span, never a part of one or of another span's. None is shown more often than it was recorded.", "quantifier": "all numbers of processes, recordings, schedules of Collect, Flush, Stop and timers, outcomes of dialling and writing, bytes that arrive, interleavings of connections, deletions", "why_tests_cant": "the failures and interleavings are unbounded", "anchors": ["collector.go:ChunkedCollector", "collector.go:RemoteCollector.collectAndRetry", "collector.go:CollectorServer.handleConn", "store.go:MemoryStore"]}
{"id": "C155", "title": "The chart of the aggregated view draws the aggregated items", "statement": "The script of the aggregated view gets a JSON text that a browser reads as one segment for every aggregated item, with its label and its value, all values being positive, which the chart needs; if there is nothing to aggregate (no traces, or no sub-spans in the modes that leave out root spans) the chart has one segment that says so.", "quantifier": "all traces whose times add up to less than 292 million years, all names, modes and registries", "why_tests_cant": "traces and names are unbounded; the items come in any order", "anchors": ["traceapp/aggregate.go:aggregate", "traceapp/app.go:serveAggregate", "traceapp/tmpl/data/aggregate.html"]}
{"id": "C156", "title": "What a handler does reaches its client through the middleware", "statement": "Whatever a handler does with its ResponseWriter, reacting to the header, to the results of Write and to the interfaces that the writer implements: behind the middleware every call has the same result and the same effect on the server's writer as without it, but for the span ID in the header once the handler has returned. The recorded status is the last one that the handler set, 200 if none, and the recorded length that of the body. (Not so: a handler that looks for http.Hijacker, as WebSocket servers do, does not find it behind the middleware; and the recorded length counts bytes that Write did not accept.)", "quantifier": "all response writers of servers, all handlers, also ones that react to what they see, and all that panic", "why_tests_cant": "handlers are programs, and the servers' writers are unbounded in what they do", "anchors": ["httptrace/server.go:Middleware", "httptrace/server.go:responseInfoRecorder"]}
{"id": "C157", "title": "A server with a store file survives restarts", "statement": "However often a server with a store file is stopped or killed, at whatever points: it can be started again; a trace that was persisted and has not been added to or deleted since is shown after every later start exactly as it was (but for present and empty values); and whatever is shown was collected in one of the runs, under its trace, with annotations of calls for this span, whole and in order.", "quantifier": "all sequences of runs, all calls in each, all points of time at which PersistEvery works and the server is killed, all contents of other files", "why_tests_cant": "the runs, the calls and the points of the crashes are unbounded and interleave", "anchors": ["cmd/appdash/serve_cmd.go:Execute", "store.go:PersistEvery", "store.go:MemoryStore.Write", "store.go:MemoryStore.ReadFrom"]}
{"id": "C158", "title": "Stores with eviction can be wrapped in one another", "statement": "A RecentStore over a LimitStore, or a LimitStore over a RecentStore, keeps both promises: never more than Max traces are stored, and a trace is deleted only if it is older than MinEvictAge or when Max newer traces have come.", "quantifier": "both orders, all sequences and interleavings of Collect calls and deleting goroutines, all clocks, ages and capacities, at every moment", "why_tests_cant": "the stores keep separate books of the same traces, and the histories and schedules in which these disagree are unbounded", "anchors": ["store.go:RecentStore.Collect", "store.go:RecentStore.evictBefore", "store.go:LimitStore.Collect"]}
{"id": "C159", "title": "An OpenTracing trace is shown as it was started", "statement": "The spans of a sampled OpenTracing trace, started by any number of processes and finished in any order, are shown in the store as one tree: the span that began the trace is the root, every other span is directly below the one it was started with, and each has exactly what was recorded for it.", "quantifier": "all programs of StartSpan, SetBaggageItem and Finish calls on any number of tracers, all orders in which their Collect calls reach the store, all other traces in the store", "why_tests_cant": "the shapes of traces, the orders of finishing and the interleavings of the recorders are unbounded", "anchors": ["opentracing/tracer.go:NewTracerWithOptions", "opentracing/recorder.go:RecordSpan", "store.go:MemoryStore.Collect"]}
{"id": "C160", "title": "The example application's page leads to its trace", "statement": "For 20 seconds the link on the page of the example web application leads to a page of Appdash that shows the trace of the request: its own span and below it the spans of the three calls that it made, whatever else is traced meanwhile. The spans of served requests are named after their paths.", "quantifier": "all requests from outside, all outcomes of the three calls, all other requests, all schedules of the store's collecting and evicting", "why_tests_cant": "requests are traced concurrently with others, calls may fail, and the store evicts in the background", "anchors": ["examples/cmd/webapp/main.go:Home", "examples/cmd/webapp/main.go:Endpoint", "examples/cmd/webapp/main.go:main", "httptrace/server.go:Middleware", "store.go:RecentStore.Collect"]}
{"id": "C161", "title": "Traceapp below a path of the user's router", "statement": "Given a router that its user mounts below a path (NewRouter with a subrouter), traceapp works there as it does at the root of a site: below the path each address is answered by its page, the addresses that the router makes lead to their pages, static files are served, the pages' references lead within the application, and all other requests are left to the user's routes.", "quantifier": "all path prefixes, all routes of the user's before and after it, all methods and paths, all pages and base URLs", "why_tests_cant": "the user's prefix, routes and the paths requested are arbitrary; unit tests use a router of traceapp's own at the root", "anchors": ["traceapp/router.go:NewRouter", "traceapp/router.go:Router.URLTo", "traceapp/router.go:Router.URLToTrace", "traceapp/app.go:New", "traceapp/tmpl/data/layout.html"]}
{"id": "C162", "title": "Nothing recorded is lost silently", "statement": "For every recording that a ChunkedCollector over a RemoteCollector accepted, while the network delivers what was written to it and packets are within the server's limit: it is still queued, or a Collect returned ErrQueueDropped, or the Flush that took it has not returned, or that Flush returned an error, or the server's store shows it. If Flush returned nil, all that was queued when it began is shown; once every Flush has returned nil and nothing is left, traces show every recorded span with exactly what was recorded for it, each annotation as often as it was recorded.", "quantifier": "all numbers of processes, all histories of Collect, Flush, Stop, timers and time limits, all breaks and reconnections, all interleavings at the server, all deletions of other traces", "why_tests_cant": "every schedule of flushes, every byte at which connections break and every interleaving at the server is to be considered", "anchors": ["collector.go:ChunkedCollector.Collect", "collector.go:ChunkedCollector.Flush", "collector.go:RemoteCollector.Collect", "collector.go:CollectorServer.handleConn", "store.go:MemoryStore.Collect", "store.go:MemoryStore.Trace"]}
{"id": "C163", "title": "Services that record over networks that break are shown as one trace", "statement": "When a request comes in and the services that serve it and its subrequests use the Middleware and the Transport, each service recording through a ChunkedCollector over a RemoteCollector of its own, then, once everything was flushed without an error over networks that deliver what was written, the server shows one trace: exactly one span per request served and per request made, each with exactly the annotations recorded for it, each below the span within which its request was made.", "quantifier": "all trees of requests, all numbers of services and distributions of the spans among them, all breaks and reconnections, all schedules of flushes, all interleavings at the server with other traces", "why_tests_cant": "every tree of requests, every break of a connection and every interleaving is to be considered together", "anchors": ["httptrace/server.go:Middleware", "httptrace/client.go:Transport.RoundTrip", "collector.go:ChunkedCollector.Flush", "collector.go:RemoteCollector.Collect", "collector.go:CollectorServer.handleConn", "store.go:MemoryStore.Collect"]}
