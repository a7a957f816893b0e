# Formal model of sourcegraph/appdash in Rocq (Coq 8.16.1)

The Go source in `/repo` is read as text only; it is never built or run.
The model is hand-written Gallina under `rocq/theories`, one group of files per
component of the code:

| suffix       | contents                                                                   |
|--------------|----------------------------------------------------------------------------|
| `XModel.v`   | executable model of the Go functions, each with a `/repo` file:line citation |
| `XSpec.v`    | small independent specification used by the statements (no model helpers)    |
| `XProofs.v`  | lemmas and proofs                                                            |
| `XProps.v`   | property theorems only: `Theorem Cnn_… . Proof. exact lemma. Qed.`, `Print Assumptions` beneath, and an `Example` showing the hypotheses are met by a concrete non-trivial case |

## Trusted base

* Coq 8.16.1's kernel (including `vm_compute` used for closed witnesses).
* `Print Assumptions` output of each property theorem. The goal is
  "Closed under the global context" for every one; anything else is listed in
  the section "Assumptions" at the end of this file.
* Libraries: Coq standard library and std++ (`gmap`, lists); no library axioms are used
  unless listed below.
* The faithfulness of the hand-written model to the Go source (cited line by line).
* The behaviour attributed to code outside `/repo` (listed per component below): Go's
  `strconv`, `strings`, `fmt %016x`, `sort`, `net/http` canonicalisation,
  gogo/protobuf's reader/writer and generated struct codec, `encoding/gob` as an
  abstract map copy, `encoding/json` for the pieces that appear in the statements,
  the file system's atomic rename, mutexes providing mutual exclusion.

## General modelling decisions

* Go `string` and `[]byte` are Coq `string`s (exact byte sequences). An annotation value
  is `option string`; `None` is the nil slice, `Some ""` the empty non-nil one.
* IDs are `N`; theorems about uint64 behaviour carry `< 2^64` hypotheses or explicit `mod 2^64`.
* Go maps are std++ `gmap`s; where iteration order is observable the model takes the
  order as an argument (a permutation) and theorems quantify over it.
* Panics are explicit results (`None`/`Panic`), never totalised away.
* Mutex-protected methods are atomic steps. Where the code releases the lock, or starts a
  goroutine, the model has explicit intermediate steps and theorems quantify over schedules.
* Errors are values. External calls (collectors, stores, transports, clocks, random
  sources, file operations) are arguments/oracles over which theorems quantify.
* A documented claim that the code violates is stated at documented strength, refuted in the model
  by a concrete witness (`…_refuted`), and accompanied by the strongest true version
  (`…_partial`, or a separate conditional property). MANIFEST status is then `partial`.

## Plan per property

| id | what is modelled | how it is proved |
|----|------------------|------------------|
| C01–C03 | `ID.String` as a 16-digit hex printer, `strconv.ParseUint(s,16,64)` as its loop with the overflow cut-offs | induction on digits; `2^64` arithmetic in N; lexicographic order by induction |
| C04–C05 | `SpanID.String`, `strings.Split`, `ParseSpanID` | join/split inverse; exact characterisation of accepted strings |
| C06 | `NewRootSpanID`, `NewSpanID`, `IsRoot`, a chain as a list of generated IDs | induction on the chain |
| C07 | generator state (counter bytes, buffer, position), block cipher as a variable | refinement to "stream of blocks E(ctr+i)"; counter increment = +1 mod 2^128 |
| C08 | JSON string/integer lexing for the literals involved | round trip through the lexer |
| C09–C15 | `MemoryStore` with an explicit heap of trace nodes (pointers as locations), `collectNoLock`, `insert`, `reattachChildren`, `Trace`, `Traces`, `Delete` | global invariant over all histories: every sub list is duplicate free and holds exactly the spans whose parent (or fallback root) it is; a relation `reads` from heap to finite trees; history specification for annotations |
| C16–C18 | same model | refuted by witnesses; positive part by the invariant |
| C19–C20 | `Write`/`ReadFrom` as encoding both maps by value and allocating fresh, unshared nodes | readback equality; C20 refuted by witness |
| C21 | `PersistEvery` as a sequence of file operations that may fail, on a tiny file system with atomic rename | invariant over every prefix of operations |
| C22–C24 | `LimitStore` ring buffer over an abstract store, instantiated with MemoryStore | refinement to a FIFO window; C24 refuted with trace ID 0 |
| C25–C27 | `RecentStore` with a clock input, pending asynchronous deletes as explicit steps | invariants over histories; C27 refuted by a schedule |
| C28–C30 | `MultiStore`, `MultiQueryer` over abstract stores | induction on the list |
| C31–C37 | `ChunkedCollector` as a small-step machine: collect, flush steps per span, background flush, stop | conservation/ordering invariants over all schedules; refutations by schedules |
| C38 | protobuf group encoding/decoding of `CollectPacket` at byte level | round trip |
| C39–C42 | varint-delimited stream, `handleConn` loop over the bytes received | induction over packets and cut points; C41, C42 refuted by witnesses |
| C43 | `RemoteCollector` with dial/write outcomes as oracle | invariant over call histories |
| C44–C45 | `Recorder` state machine over an oracle collector | induction over call sequences |
| C46–C50 | flatten/unflatten over a universe of Go types and values, schema annotations, registry | structural induction; refutations by witnesses |
| C51 | `Span.get`, `Name` | induction |
| C52–C55 | header maps, `redactHeaders`, `SetSpanIDHeader`, `GetSpanID`, middleware prologue | non-interference; round trip; C55 refuted |
| C56–C59 | `responseInfoRecorder`, `Middleware`, `Transport.RoundTrip` | induction over handler calls |
| C60–C61 | `calcProfile`, `aggregate` over event registries; durations as integers, milliseconds by SpecFloat's binary64 | tree induction; rounding through Flocq (which uses the reals) |
| C62–C63, C86 | `d3timelineInner`, `fmt` of a duration as a parameter | list reasoning over the items; C63, C86 refuted |
| C64 | `collectTrace`/`uploadTraces` over the MemoryStore model | an upload is a history of Collect calls; link with C09–C15 |
| C65 | buffered handler | case analysis over handler behaviours |
| C66–C68 | `FindSpan`, `findTraceTimes` | tree/list induction; C67, C68 refuted with zero times |
| C69 | base64 and header comparison | injectivity of base64 |
| C70, C103 | `randomSplit`, `sampleData` with random draws as functions | induction over the draws |
| C71, C87 | `RecordSpan` and the reading back of what it wrote | list reasoning over all iteration orders |
| C72 | composition of ID generation and MemoryStore | corollary of the global invariant |
| C73 | `Write` on stores with cyclic trees | well-foundedness of what is shown; refuted by a cycle |
| C74 | `MultiQueryer` with query options | induction on the stores; refuted |
| C75–C77 | same machine as C31–C37 | schedules; refuted, with the true part as an invariant |
| C78 | `handleConn` on streams cut inside a packet | induction over packets; refuted for cuts at a boundary of the length |
| C79–C80 | `UnmarshalEvents` on arbitrary annotations | totality of the decoder; permutation invariance |
| C81 | `Recorder` after `Finish` | induction over call sequences; refuted |
| C82 | `ID.UnmarshalJSON` on every text | exact grammar; refuted with null |
| C83–C85 | middleware with panicking handlers, `Transport.CancelRequest` | case analysis over histories |
| C88–C93 | the Python client: span IDs, events, packets, three collectors | composition with the Go side's models (ParseSpanID, UnmarshalEvents, the server's loop) |
| C94–C100 | the router, the choice of what pages show, permalinks' base64 stream, dashboard query | exact matching of routes; refutations by addresses |
| C101 | the serve command's store: MemoryStore restored from file under a RecentStore | histories; refuted by a restored trace |
| C102 | the send command over an oracle collector | induction over the trace's spans |
| C104 | `urlOrDefault`, `net.SplitHostPort` | exact grammar of addresses; refuted by IPv6 hosts |
| C105 | `filterAnnotations`, `Annotation.Important`, the template's table rows | list reasoning over marshaled events |
| C106–C108 | `encoding/json` at byte level (UTF-8, escapes, scanner, printer), decoding into traces, uploads, permalinks over any gzip | parse after print by induction over JSON values; composition with C64 |
| C109 | the models of Recorder, ChunkedCollector, RemoteCollector, CollectorServer, MemoryStore and UnmarshalEvents, put together | composition of C44, C31/C32, C43, C39, C10 and C49 |
| C110–C111 | the float and `time.Duration` cases of `reflect.go`; `ParseFloat` as correct rounding of the decimal, `FormatFloat` as a search for the shortest text | Flocq: error bounds, and innocuous double rounding for single-precision values; both refuted as stated; the texts as decimal numerals with real values (NumTextSpec) |
| C112–C113 | Go slices: a heap of arrays, and who holds slices of them (recorders, ChunkedCollectors, stores, running calls); the same machine over values as specification | simulation under an ownership invariant; shared arrays of a MultiStore by a weaker invariant per span; both refuted in general |
| C114 | the server with any number of connections: arriving pieces, Accept, handler rounds interleaved; a panic ends the process | invariant: each connection's calls and unread bytes are a state of the one-connection handler (C39) on its own bytes; refuted in general |
| C115 | handlers that make requests through the Transport to servers with the Middleware, to any depth (the models of the two composed) | induction on the tree of requests: the calls collected are those of the expected spans; then the store's tree as in C09–C15, for any order of arrival |
| C116 | infinite executions of the ChunkedCollector machine (C31–C37) and weak fairness for its goroutines | ranking on what is queued and what running flushes hold; fairness gives the next step, the machine's invariants the rest |
| C117 | the fields of OpenTracing logs as the field encoder emits them, and `json.Marshal` of the map (floats as a parameter) | the JSON reader of C106 reads the message back; refuted for events whose payload looks like fields and for bytes that are not UTF-8 |
| C118 | `Trace.TreeString` byte by byte | equal texts have equal lines; a line's kind, depth and content are unique; induction on forests; refuted for newlines in values |
| C119–C120 | `Trace.String` and `Span.String` as JSON text (C106), `Annotations.String` with `strconv.Quote` (IsPrint a parameter) | the JSON reader reads the trace back; quoted pieces form a prefix code; refuted for keys that are not UTF-8 or have "=" |
| C121–C122 | the Recorder as a machine of calls that take single steps (reads and writes of fields, calls of Collect, critical sections) in any interleaving | an account of every error (returned, kept, on its way) as a permutation; for events an invariant under mutual exclusion; races refute the rest |
| C123 | the reader's event type has other fields than the writer's: `UnmarshalEvent` (as in C47–C49) on the annotations of another type | the scan of the sorted pairs by field, added fields last; refuted for an added field that sorts first |
| C124 | `fieldNames` with its cache as a machine: one step per operation on the RWMutex or on a Go map, maps as references into a heap | invariant (maps in use are complete and no longer written), a measure for termination |
| C125 | packets as field lists; what a later version adds as any insertion of well-formed unknown fields (varint, fixed, bytes, nested groups) at every level | induction on the decoder with its fuel; the exact values collected |
| C126 | the tracer with the basictracer library's spans (documented behaviour): starts with references, baggage, finishes | invariant: a span carries the decision of the first span of its trace |
| C127 | the JSON decoder of uploads (encoding/json's scanner and the decoding into Trace) against the RFC 8259 grammar, written separately in JsonGramSpec | soundness and completeness of the parser for the grammar; decoding relations by induction on values |
| C128 | the router's table, mux's matching and path cleaning, URLTo | case analysis over methods and components against a separate table of addresses |
| C129 | unflattenValue on flat events with arbitrary annotations | induction over the sorted fields; numerals specified by their digits |
| C130 | New's base URL, the references the templates write, RFC 3986 resolution (as a relation in HrefSpec), where the application is mounted | each reference is a route's address (C128); case analysis on the base path; refuted for the documented base URL |
| C131 | the script of the aggregate button and the handler of the aggregated view | list reasoning; refuted for all of a partial list and for no selection |
| C132 | the scripts of the timeline's context menu, on the items of C62, with the recursion bounded by fuel | loop invariant over the items; depth as a ranking; refuted for orphans, self-parents, colons |
| C133 | the escapes of html/template (after its documentation) in elements, attributes and text areas, the script's data, the script's `.html`/`.text` calls; a browser's reading of text by the HTML standard is the specification HtmlSpec | induction over the text, references read back uniquely; refuted for tips, menu headings and labels |
| C134 | the sort buttons of the timeline (keys, toggled order, comparison, ECMAScript's stable sort by its specification, numbers rounded to 53 bits) together with the context menu of C132: sessions of clicks and menu entries over the items of C62; toLowerCase is a parameter | invariant over sessions (permutation, visibility, order); refuted for bars longer than 292 years, whose times overflow |
| C135 | Export Selected: the boxes of the list with Trace.String, JSON.parse as any reader of RFC 8259, ECMAScript's JSON.stringify, then the upload of C106/C127 into another store | the printed texts are documents of the grammar for the same value; C64 for each trace of the list; refuted for keys that are not UTF-8 |
| C136 | Go's query parsing (net/url), serveAggregate, the script's regular expression on addresses | the script updates one part of the query; induction over choices |
| C137, C138 | the slider's script (dashboard.html), serveDashboardData and its rows, for any Aggregator | the query of each position by the printing and reading of decimal numbers; rows through the JSON printer and grammar |
| C139 | the boxes of the list (traces.html) and the script of Toggle Selection | induction over sequences of clicks |
| C140 | `MarshalEvent` on the event types of the library (EventModel) | a table of keys and texts (LibEventSpec); the flattening of each type computed, headers by induction |
| C141 | `uploadTraces`, `collectTrace` of several requests as interleaved calls on a `MemoryStore` (UploadConcModel) | an invariant over histories: what has arrived and what is pending are k copies of the trace's calls; then the tree of the store from C04's proofs; refuted as stated by running all questions first |
| C142 | `UnmarshalEvent` on annotations as documented in `other-languages.md` (DocSpec) | the lookup of sorted keys; no key of an HTTP event as documented has the prefix the code reads, so the value stays zero |
| C143 | the single writes of `Collect` to the nodes of a trace, and a reader that follows the pointer returned by `Trace` between them (WalkModel) | an invariant over the sequence of heaps: nodes keep their spans and grow; under parents-first arrival no node is ever moved; refuted as stated by two schedules |
| C144 | `RoundTrip` and `Middleware` as in C58, C59, `UnmarshalEvents` on what they collect (ToldSpec) | the annotations are those of the stored form of C140 with an empty header as none; then C49's recovery |
| C145 | LimitStore with failing deletions (LimitModel) | two states that differ in the set of traces by the oldest one only stay so; refuted by a history |
| C146 | RecentStore with failing deletions (RecentFailModel) | actions done, failed and pending are those of the history; a trace is in one eviction only, by C25; then the store's tree |
| C147 | the demo application's handler and its link (DemoModel), with the Middleware of C58 and the chain of C115 | the body is that of the handler (C56), the link an address of C94; the shape from C115 and a case analysis |
| C148 | RecentStore with its users' Delete calls, which reach the embedded store only (RecentDelModel) | the own calls form an execution of C27; a young ID is in no eviction, so removing them leaves the live calls of the trace (C12) |
| C149, C150 | the mutexes taken and released, and the calls made and goroutines started meanwhile, by each method (LockModel); goroutines with sync.Mutex | mutexes are taken in the order of nesting, and no section of a ChunkedCollector contains a call; hence a goroutine that can go on always exists, by induction on the rank of the mutex waited for |
| C151 | renderTemplate's use of its http.ResponseWriter, the answers of the handlers (SniffModel), over PageModel; net/http's DetectContentType and when it is used | a JSON text has no binary bytes (induction on RFC 8259's grammar) and starts so that no signature but one fits |
| C152, C153 | the JSON of a profile, the cells of bootstrap-table (TableModel), over ProfModel; HTML's text states from HtmlSpec | C60 and the printer's correctness; induction on the name |
| C154 | the models of ChunkedCollector, RemoteCollector, CollectorServer and MemoryStore put together, with failures (FailSpec) | an invariant of ChunkedCollector that splits queue and packets into recordings; C41's invariant with short writes; the server reads whole packets only |
| C155 | the JSON of the aggregated items and the fallback in the page's script (ChartModel), over ProfModel and EscModel | C61, and the printer's correctness as for C133 |
| C156 | responseInfoRecorder around an arbitrary response writer (a record of its operations over any type of states), handlers as interaction trees (WrapModel) | induction on the handler; witnesses for hijacking and for clients that go away |
| C157 | runs of the serve command, each starting from the file that the one before left, with PersistEvery's machine of C21 over the moments of its store (RestartModel) | an invariant on every node of the heap (its annotations are whole recordings of its span, its children are of its trace), kept by Collect, Delete, Write and ReadFrom; induction on the runs |
| C158 | a RecentStore over a LimitStore over a MemoryStore, and the other order: Collect up to each Unlock, the calls made while a lock is held and the deleting goroutines are separate steps (StackModel) | both are a LimitStore with deletions by others at any moment; these commute with the LimitStore's own, so that C22's invariant and C23's window apply; the window's entry of a trace moves only when a new ID comes |
| C159 | OpenTracing programs as in C126, the Recorder of C71, its Collect calls interleaved with all others on a MemoryStore | every recorded span carries its own number and that of its reference (C126_parent), so the trace is complete in the sense of C11 with the order of starting as ranking |
| C160 | the example's router, handlers and configuration, its calls as in C115, a RecentStore of 20 s with its goroutines over a MemoryStore | the trace is not evicted while it is young (as C27), so what the store holds of it are its Collects in some order; then C115's argument and C94 for the address |
| C161 | a subrouter's templates, the user's router around it, Route.URL, StripPrefix of the static files | the table of C128 below the prefix; paths are the prefix followed by an address; C130 for the references; refuted for static files and for references from the root of the site |
| C162 | the processes, network, server and store of C154 | the history after a recording is searched for the first Flush or drop; a Flush that returned nil sent all it took (C37), each packet acknowledged by the RemoteCollector is whole in some connection's bytes (C43), the server collects it and the store shows it (C10, C12); conservation of recordings as a permutation when nothing is dropped; through a RecentStore, whose MemoryStore collects the same calls in some order and deletes no young trace (C25) |
| C163 | the services of C115 as the processes of C162 | each span is recorded once, so packets are the recordings (made_single); the store's calls are a permutation of what middleware and transports recorded, to which C115's proof applies |

The outcome of each (proved, or refuted with the strongest true part) and the names of the theorems are in `MANIFEST.json`.

## What is modelled, and what is not

Every definition cites the lines it models. This is the list by file of `/repo`.

* `id.go`, `span.go`: all. The AES block function is a parameter; `/dev/urandom` gives any bytes.
  `IdJsonModel` reads a non-ASCII character of a JSON string as the byte 255, which `ParseID` refuses in any case.
* `store.go`: MemoryStore with an explicit heap of nodes, persistence, `PersistEvery`, LimitStore, RecentStore. Not modelled: the
  encoding of gob itself (an abstract copy of both maps; nodes reached twice are duplicated as gob does), logging, and in `PersistEvery` the loss of
  unsynced data on power failure (the file is not fsynced; a crash is one of the process). RecentStore's clock does not reach the
  year 2262 (UnixNano wraps there). `AggregateStore` does not exist at this commit, and no type in the repository implements `Aggregator`.
* `multi.go`: all, over arbitrary stores.
* The mutexes of stores, collectors and `renderTemplate` are in `LockModel`, which leaves out what calls compute; all other models take a call, or a critical section, as one step.
* Lists of annotations are values in all models but `AliasModel`, where they are slices; C112 says when this makes no difference.
* `collector.go`: ChunkedCollector as a machine with one step per critical section and per call of the underlying collector; RemoteCollector
  with dial and write outcomes as an oracle; CollectorServer with any number of connections, their bytes arriving in any pieces; many processes with failing connections in front of one server (C154). Not modelled: TLS, timers' real durations (a tick
  may come at any time), debug and trace output.
* `internal/wire`: the generated codec at byte level, including groups, unknown fields and required-field checks. The protobuf library's version decides some errors; it is a parameter.
* `reflect.go`, `event.go`: a universe of Go types (bools, integers, strings, byte slices, times, structs, pointers, slices, maps). Floats, `time.Duration` (`NumModel`) and pointers to durations and times, which are
  written with their `String` methods, are in it. `FormatFloat` writes the fewest digits such that the nearest decimal is read as the number (Go's may be shorter for powers of two; `C111_any_text_partial` does not depend on this). Not modelled: complex numbers, exponents and hexadecimal numbers in `ParseFloat`, interfaces, other types with a `String` method, structs with two fields of one name. Map and struct iteration order is arbitrary
  (any permutation of what is marshaled). Times: RFC 3339 with whole-minute offsets.
* `recorder.go`: all, used by one goroutine; with many goroutines as reads and writes of whole fields (C121, C122).
* `trace.go`: all. `time.Time{}` is compared by representation, as `IsZero` does on values without a location.
* `httptrace`: headers, redaction, the middleware (around any response writer with optional interfaces, C156), the transport, and services that call each other through both. Not modelled: 1xx codes, `EqualFold` outside ASCII; hijacking and `CloseNotifier` beyond C156.
  `WriteHeader` panics for codes that are not three digits; `http.Error` is that of Go up to 1.22. Header maps are shared by address where the code shares them.
* `sqltrace`: the event's schema, its fields and its times (through the event model).
* `opentracing`: the recorder, sampling and baggage (of the basictracer library: `StartSpan`, `SetBaggageItem`, `Finish`, after its documentation), the emitted log fields and `json.Marshal` of them. Tag formatting and the texts of floats and of object fields are parameters; `Time.Add` is a relation.
  Not modelled: the rest of the basictracer library.
* `python/appdash`: span IDs, events, packets, the socket and Twisted collectors, the OpenTracing recorder. Text is byte strings; texts of times are parameters;
  protobuf's refusal of keys that are not UTF-8 is not modelled, nor which of the clashing keys "Headers" and "Headers.Headers" comes last.
* `traceapp`: router (gorilla/mux as first match on clean paths; a base router with a path prefix and other routes in C161), page handlers, authentication, profile, aggregation, timeline,
  uploads (also several at once), reading a trace while it grows (write by write; each read sees a value that was written), permalinks, JSON exports, the tables of the trace page, the dashboard's query and rows, the references of the pages, the scripts for the selection and export of traces, for the timeline's context menu and sort buttons, for the view mode, for toggling the selection and for the dashboard's slider, the types of responses (`DetectContentType` as of Go 1.12), the data of the aggregated chart, and the cells of the tables (bootstrap-table 1.6.0, loaded by the page: values are put between tags). Not modelled: the layout of the HTML templates, other scripts, static files.
  `encoding/json`: no nesting limit, ASCII case folding of member names, the last of repeated members wins. gzip is any compression that can be read back without its last two bytes.
* `cmd/appdash`: serve's store, address and authentication, send and its sample data. Random draws are functions. The demo application's handler and its link. Not modelled: flags, listeners, TLS, `url.Parse` of `--url`.
* `examples/cmd/webapp`: the router, the handlers and the store (C160). Not modelled: its listeners, negroni's own middleware, `examples/cmd/webapp-opentracing`.
* `memstats.go`, `traceapp/tmpl` apart from the tables, references, escapes and scripts named above: not modelled.

## Assumptions

`Print Assumptions` under each property theorem prints "Closed under the global context", with these exceptions: `C60_rounding`, the `C110_…_partial` theorems, `C48_numbers` and the `C111_…` theorems speak of real numbers (through Flocq)
and depend on the standard library's axioms

* `ClassicalDedekindReals.sig_not_dec`, `ClassicalDedekindReals.sig_forall_dec`
* `FunctionalExtensionality.functional_extensionality_dep`
* `Classical_Prop.classic`

`coqchk` lists in addition, for the whole library, opaque or parameter-like items of modules of the standard library that no theorem of ours depends on:
`Coq.ssr.ssrunder.Under_rel.*` (seven items, from loading ssreflect) and `Coq.Reals.Rdefinitions.RbaseSymbolsImpl.*` (from loading the reals).

The development adds no axioms, no functors, no module types, and switches off no check.
