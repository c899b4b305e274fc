# Formal model of flachnetz/dd-zipkin-proxy in Rocq (Coq 8.16.1)

## Layout

* `rocq/theories/*.v`, logical name `Verif`.
  * `Base.v` — machine integers (`int64`, `uint64`, `uint16` wrap-around), byte strings.
  * `XxxModel.v` — executable Gallina transcription of the Go code; each definition cites file and lines.
  * `XxxSpec.v` — small, independent vocabulary used to state the properties (no proofs, no model helpers
    where avoidable).
  * `XxxProofs.v` — lemmas.
  * `PropXxx.v` — only the property theorems, each with `Print Assumptions` and a non-vacuity `Example`.
* `seeded/LOG.jsonl` — seeded-bug experiments (edit of the model in a scratch copy, which theorems break).
  `theorems_failed` lists the property theorems that depend on a lemma whose proof script no longer passes after
  the edit. That is a statement about proofs: a theorem can be listed because a shared lemma is stated about the
  edited definition, while its own claim is still true. `theorems_surviving` (newer entries) lists the re-checked
  property theorems that still prove; these are definite. `examples_failed` lists concrete runs that now differ.
* `MANIFEST.json` — property → theorem names.

## Modelling conventions

* Go `byte` is `Z` (theorems hold for all `Z` lists unless `Forall byte_ok` is stated); Go `string` and `[]byte`
  are `list Z`. `int64`/`uint64`/`uint16` are `Z` with explicit `wrap64`/`u64`/`u16` at each operation that can
  leave the range. Go `/` is `Z.quot`.
* `map[K]V` is std++ `gmap`; a nil map equals an empty map (Go only distinguishes them on write, and the code
  allocates before writing). `range` over a map is a fold over an explicit list, quantified over all
  permutations of the map's entries.
* Errors are values. A loop whose termination is not structural takes fuel and returns an explicit
  out-of-fuel outcome; theorems either show that outcome is never produced, or (hang findings) that it is produced for every fuel.
* Time is `Z` nanoseconds supplied by the environment at every `time.Now()` call.
* Memory aliasing is modelled where a property is about it: LRU list cells (heap of pointers), parse buffer
  (array with head/tail and in-place unescaping), Kafka encoder slab, pooled v1 decode slots, intern cache vs.
  pooled buffers, in-place filtering of the forwarded slice, Datadog span slab, tag maps of buffered and sent spans
  (`TagHeapModel`; elsewhere tags are values, which C74_same justifies).
* Goroutines and channels are a transition system over explicit steps, quantified over all schedules.

## Trusted base

Coq's kernel (and `vm_compute` in examples/refutations); the faithfulness of the transcription, which is checked
by reading only (the code cannot be run here); assumptions about libraries listed below.
`Print Assumptions` is under every property theorem; result summary is in the last section.

Library behaviour assumed (modelled, not verified): Go `sort.Search` is modelled by its source; `sort.Slice` = any
permutation sorted by the comparator; `sync.Mutex` = atomic section; `sync.Pool` = hands out a fresh object or any
returned one, exclusively; `reflect2.UnsafeGrow` = extend within capacity keeping old contents or copy to zeroed
larger memory; `utf8.EncodeRune` by its specification; `bytes.Buffer` growth = stays in place while capacity
suffices, else moves to fresh memory; `io.Reader` = any script of reads; `strings.EqualFold` against the two
ASCII words used; `hex.Encode`.

Not modelled: metrics values (except where a property names them), logging, command line parsing, Kafka broker and
sarama internals, HTTP server and router, gzip, memory consumption, the size of Go's stack frames (the depth of calls: C98), wall-clock performance, the memory model below data-race freedom (C92).

## Plan per property

| Id | Model | Proof |
|----|-------|-------|
| C01 C02 | `IdModel`: String/ParseId/Marshal/Unmarshal with shifts, masks, wrap | digit induction against base-16 value; bit lemmas |
| C55 | `SpanModel`: Microseconds/ToMicros/ToMillis | lia |
| C03–C07 C56 | `BinaryModel`: varint, zig-zag, strings, map blocks, span | round-trip lemma with continuation, locality lemma, fuel bound |
| C08 C09 | `EncoderModel`: array memory, slab cursor, `bytes.Buffer` growth | invariant "live messages lie below the slab cursor or in private arrays" |
| C10 C11 | `ReceiverModel`: loop over messages | induction + C03 |
| C12–C16 | `LruModel`: pointer heap; the same file: lookups split in atomic halves, buffers as references | refinement to recency list; invariants; divergence for limit <= 0 |
| C17–C20 | `JsonModel`: buffer array/head/tail/eof/reader script, primitives as an interaction tree run by `exec`; `JsonPure`: same programs over a byte list | simulation of primitives, relational lifting to decoders; panic outcome excluded; hang: out-of-fuel for all fuel |
| C21 | `JsonSpec`: RFC 8259 escapes | equivalence on safe escapes; refutations for the others |
| C22–C24 C26 | `CodecModel`: decoders of json-v1.go/json-v2.go/bind.go; `JsonSpec`: RFC 8259 grammar as relation; `DocSpec`: what documents mean | induction on the grammar derivation; decoders against declarative member lookup |
| C25 | `CodecModel`, `ParseSpec`: pooled slots with length/capacity | invariant "memory beyond length is zero" without duplicate members; refutation with duplicates |
| C27 | `JaegerModel` | list induction against declarative spec |
| C28–C30 | `TreeModel`: sorted slice, `sort.Search` transcription, merge | sortedness invariant; map algebra |
| C31–C34 | `TreeModel.correct`: recursion on indices with fuel | depth bound through unique ancestor path; declarative path relation |
| C35 | `TreeModel.find_roots`: Roots, createFakeRoot | direct |
| C36–C45 | `FinishModel`: state machine (span / tick / close) with clock and oracle orders | invariants by induction over event lists; refutations |
| C46–C48 | `ForwardModel`, `RingModel` | loop invariants; rotation lemma; refutation |
| C49–C51, C75 | `DatadogModel`: conversion, grouping, slab, flush | invariants; refutation |
| C76 | `JsonSpec.loose`: everything the parser takes for a value; `LooseSpec.document` | inversion of the decoders, loop by loop (`LooseProofs`), with C22–C24 for the other direction |
| C18 C21 C44 C48 C51, sharper | `ExactSpec`: nothing but the number of steps | `ExactProofs`: what is true of the properties that do not hold as stated, as equivalences where possible |
| C77 | `ConnectSpec`: spans that descend from themselves; C36, C46 | going up `length spans` steps meets a root or a repetition; the path from the root is unique; two runs as counterexamples |
| C78 | `GaugeModel`: counters and gauges around the cache of `LruModel`, every atomic operation a step | sums over the goroutines that still have to count or to report; the two counters as a function of the record; C14 for size and count |
| C79 | `ReadModel`: `ReadArray` and `ReadObject` over the parser of `JsonModel`, with consumers as functions | the simulation of C17 for each call of the parser; induction over loose texts one way, over the loop the other |
| C80 C81 | `CountModel`: the calls to the metrics library beside `HandlerModel` and `EncoderModel`; requests interleaved | the effects of each request are a prefix of its list; sums over requests; C08 for the bytes of each message |
| C52 | `HandlerModel` | case analysis on parser result, using the JSON model |
| C53 C54 | `PipelineModel`: channels with capacities, goroutine-local states | invariant and measure over transition system |
| C57 C58 C59 C60 C61 | `SystemModel`: handlers, corrector and pipeline composed | invariant that projects to runs of the component models; their theorems are reused |
| C62 | `MetricsModel`: the calls to the metrics library beside `FinishModel` | counted against the record by induction over the run; the wrong meter refuted by 13 traces of 8192 spans |
| C63 | `DebugModel`: `debugPrintTrace` as a list of lines | equation for the loop over the children, then induction on the levels left; paths of C31 |
| C64 | `ReplaySpec`: a reading of a log with returns; `TreeModel` | every attribute of a span is kept, put or filled by an update; invariant of such updates along a reading with returns; late redelivery refuted by a run |
| C65 | `ConsumeModel`: transition system of the consumer loop, its claims and its closers | invariant (channel closed iff loop done), measure of the steps left after cancel |
| C66 C67 C68 | `ClusterModel`: proxies, producers, partitions with logs, sessions, commits, crashes, as one transition system with a record | invariants (messages decode to accepted spans, handled offsets, commit below the reading position), accounting by arbitrary weights of spans; the gap before the first commit refuted by a run |
| C69 | `ClusterModel`: capacities of all channels and the producer's unread errors | a schedule that fills the channels and an invariant of all continuations, with a version 2 request whose span is too large (through C23, C73); draining by induction for messages that fit |
| C70 | `ClusterModel` and `FinishModel` side by side, tied by the list of spans that a corrector was fed | C67/C68 for what it was fed, C36/C64 for what it emitted |
| C71 C72 | `FinishModel`, `WholeSpec`: clocks that do not go back, arrival without long breaks | first exit of the trace in the record, then C37/C38; the stall refuted by a run of `SystemModel` with main.go's capacities |
| C73 | `HandlerModel`, `BinaryModel`, pool histories with buffers of 8192 bytes | every operation of the parser keeps the buffer's length and returns tokens that fit it; decoders keep the bound; then C03 |
| C74 | `TagHeapModel`: correct.go with tag maps on a heap | every map belongs to at most one span, buffered or sent; each step writes only maps of the trace it works on and new ones; simulation of `FinishModel` |
| C83 | `TimeModel`: the parts of package time behind `Timestamp.MarshalJSON`/`UnmarshalJSON` | date of a day number = the calendar generated by `next_day` (400-year arithmetic, months of a year by computation); parser after printer; `TimeLooseSpec`: what the parser accepts, inverted step by step |
| C84 | `SpanJsonModel`: `json.Marshal`/`Unmarshal` for the types of span.go | text of each part is in the grammar of C82, its meaning; the decoder of C82 on that tree; insertion sort of the tags |
| C85 | `LiteralModel`: `ReadNull`, `ReadBoolean`, `Type.String`, `wrongTypeError` | the list parser of C17 on texts of literals and inverted; names by computation |
| C86-C88 | `LookModel`: small methods without effects | induction over the spans; invariant of C14; arithmetic |
| C89 | `HangSpec`: whole tokens, overlong tokens, a token that is in order; acceptance through the parsers themselves | one way, two bodies with the same beginning are read alike up to the token (`HangProofs`); the other way, every place where the parser is caught can be completed to an accepted body (`HangBack`) |
| C90 | `SizeSpec`: sizes of tags and spans, texts left in the pool | every parser call gains at least the bytes of its token; weights of programs are composed (`SizeProofs`) |
| C91 | `AllocModel`: the decoder of C03 with a record of the buffers it requests | the record does not change the decoder; a property of readers that composes (`AllocProofs`) |
| C92 | `RaceSpec`: happens-before of a log of actions; `RaceModel`: all goroutines with the references they hold, channels, locks, pools | every place has one user, or is finished and everyone who refers to it knows all writes (`RaceProofs`: generic; `RaceTheorems`, `RaceSteps`, `RaceAll`: each of 43 kinds of steps) |
| C93 | `RacePoolSpec`: after a Put, only those touch the object who got it since | `RacePool`: an object in a pool is in nobody's hand; with the invariant of C92 |
| C94 | `ContentSpec`: a span is told by a list of spans | by induction over the additions (C28-C30), with C60 for the whole program and the origin of received spans (C66) for the cluster |
| C95 | `AccountSpec`: spans received, traces begun; the meters of C62 | for any measure of the waiting spans: what comes is what goes and what stays, by induction over the record; then C62 |
| C96 | `OrderSpec`: halves of a request, the same reports in another order, spans reported once | per id: one report, or both halves with the times of the first; pointwise `same_but_time` of the two traces; corrected times do not use what differs; the injected root's interval is a function of the candidates |
| C97 | `SliceModel`: arrays, slices, pointers; `SliceSpec`: arrays that were sent, writes of others | frame: a step of one trace leaves all other arrays alone and stays in its own or a new one; each function simulates the one on lists; induction over runs |
| C98 | `StackModel`: `skip` and the decoders with a bound on the number of open calls, overflow as a value; `StackSpec`: opening brackets, height of a value | simulation by a pure parser with the same bound; induction on its depth (count of brackets in the rest), on texts (height), on the bound (only brackets) |
| C99 | `MaskSpec`: masks on spans, traces and records; events that look the same; nothing new is modelled | every function of the corrector commutes with every honest mask; states of the two runs are equal behind it |
| C100 | `FormatSpec`: reports, how each format writes them, the span that is reported; nothing new is modelled | members found by name in any permutation; composition with C52 and C82 (requests) and C99 (corrector); witnesses computed |
| C101 | `DecideSpec`: the decision as a function of what was received; nothing new is modelled | from the step lemma of C36-C45, at most one outcome per check because an outcome empties the trace; uniqueness of emissions from the dichotomy of C77 |
| C102 | `WorkModel`: search, AddSpan, correctTreeTimings and finishing with counters; not counted are map operations, allocation and the merge of two spans | the counting versions agree with the model; halving argument for the search; moves by induction on the arrivals; depth by induction on the fuel (ids and parents do not change) |
| C103 | the model of C34 ff.; `IsolateSpec`: the events and entries that concern a trace; the load is erased from the entries | by C101 a check decides by the waiting spans of the trace, the times and the patience; induction on both runs together; the system by its record (`system_record`) |
| C104 | the model of C17 ff., `EndErr true` | every function of the parser gives the same on the lazy reader or fails (`tame`); when it fails early, what is left fits the buffer (`fails`), so the list parser is not caught there; more fuel changes nothing (`exec_mono`) |
| C105 | `TextModel`; spec `TextSpec` (places and causes) | forgetting texts is a homomorphism (`erase`); functions on the list of bytes with the text of the end as parameter (`TextPure`, `TextSim`); every decoder's texts by induction on programs (`errs`), texts of the end are suffixes (`plain`), other verdicts survive more bytes (`exec_grows`); readers that fail with their last bytes as in C104 (`TextEager`) |
| C106 | `CostModel` | a potential (`pot`: twice the reads left, eight times the bytes not consumed) pays for every method (`pays`), and every look at the next token is followed by a method that consumes something (`paid`) |
| C107 | `HeaderModel`; spec `HeaderSpec` (names without regard to case, fields as sent) | canonical names are equal iff names are equal without regard to case (`canonical_same`); forgetting fields gives `TextModel` (`serve_plain`) |
| C108 | `SwapSpec`: values that are alike, lists in another order; nothing new is modelled | the readers of `DocSpec` and `StdJsonSpec` respect the relations; composition with C52 and C82; witnesses computed |
| C109 | `ShiftSpec`: moved spans, traces, records and rounds; nothing new is modelled | every function of the corrector commutes with moving, as in C99; correction by way of C32 (paths are shorter than the trace, so that offsets are bounded) |
| C110 | `RenameSpec`: spans, traces, records and rounds under other names; nothing new is modelled | traces are related up to the order of their spans; the emission of C36 is carried over by the renaming and its inverse and is unique (C101) |
| C111 | `LayerSpec`: lists laid over each other; nothing new is modelled | a slot holds what the members read into it so far mean, whatever the capacity; the rest of the memory is blank (C25) |
| C112 | `SaidSpec`: binary annotations with key, value and service; nothing new is modelled | slices over two memories agree in the slots touched so far; the second memory is blank (C111) |
| C113 | `PileSpec`: lists on top of each other; nothing new is modelled | errors do not depend on what is below; each slot of a slice is the result of the joined members |
| C114 | `AskedSpec`: shapes of documents, agreement in a shape; nothing new is modelled | the meanings of C23, C111 and C113 respect agreement level by level |
| C115 | `UnseenSpec`: what is reported about a trace in an execution of `SystemModel`; nothing new is modelled | C57 gives the record of the corrector, C71 that the trace leaves whole, C96 that the order does not show |
| C116 | `ClockSpec`: two clocks for every span, one per host; nothing new is modelled | merging keeps the relation; along a path the offsets take up exactly the differences of the clocks |
| C117 | `HostsSpec`: C115 and C116 together, for executions of the whole program; nothing new is modelled | a trace in between, told by the other clocks in the first order, need not occur in any execution: both steps are taken on merged reports |
| C118 | `ShapeSpec`: spans of which only the ids are left; nothing new is modelled | every function of the corrector commutes with taking the shape; for other runs, shapes of the merged reports |
| C119 | `AliasSpec`: converters that take identifiers for names; nothing new is modelled | merged reports are renamed; renamed emissions (C110) and their uniqueness; one record per trace (C115) |
| C120 | `EpochSpec`: converters that do not look at the time; nothing new is modelled | merged reports are moved; the functions of the corrector on moved traces (C109); uniqueness of emissions; one record per trace (C115) |
| C121 | `LossSpec`: reports that do not arrive, closed downwards; nothing new is modelled | merged reports without the lost ones; the corrected spans depend only on their ancestors; uniqueness of emissions; one record per trace (C115) |
| C122 | `AgreeSpec`: agreeing clocks, spans whose start and duration are as the client says; nothing new is modelled | times of merged reports come from reports (C94), so every offset is 0; the start at the end of a path without offsets; one record per trace (C115) |
| C123 | `LateSpec`: a span by itself, the span put above siblings; nothing new is modelled | merged reports of spans that were reported alone are the reports; what can be emitted (C101); the record of a run (C36) |

## The repository's own tests

`Conformance.v` runs the tests of the repository on the models (same inputs, expected values as in the test files; random
choices replaced by all or some of the choices, the two cache tests with smaller numbers). All come out as expected but
one: `TestCorrectTimings` uses times shortly after 1970, where the rule for timestamps before 2020 (correct.go:476-483)
replaces the server's start by its parent's; the test expects the value without this rule. With times after 2020 the
expected values come out (`TestCorrectTimings_2020`, `TestCorrectTimings_fails`).

## JSON: what is and is not covered

* `JsonModel` transcribes `codec/hyperjson/parser.go`, `parser_skip.go`, `string.go`; `CodecModel` transcribes
  `bind.go`, `json.go`, `json-v1.go`, `json-v2.go`. A decoder is a program (`prog`) over parser operations; `exec` runs
  it on the buffered parser, outcome `XDone`, `XPanic` (index out of range) or `XHang` (fuel exhausted in a loop).
* `JsonSpec.text m v l`: `l` is an RFC 8259 text of the value `v`; simplifications of the grammar: string and number
  tokens shorter than `m`, strings only with escapes that the program decodes as JSON says (`simple_string`), numbers
  without `E`, `+` (which the program does not accept). Other texts are accepted by the program as well (commas and
  colons count as white space, literals are not compared); the theorems C17–C20 and C25 hold for any bytes, C22–C24
  only speak of texts in the grammar.
* `JsonSpec.loose m v l`: everything the program takes for a value. A word that only begins like `null`, `true` or
  `false` is the value `JWord`, which JSON does not have; `DocSpec` says where it is accepted (as an id, or as the value
  of a binary annotation). C76 shows that the parsers accept these texts and no others.
* `ReadModel` transcribes `parser_array.go` and `parser_object.go` (exported, not used by the program); what their consumers do is arbitrary.
* `LiteralModel`: the methods for single literals and the names of the types.
* `TextModel`: parser, decoders and handlers once more, with errors represented by what their method `Error` returns. The
  texts of the errors of libraries (the reader of the body, `gzip.NewReader`, `encoding/json`) are the record `lib_texts`,
  any bytes. `WithMessage` of github.com/pkg/errors, `%c`, `%s`, `%v` of a type and `http.Error` are transcribed from their
  documentation. Forgetting the texts gives the other model (C105_answer), so the two cannot drift apart.
* `CostModel`: the parser once more, counting bytes looked at, moved, delivered and handed to decoders, and calls of `Read`.
  Not counted: growing slices and maps, clearing pooled memory, texts of errors. Leaving out the counts gives the other model
  (C106_same).
* `HeaderModel`: `handlers.go` with the fields of requests and answers. From net/http and net/textproto: canonical names,
  `Get`, `Set`, `Del`, `Error` (Go 1.15), as documented; requests with names that are not tokens do not reach the handlers. From
  httprouter only that the three routes match POST and their path; `other` is what happens to other requests.
* `sync.Pool` of v1 slots: `ParseSpec.pooled` is any entry that some history of requests can have put back.
* Interning of strings during decoding returns an equal string (C12, C13), so the decoders return byte lists.

## Jaeger: what is and is not covered

* `JaegerModel` transcribes the conversion in `codec/jaeger.go` from a decoded object (spans with references, tags,
  processes) to spans. Decoding the JSON text into that object is done by `encoding/json`: what it makes of a body is the
  function `n_jaeger` of the handler's environment. Where it matters that the decoded numbers are values of their Go
  types, `AcceptSpec.jaeger_ok` says so.
* `StdJsonModel.jaeger_body` is a model of that function (C82), from the rules of Go 1.15 (`scanner.go`, `stream.go`,
  `decode.go`; the version is not pinned by /repo, go.mod asks for the language of that time). The library's source is not in
  /repo, so this part is trusted to describe the library; it is compared with RFC 8259 (`StdJsonSpec`) by the proofs.
  The rules: a value is complete when its last bracket is read, or for other values when a byte or the end follows; 10000
  levels of nesting; bytes that are not UTF-8 and unpaired surrogates become U+FFFD; names of fields are compared without
  case (with the two special letters); a slice is decoded over the memory it has, a map is added to, `null` leaves strings
  and numbers unchanged; `UnmarshalJSON` of `proxy.Id` gets the text of the value, also `null`; numbers in tags have to fit
  float64, and of an exponent no digits are taken after it has reached 10000; any error rejects the body.
* Theorems other than C82 hold for every function `n_jaeger`.

## Timestamps as JSON: what is and is not covered

* `TimeModel` transcribes `Timestamp.MarshalJSON` and `UnmarshalJSON` together with what they call in package time, after the
  rules of Go 1.15: the split of nanoseconds into seconds, the date of a number of seconds, the layout RFC3339Nano, parsing
  by RFC3339 (an hour of one digit and fractions of any length are accepted, as there), ranges of the fields, `UnixNano` with
  wrap-around. The zone is any function from seconds to an offset (`time.Local` is one). The error of `MarshalJSON` for years
  beyond 9999 cannot occur, since timestamps end in 2262; so the model of marshalling is total.
* Not modelled: texts whose offset names a zone by letters (RFC3339 has none), leap seconds (refused by both).

## Spans as JSON: what is and is not covered

* `SpanJsonModel` describes what `encoding/json` of Go 1.15 writes for `proxy.Span` (order and names of fields, `omitempty`,
  escapes with HTML escaping, sorted map keys, methods with pointer receivers only for addressable values) and reads (with
  the decoder of C82). The library is not in /repo; strconv is described by what it prints. The admin library that serves
  /spans is not in /repo either: that it calls `json.Marshal` on the slice of `ToSlice` is assumed, indentation is left out.

## Traces: what is and is not covered

* `TreeModel` transcribes `correct.go` for one trace: the sorted slice with `sort.Search`, `AddSpan`, merging, roots,
  fake roots, timing correction. Pointers into the slice are indices; the recursion of `correctTreeTimings` works on a
  memory of spans, so that the parent's corrected start is what the recursion wrote before. The list of visited indices
  is a ghost result.
* `DebugModel`: `debugPrintTrace`; a line stands for the values in it, the format strings are not modelled. Other log
  messages are left out.
* Iteration over tag maps is a function `ord` with `map_order ord`; it may be any order, different for different maps.
  (Go may choose another order for the same map each time; `add_tags_order` shows that the result does not depend on it.)
* `TagHeapModel` repeats the same functions with tag maps on a heap; that a decoded span comes with a map of its own is read
  off the decoders (each makes one per span) and not proved.
* `SliceModel` repeats the functions of `TreeModel` and `FinishModel` with spans in arrays: slices with capacity, growth in
  place or into a new array (how much larger is arbitrary), `copy`, pointers to elements, and run-time panics for indices
  and pointers out of range. C97 proves that the list models are faithful to it. All slices of the corrector start at the
  start of their array; arrays are never freed. Receivers of traces may write into arrays that they
  have got, between events and between the traces of one tick; the handling of one trace or span is atomic there.

## Finishing traces: what is and is not covered

* `FinishModel` transcribes `ErrorCorrectSpans`, `finishTraces`, `discardSuspiciousTraces` as a state machine over events
  (span received, tick, input closed). A `run` yields the last state (`None` after close) and a record of what happened;
  only received spans and emitted traces are visible outside, the rest of the record is ghost.
* A tick carries what the run-time system decides: two clock readings, clock readings for injected roots, iteration orders
  of the maps, of the blacklist, and the result of the unstable sort; `valid_tick` says what these may be. Clocks are not
  assumed to be monotonic.
* `FinishSpec` defines from the record alone (not from the state) what waits: `pending log t` are the additions to trace
  `t` since it last left, `blacklisted log t`, `merged_spans`, `counted` (16-bit count), `started`, `touched`.
* The blocking send to the output channel is not part of this machine (see the pipeline).
* `node_count` is a uint16 (`correct.go`), so limits hold for counters, not for spans (C41, C43 refuted with a trace of
  65537 spans, guarded versions below 65536).
* C71, C72 assume a clock that does not go back (`steady`): Go's `time.Now` carries a monotonic reading, which `After`,
  `Before`, `Sub` use. C71 speaks of the corrector alone; its last clause (`TooOld`) is the case in which no check came
  in time. C72 is what one would like to say of the whole program; it fails because the check shares its goroutine with the
  blocking send to the pipeline.
* Logs are left out. `MetricsModel` gives for each event the calls to the metrics library that the same code makes (the
  states are those of `FinishModel`); the library itself (meters, decaying histograms) is external. The gauges take
  `int64` values; no value gets near that limit.

## Forwarding, ring, Datadog sink, handlers: what is and is not covered

* `ForwardModel`: `forwardSpansToChannels`/`processSpan` on an explicit heap of arrays; slices start at the start of their
  array (true of every slice that reaches the function). A converter is any function with a state of its own; it may fail.
  Sends are part of the pipeline model.
* `RingModel`: `SpansBuffer`; the mutex is taken as given (each `ReadFrom` iteration and each `ToSlice` is atomic).
* `DatadogModel`: `Sink`, `submitTraces`, on a flat memory of Datadog spans with slabs of 4096 spans. The transport is
  external: what is handed to it is recorded. `DD_LOG_TRACES` printing and metrics are left out. Of `tracer.Span` exactly
  the fields that the code sets are modelled. Calls to `time.Now` are inputs.
* `HandlerModel`: `handleSpans` and the routes of `handlers.go`. gzip, `encoding/json` (modelled apart, see C82), thrift decoding are oracles:
  a request comes with what they return. Router and logs are left out; metrics are in `CountModel` (durations of timers are not).

## Kafka: what is and is not covered

* `EncoderModel`: message construction in pooled memory, `Send`, `ConsumeClaim` as a function of the messages.
* `ConsumeModel`: `Consume` and the function it returns (receiver.go:17-45). Sarama's `Consume` is represented by its
  contract: claim goroutines run only while it runs, and it returns after all of them. `Setup` and `Cleanup` only log.
  The context is a flag; a `select` with a ready case takes it rather than `default`.
* Redelivery (C64) is a property of `TreeModel`: what Kafka does is only described by `ReplaySpec.delivered`.
* `ClusterModel`: any number of processes with `main.go`'s channels (HTTP input, producer input, producer errors,
  Kafka input), the goroutine of `Send`, and the claims of `ConsumeClaim`. Sarama and Kafka are represented by their
  documented behaviour (head of the file); they are not verified. Messages are values here: that `Send` hands the
  producer memory that stays unchanged is C08. The HTTP handlers are represented by their effect (a span is put), the
  corrector by its receive; how they behave otherwise is the subject of the other models. The partitioner is any
  function of the key. Logs only grow (no retention), offsets start at 0. A crash loses what is in the process; a
  record keeps what was lost. Sarama commits only marked offsets, at any time.
* The producer's size limit counts key, value and 36 bytes of overhead, as sarama does.

## Pipeline: what is and is not covered

* `PipelineModel`: the forwarder goroutine and any number of targets with bounded channels, as a transition system whose
  atomic steps are one channel operation or the access to one array element, on a shared heap. A trace put in owns its
  array (proved of the corrector in C97). Targets are
  represented by the loop that they have in common (receive a slice, read its elements in order).
* Memory model: steps are sequentially consistent. The Go memory model grants this to programs without data races, and
  C92 proves that there are none (of a separate model of references and synchronisation, see below).
* Converters are arbitrary, but given as a function on span values: that a converter does not keep references is assumed.

## Data races: what is and is not covered

* `RaceModel` follows references, not data: a step reads or writes a place only if the goroutine has a reference to it in a
  variable, a table or its control state. Whether it is allowed to is not asked, so a wrong order (sending before the last
  write, keeping what was handed on, putting back what is still in use) gives logs with races. Decisions by data are free.
* Memory that never leaves its goroutine is left out, as are `go` statements (everything that a goroutine starts with is
  written before), the closing of channels, contexts, atomics, the metrics library and logging.
* References to finished memory (strings, messages, converted traces, batches) are over-approximated: whatever a goroutine
  sends, stores or puts back may refer to everything finished that it has ever seen.
* A receive from a full channel also happens before a later send; leaving this edge out makes the theorem stronger.
* Converters and the Datadog client get the accesses that the code around them allows: a converter may change its span and
  make maps, but keeps no reference; the client reads what it is given.

## Whole program: what is and is not covered

* `SystemModel` composes the handlers (`HandlerModel`), the corrector (`FinishModel`) and the pipeline (`PipelineModel`)
  with the input channel of `main.go` (capacity 256). Handlers run concurrently, one action (put one span, write the
  status) per step; the parse itself is a function of the request, so it is done in one step when the request appears.
* A tick runs `finishTraces` in one step, which fixes the outcomes; the emitted traces are then sent one by one, each
  blocking while the channel is full, and the corrector neither receives nor ticks before they are all sent. In the code
  the sends are interleaved with the computation of the later outcomes; nothing that computation reads can be changed
  meanwhile (the corrector owns all of it) but the clock, which is an input of the tick.
* Ticks, requests and clock readings are inputs. Nothing is assumed of the order of clock readings.
* Kafka modes, graceful shutdown and the Go scheduler's fairness are not part of this model: C58 says that steps exist and
  that there are finitely many, so any scheduler that does not stop while a goroutine can run reaches the end.

Properties marked "expected to fail" in `properties.jsonl` get a `_refuted` theorem with a witness and a guarded
positive theorem.

## What `Print Assumptions` lists

For each of the 423 theorems in the `PropXxx.v` files (all theorems named in `MANIFEST.json`, and no others are there) it
prints "Closed under the global context": no axiom is used, neither of the standard library nor of another one. This was
collected from one run over all but the last (`C123_targets`, whose own command says the same), besides the commands that the files contain themselves.
