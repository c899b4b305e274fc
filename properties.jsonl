{"id": "C01", "title": "Id text round-trip", "statement": "Printing any 64-bit id and parsing the printed text back returns the same id without error; the text is always exactly 16 lower-case hex digits. The JSON form (quoted) round-trips in the same way.", "quantifier": "every int64 id, including negative ones", "why_tests_cant": "2^64 ids; sign handling and shift/mask errors hit only particular bit patterns.", "anchors": ["proxy/id.go:Id.String", "proxy/id.go:ParseId", "proxy/id.go:Id.MarshalJSON", "proxy/id.go:Id.UnmarshalJSON"]}
{"id": "C02", "title": "Id parsing accepts exactly short hex text and returns its big-endian value", "statement": "ParseId succeeds iff its input has at most 16 bytes, all of them hex digits of either case; the result is the big-endian base-16 value reinterpreted as a signed 64-bit integer, so two accepted texts give the same id iff they denote the same number. Every longer text (for instance a 128-bit trace id) is rejected.", "quantifier": "every byte string", "why_tests_cant": "All byte strings of all lengths; acceptance must be exact in both directions.", "anchors": ["proxy/id.go:ParseId"]}
{"id": "C03", "title": "Binary codec round-trip", "statement": "Encoding any span with the binary codec succeeds, and decoding the produced bytes gives back the span with every field equal (ids, names, timestamp, duration, all four timings, all tags), whatever order the tag map is iterated in and whatever bytes follow the message, which are left unread.", "quantifier": "every span with int64 fields and strings shorter than 2^31 bytes, every iteration order of its tags, every trailing byte sequence", "why_tests_cant": "Unbounded tag maps, strings and 64-bit values; map order is random at run time.", "anchors": ["codec/binary.go:BinaryEncode", "codec/binary.go:BinaryDecode"]}
{"id": "C04", "title": "Truncated binary messages never decode", "statement": "Decoding any strict prefix of an encoded span returns an error, never a span.", "quantifier": "every span, every iteration order, every cut position", "why_tests_cant": "Every cut point of every message.", "anchors": ["codec/binary.go:BinaryDecode", "codec/binary.go:readLong", "codec/binary.go:readString", "codec/binary.go:readMapString"]}
{"id": "C05", "title": "Binary decoding terminates on every input and is local", "statement": "On every byte sequence the decoder returns after finitely many steps with a span or an error. If it returns a span it has consumed a prefix of the input, and appending any further bytes to the input changes neither the span nor the number of bytes consumed.", "quantifier": "every byte sequence (hostile block counts, negative and minimum lengths, unterminated varints included)", "why_tests_cant": "Arbitrary hostile bytes; loops are driven by 64-bit counters read from the input.", "anchors": ["codec/binary.go:BinaryDecode", "codec/binary.go:readMapString", "codec/binary.go:readLong"]}
{"id": "C06", "title": "Binary integer encoding is compact and unambiguous", "statement": "Every int64 is written as between 1 and 10 bytes; all bytes except the last have the top bit set and the last has not; different integers have different encodings and no encoding is a prefix of another.", "quantifier": "every pair of int64 values", "why_tests_cant": "2^128 pairs; boundaries at every multiple of 7 bits.", "anchors": ["codec/binary.go:writeLong", "codec/binary.go:encodeInt", "codec/binary.go:readLong"]}
{"id": "C07", "title": "Binary encoding is injective", "statement": "Two spans that encode (under any tag iteration orders) to the same bytes are equal.", "quantifier": "every pair of spans and iteration orders", "why_tests_cant": "Pairs of unbounded structures.", "anchors": ["codec/binary.go:BinaryEncode"]}
{"id": "C08", "title": "Queued Kafka messages are never overwritten", "statement": "The key and value bytes of every message built by an encoder stay equal to what they were when the message was built, however many further messages are built by the same encoder and whatever their sizes.", "quantifier": "every sequence of spans encoded by one encoder, every earlier message", "why_tests_cant": "Slab memory is shared between messages; overlap depends on the whole size history and re-allocation points.", "anchors": ["balance/encoder.go:encoder.Encode", "balance/encoder.go:makeProducerMessage"]}
{"id": "C09", "title": "Kafka message content and sharding key", "statement": "A message for a span has as value the binary encoding of the span and as key the 8-byte little-endian trace id, so two spans get the same key iff they have the same trace id.", "quantifier": "every pair of spans, every encoder history", "why_tests_cant": "All pairs of 64-bit ids and all encoder memory states.", "anchors": ["balance/encoder.go:encoder.Encode"]}
{"id": "C10", "title": "Kafka consumer delivers exactly the decodable messages in order", "statement": "For any sequence of messages on a claim, the callback is invoked once per decodable message, in order, with the decoded span, and exactly those messages are marked consumed; undecodable messages are skipped without stopping the loop.", "quantifier": "every sequence of byte messages", "why_tests_cant": "Arbitrary message histories.", "anchors": ["balance/receiver.go:consumerGroupHandler.ConsumeClaim", "balance/receiver.go:decodeKafkaMessage"]}
{"id": "C11", "title": "Kafka load balancing is transparent", "statement": "Any sequence of spans sent through the sender and read back in the same order by the consumer reaches the callback unchanged, in order, and none is lost.", "quantifier": "every sequence of well-formed spans", "why_tests_cant": "Composition over unbounded histories.", "anchors": ["balance/sender.go:Sender.Send", "balance/receiver.go:consumerGroupHandler.ConsumeClaim", "codec/binary.go:BinaryEncode"]}
{"id": "C12", "title": "Interning returns the string that was asked for", "statement": "A lookup of any byte string in the intern cache returns a string with the same bytes, whatever has been looked up before and however lookups from different goroutines interleave.", "quantifier": "every byte string, every history and interleaving of lookups, every cache size limit above zero", "why_tests_cant": "All interleavings of the get/insert halves of lookups; all eviction histories.", "anchors": ["cache/cache.go:lookupCache", "cache/lru.go:lruCache.Get", "cache/lru.go:lruCache.Set"]}
{"id": "C13", "title": "Interned strings never change afterwards", "statement": "A string returned by a copying lookup keeps its bytes forever, even though the caller's buffer is overwritten or reused for other requests.", "quantifier": "every history of lookups and buffer overwrites", "why_tests_cant": "Aliasing through unsafe casts; depends on when pooled buffers are reused.", "anchors": ["cache/cache.go:lookupCache", "cache/cache.go:StringForByteSliceCopy", "codec/json.go:bufferPool"]}
{"id": "C14", "title": "LRU cache behaves like a recency list", "statement": "After any sequence of Get and Set calls the cache contains exactly the strings an ideal recency list would contain: a hit or insert moves the string to the front, evictions take from the back, Get returns a stored string and the empty string otherwise.", "quantifier": "every sequence of operations, every positive size limit", "why_tests_cant": "Pointer-level doubly linked list; corruption shows only after particular sequences.", "anchors": ["cache/lru.go:lruCache.Get", "cache/lru.go:lruCache.Set", "cache/lru.go:linkedList.PushHead", "cache/lru.go:linkedList.DropTail"]}
{"id": "C15", "title": "LRU accounting is exact and the size is bounded", "statement": "After any sequence of operations Count() is the number of stored strings, Size() is their total length plus a fixed overhead each, and Size() exceeds the limit by less than one entry.", "quantifier": "every sequence of operations, every positive size limit", "why_tests_cant": "Counters drift only over long histories.", "anchors": ["cache/lru.go:lruCache.Size", "cache/lru.go:lruCache.Count", "cache/lru.go:lruCache.ensureCacheSize"]}
{"id": "C16", "title": "Inserting into the cache always returns", "statement": "Every Set call returns.", "quantifier": "every cache state and limit", "why_tests_cant": "Non-termination cannot be observed by a finite test. (Expected to need a positive limit.)", "anchors": ["cache/lru.go:lruCache.ensureCacheSize"]}
{"id": "C17", "title": "JSON parsing does not depend on how the body is split into reads", "statement": "Decoding a body gives the same result for every way the reader splits it into reads (including empty reads and end-of-file reported together with or after the last bytes), as long as every string and number token fits the parse buffer.", "quantifier": "every body, every split into reads, every buffer size large enough for the tokens", "why_tests_cant": "Exponentially many splits; token/refill boundaries.", "anchors": ["codec/hyperjson/parser.go:Parser.bufferMore", "codec/hyperjson/parser.go:Parser.readString", "codec/hyperjson/parser.go:Parser.readNumber", "codec/hyperjson/parser.go:Parser.require"]}
{"id": "C18", "title": "JSON parsing terminates on every finite body", "statement": "Decoding a finite body always returns.", "quantifier": "every body and every split into reads", "why_tests_cant": "Non-termination cannot be observed by a finite test. (Expected to fail for a token longer than the buffer.)", "anchors": ["codec/hyperjson/parser.go:Parser.readString", "codec/hyperjson/parser.go:Parser.bufferMore"]}
{"id": "C19", "title": "The JSON parser never indexes outside its buffer", "statement": "No sequence of parser calls made by the decoders panics with an index or slice bound out of range, whatever the input bytes, reads and buffer.", "quantifier": "every body, split and buffer size", "why_tests_cant": "Bounds depend on refill positions; hostile inputs.", "anchors": ["codec/hyperjson/parser.go:Parser.current", "codec/hyperjson/parser.go:Parser.bufferMore", "codec/hyperjson/string.go:decodeStringInPlace"]}
{"id": "C20", "title": "In-place string unescaping equals reading the escaped text left to right", "statement": "Unescaping a string in place in the parse buffer yields exactly the bytes a copying left-to-right decoder would yield: it never reads a byte it has already overwritten, never writes outside the token, and rejects exactly the malformed escapes.", "quantifier": "every byte string", "why_tests_cant": "In-place overlap depends on every combination of escapes.", "anchors": ["codec/hyperjson/string.go:decodeStringInPlace", "codec/hyperjson/string.go:decodeUnicodeChar"]}
{"id": "C21", "title": "JSON escapes decode to what JSON says they mean", "statement": "Every JSON string escape decodes to the character that JSON assigns to it.", "quantifier": "every JSON string", "why_tests_cant": "All strings over all escapes. (Expected to fail for \\n, \\t, \\b, \\f, \\r and surrogate pairs, and to hold for the rest.)", "anchors": ["codec/hyperjson/string.go:decodeStringInPlace"]}
{"id": "C22", "title": "Skipping a JSON value consumes exactly that value", "statement": "Skipping any JSON value, however nested and laid out, consumes exactly the text of the value and leaves the following text untouched.", "quantifier": "every JSON value in the supported grammar, every layout, every following text", "why_tests_cant": "Unbounded nesting and layouts.", "anchors": ["codec/hyperjson/parser_skip.go:Parser.Skip"]}
{"id": "C23", "title": "Zipkin v2 documents decode to the spans they describe", "statement": "Decoding any text of a JSON array of v2 span objects (members in any order, any layout, unknown members with any values) gives one span per object, in order, with id, trace, parent, name, service, tags, timestamp and duration taken from the members, the protocolVersion tag added, a missing duration replaced by 1 ms, and client or server timings derived from the kind, compared without regard to case.", "quantifier": "every document in the supported grammar", "why_tests_cant": "Unbounded documents, member orders and layouts.", "anchors": ["codec/json-v2.go:ParseJsonV2", "codec/json-v2.go:spanV2.ToSpan", "codec/hyperjson/bind.go:MakeStructDecoder"]}
{"id": "C24", "title": "Zipkin v1 documents decode to the spans they describe", "statement": "Decoding any text of a JSON array of v1 span objects gives one span per object, in order: timings from the first four annotations, service from the first annotation naming one, tags from the binary annotations plus protocolVersion, timestamp and duration from client timings, else server timings, else the members, and a zero duration replaced by 1 ms.", "quantifier": "every document in the supported grammar", "why_tests_cant": "Unbounded documents, member orders and layouts.", "anchors": ["codec/json-v1.go:ParseJsonV1", "codec/json-v1.go:spanV1.ToSpan", "codec/json-v1.go:fillInTimestamp"]}
{"id": "C25", "title": "Requests do not leak data into each other through pooled memory", "statement": "The spans decoded from a v1 body depend only on that body, not on what earlier requests left in pooled decode memory.", "quantifier": "every history of earlier bodies, every pool choice, every body", "why_tests_cant": "Depends on the whole history and on the run-time pool. (Expected to fail for objects that repeat the binaryAnnotations member.)", "anchors": ["codec/json-v1.go:spanV1ValueDecoder", "codec/json-v1.go:poolSpansV1", "codec/hyperjson/bind.go:MakeSliceDecoder"]}
{"id": "C26", "title": "Decimal numbers decode to their value", "statement": "An unsigned decimal number decodes to its value modulo 2^64, hence exactly when it is below 2^64; signs, fractions and exponents are rejected.", "quantifier": "every digit sequence of any length", "why_tests_cant": "Unbounded digit sequences.", "anchors": ["codec/hyperjson/bind.go:Uint64ValueDecoder"]}
{"id": "C27", "title": "Jaeger spans convert to the spans they describe", "statement": "Every Jaeger span becomes one span, in order: parent from the last CHILD_OF reference or itself, service from the process table, string tags kept with component renamed to lc and the two internal tags dropped, span.kind turned into timings, duration zero replaced by 1 ms.", "quantifier": "every decoded Jaeger object", "why_tests_cant": "Unbounded lists of references and tags.", "anchors": ["codec/jaeger.go:ParseJaeger", "codec/jaeger.go:jaegerSpan.ToSpan"]}
{"id": "C28", "title": "A trace never holds two spans with one id and lookups are exact", "statement": "After adding any sequence of spans to a trace, its spans are strictly ordered by descending id, hence unique; a lookup finds a span iff a span with that id was added; the set of ids is exactly the set of added ids.", "quantifier": "every sequence of added spans", "why_tests_cant": "Binary search correctness over all insertion histories.", "anchors": ["correct.go:tree.AddSpan", "correct.go:SpanSlice.GetSpanRef", "correct.go:SpanSlice.Append"]}
{"id": "C29", "title": "Merging the two halves of a shared span does not depend on arrival order", "statement": "Adding the client half and the server half of a shared span in either order gives the same name, service, tags and four timings, server values winning.", "quantifier": "every pair of client half and server half", "why_tests_cant": "Unbounded tag maps; both orders for all contents. (Timestamp and duration are expected to depend on order unless all four timings are known.)", "anchors": ["correct.go:mergeSpansInPlace", "correct.go:tree.AddSpan"]}
{"id": "C30", "title": "Merging keeps every tag key and never changes identity", "statement": "Merging a span into an existing one keeps id, trace, timestamp and duration of the existing one, the resulting tag keys are the union of both, and every value comes from one of the two.", "quantifier": "every pair of spans", "why_tests_cant": "Unbounded tag maps.", "anchors": ["correct.go:mergeSpansInPlace"]}
{"id": "C31", "title": "Timing correction terminates on every trace shape", "statement": "Correcting a trace from any of its root candidates terminates, for every parent relation including cyclic, self-parented and disconnected ones, and visits every span at most once.", "quantifier": "every set of spans with unique ids and arbitrary parents", "why_tests_cant": "All graphs of all sizes; cycles recurse forever if the argument is wrong.", "anchors": ["correct.go:correctTreeTimings", "correct.go:tree.ChildrenOf", "correct.go:tree.Roots"]}
{"id": "C32", "title": "Timing correction computes the path offset", "statement": "After correction the start of every span connected to the root is its client-sent time (or own start if timings are incomplete) plus the sum of the clock skews of its proper ancestors; its duration is client-received minus client-sent if timings are complete and unchanged otherwise; a non-root start before 2020 is replaced by the corrected start of its parent; spans not connected to the root are unchanged.", "quantifier": "every trace, every root candidate", "why_tests_cant": "All trees of all shapes and 64-bit timings.", "anchors": ["correct.go:correctTreeTimings"]}
{"id": "C33", "title": "Timing correction changes nothing but start and duration", "statement": "Correction keeps the number and order of spans and every field except start and duration.", "quantifier": "every trace", "why_tests_cant": "All trees and all fields.", "anchors": ["correct.go:correctTreeTimings"]}
{"id": "C34", "title": "Skew correction centres the server interval inside the client interval", "statement": "When a span has all four timings, no value overflows and the server side is not longer than the client side, shifting the server interval by the skew applied to its children puts it inside the client interval, with equal left and right margins up to one nanosecond.", "quantifier": "all timing quadruples", "why_tests_cant": "All 64-bit quadruples; rounding.", "anchors": ["correct.go:correctTreeTimings"]}
{"id": "C35", "title": "Root candidates and fake roots", "statement": "The root candidates of a trace are exactly the spans that are their own parent or whose parent is absent. If there are several and all name the same absent parent, the injected span takes that parent's id and covers exactly the hull of their intervals; after injection the injected span is the only root candidate if no received span has the trace id as its id, and otherwise no root candidate is left, so the trace is dropped.", "quantifier": "every trace", "why_tests_cant": "All parent relations and 64-bit intervals.", "anchors": ["correct.go:tree.Roots", "correct.go:createFakeRoot", "correct.go:allTheSameParent", "correct.go:finishTraces"]}
{"id": "C36", "title": "Emitted traces never mix traces and never invent spans", "statement": "Every trace handed to the output holds spans of a single trace id with unique span ids, and every one of its ids was received earlier for that trace and not emitted or dropped since, except at most one injected root.", "quantifier": "every history of received spans and ticks, every schedule and map iteration order", "why_tests_cant": "All histories and random map orders.", "anchors": ["correct.go:ErrorCorrectSpans", "correct.go:finishTraces"]}
{"id": "C37", "title": "Received spans are not lost before their trace ends", "statement": "A valid span received for a non-blacklisted trace stays with its trace until that trace is emitted, dropped for a stated reason (too large, too old, no unique root, overload), or the input is closed; when the trace is emitted the span's id is in it.", "quantifier": "every history and schedule", "why_tests_cant": "All histories.", "anchors": ["correct.go:ErrorCorrectSpans", "correct.go:finishTraces", "correct.go:discardSuspiciousTraces"]}
{"id": "C38", "title": "Traces are emitted only when idle and never kept long", "statement": "A trace is emitted at a tick only if it received no span during the buffer time of that tick (2 to 8 seconds depending on load); after a tick every remaining trace received a span within the buffer time and started within five buffer times.", "quantifier": "every history, every clock", "why_tests_cant": "All timings and loads.", "anchors": ["correct.go:finishTraces", "correct.go:bufferConfigs"]}
{"id": "C39", "title": "Buffer time shrinks with load", "statement": "The buffer time is 8s below 40000 spans in flight, 6s from 40000, 4s from 60000 and 2s from 80000; it never grows when the number of spans grows.", "quantifier": "every span count", "why_tests_cant": "All counts; boundaries.", "anchors": ["correct.go:bufferConfigs", "correct.go:finishTraces"]}
{"id": "C40", "title": "Blacklisted traces are ignored and the blacklist is bounded", "statement": "A span of a blacklisted trace changes nothing. A trace dropped as too large or too old is blacklisted at that tick unless evicted by the size limit; after every tick the blacklist holds at most 1023 ids; ids enter it in no other way.", "quantifier": "every history, every eviction choice", "why_tests_cant": "All histories and random evictions.", "anchors": ["correct.go:ErrorCorrectSpans", "correct.go:finishTraces"]}
{"id": "C41", "title": "In-flight spans are bounded after every tick", "statement": "After every tick the traces still buffered together hold at most 100000 spans.", "quantifier": "every history and schedule", "why_tests_cant": "All histories. (Expected to fail when a 16-bit counter wraps.)", "anchors": ["correct.go:finishTraces", "correct.go:discardSuspiciousTraces"]}
{"id": "C42", "title": "Overload discards the largest traces and no more than needed", "statement": "When discarding, the remaining total is below the limit, every discarded trace is at least as large as every kept one, and keeping the last discarded one would have left the total at or above the limit; if the total is already below the limit nothing is discarded. In every run each discarded trace is, when it is discarded, at least as large as every trace still buffered, and the buffered traces together count at least 100000 spans.", "quantifier": "every set of traces, every tie-breaking of the sort, every history", "why_tests_cant": "All size distributions and tie orders.", "anchors": ["correct.go:discardSuspiciousTraces"]}
{"id": "C43", "title": "Oversized traces are never emitted", "statement": "A trace holding more than 8192 spans at a tick is never handed to the output.", "quantifier": "every history", "why_tests_cant": "All histories. (Expected to fail when a 16-bit counter wraps.)", "anchors": ["correct.go:tree.nodeCount", "correct.go:finishTraces"]}
{"id": "C44", "title": "Closing the input loses nothing", "statement": "Every valid span received before the input is closed is eventually emitted or dropped for a stated reason.", "quantifier": "every history ending with close", "why_tests_cant": "All shutdown points. (Expected to fail.)", "anchors": ["correct.go:ErrorCorrectSpans"]}
{"id": "C45", "title": "Which traces leave at a tick does not depend on map iteration order", "statement": "For the same state and clock readings, any two iteration orders leave the same traces buffered (before overload discarding) and emit the same traces up to order.", "quantifier": "every state, every pair of iteration orders", "why_tests_cant": "Random map order at run time.", "anchors": ["correct.go:finishTraces"]}
{"id": "C46", "title": "Forwarding delivers the same converted traces to every target, in order", "statement": "Every target receives, for each trace in order, the converted spans in order, without those whose conversion failed or that have a zero id or trace; reusing the input slice for the result never corrupts it.", "quantifier": "every sequence of traces, every converter, every number of targets", "why_tests_cant": "In-place overwriting; arbitrary converters and histories.", "anchors": ["main.go:forwardSpansToChannels"]}
{"id": "C47", "title": "The span ring keeps the most recent spans", "statement": "The buffer endpoint returns, up to rotation, exactly the most recent spans up to its capacity (those with non-zero ids).", "quantifier": "every sequence of traces, every positive capacity", "why_tests_cant": "All histories and wrap positions.", "anchors": ["buffer.go:SpansBuffer.ReadFrom", "buffer.go:SpansBuffer.ToSlice"]}
{"id": "C48", "title": "The span ring is returned in the order received", "statement": "The buffer endpoint returns spans in the order they were received.", "quantifier": "every sequence of traces", "why_tests_cant": "All histories and wrap positions. (Expected to fail after wrap-around.)", "anchors": ["buffer.go:SpansBuffer.ToSlice", "main.go:MainWithRouting"]}
{"id": "C49", "title": "Datadog conversion", "statement": "Every span is converted to one Datadog span with unsigned ids equal to the signed ids modulo 2^64, start equal to the timestamp, duration at least 1 microsecond and otherwise unchanged, a non-empty resource, tags as meta, and error set iff an error tag exists whose value is neither false nor 0; the memory of converted spans is never shared between two spans.", "quantifier": "every sequence of spans", "why_tests_cant": "64-bit values and slab allocation over long histories.", "anchors": ["datadog/converter.go:Sink"]}
{"id": "C50", "title": "Datadog batches are grouped, complete and bounded", "statement": "Every span received by the sink is, exactly once, either still buffered, in a batch handed to the sender or in a batch discarded because the sender was busy; within a batch each group holds the spans of one trace id in arrival order; fewer than 1000 spans stay buffered after any step.", "quantifier": "every history of traces, ticks and sender states", "why_tests_cant": "All histories and schedules.", "anchors": ["datadog/converter.go:Sink", "datadog/converter.go:submitTraces"]}
{"id": "C51", "title": "Closing the sink loses nothing", "statement": "Spans buffered in the sink when its input closes are sent.", "quantifier": "every history ending with close", "why_tests_cant": "All shutdown points. (Expected to fail.)", "anchors": ["datadog/converter.go:Sink"]}
{"id": "C52", "title": "HTTP ingestion is all-or-nothing", "statement": "A request answered 202 has put exactly its decoded spans, in order, on the input; a request answered 400 has put none; the v1 endpoint rejects bodies not declared as JSON.", "quantifier": "every request body, header and endpoint", "why_tests_cant": "All bodies; partial effects on errors.", "anchors": ["handlers.go:handleSpans", "handlers.go:parseSpansWithJSON"]}
{"id": "C53", "title": "The pipeline neither loses, duplicates nor reorders traces under any schedule", "statement": "For every interleaving of the forwarding goroutine and the target consumers with bounded channels, each target has received a prefix of the sequence of converted traces, in order, and everything not yet received is in a queue or held by the forwarder; channels never exceed their capacity.", "quantifier": "every schedule", "why_tests_cant": "All interleavings.", "anchors": ["main.go:MainWithRouting", "main.go:forwardSpansToChannels", "buffer.go:SpansBuffer.ReadFrom"]}
{"id": "C54", "title": "The pipeline cannot deadlock", "statement": "Whenever some trace is still in a queue or held by a goroutine, some goroutine can make a step, and every maximal run without new input delivers everything to both targets.", "quantifier": "every reachable state and schedule", "why_tests_cant": "All interleavings.", "anchors": ["main.go:MainWithRouting", "main.go:forwardSpansToChannels", "datadog/converter.go:Sink", "buffer.go:SpansBuffer.ReadFrom"]}
{"id": "C55", "title": "Microsecond conversions", "statement": "Converting microseconds to a timestamp and back is the identity unless the nanosecond value overflows 64 bits; milliseconds are the timestamp divided by 10^6 rounded toward zero.", "quantifier": "every int64", "why_tests_cant": "2^64 values.", "anchors": ["proxy/timestamp.go:Microseconds", "proxy/timestamp.go:Timestamp.ToMicros", "proxy/timestamp.go:Timestamp.ToMillis"]}
{"id": "C56", "title": "Binary tag maps in several blocks", "statement": "A tag map written in the Avro block format in any number of blocks, each with a plain count or with a negated count and a byte size, decodes to the map in which the last entry of each key wins, and bytes after the terminator are left unread.", "quantifier": "every list of non-empty blocks with strings below 2^31 bytes, every trailing byte sequence", "why_tests_cant": "The encoder only ever writes one positively counted block, so round-trip tests never reach the other forms, and the number of blocks is unbounded.", "anchors": ["codec/binary.go:31-61"]}
{"id": "C57", "title": "End-to-end ingestion and delivery", "statement": "In the whole program (any number of concurrently running request handlers, the corrector, the forwarder, the targets), whatever the schedule: the spans the corrector received followed by those waiting in its channel are, in order, those that the handlers put; each handler put a prefix of the spans of its request in order; once a request is answered, it put all its spans and answered 202, or put none and answered 400; and what each target finished, is reading and has in its channel are, in order and converted, the traces that the corrector emitted. Nothing panics.", "quantifier": "every list of requests, every schedule, every clock, every capacity of every channel, every converter", "why_tests_cant": "All interleavings of unboundedly many requests with ticks.", "anchors": ["main.go:MainWithRouting", "handlers.go:handleSpans", "correct.go:ErrorCorrectSpans", "main.go:forwardSpansToChannels"]}
{"id": "C58", "title": "The whole program cannot deadlock", "statement": "With channels of positive capacity, in every reachable state some goroutine can make a step, or every request is answered, the corrector received every span put, and every emitted trace was read by every target. Without new requests and ticks the program makes finitely many steps, and can always reach such a state.", "quantifier": "every reachable state of the whole program", "why_tests_cant": "All interleavings.", "anchors": ["main.go:MainWithRouting", "correct.go:ErrorCorrectSpans", "main.go:forwardSpansToChannels"]}
{"id": "C59", "title": "Fate of every span", "statement": "When the program has come to rest with no trace pending, every span that the corrector received with non-zero ids for a trace not blacklisted at that time left with its trace: if the trace was emitted, the span's id is in it and every target read the converted trace; otherwise the trace was dropped for one of the reasons of C37. A tick 8 s after the last span leads to such a state.", "quantifier": "every execution of the whole program", "why_tests_cant": "A liveness claim over all executions.", "anchors": ["correct.go:ErrorCorrectSpans", "correct.go:finishTraces", "main.go:forwardSpansToChannels"]}
{"id": "C60", "title": "Provenance", "statement": "Every span that a target reads is what the converter made of a span of an emitted trace; that span either is a root injected by the corrector or has the id and trace id of a span that the handler of some request put. Its ids are not zero. No span is invented and none changes its trace.", "quantifier": "every execution of the whole program, every target", "why_tests_cant": "All executions; also aliasing between concurrent handlers.", "anchors": ["correct.go:ErrorCorrectSpans", "correct.go:newTree", "main.go:forwardSpansToChannels"]}
{"id": "C61", "title": "What the admin page and Datadog see", "statement": "Fed with what its target read, the span buffer of capacity cap returns a permutation of the last cap spans of it; every span handed to the Datadog client is the Datadog form of a span that its target read.", "quantifier": "every execution of the whole program, every positive capacity, every flush pattern of the sink", "why_tests_cant": "All executions.", "anchors": ["buffer.go:SpansBuffer.ReadFrom", "buffer.go:SpansBuffer.ToSlice", "datadog/converter.go:Sink"]}
{"id": "C62", "title": "The metrics tell the truth", "statement": "After any run of the corrector every meter of correct.go has been marked as often as what it is named after has happened: spans.merged once per accepted span whose id waits already in its trace, blacklist.span.received once per span refused because of the blacklist, traces.corrected and traces.finished once per emitted trace, traces.noroot, traces.toolarge and traces.tooold once per trace dropped for that reason, spans.discarded with the number of spans lost to overload. The histogram traces.finishedsize gets the size of each trace that leaves (other than by overload), in that order. After a tick the gauges show the load at its start and the number of traces that wait after it, plus those it lost to overload. Expected to fail: traces.discarded counts the traces lost to overload (it is marked with the number of spans).", "quantifier": "every sequence of events, clock readings, map orders and sort results", "why_tests_cant": "The code has no test of metrics, and the meter that is wrong only shows with more than 100000 spans in flight.", "anchors": ["correct.go:finishTraces", "correct.go:discardSuspiciousTraces", "correct.go:ErrorCorrectSpans", "correct.go:AddSpan"]}
{"id": "C63", "title": "Printing a trace for debugging", "statement": "With log level debug, debugPrintTrace prints, indented by their depth, exactly the spans that can be reached from a root candidate in at most six steps, each to one of the first 32 children; each span at most once; under its parent's line, siblings and roots in the order of the trace, roots numbered from 0, with an empty line at the end. It terminates with at most 3n+1 lines for a trace of n spans, also if spans are each other's parents. Cuts are marked: [...] where spans below the sixth level are left out, [... n more children] where more than 32 children are. It is silent with any other log level, or without a root. Expected to fail: the number n is the number of children left out.", "quantifier": "every sequence of spans added to a trace, every log level", "why_tests_cant": "Shapes of traces are unbounded (cycles, several roots, wide and deep trees); the test calls the function but looks at nothing.", "anchors": ["correct.go:debugPrintTrace", "correct.go:ChildrenOf", "correct.go:Roots"]}
{"id": "C64", "title": "Redelivered spans do no harm", "statement": "Kafka delivers at least once: after a crash or a rebalance a consumer reads again from an earlier offset. If the spans of a trace are handed over in the order of a log that is read to its end, with any number of returns to any earlier position, then the trace holds exactly the spans (with the same names, services, tags, timings, parents and count) as if the log had been read once; and the trace that is emitted is the one that would have been emitted without the redelivery. Expected to fail: also for spans that come again after their trace has left the buffer (they are emitted a second time).", "quantifier": "every log of spans, every sequence of returns, every content of the trace before, every order of map iteration", "why_tests_cant": "Needs every combination of client and server halves, missing fields, and restart positions; no test covers redelivery.", "anchors": ["correct.go:AddSpan", "correct.go:mergeSpansInPlace", "balance/receiver.go:ConsumeClaim"]}
{"id": "C65", "title": "Consumption can be ended, and only then ends", "statement": "Consume starts a goroutine that keeps joining the consumer group whatever Consume of sarama returns. The function it returns never panics, also if called several times or concurrently; when it returns, no callback is running and none will ever be called; and it does return: once it is called and sarama hands out no new claims and messages, only a bounded number of steps is left, and one is possible as long as a call waits. As long as it is not called, consumption goes on. Within a session a claim handles one message after the other: one that decodes goes to the callback and is marked, one that does not is passed over.", "quantifier": "every schedule of the loop, the claim goroutines and the callers, every message", "why_tests_cant": "Depends on the interleaving of goroutines (cancel between the select and Consume, close during a callback, two closers).", "anchors": ["balance/receiver.go:Consume", "balance/receiver.go:ConsumeClaim"]}
{"id": "C66", "title": "Several proxies and Kafka: at least once, nothing invented, everything accounted for", "statement": "Proxies share a Kafka topic: HTTP handlers, sender, producer, partitions, consumer groups, commits, rebalances and crashes interleave in any way. When an offset of a partition is committed, the callback has been called with the span of every message between where reading of the partition began and that offset. Every call is for a span that an HTTP handler accepted before, equal in all fields, and is made in the partition of the span's trace by an owner of it; every span a corrector receives was handed over by such a call. What an owner has handled can be committed, and if it gives the partition up with a commit, the next owner goes on behind the last message handled. No message is skipped as undecodable and nothing panics. Every accepted span is, exactly once, on its way, stored in Kafka, or lost for a recorded reason (too large, failed, unacknowledged, crash). Expected to fail: also for messages that come before the first commit of their partition.", "quantifier": "every number of proxies and partitions, every partitioner and configuration, every schedule including crashes and rebalances, every span the wire format can carry, every order of map iteration", "why_tests_cant": "Needs a Kafka cluster with crashes and rebalances at every possible point; the repository has no test with more than one process.", "anchors": ["balance/sender.go:Send", "balance/receiver.go:ConsumeClaim", "balance/encoder.go:Encode", "main.go:main"]}
{"id": "C67", "title": "The spans of a trace meet in one corrector", "statement": "If the partition of a trace has had exactly one owner, which read it from offset 0 to its end, did not crash, and whose corrector has received what was handed over, then the spans of the trace that any of the proxies accepted over HTTP are (as a multiset) those that the corrector of that owner received, plus those that did not get into Kafka; and no other corrector received a span of the trace.", "quantifier": "every number of proxies and partitions, every partitioner, every schedule, every trace", "why_tests_cant": "It is a statement about spans spread over processes by every possible load balancing; tests run one process.", "anchors": ["balance/encoder.go:Encode", "balance/sender.go:Send", "balance/receiver.go:ConsumeClaim", "main.go:main"]}
{"id": "C68", "title": "Sessions without commit only repeat", "statement": "If the same proxy has been the owner of a partition in all sessions, did not crash, and all messages from where reading began were handled, then what its corrector received of a trace is a reading, with returns to earlier positions, of what the log of the partition holds of the trace (so that C64 applies: the repeated spans do no harm). An owner whose channel to the corrector has room for at least one span can always read on to the end of the log by its own steps and those of its corrector, taking every message from its position exactly once and in order.", "quantifier": "every number of proxies, every sequence of sessions with or without final commits, every schedule, every trace", "why_tests_cant": "Depends on when commits happen relative to rebalances.", "anchors": ["balance/receiver.go:ConsumeClaim", "balance/receiver.go:Consume", "main.go:main"]}
{"id": "C69", "title": "Failed messages do not stop the HTTP handlers", "statement": "Expected to fail: whatever spans clients send, a proxy in front of Kafka goes on accepting spans. As long as the messages on their way are within the producer's size limit, the proxy's own steps empty its channels, so that its handlers can go on. (Nobody reads the producer's channel of errors: with main.go's configuration 385 spans above the size limit of 768 KiB are enough to block all HTTP handlers until the process is restarted.) The channels of a proxy never hold more than their capacities.", "quantifier": "every configuration of channel capacities and size limit, every number of proxies, every continuation without restart of the proxy", "why_tests_cant": "The blockage appears only after three channels have filled up, and only with a real producer; no finite test shows that nothing later resolves it.", "anchors": ["balance/sender.go:Send", "main.go:main", "handlers.go:handleSpans"]}
{"id": "C70", "title": "A trace spread over several proxies is emitted whole", "statement": "Proxies share a Kafka topic and each runs a corrector. If the partition of a trace has had one owner that read it from offset 0 to its end without crashing, all spans of the trace got into Kafka, and the owner's corrector emitted the trace once, after its last span, then the emitted trace is exactly the trace made (merged by id, unique root, corrected times) of all the spans of the trace that any of the proxies accepted, taken in some order; every accepted span id of the trace is in it; and no other corrector emits or drops anything of the trace. If the same proxy was the owner in several sessions, with or without commits between them, the emitted trace is the one made of the messages in the log since reading began, as if each had been delivered once.", "quantifier": "every number of proxies and partitions, every partitioner, every schedule of the cluster, every run of the correctors with every order of map iteration, every trace", "why_tests_cant": "Ties together several processes, Kafka and the clock-driven corrector; the test suite covers one process without Kafka.", "anchors": ["correct.go:ErrorCorrectSpans", "correct.go:finishTraces", "balance/encoder.go:Encode", "balance/receiver.go:ConsumeClaim", "balance/sender.go:Send", "main.go:main"]}
{"id": "C71", "title": "A trace that arrives without long breaks is emitted whole, once", "statement": "Let the spans of a trace (at most 8192 of them, with ids) arrive less than p apart and all within 5p, while every check finds at most 100000 buffered spans and waits at least p, and the clock does not go back. Then the trace leaves the buffer at most once, after its last span, and it leaves with all its spans: emitted, or dropped because no unique root can be made of them, or dropped because no check came within five buffer times of its first span. A check that comes a buffer time after the last span and within five buffer times of the first emits it (or drops it for lack of a root).", "quantifier": "every history, every number of other traces, every iteration order and schedule of checks", "why_tests_cant": "All interleavings of arrivals and checks with those of other traces; splitting shows only when a check falls into a break.", "anchors": ["correct.go:ErrorCorrectSpans", "correct.go:finishTraces", "correct.go:bufferConfigs"]}
{"id": "C72", "title": "Slow consumers do not cost complete traces", "statement": "Expected to fail: a trace that arrived completely and without breaks, whose requests were all answered 202, is emitted, even if a conversion or a sink was slow for a while. (The check runs in the goroutine that sends to the pipeline; when the send blocks, no checks happen, and the first check afterwards drops everything older than five buffer times.) Such a late check drops every trace whose first span is older than five buffer times, whatever it holds.", "quantifier": "the whole program with the channel capacities of main.go; every history for the second part", "why_tests_cant": "Needs full channels and a stall of tens of seconds; a test with a fast sink never shows it.", "anchors": ["correct.go:finishTraces", "correct.go:ErrorCorrectSpans", "main.go:main"]}
{"id": "C73", "title": "Accepted spans have bounded strings and survive Kafka unchanged", "statement": "Names, services, tag names and tag values of every span accepted on the version 1 and version 2 endpoints are at most 8192 bytes long, whatever earlier requests left in the pooled memory. Every span accepted on any endpoint can be written in the binary format and is read back unchanged by the consumer (given fewer than 2^63 tags, and Jaeger strings shorter than 2^31 bytes).", "quantifier": "every request, every history of the pools, every iteration order of the tags", "why_tests_cant": "All bodies, reads and pool histories; a string that does not survive the wire format would need a body of gigabytes.", "anchors": ["codec/json.go:bufferPool", "codec/hyperjson/parser.go:Parser.readString", "codec/json-v1.go:ParseJsonV1", "codec/json-v2.go:ParseJsonV2", "codec/binary.go:BinaryEncode", "handlers.go:parseSpansWithJSON"]}
{"id": "C74", "title": "Traces that were handed on are not changed afterwards", "statement": "Tag maps are shared by reference between the trace buffer, the traces handed on, the Datadog spans and the ring. Nevertheless, whoever looks at the spans of a trace at any time after it was handed on sees their tags as they were at that moment; the corrector never writes to a tag map of a trace that it has handed on, and no two spans that it hands on have the same tag map.", "quantifier": "every sequence of spans, ticks and close; every clock, map iteration order and sort result; spans with and without a tag map", "why_tests_cant": "A test sees one interleaving; a map that two spans share only shows when one of them is written to later.", "anchors": ["correct.go:mergeSpansInPlace", "correct.go:tree.AddSpan", "correct.go:createFakeRoot", "correct.go:finishTraces", "proxy/span.go:Span.AddTag", "datadog/converter.go:Sink", "buffer.go:SpansBuffer.ReadFrom"]}
{"id": "C75", "title": "Spans do not wait long in the Datadog sink", "statement": "A span that reaches the Datadog sink is in a batch that the sink flushes at the latest when a tick comes 1.8 seconds or more after the last flush before the span arrived; so, if the clock does not go back, two ticks 1.8 seconds apart are enough. A batch that the sender queue accepts is one of the next eight batches that are sent.", "quantifier": "every history of traces, ticks and sender states, every clock", "why_tests_cant": "All histories and clocks; a test waits for one of them.", "anchors": ["datadog/converter.go:Sink", "datadog/converter.go:submitTraces"]}
{"id": "C76", "title": "Exactly which bodies are accepted", "statement": "The endpoints accept a body exactly if, after optional separators, it begins with a loosely written JSON value that describes spans, and then accept exactly these spans; anything may follow that value. Loosely written means: commas, colons and white space may be missing or repeated, words that merely begin like null, true or false count as such, numbers are runs of number characters that begin with a digit or a minus, strings and numbers are shorter than the parse buffer. Every other body without overlong strings and numbers is answered with 400 and nothing is put on the input. Values of unknown members are skipped exactly if they are such values.", "quantifier": "every body in every split into reads, every buffer of at least five bytes; version 1: every pooled memory left by requests that did not repeat the member binaryAnnotations", "why_tests_cant": "That nothing else is accepted is a statement about all bodies.", "anchors": ["codec/hyperjson/parser_skip.go:Parser.Skip", "codec/hyperjson/parser.go:Parser.NextType", "codec/hyperjson/bind.go:MakeStructDecoder", "codec/hyperjson/bind.go:MakeSliceDecoder", "codec/json-v2.go:ParseJsonV2", "codec/json-v1.go:ParseJsonV1", "handlers.go:handleSpans"]}
{"id": "C77", "title": "An emitted trace is one tree", "statement": "A trace that the corrector emits has exactly one root, and every span of it descends from this root. As it stands this is false: spans that are their own ancestors, and spans below them, are emitted too, with the times as received; and the root that is injected above several spans without a parent has the id 0 and is dropped before the targets, which then get several roots. What holds: exactly one root at the corrector; every span either descends from it or from a span that is its own ancestor, never both; without circles all spans descend from the root; the targets see exactly one root if no emitted span has the id 0 and the converter leaves the ids alone.", "quantifier": "every sequence of spans, ticks and close; every clock, map iteration order and sort result; every converter", "why_tests_cant": "Whether all spans hang together depends on all shapes of parent references, including circles, that clients can send.", "anchors": ["correct.go:finishTraces", "correct.go:tree.Roots", "correct.go:createFakeRoot", "correct.go:correctTreeTimings", "main.go:forwardSpansToChannels"]}
{"id": "C78", "title": "The cache gauges report every lookup once", "statement": "Every lookup of a string that is not empty is part of exactly one reported hit rate: when all lookups have been counted and no reading is under way, one more reading brings the sums of the reported hits and misses to the lookups so far; at no time is more reported than happened. Size and count are those of the strings that lookups find, and the size exceeds the limit by less than one entry. That a report gives the hits and misses since the previous report only holds if nothing is counted while a rate is read (the two counters are read one after the other).", "quantifier": "every interleaving of lookups, buffer reuse, counting and overlapping readings, fewer than 2^64 steps, every positive limit", "why_tests_cant": "Races between counting and the two swaps of a reading; a test sees few interleavings.", "anchors": ["cache/cache.go:lookupCache", "cache/cache.go:RegisterCacheMetrics", "cache/lru.go:lruCache.Size", "cache/lru.go:lruCache.Count"]}
{"id": "C79", "title": "Arrays and objects are read with one call of the consumer for each value", "statement": "If the consumer reads exactly one value, ReadArray and ReadObject read exactly one array or object of such values: the consumer is called once for each value (with its key, repeated keys repeatedly), in the order of the text, and nothing after the closing bracket is consumed; if the consumer succeeds on nothing else, they succeed on nothing else. So they can be nested. With Skip as the consumer, the number of elements and the list of keys come out exactly for the bodies that begin with an array or object. A consumer that reads nothing is called for ever.", "quantifier": "every consumer, every body and remainder, every way the reader delivers it, every buffer of at least five bytes", "why_tests_cant": "Consumers are arbitrary functions; nested use has unboundedly many shapes, and each byte may be the last of a read.", "anchors": ["codec/hyperjson/parser_array.go:ReadArray", "codec/hyperjson/parser_object.go:ReadObject"]}
{"id": "C80", "title": "The request metrics count what was accepted", "statement": "The meter spans.parsed is never above the number of spans handed to the pipeline, and equal to it whenever every request that handed over spans has been answered; a client that was told 202 has been counted, with exactly the spans of its request. Every request whose body is given to a parser is timed exactly once, by the timer of its endpoint; requests that are turned away before (not declared as JSON for v1, not gzip although declared) change no metric. The metrics do not change answers or spans.", "quantifier": "every set of requests on all endpoints, every body, every interleaving of their handlers", "why_tests_cant": "Handlers overlap arbitrarily and block in the middle of handing over their spans; tests see few interleavings.", "anchors": ["handlers.go:handleSpans", "handlers.go:parseSpansWithJSON", "handlers.go:handleGzipRequestBody"]}
{"id": "C81", "title": "The histogram of message sizes samples every 128th message", "statement": "Of the messages sent to Kafka, exactly the 128th, 256th, 384th, ... are measured, and the measured size is the number of bytes of the value that Kafka gets, no matter which pooled encoder built the message and whether it fitted into the encoder's memory. Measuring does not change the messages.", "quantifier": "every sequence of spans, every choice of pooled encoders, also beyond 2^64 messages", "why_tests_cant": "Messages move to their own array when they do not fit, encoders are pooled; the counter is shared by all encoders.", "anchors": ["balance/encoder.go:encoder.Encode", "balance/sender.go:metricKafkaSpanSize"]}
{"id": "C82", "title": "A Jaeger body is read as RFC 8259 says and as the document means", "statement": "A request to the Jaeger endpoint whose body begins with the text of a JSON value is answered by 202 and the spans described by that value are put on the input (names of members in any case, unknown members ignored, null as absent, the last of repeated simple members), or by 400 and no spans if the value is not a Jaeger document; the result does not depend on how the value is written (white space, escapes, order and pieces in which the body arrives). A body that does not begin with a JSON value is answered by 400. All strings in accepted spans are valid UTF-8, and accepted spans survive Kafka.", "quantifier": "every body text and every division into reads, every error behaviour of the reader, every JSON value up to 10000 levels", "why_tests_cant": "The set of JSON texts is infinite and the rules of the decoder (memory reuse, case folding, escapes, float range) meet each other only in rare documents; the one test uses one document.", "anchors": ["codec/jaeger.go:ParseJaeger", "codec/jaeger.go:jaegerObject", "proxy/id.go:Id.UnmarshalJSON", "handlers.go:handleSpans"]}
{"id": "C83", "title": "Timestamps as JSON", "statement": "Every timestamp is marshalled to a quoted RFC 3339 text that names the same instant, to the nanosecond, whatever the local time zone; every quoted RFC 3339 text of an instant is unmarshalled to the timestamp of that instant or refused if there is none; marshalling and unmarshalling gives the timestamp back.", "quantifier": "all int64 timestamps (years 1677 to 2262, before and after 1970), all time zones, all RFC 3339 texts of the years 0000 to 9999", "why_tests_cant": "Calendar arithmetic (leap years, negative seconds, month ends) and zone offsets go wrong only on particular days; the range of dates times offsets times fractions cannot be enumerated, and no test in the repository marshals a timestamp.", "anchors": ["proxy/timestamp.go:Timestamp.MarshalJSON", "proxy/timestamp.go:Timestamp.UnmarshalJSON", "proxy/timestamp.go:Timestamp.ToTime"]}
{"id": "C84", "title": "Spans as JSON", "statement": "The JSON text of spans (as on the admin page /spans) is RFC 8259 JSON that says exactly what the spans are: ids as sixteen hexadecimal digits, times as RFC 3339, the duration as a decimal number, tags ordered by name and left out if there are none, timings left out if zero; reading it gives the spans back, however they are marshalled. Strings that are not UTF-8 come back with U+FFFD in place of the wrong bytes and nothing else changed. The text contains no control characters and no markup of HTML.", "quantifier": "all lists of spans, all byte strings in them, all time zones with offsets of whole minutes", "why_tests_cant": "Escaping has to be right for every byte sequence and reading has to undo writing for every value; no test of the repository writes a span as JSON, and a pointer receiver makes the result depend on how the value is passed.", "anchors": ["proxy/span.go:Span", "proxy/span.go:Timings", "proxy/id.go:Id.MarshalJSON", "proxy/timestamp.go:Timestamp.MarshalJSON", "main.go:Main", "buffer.go:SpansBuffer.ToSlice"]}
{"id": "C85", "title": "Single literals are read exactly", "statement": "ReadNull, ReadBoolean, ReadNumber and ReadString each succeed exactly if the next value is a literal of their type, return its token and leave the parser right behind it; ReadLiteral does so for all four. Null is only null, and booleans are only true and false. Every type of token has a name of its own, and the error for a wrong type names the type that was expected and the one, or the character, that was found.", "quantifier": "all bodies, all ways of delivering them in pieces, all buffers of at least five bytes, all bytes at which an error is found", "why_tests_cant": "One test calls these methods on one document that is in memory as a whole; that nothing else is accepted and that no split of the body changes the token are statements about all bodies.", "anchors": ["codec/hyperjson/parser.go:Parser.ReadNull", "codec/hyperjson/parser.go:Parser.ReadBoolean", "codec/hyperjson/parser.go:Parser.ReadLiteral", "codec/hyperjson/parser.go:Parser.wrongTypeError", "codec/hyperjson/type_string.go:Type.String"]}
{"id": "C86", "title": "Looking around in a trace", "statement": "For every trace, ByParent gives for each parent exactly the spans with this parent, in the order of the trace and each once; ChildrenOf gives those among them that are not their own parents; GetSpan returns the span with the given id, or nil if there is none; Root returns the root of the tree.", "quantifier": "all sequences of spans added to a trace, all ids, all orders of map iteration", "why_tests_cant": "The tests look up three spans in traces of at most four; lookups rest on the order that every insertion has to keep.", "anchors": ["correct.go:tree.ByParent", "correct.go:tree.ChildrenOf", "correct.go:tree.GetSpan", "correct.go:tree.Root"]}
{"id": "C87", "title": "The linked list of the cache is the recency list", "statement": "After any sequence of lookups and insertions, the list of the cache read from its head by next is the list of the stored strings from the most to the least recently used one, read from its tail by prev it is the reverse of it, and the number of its nodes is the number the cache reports.", "quantifier": "all sequences of operations, all limits above zero", "why_tests_cant": "The test compares the two counts during one sequence of random insertions; a wrong prev pointer shows only when the node is moved or dropped later.", "anchors": ["cache/lru.go:linkedList.Count", "cache/lru.go:linkedList.PushHead", "cache/lru.go:linkedList.DropTail", "cache/lru.go:lruCache.Count"]}
{"id": "C88", "title": "Optional ids", "statement": "A missing id counts as 0, or as the default that is given; any other id counts as itself. The unsigned number of an id determines it, and Uint64OrNil leaves the number out exactly if it is 0.", "quantifier": "all 64 bit ids, missing ones included", "why_tests_cant": "There are 2^64 ids, half of which change when they are converted to unsigned numbers.", "anchors": ["proxy/id.go:Id.OrZero", "proxy/id.go:Id.Or", "proxy/id.go:Id.Int64", "proxy/id.go:Id.Uint64", "proxy/id.go:Id.Uint64OrNil"]}
{"id": "C89", "title": "Exactly the bodies with an overlong token in order are never answered", "statement": "Decoding a finite body goes on forever exactly if the body consists of whole tokens followed by a string or number that does not end within the parse buffer and behind which more bytes follow than fit into it, and a token of that kind is in order at that place (with a shorter one the beginning can be continued to a body that is accepted). In every other case the request is answered, also with such a token at a place where it is rejected or behind the array of spans.", "quantifier": "every body of both Zipkin formats, every split into reads, every buffer of at least five bytes, whatever memory the pool hands out", "why_tests_cant": "Non-termination cannot be observed by a finite test, and the criterion is an equivalence over all bodies.", "anchors": ["codec/hyperjson/parser.go:Parser.readString", "codec/hyperjson/parser.go:Parser.readNumber", "codec/hyperjson/parser.go:Parser.bufferMore", "codec/hyperjson/parser_skip.go", "codec/hyperjson/bind.go", "codec/json-v1.go", "codec/json-v2.go"]}
{"id": "C90", "title": "A request causes no more data than it contains", "statement": "The spans that a request hands on hold no more data (two for each span and each tag, the names, services, tag keys and tag values, without the tag the proxy adds) than its body has bytes; a span decoded from a Kafka message fits into the bytes that were read. (False of v1 requests when an earlier request repeated \"binaryAnnotations\" in one object: then at most the texts left in the pool are added. False of Jaeger bodies: each span repeats the name of its service.)", "quantifier": "every body of both Zipkin formats and every split into reads, every state of the pooled memory; every Kafka message", "why_tests_cant": "A bound over all bodies, including malformed, repeated and escaped members, and over all states of the pool.", "anchors": ["codec/hyperjson/bind.go", "codec/hyperjson/string.go:decodeStringInPlace", "codec/json-v1.go", "codec/json-v2.go", "codec/jaeger.go", "codec/binary.go:BinaryDecode", "handlers.go"]}
{"id": "C91", "title": "The memory requested for a message is bounded by its length", "statement": "While decoding a message, the buffers requested for strings are together no larger than the message. (False: eight bytes suffice to request 2 GiB. True of every message that decodes; otherwise only the last buffer can be too much, it is below 2 GiB, and the message is rejected as cut off.)", "quantifier": "every Kafka message", "why_tests_cant": "A bound over all byte sequences; a test sees a few messages, and memory only indirectly.", "anchors": ["codec/binary.go:readString", "codec/binary.go:BinaryDecode", "codec/json.go:pooledBufferSliceLength"]}
{"id": "C92", "title": "No data races", "statement": "Whenever two goroutines access the same memory and one of them writes, one access happens before the other: through the order of a goroutine's own actions, a channel, a lock or a pool.", "quantifier": "every interleaving of any number of HTTP requests, claims, readers of /spans and of the cache's gauges with sender, corrector, forwarder, sink, ring and submission, with and without Kafka; whatever the data decide", "why_tests_cant": "The race detector sees the interleavings of one test run; races need not show up in results.", "anchors": ["main.go", "handlers.go", "cache/cache.go", "buffer.go", "balance/encoder.go", "balance/sender.go", "balance/receiver.go", "correct.go", "datadog/converter.go", "codec/json-v1.go", "codec/json-v2.go", "codec/binary.go"]}
{"id": "C93", "title": "Objects of pools are used only between Get and Put", "statement": "After a buffer, a slice of parsed spans or an encoder was put back into its pool, nobody reads, writes or puts it back again without having got it from the pool since.", "quantifier": "every interleaving of any number of HTTP requests, claims, readers of /spans and of the cache's gauges with sender, corrector, forwarder, sink, ring and submission, with and without Kafka; whatever the data decide", "why_tests_cant": "A buffer that is used after it was put back shows only if another request gets it at the right moment; the race detector drops objects of pools at random.", "anchors": ["codec/json.go", "codec/json-v1.go", "codec/json-v2.go", "codec/binary.go", "balance/encoder.go"]}
{"id": "C94", "title": "Emitted spans say nothing that no accepted span said", "statement": "Parent, name, service, the four timings and every tag of a span that is passed on are those of spans with the same id and trace which HTTP handlers accepted; no tag key of them is lost, and parent, name or service is missing only if none of them has it. The only other span is the injected root, which has a fixed name and service, no tags and no timings.", "quantifier": "every sequence of events of the corrector, every schedule of the whole program, and every schedule of any number of proxies with Kafka (with crashes, losses and repetitions); every order of map iteration", "why_tests_cant": "Mixing up spans shows only for particular combinations of reports, orders and interleavings; tests compare a few results.", "anchors": ["correct.go:81-97", "correct.go:308-330", "correct.go:490-549", "correct.go:565-573", "main.go", "balance/receiver.go", "balance/sender.go"]}
{"id": "C95", "title": "The meters add up", "statement": "At any moment the spans that the corrector received with a trace id and an id number exactly as many as blacklist.span.received, spans.merged, the sum of the values of traces.finishedsize, spans.discarded and the spans that wait say together; the traces that were begun number as many as traces.finished, traces.noroot, traces.toolarge, traces.tooold, the traces lost to overload and those that wait. For spans this holds as long as no trace waits with 65536 spans or more; with 65536 spans in one trace the books miss 65536 spans.", "quantifier": "every sequence of events, clock readings, map orders and sort results; for the spans, runs in which no trace holds more spans than its 16 bit counter can count", "why_tests_cant": "A span counted twice or not at all shows only in sums over long runs with all kinds of ends; the overflow needs 65536 spans in one trace.", "anchors": ["correct.go:81-97", "correct.go:169-192", "correct.go:200-306", "correct.go:387-433"]}
{"id": "C96", "title": "The order of arrival does not show in emitted traces", "statement": "Two runs in which a trace waits with the same reports, in any two orders and with any repetitions, decide alike whether the trace has a root, and emit as many spans with the same ids, names, services, tags and timings. If the root is one of the reported spans, or if every span whose parent is missing is reported by one side only, the spans that do not hang on a circle also have the same start and duration, so that a trace without circles is emitted as the same set of spans. It is assumed that two reports with one id are equal or are the client's and the server's half of one request, with all four times or with the same start and duration. Without this, on circles, and for an injected root above shared spans, the times depend on which report came first.", "quantifier": "any two sequences of events, clock readings, map orders and sort results; any reports as described; any order and repetition of them", "why_tests_cant": "Tests try one order of arrival, or a few; n reports can come in n! orders, and repetitions make them infinitely many.", "anchors": ["correct.go:81-97", "correct.go:132-156", "correct.go:200-340", "correct.go:435-577"]}
{"id": "C97", "title": "The corrector lets go of the traces it hands on", "statement": "The corrector keeps spans in slices and works on them through pointers, while slices grow in place or move to larger arrays. Whatever the capacities, no pointer or index is ever out of range, and the corrector decides and emits as if each trace were a list of its own. A slice that was sent is in an array that no waiting trace and no other sent slice uses, that holds the spans of the trace, and that the corrector never writes again; so the receivers may write into it what they like without changing any later decision or trace.", "quantifier": "any sequence of spans, ticks and close; any clock readings, map orders and sort results; any growth of slices; any writes of receivers into arrays that were sent, at any time between the corrector's steps", "why_tests_cant": "Sharing of memory shows only with particular capacities and interleavings, and as a changed span in some later trace; tests do not look at addresses.", "anchors": ["correct.go:58-156", "correct.go:158-198", "correct.go:200-306", "correct.go:387-488", "correct.go:553-577"]}
{"id": "C98", "title": "How deep the calls of the JSON decoders get", "statement": "ParseJsonV1 and ParseJsonV2 call themselves only in Parser.Skip, which needs exactly one open call of skip for every level of the skipped value. With a call stack that has room for more such calls than the body has opening brackets and braces, decoding goes as with an endless stack, whatever the body is. But the depth has no other bound: for every size of the stack there is a body, seven bytes longer than the number of calls it has room for, on which both decoders overflow it (in Go: the process dies, and recover does not help), before the body is known to be malformed.", "quantifier": "any body, split into any reads, any buffer of at least five bytes, any pooled spans; any number of calls the stack has room for; any value written in any accepted way", "why_tests_cant": "The depth at which Go gives up is reached only by bodies of megabytes of brackets, and then the test process itself dies; tests cannot show that no shallower body does it.", "anchors": ["codec/hyperjson/parser_skip.go:5-90", "codec/hyperjson/bind.go:160-224", "codec/json-v2.go:31-56", "codec/json-v1.go:50-79"]}
{"id": "C99", "title": "What spans say does not influence what becomes of them", "statement": "Names, services and tags are cargo to ErrorCorrectSpans. Look at the spans through a mask that may change names and services (but not whether they are empty, nor the name of injected roots) and drop or change tags (as long as the union of two masked tag maps is the mask of the union): two runs whose inputs look the same through the mask, at the same times and with map iterations that do not look behind it, have outputs that look the same through it. The same traces leave the buffer at the same moments, for the same reasons, with the same ids, parents, start times and durations. In particular the value of a tag, or its presence, shows nowhere but in that tag.", "quantifier": "any such mask (hiding tags by key; hiding all but the emptiness of names and services); any two sequences of spans, ticks and close that look the same; any clock readings, any orders of iteration over tags", "why_tests_cant": "Independence relates two runs with all possible contents of fields; a test fixes both contents.", "anchors": ["correct.go:158-306", "correct.go:387-433", "correct.go:81-156", "correct.go:308-340", "correct.go:435-573"]}
{"id": "C100", "title": "The format of a report does not matter", "statement": "A report (ids, name, service, side, start and duration in microseconds, tags) that an application writes as a Zipkin v1 span, a Zipkin v2 span or a Jaeger span, with members in any order among others that the format does not know, is accepted (202) as the same span on all three endpoints, apart from the tag protocolVersion; and the corrector then does the same, up to that tag. Exceptions: reports that took no time (v2 and Jaeger make a millisecond of the duration before they compute the second time of a call, v1 after it), v1 reports of local work without tags (they lose the service), tags that Jaeger uses itself, and spans without parent: for Zipkin the parent is 0, for Jaeger the span itself, so that a trace with two such spans is emitted under an injected root with id 0 in one case and lost in the other.", "quantifier": "any list of reports after 1970 and before 2262; any spelling of ids and numbers, any layout of the documents, split into any reads; any run of the corrector", "why_tests_cant": "Tests compare a document with an expected span; agreement between formats concerns all reports and all ways to write them.", "anchors": ["codec/json-v1.go:50-246", "codec/json-v2.go:31-172", "codec/jaeger.go:46-123", "handlers.go:16-99", "correct.go:132-156"]}
{"id": "C101", "title": "What a check decides about every waiting trace", "statement": "Each run of the periodic check gives every waiting trace exactly one decision, which is a function of the spans received for it, of the time and of the load: too large if it counts more than 8192 spans (modulo 65536), else too old if it started more than five buffer times ago, else, if nothing came for one buffer time, emitted or given up; else it waits on, and only above 100000 spans it may be discarded. It is emitted exactly if there is one root candidate, or there are several that name the same missing parent and no span has the id of the trace (otherwise it is given up: the injected root would not be a root). The trace emitted is determined by the spans received, up to order. Nothing is decided about other traces.", "quantifier": "all sequences of spans and checks with all clock readings, iteration orders and tie-breaks of the sort; all traces", "why_tests_cant": "The decision combines five conditions over unbounded histories; the clause about the trace id needs a trace whose id is the id of a span beside orphans.", "anchors": ["correct.go:200-306", "correct.go:308-340", "correct.go:387-433"]}
{"id": "C102", "title": "How much the corrector works for a trace", "statement": "Receiving a span takes at most 2 * (log2 n + 1) + 1 comparisons of ids for n held spans and moves exactly the held spans with smaller ids, none if the id is already held; altogether the moves are the pairs of distinct ids of which the greater was received later (n(n-1)/2 for ascending ids). Correcting the times from a span needs recursion depth exactly one more than the longest path downwards (no depth suffices on a cycle) and looks at every span of the trace once for every span it visits. Finishing a trace of n spans with one root looks at exactly 2n + n*m spans, m being the spans connected to the root; finishing any trace looks at no more than (n+1)(n+9).", "quantifier": "all traces, all sequences of received spans, all iteration orders of tag maps", "why_tests_cant": "The bounds are over all sizes and shapes of traces; the depth has no bound on cyclic input, and worst cases depend on the order of ids.", "anchors": ["correct.go:81-97", "correct.go:119-156", "correct.go:254-285", "correct.go:332-340", "correct.go:435-488", "correct.go:553-573"]}
{"id": "C103", "title": "Traces influence one another only through the load and the blacklist", "statement": "What the corrector does with a trace (whether, when and with which spans, in which order, it emits it, drops it, blacklists it) depends on the spans of that trace and the times of their arrival, on the times of the checks, on the buffer time that the number of waiting spans results in, and on whether the trace is ever pushed out of the blacklist, and on nothing else: not on the spans of other traces, the iteration order of maps, the sort, or the configuration and schedule of the rest of the program. With fewer than 40000 waiting spans at every check, a trace that is not pushed out of the blacklist fares as if it had come alone. Both conditions are needed: 40000 other traces change when a trace is emitted, and 1024 blacklisted ones make the corrector forget that a trace was blacklisted.", "quantifier": "all sequences of spans and checks, all traces, all iteration orders, all programs around the corrector", "why_tests_cant": "Non-interference relates pairs of runs with arbitrary other traffic; the thresholds at which it ends need tens of thousands of traces.", "anchors": ["correct.go:158-198", "correct.go:200-306", "correct.go:387-433"]}
{"id": "C104", "title": "Bodies whose reader fails together with its last bytes", "statement": "A reader may report an error other than the end of the body together with its last bytes (a broken gzip stream or chunked body does). These bytes are lost: the request is answered as one with fewer bytes whose reader fails on its own. The answer is the one for the same reads with the error afterwards, or 400 and nothing is forwarded; and the request is never answered exactly if the one with the error afterwards is never answered.", "quantifier": "all bodies of both Zipkin formats, all splits into reads, all buffers and pooled memory", "why_tests_cant": "Relates the outcomes of two readers for every body and split; the last clause is about non-termination.", "anchors": ["codec/hyperjson/parser.go:Parser.bufferMore", "codec/json-v1.go", "codec/json-v2.go", "handlers.go"]}
{"id": "C105", "title": "The text of a rejection", "statement": "Accepted requests are answered with an empty body. The body of a rejection of a v1 or v2 document is: what endpoint it was, one of a fixed list of places, one of thirteen causes, and a newline; of the request only single characters appear in it, which occur in the body (those of ids perhaps as escapes), so it has at most 255 bytes plus the text of the error of the reader. Status and text do not depend on the pieces in which the body is read, on compression, or on what earlier requests left in the pooled buffer and memory. An answer whose text does not say that the body ended is given to every longer body too. A reader that fails together with its last bytes leads to the answer for a body with perhaps fewer bytes. Bodies that are not gzip although declared so, v1 bodies not declared as JSON and Jaeger bodies that encoding/json rejects are answered with the text for that.", "quantifier": "all requests, all readers and splits into reads (the independence of splits: all readers that do not fail together with their last bytes), all buffers of at least five bytes and pooled memory, all texts of library errors", "why_tests_cant": "All malformed bodies and all splits; the last clauses relate the answers to any two requests.", "anchors": ["handlers.go", "codec/hyperjson/parser.go", "codec/hyperjson/bind.go", "codec/hyperjson/parser_skip.go", "codec/json-v1.go", "codec/json-v2.go", "codec/jaeger.go", "proxy/id.go:ParseId"]}
{"id": "C106", "title": "Parsing takes work linear in the body", "statement": "A call of ParseJsonV2 or ParseJsonV1 that returns, with spans or with an error, has looked at, moved, received and handed to decoders at most 10 bytes for each byte of the body, plus two for each piece in which the reader delivers it, plus 7; nesting, skipped members, escapes, the size of the buffer and where the pieces end make no difference to that bound. In particular no byte is scanned again after a refill and the buffer is moved at most once for a token.", "quantifier": "all bodies, accepted or rejected, all splits into reads (also empty ones), all ends of the reader, all buffers of at least five bytes, all pooled memory", "why_tests_cant": "A bound for every body and every split: adversarial nesting, escapes and read sizes cannot be enumerated, and a benchmark sees only its own inputs.", "anchors": ["codec/hyperjson/parser.go", "codec/hyperjson/string.go", "codec/hyperjson/parser_skip.go", "codec/hyperjson/bind.go", "codec/json-v1.go:ParseJsonV1", "codec/json-v2.go:ParseJsonV2"]}
{"id": "C107", "title": "Fields of requests and answers", "statement": "The handler behind the wrapper for compressed bodies, whatever it is, sees every request as sent, unless the first Content-Encoding is exactly gzip: then it sees the decompressed body and no field Content-Encoding or Content-Length, all else as sent; a body that is not gzip is answered with 400 and seen by no handler. Wrapping twice is the same as wrapping once. The case of field names and the order of fields with different names make no difference. Spans, status and body of answers depend on no other field of the request and not on whether the connection is closed afterwards. Answers carry the two fields for plain text exactly if they are rejections, Connection: close only after v1 requests, and nothing else.", "quantifier": "all requests, all handlers behind the wrapper, all contents of pools, all random draws", "why_tests_cant": "The inner handler is arbitrary (MainWithRouting takes any), and independence from other fields relates pairs of requests.", "anchors": ["handlers.go:handleGzipRequestBody", "handlers.go:handleSpans", "main.go:MainWithRouting"]}
{"id": "C108", "title": "The order within a document", "statement": "Two requests to the same endpoint whose documents differ only in order put the same spans on the input and are answered alike: members with different names may change places in every object (for Jaeger, names that differ only in case are the same name); in version 1 also up to four annotations of different events in one service and binary annotations with different keys of one service; in Jaeger spans also tags that are kept under different keys and references of which at most one names a parent. It does not hold beyond that: a fifth annotation is not read, so that the end of a call is lost if it comes last; with annotations of two services the first one names the service; of two parents of a Jaeger span the last one counts.", "quantifier": "all pairs of JSON documents, whether they describe spans or not, that differ in order, in any layout, in any reads, with any pooled memory", "why_tests_cant": "It relates all pairs of documents; tests use documents in one order.", "anchors": ["codec/json-v1.go:15-110", "codec/json-v1.go:130-246", "codec/json-v2.go:31-172", "codec/jaeger.go:12-123"]}
{"id": "C109", "title": "Where time starts does not matter", "statement": "If the clock of the program shows another time by a constant amount, the same traces leave the buffer at the same rounds, for the same reasons and with the same spans. If, independently, all times in the spans are later by a constant amount, the same traces leave, and the emitted spans start later by exactly this amount and last as long, as long as all times and the corrections on top of them stay between 2020 and 2116. It does not hold across the beginning of 2020: starts before it are replaced.", "quantifier": "all pairs of executions of the corrector that differ by constant amounts in the clock readings and in the times of spans, with any spans, rounds and orders of iteration", "why_tests_cant": "It relates all pairs of executions; tests run at one time with one set of times.", "anchors": ["correct.go:158-306", "correct.go:308-340", "correct.go:435-549"]}
{"id": "C110", "title": "Identifiers are names", "statement": "Only equality of identifiers counts to ErrorCorrectSpans. Give all spans, parents and traces other identifiers by a one-to-one renaming of all identifiers that keeps zero: the same traces leave at the same rounds for the same reasons, traces are pushed out of the blacklist alike, and every emitted trace consists of the same spans, with the same times, under the other names. Only the order of the spans in an emitted trace may differ.", "quantifier": "all renamings and all pairs of executions of the corrector that differ by one, with any spans (also with parents that form circles), rounds and corresponding orders of iteration", "why_tests_cant": "It relates all pairs of executions under all renamings; tests use one set of identifiers.", "anchors": ["correct.go:81-156", "correct.go:158-306", "correct.go:308-340", "correct.go:387-573"]}
{"id": "C111", "title": "Lists given twice", "statement": "Version 1 documents may repeat members of a span. Of ids, times and the name the last value counts (all of them must be readable). Lists with the same name are laid over each other: the objects at the same place of the lists annotations (first four places) or binaryAnnotations become one object with the members of all of them, in order; as many binary annotations are shown as the last list has that is not empty. So neither does the last list count alone nor are the lists joined: a tag can show the value that was given for another key.", "quantifier": "all JSON values as documents of version 1, with any repeated members, in any layout, in any reads; pooled memory in which no earlier request repeated a list", "why_tests_cant": "All combinations of numbers and lengths of lists; it depends on the capacity of reused memory that nothing is lost when a shorter list is followed by a longer one.", "anchors": ["codec/hyperjson/bind.go:84-158", "codec/json-v1.go:60-110", "codec/json-v1.go:130-246"]}
{"id": "C112", "title": "Documents that earlier requests cannot influence", "statement": "A version 1 document in which every binary annotation gives a key, a value and a service name (of any kind, perhaps empty) means the same whatever earlier requests left in the pooled memory, also after requests that repeated lists (for which C25 fails). Each of the three is needed: a missing key, value or service is filled in from an earlier request of somebody else.", "quantifier": "all contents of the pooled memory, all such JSON documents, with any repeated members, in any layout, in any reads", "why_tests_cant": "It quantifies over everything that earlier requests may have left in memory, including capacities.", "anchors": ["codec/json-v1.go:44-77", "codec/json-v1.go:222-241", "codec/hyperjson/bind.go:84-118"]}
{"id": "C113", "title": "Members given more than once in Jaeger documents", "statement": "A Jaeger body means the same as the document in which the lists given for one member lie on top of each other: the objects at the same place become one with the members of all of them, an empty list or null removes what is below it, as many objects are seen as the last list has, and the processes of several objects add up (null removes those before). All elements of all lists must be readable, also those that are not seen; otherwise the answer is 400. Documents that give every list once mean what C82 says. A shorter list does not remove what lies beyond its end.", "quantifier": "all JSON documents with any members repeated any number of times at all levels, all layouts, all divisions into reads", "why_tests_cant": "The meaning depends on capacities and leftovers of slices in nested repetitions; tests give each member once.", "anchors": ["codec/jaeger.go:12-44", "codec/jaeger.go:46-52", "codec/jaeger.go:ParseJaeger"]}
{"id": "C114", "title": "What of a document is asked for", "statement": "Two requests to the same endpoint whose documents agree in the members that the proxy asks for are treated alike: the same spans are accepted, or both are rejected. Asked for are: in version 2 id, traceId, parentId, timestamp, duration, name, kind, tags and localEndpoint.serviceName; in version 1 the first six of these, timestamp, value and endpoint.serviceName of the first four annotations of a list, and key, value and endpoint.serviceName of binary annotations; in Jaeger documents data, spans, processes, traceID, spanID, operationName, startTime, duration, processID, refType and spanID of references, key and value of tags, serviceName of processes, in any case of letters. Everything else may have any JSON value and may be added or left out.", "quantifier": "all pairs of documents, all layouts and reads, all pooled memory without repeated lists, all repetitions of members", "why_tests_cant": "Quantifies over all additional content at every level of a document.", "anchors": ["codec/json-v2.go:19-60", "codec/json-v1.go:19-77", "codec/jaeger.go:12-44", "codec/hyperjson/bind.go:84-118", "codec/hyperjson/parser_skip.go"]}
{"id": "C115", "title": "Neither schedules nor other requests show in a trace", "statement": "Take two executions of the whole program, with different requests, schedules of handlers, corrector and targets, channel capacities and times, in which the same spans are reported about one trace: in any order, spread over any requests, any number of times. If in both the corrector receives them without long breaks and is not overloaded, then each emits the trace at most once, and if one emits it the other emits it too or gives it up as too old. Both emitted traces have equally many spans and the same ones apart from times; they are the same, in some order, if nothing runs in circles and the root was reported (or every span is reported once or below another one), and then every target of both gets the same converted spans. Without the condition on breaks this fails: a part of the trace may be emitted by itself.", "quantifier": "all pairs of executions of the program, all requests about other traces, all capacities, all converters that treat spans one by one", "why_tests_cant": "Quantifies over pairs of interleavings and over all traffic beside the trace.", "anchors": ["main.go:MainWithRouting", "handlers.go:handleSpans", "correct.go:134-340", "main.go:forwardSpansToChannels"]}
{"id": "C116", "title": "The clocks of the hosts do not show in emitted traces", "statement": "Take two runs in which the same reports about a trace arrive, except that the clocks of the hosts are wrong by other amounts, different from host to host; only the clock of the host at the root is the same. If for every call between hosts both sides reported both times, then the emitted spans are the same in both runs: the same starts, durations, names, services, tags and order (only the four recorded times of a call differ), and Datadog gets the same. With an injected root this holds, up to order, if the spans directly below it run on hosts whose clocks did not change. It fails if only the server reports a call.", "quantifier": "all pairs of runs, all numbers and shapes of calls, all clock differences that keep times between 1970 and 2116", "why_tests_cant": "Quantifies over all trees of calls and all combinations of clock errors.", "anchors": ["correct.go:435-488", "correct.go:490-549", "correct.go:81-97", "datadog/converter.go"]}
{"id": "C117", "title": "The clocks of the hosts do not reach the targets", "statement": "Take two executions of the whole program, with any requests, schedules, queue capacities and converters, in which the same is reported about one trace, in any order, in any requests and any number of times, but by hosts whose clocks differ from the first execution, from host to host, by any amounts; only the clock of the host at the root is the same, and for every call between hosts both sides reported both times. If the trace arrives without long breaks in both and is emitted in the first with a root that was reported, it is emitted in the second or given up there as too old; the emitted spans have the same starts, durations, names, services and tags, and what every target sends to Datadog of the trace is the same, if the user's converter does not look at the four recorded times. The emitted spans are also the same with an injected root, if the spans directly below it run on hosts whose clocks did not change and every span is reported once or below another one.", "quantifier": "all pairs of executions of the whole program, all trees of calls, all clock differences that keep times between 1970 and 2116", "why_tests_cant": "Quantifies over pairs of interleavings of handlers, corrector and forwarder, together with all trees of calls and all combinations of clock errors.", "anchors": ["correct.go:81-97", "correct.go:435-488", "correct.go:490-549", "main.go:MainWithRouting", "handlers.go", "datadog/converter.go"]}
{"id": "C118", "title": "What becomes of spans is decided by their ids", "statement": "When and why traces leave ErrorCorrectSpans, and as which trees, depends on the ids of the spans, parents and traces and on the clock of the program only, never on starts, durations, recorded times, names, services or tags. Two runs that receive spans with the same ids at the same times have the same record apart from these: the same traces are emitted, dropped or blacklisted at the same moments for the same reasons, and emitted traces have the same spans, parents and order, also where spans are merged or a root is injected. In any two runs, a trace of which the same ids arrived in the same order is not emitted in the one and given up for want of a root in the other, and if emitted in both it is the same tree; so it is in executions of the whole program, as long as the trace arrives without long breaks.", "quantifier": "all pairs of runs and of executions of the whole program, all contents of the spans", "why_tests_cant": "Compares all pairs of runs with arbitrary span contents.", "anchors": ["correct.go:81-97", "correct.go:132-156", "correct.go:200-306", "correct.go:308-340", "correct.go:435-488", "correct.go:490-549"]}
{"id": "C119", "title": "Names do not reach the targets", "statement": "Identifiers are names for the whole program, also between executions that have nothing else in common. In any two runs of ErrorCorrectSpans, if the spans of a trace arrive in the second under other identifiers (any one-to-one renaming of span, parent and trace ids that keeps 0), in the same order, then a trace emitted in the first is not given up for want of a root in the second, and if emitted there it has the same spans with the same starts, durations, names, services, tags and recorded times under the other identifiers, including an injected root; only the order of the spans in the trace may differ. So it is in executions of the whole program with whatever other requests, schedules, capacities and converters, as long as the trace arrives without long breaks, and every target gets the same spans under the other identifiers if the converter does not look at them.", "quantifier": "all pairs of runs and of executions of the whole program, all one-to-one renamings of identifiers", "why_tests_cant": "Compares all pairs of executions under all renamings.", "anchors": ["correct.go:81-97", "correct.go:132-156", "correct.go:200-306", "correct.go:308-340", "correct.go:435-488", "correct.go:490-549", "main.go:forwardSpansToChannels"]}
{"id": "C120", "title": "When a trace happened does not matter", "statement": "Only differences of times count, also between executions that have nothing else in common. In any two runs of ErrorCorrectSpans, if the spans of a trace arrive in the second with all their times (start and recorded send/receive times) moved by the same amount, forward or back, in the same order, then a trace emitted in the first is not given up for want of a root in the second, and if emitted there it has the same spans with the same durations and all times moved by that amount, including an injected root and corrected clock skew. So it is in executions of the whole program with whatever other requests, schedules, capacities and converters, as long as the trace arrives without long breaks and all its times stay, corrections included, between 2020 and the 22nd century; every target then gets the moved spans, if the converter does not look at the time.", "quantifier": "all pairs of runs and of executions of the whole program, all amounts by which times are moved", "why_tests_cant": "Compares all pairs of executions for all traces and all amounts.", "anchors": ["correct.go:81-97", "correct.go:200-306", "correct.go:308-340", "correct.go:435-488", "correct.go:490-549", "main.go:forwardSpansToChannels"]}
{"id": "C121", "title": "What is lost does no harm elsewhere", "statement": "If some reports of a trace never arrive, together with everything below them, the rest of the trace comes out exactly as it would have: take any two runs of ErrorCorrectSpans in which the same spans are received for a trace, in the same order, except that in the second some spans and all spans below them are missing. If the trace is emitted in the first, the root is not among the missing spans and, where the root had to be injected, none of the spans directly below it is, then the second does not give the trace up for want of a root, and if it emits it, then exactly the other spans with the same names, parents, tags, starts and durations, corrected clock skew included. So it is in executions of the whole program with whatever other requests, schedules and capacities, as long as the trace arrives without long breaks, and every target gets these spans. Both conditions are needed: when a report in the middle is lost but not what is below it the whole trace may be given up, and when a span directly below an injected root is lost the others may come out otherwise.", "quantifier": "all pairs of runs and of executions of the whole program, all sets of missing spans", "why_tests_cant": "Compares all pairs of executions for all traces and all sets of lost spans.", "anchors": ["correct.go:81-97", "correct.go:200-306", "correct.go:308-340", "correct.go:435-488", "correct.go:490-549", "main.go:forwardSpansToChannels"]}
{"id": "C122", "title": "Where there is nothing to correct, nothing is changed", "statement": "If the clocks of all hosts of a trace agree - wherever all four times of a request are known, from one report or several, the middle of the request is the same for the client as for the server - then correcting leaves the trace alone: in every run of ErrorCorrectSpans in which the trace is emitted, each span that only one host reported (once or repeatedly), that starts in 2020 or later and, if it has all four times itself, starts and lasts as the client says, is emitted exactly as it was received, wherever it is in the trace, whether a root was injected or not, and no other span is emitted under its id. A request of which client and server each report their half (in any order, any number of times) comes out, unless it or a span above it is its own ancestor, with start and duration as the client says. The first holds too in executions of the whole program in which the trace arrives without long breaks, and every target then gets what the converter makes of exactly this span. Where clocks do not agree spans are changed.", "quantifier": "all runs and all executions of the whole program, all traces and all spans in them", "why_tests_cant": "All tree shapes, positions and ways of spreading the times over reports; a test sees few of them.", "anchors": ["correct.go:81-97", "correct.go:200-306", "correct.go:490-549", "main.go:forwardSpansToChannels"]}
{"id": "C123", "title": "What comes late", "statement": "Spans that arrive after their trace was emitted are held and decided upon as a trace of their own. In every run of ErrorCorrectSpans: if only one span (reported once or repeatedly) came since the trace last left, it is never given up for want of a root, whatever parent it names: it leaves alone, with everything as received (start and duration as the client says if all four times are known, otherwise unchanged), or as too old or under overload. When it leaves alone, every target of the program gets it, as the converter leaves it. If several spans came, each reported by one host and all naming the same parent, which is not among them, and none having the id of the trace, they leave together and unchanged with exactly one span more, which has the id of that parent, the trace as its parent, the name fake-root, and lasts from their first start to their last end; again unless they are too old, too many or dropped under overload. Spans that name different parents that already left are given up together, as a run shows.", "quantifier": "all runs of the corrector, all spans that arrive between two departures of a trace", "why_tests_cant": "All histories before and all interleavings with other traces.", "anchors": ["correct.go:81-97", "correct.go:200-306", "correct.go:308-340", "correct.go:435-488"]}
