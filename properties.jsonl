{"id": "C01", "title": "Frame header round trip", "statement": "For every stream id below 2^31, frame type below 64 and flag word below 1024, the 6 header bytes produced for them read back as exactly the same stream id, type and flags; distinct headers have distinct bytes. For a stream id with the top bit set the top bit (and only it) is lost.", "quantifier": "all stream ids (uint32), all 6-bit types, all 10-bit flag words", "why_tests_cant": "2^47 combinations; a test can only sample the packing of type and flags into one 16-bit word.", "anchors": ["go/internal/frames/frame_header.go: NewFrameHeader, ResetFrameHeader, ParseFrameHeader, FrameHeader.StreamID, FrameHeader.Type, FrameHeader.Flag", "go/internal/frames/types.go: FrameFlag.Check"]}
{"id": "C02", "title": "Cancel, RequestN and Error frames survive the wire", "statement": "Encoding any Cancel, RequestN or Error frame (stream id < 2^31, any 32-bit credit/code, any message bytes) and decoding the bytes gives back the same frame.", "quantifier": "all stream ids, all 32-bit numbers, all message byte strings", "why_tests_cant": "The value space is unbounded (messages of any length).", "anchors": ["go/internal/frames/cancel.go: Cancel.Encode/Decode", "go/internal/frames/request_n.go: RequestN.Encode/Decode", "go/internal/frames/error.go: Error.Encode/Decode"]}
{"id": "C03", "title": "Payload frames survive the wire", "statement": "Encoding any Payload frame and decoding the bytes gives back the same metadata, data, next, complete and follows marks, for every metadata shorter than 2^24 bytes and every data; for metadata of 2^24 bytes or more the decoded frame differs from the one sent.", "quantifier": "all stream ids, all metadata and data byte strings, all 8 flag combinations", "why_tests_cant": "Unbounded byte strings, and the failure needs a 16 MiB metadata.", "anchors": ["go/internal/frames/payload.go: Payload.Encode, Payload.Decode"]}
{"id": "C04", "title": "Request frames survive the wire", "statement": "Encoding any of the four request frames and decoding the bytes gives back the same type, stream id, metadata and data, the same initial credit for stream/channel requests and the same complete mark for channel requests; the 'more fragments follow' mark is never put on the wire, so a request frame round-trips fully if and only if it does not carry that mark (and its defaulted fields have the default value).", "quantifier": "all four request types, all stream ids, all credits, all metadata shorter than 2^24, all data, all flag values", "why_tests_cant": "Unbounded byte strings; the lost mark only matters for requests bigger than a frame.", "anchors": ["go/internal/frames/request_payload.go: RequestPayload.Encode, RequestPayload.Decode"]}
{"id": "C05", "title": "Announced frame size is the written size", "statement": "For every frame whose metadata plus data stay below 2^32-13 bytes, a buffer of the announced size is filled completely by encoding: no byte is left unwritten, none is written past the end, and the decoded body length equals the announced size minus the header.", "quantifier": "all frame kinds, all field values", "why_tests_cant": "Unbounded byte strings; off-by-some sizes only show for particular flag/metadata combinations.", "anchors": ["go/internal/frames/*.go: Size, Encode"]}
{"id": "C06", "title": "Payload fragmentation loses nothing", "statement": "Splitting any Payload frame for any maximum frame size of at least 10 bytes yields fragments whose concatenated metadata and data equal the original, each fragment fits the maximum, all but the last carry 'follows' and the last does not, and next/complete appear only on the last fragment with the original values; a frame that already fits is not split.", "quantifier": "all payloads, all maximum sizes >= 10", "why_tests_cant": "The loop has a different number of iterations for every payload and maximum; boundary cases sit at each multiple of the frame size.", "anchors": ["go/internal/frames/payload.go: Payload.Fragment", "go/internal/frames/util.go: splitPayloads"]}
{"id": "C07", "title": "Fragmentation terminates exactly when a fragment can carry a byte", "statement": "Splitting terminates for every payload when the maximum frame size is at least 10 (7 without metadata); with a maximum of exactly 9 and non-empty metadata, or exactly 6 and only data, it never terminates.", "quantifier": "all payloads, all maximum frame sizes", "why_tests_cant": "Non-termination cannot be observed by a terminating test, termination for all inputs not either.", "anchors": ["go/internal/frames/util.go: splitPayloads"]}
{"id": "C08", "title": "Request fragmentation reassembles to the request", "statement": "Splitting a request whose metadata does not fit the first frame yields fragments that reassemble to the original metadata and data and respect the size limit; a request with non-empty metadata that fits the first frame reassembles to a request with the metadata repeated twice, so the claim holds exactly when the metadata is empty or overflows the first frame.", "quantifier": "all request kinds, payloads and maximum frame sizes >= 14", "why_tests_cant": "Unbounded payloads; behaviour switches on a comparison between metadata length and frame size.", "anchors": ["go/internal/frames/request_payload.go: RequestPayload.Fragment", "go/internal/frames/util.go: splitPayloads"]}
{"id": "C09", "title": "24-bit lengths", "statement": "A number is accepted as a 24-bit length iff it is at most 16777215, and then it is read back unchanged from its three bytes; bigger numbers are reported as an error (or a panic in the must variant) and nothing is written.", "quantifier": "all uint32 numbers", "why_tests_cant": "2^32 inputs.", "anchors": ["go/internal/u24/u24.go: NewUint24, MustNewUint24, WriteUint24, Uint24.AsInt, ReadUint24ToInt, NewUint24Bytes"]}
{"id": "C10", "title": "Stream ids are unique, non-zero and split by parity", "statement": "Along any sequence of up to 2^30-1 requests a client is handed pairwise different odd ids and a server pairwise different even non-zero ids, so client and server ids never collide; the first-loop mark is true exactly during the first cycle. The 2^30-th server id is 0, which the protocol reserves.", "quantifier": "all lengths of call histories, all interleavings of callers (the counter is atomic)", "why_tests_cant": "The wrap-around happens after a billion calls.", "anchors": ["go/internal/socket/stream_id.go: clientStreamIDs.Next, serverStreamIDs.Next"]}
{"id": "C11", "title": "The unbounded queue is a FIFO under every schedule", "statement": "For every interleaving of producers, the consumer and disposal, the values received by the consumer are a prefix of the accepted values in acceptance order; nothing is lost or duplicated; once disposed no value is accepted, values accepted before disposal can still be received, and the channel is closed only when everything accepted has been delivered.", "quantifier": "all schedules of Put, receive/Load and Dispose of any length", "why_tests_cant": "Infinitely many interleavings.", "anchors": ["go/internal/buffer/unbounded.go: Unbounded.Put, Load, Get, Dispose"]}
{"id": "C12", "title": "The stream registry behaves as a map", "statement": "After any sequence of registrations and removals a lookup finds the stream registered under an id and not removed since, and nothing else. The code violates this: a removed stream that was the oldest registration is still found; among the histories that never register an id in use, those on which every lookup agrees with a map are exactly those that never remove the stream registered first.", "quantifier": "all histories of Add/Remove/Get over all ids", "why_tests_cant": "Unbounded histories; the defect depends on the position of the removed entry.", "anchors": ["go/proxy/lookup.go: Lookup.Add, Get, Remove"]}
{"id": "C13", "title": "Operation lists round-trip", "statement": "Encoding an operation list and decoding the bytes gives the same list exactly when all namespaces and operation names are at most 65535 bytes (total below 4 GiB); different lists have different bytes; reserved fields of up to 65533 bytes and trailing data are ignored.", "quantifier": "all operation tables (any number of entries below 2^32, any names up to 65535 bytes)", "why_tests_cant": "Unbounded lists of unbounded names.", "anchors": ["go/operations/operatons.go: Table.ToBytes, FromBytes"]}
{"id": "C14", "title": "Operation list parsing rejects foreign data", "statement": "Parsing returns an error exactly when the first four bytes are not the magic number or the version is not 1, and returns a list exactly when the bytes hold its entries one after the other; everything else (truncated input) panics.", "quantifier": "all byte strings", "why_tests_cant": "All byte strings.", "anchors": ["go/operations/operatons.go: FromBytes"]}
{"id": "C15", "title": "Port messages round-trip", "statement": "Encoding a port message and decoding it gives back the port name and the data for every port name up to 65535 bytes; because the next and complete marks share one bit, a receiver can never tell them apart, so the message comes back unchanged exactly when the name fits and the two marks agree. Decoding anything that is not a port message panics.", "quantifier": "all port names, data and marks; all byte strings for decoding", "why_tests_cant": "Unbounded strings.", "anchors": ["go/invoke/portio.go: PortIO.Encode, PortIO.Decode"]}
{"id": "C16", "title": "MessagePack scalars round-trip at every width", "statement": "For every value of every integer width, bool, float bit pattern, string and byte string shorter than 2^32, writing it and reading it with the reader of the same type returns the same value and consumes exactly the written bytes, whatever follows in the buffer.", "quantifier": "all values of int8..int64, uint8..uint64, bool, float32/64 bit patterns, strings, byte strings", "why_tests_cant": "2^64 values times formats; strings of unbounded length.", "anchors": ["go/msgpack/encoder.go: Write*", "go/msgpack/decoder.go: Read*"]}
{"id": "C17", "title": "MessagePack integers are encoded in the canonical shortest form", "statement": "The number of bytes written for an integer is the minimum among the formats of its signedness able to hold it, and numerically equal values written through writers of different widths yield identical bytes. Signed and unsigned writers yield the same bytes exactly below 128: unsigned readers take what signed writers wrote, signed readers reject what unsigned writers wrote for every number from 128 on.", "quantifier": "all signed and unsigned integers", "why_tests_cant": "2^64 values.", "anchors": ["go/msgpack/encoder.go: WriteInt64, WriteUint64"]}
{"id": "C18", "title": "The size pass predicts the encode pass", "statement": "For every sequence of write operations the size computed by the sizing pass equals the number of bytes the encoding pass writes, so the sized buffer is filled exactly and encoding never overruns; the only exceptions are byte strings of exactly 255 bytes (sized one byte too many) and dynamic values holding a time (sized but not written).", "quantifier": "all sequences of write operations with all arguments", "why_tests_cant": "Unbounded sequences; the exception is a single length.", "anchors": ["go/msgpack/sizer.go: Sizer.*", "go/msgpack/encoder.go: Encoder.*"]}
{"id": "C19", "title": "Numeric reads never silently truncate", "statement": "Reading an integer at a given width either returns exactly the number encoded in the bytes (advancing exactly past it) or an error; it errors exactly when the encoded number does not fit the requested width or the bytes are not an accepted integer format (signed readers: the signed formats only); it never panics.", "quantifier": "all byte strings, all eight integer readers", "why_tests_cant": "All inputs.", "anchors": ["go/msgpack/decoder.go: ReadInt8..ReadUint64"]}
{"id": "C20", "title": "Decoding hostile bytes never runs off the buffer", "statement": "For every byte string without a 4-byte length near 2^32 (and, for dynamic reads, without maps) every sequence of reads returns values or errors, the read position only moves forward and never passes the end of the buffer; after the first out-of-range read all further reads fail. A length field reaching 2^32 minus the current position bypasses the bounds check: a read panics, or Skip recurses for ever; a dynamic read of a map with an unhashable key panics.", "quantifier": "all byte strings, all readers, all sequences of reads", "why_tests_cant": "All inputs of any length.", "anchors": ["go/msgpack/data_reader.go: checkBufferSize, GetBytes, Discard", "go/msgpack/decoder.go"]}
{"id": "C21", "title": "Skipping skips exactly one value", "statement": "For every encoded value built from nil, bools, numbers, strings, byte strings, arrays and maps of any depth, Skip followed by reading continues at the first byte after the value, whatever formats the peer chose. Extensions are the exception: those with an announced length (12-byte times included) make it fail, one-byte ones are left half unread; and a truncated number is skipped without error.", "quantifier": "all nested values of any depth and size, any following bytes", "why_tests_cant": "Unbounded nesting.", "anchors": ["go/msgpack/decoder.go: Skip, getSize"]}
{"id": "C22", "title": "Dynamic values round-trip", "statement": "Every dynamic value built from bools, integers, floats, strings, byte strings, arrays and maps without nil or time inside round-trips through WriteAny/ReadAny and AnyToBytes to an equal value (integers in the type the decoder picks); a nil inside an array or map shifts all following elements because it is written twice, a time is not written at all.", "quantifier": "all nested values of any depth and size", "why_tests_cant": "Unbounded nesting.", "anchors": ["go/msgpack/encoder.go: WriteAny", "go/msgpack/decoder.go: ReadAny"]}
{"id": "C23", "title": "Timestamps round-trip", "statement": "Every instant (any int64 second count, any nanosecond below 10^9) written as a MessagePack timestamp is read back as the same instant, in 4, 8 or 12 payload bytes chosen by magnitude.", "quantifier": "all (sec, nsec) pairs", "why_tests_cant": "2^64 * 10^9 values, three encodings with boundaries.", "anchors": ["go/msgpack/encoder.go: WriteTime", "go/msgpack/decoder.go: ReadTime"]}
{"id": "C24", "title": "Struct codecs tolerate unknown fields", "statement": "A decoder that reads a map of named fields and skips unknown names recovers every known field from any encoding that contains the known fields in any order, interleaved with arbitrary unknown fields holding arbitrary nested values.", "quantifier": "all field orders, all unknown names and values", "why_tests_cant": "Unbounded unknown values.", "anchors": ["go/msgpack/decoder.go: ReadMapSize, ReadString, Skip", "go/msgpack/msgpack_test.go: Required.Decode"]}
{"id": "C25", "title": "Typed transforms are mutually inverse", "statement": "For each typed transform (string, bool, ints, floats, bytes, records, lists of records; times up to their text form) decode(encode(v)) = v for every v; no two values share an encoding. Decoding a list reports no error for damaged input.", "quantifier": "all values of each type", "why_tests_cant": "Unbounded value space.", "anchors": ["go/transform/transform.go: String, Bool, Int*, Uint*, Float*, Bytes, Time, CodecEncode, CodecDecode, SliceEncode, SliceDecode", "go/msgpack/codec.go: ToBytes, AnyToBytes"]}
{"id": "C26", "title": "A mono delivers at most one outcome", "statement": "On one thread, for every sequence of Success, Error, Cancel, Notify, Get and Subscribe calls made from sources, callbacks or outside, each subscription sees exactly the callbacks of the first ending call, once and in order; later calls have no effect; registered callbacks run exactly once with the signal that won. A mapped mono delivers the transformed value or one error. With two threads, with two subscriptions, and for the signal given to callbacks registered during the end, the claims fail.", "quantifier": "all call histories of any length, with any number of registered callbacks", "why_tests_cant": "Unbounded histories.", "anchors": ["go/rx/mono/mono.go: subscriber"]}
{"id": "C27", "title": "A mono processor replays its outcome", "statement": "An outcome produced before the first subscription is delivered exactly once to every subscriber (the last value, or else the last error); otherwise a subscriber receives the first outcome produced between its subscription and the next one. A subscriber that comes later than that receives nothing.", "quantifier": "all histories of Success/Error and Subscribe", "why_tests_cant": "Unbounded histories.", "anchors": ["go/rx/mono/processor.go"]}
{"id": "C28", "title": "A flux delivers no items after completion", "statement": "On one thread, for every sequence of Next/Complete/Error/Request/Cancel/Close calls, also from inside callbacks, the callbacks see exactly what the calls up to the first closing one deliver, in order: items, then at most one end. With two threads an item can follow the end. A mapped flux keeps to this exactly when nothing follows a failed transformation.", "quantifier": "all call histories of any length", "why_tests_cant": "Unbounded histories.", "anchors": ["go/rx/flux/flux.go: subscriber, mapper"]}
{"id": "C29", "title": "Finally runs exactly once per flux subscription", "statement": "Finally runs once if the source ended the subscription and once for every Cancel; so exactly once iff the source ended it and nobody cancelled, or exactly one Cancel came first. Block returns exactly then. Callbacks registered with Notify run exactly once if the source ended the subscription, and not at all if it was cancelled before.", "quantifier": "all call histories", "why_tests_cant": "Unbounded histories.", "anchors": ["go/rx/flux/flux.go: subscriber.Complete, Error, Cancel"]}
{"id": "C30", "title": "A slice source respects demand", "statement": "For every sequence of positive requests a slice flux has emitted exactly min(total requested, length) items, the emitted items are that prefix of the slice in order, and completion is signalled exactly once, when the last item is emitted (or at the first request if the slice is empty).", "quantifier": "all slices, all request sequences", "why_tests_cant": "Unbounded slices and request histories.", "anchors": ["go/rx/flux/slice.go: FromSlice", "go/rx/flux/response.go: SliceResponse"]}
{"id": "C31", "title": "Flow steps run in order", "statement": "As long as no step's group of awaited operations is complete before the flow has finished registering with it, the steps of a flow run in the listed order, each at most once, and all of them if every step returns a non-empty group that completes; a step starts only when its predecessor returned a non-empty group all of whose operations have completed; nothing runs after an error or after a step that ended the flow, at most one step runs after End is called between steps, and taking a step off the list never panics. Without that condition a step can be run any number of times, a step can be skipped, and a one-step flow can panic.", "quantifier": "all step lists, all completion orders of awaited operations", "why_tests_cant": "All schedules.", "anchors": ["go/rx/flow/flow.go: next, Steps"]}
{"id": "C32", "title": "Operation indices are stable and unambiguous", "statement": "Importing the same namespace and operation twice yields the same index; different pairs yield different indices; indices are assigned densely from zero in order of first import, independently for each interaction kind.", "quantifier": "all import histories", "why_tests_cant": "Unbounded histories.", "anchors": ["go/invoke/handlers.go: Import*, Export*, Get*Handler"]}
{"id": "C33", "title": "Exported handlers are found by the advertised index", "statement": "After any history of exports, looking up the index advertised in the operation list yields the handler registered under that name; an index never advertised yields no handler.", "quantifier": "all export histories, all indices", "why_tests_cant": "Unbounded histories.", "anchors": ["go/invoke/handlers.go: Export*, Get*Handler, GetOperationsTable"]}
{"id": "C34", "title": "Instance handles resolve to their instance", "statement": "For any history of Put, Get and Remove and any allocator that never reuses the address of an object still held: a handle resolves to the instance it was issued for until it is removed; a removed handle does not resolve until its address is issued again; a number never issued does not resolve. Not guaranteed: that a stale handle stays invalid, that handles of zero-size instances are independent, that a guest with 32-bit pointers looks at the upper half of a handle.", "quantifier": "all histories", "why_tests_cant": "Unbounded histories.", "anchors": ["go/invoke/instances.go: LiveInstances"]}
{"id": "C35", "title": "Batched frames are recovered in order", "statement": "A guest that is handed a buffer of length-prefixed frames decodes exactly the frames that were put in, in order, for any number and size of frames that fit 24-bit lengths, whatever is behind them; a frame sent by a guest that fits the buffer reaches the host exactly. Violated: a batch handed to the host yields each frame with all bytes behind it, and a guest's frame larger than the buffer reaches the host with foreign memory in place of its end.", "quantifier": "all batches of frames", "why_tests_cant": "Unbounded batches.", "anchors": ["go/transport/wasmrs/guest/guest.go: GuestSend", "go/transport/wasmrs/host/instance.go: hostSend, sendLoop"]}
{"id": "C36", "title": "The host send loop neither reorders, drops nor overflows", "statement": "For any sequence of queued frames each no larger than the guest buffer minus 3, the batches written to the guest buffer fit it, and concatenated contain exactly the queued frames in order, whatever grouping the scheduler causes; nothing stays in the buffer once the loop waits. A larger frame is never delivered and makes host or guest panic; closing the channel panics exactly if the loop has just received a frame.", "quantifier": "all frame sequences, all arrival timings", "why_tests_cant": "All schedules.", "anchors": ["go/transport/wasmrs/host/instance.go: sendLoop"]}
{"id": "C37", "title": "TCP framing is independent of chunking", "statement": "Whatever way TCP cuts the byte stream into chunks, the frames delivered are exactly those sent, in order; a partial trailing frame delivers nothing. If the connection breaks after some bytes, exactly the frames whose send reported success are read. Violated: frames whose last bytes arrive together with the error or end of the connection are lost, and two goroutines sending at once can make the stream unreadable.", "quantifier": "all frame sequences, all chunkings", "why_tests_cant": "Exponentially many chunkings.", "anchors": ["go/transport/rsocket/decoder.go: doSplit", "go/transport/rsocket/tcp_conn.go: Read, Write"]}
{"id": "C38", "title": "A frame delivered from TCP keeps its bytes", "statement": "The bytes of a frame handed to a handler do not change while it is queued. It holds just after reading, and as long as no more than 4096 bytes arrive. Violated beyond: queued frames alias the read buffer, which later reads overwrite.", "quantifier": "all frame sequences and schedules of reader and dispatcher", "why_tests_cant": "Depends on the schedule.", "anchors": ["go/transport/rsocket/tcp_conn.go: Read", "go/transport/rsocket/transport.go: Start"]}
{"id": "C39", "title": "Every request gets an answer or an error", "statement": "For every request frame with a response, the dispatcher either runs exactly one handler - the one registered under the index in the metadata - or replies with exactly one Error frame carrying the same stream id: metadata shorter than 8 bytes and unknown indices are answered by an error.", "quantifier": "all frames, all handler tables", "why_tests_cant": "All inputs.", "anchors": ["go/handler/handler.go: HandleFrame, handleRequestResponse, handleRequestStream, handleRequestChannel, handleRequestFNF"]}
{"id": "C40", "title": "A responder never sends after it has completed", "statement": "For a handler that returns a flux made by flux.Create: with one thread the payload and error frames sent on its stream or channel are exactly those of the source's calls up to the first closing one, so payload* followed by at most one complete or error frame and nothing after it; with any threads that form is kept as long as the source's own calls do not overlap (it is not if they do, nor by a mapped flux whose transform fails). The other frames are one RequestN per request and one Cancel per cancellation of the channel's input. The handler's flux is asked for exactly initialN and, once each, the numbers of the RequestN frames handed to its stream. A handler returning a slice never sends more payloads than were requested; a source of its own making may, whatever the credit. A RequestN frame handled before Subscribe has returned panics; a Cancel frame does not stop a channel's answer and panics on a stream.", "quantifier": "all histories of handler signals and incoming frames", "why_tests_cant": "Unbounded histories.", "anchors": ["go/handler/handler.go: handleRequestStream, requestStream", "go/proxy/flux.go: streamFlux"]}
{"id": "C41", "title": "A request/response call completes with the handler's outcome", "statement": "Two peers (any of the three dispatchers on each side) calling each other, composing caller, stream ids, registries, frame codec, dispatcher and processor: in every execution in which each mono is subscribed at most once, payloads fit in frames and no side makes more than 2^30 calls, the callbacks of a call see at most one thing, the outcome of the one run of the handler the call names with the call's own payload, or the error saying there is none; no frame panics a dispatcher; every way of going on ends after boundedly many steps, and then each subscribed call has its outcome. A mono subscribed twice runs its handler twice and never calls the first callbacks.", "quantifier": "all payloads, handlers, outcomes, numbers and interleavings of concurrent calls in both directions", "why_tests_cant": "All schedules and payloads.", "anchors": ["go/handler/caller.go: RequestResponse", "go/handler/handler.go: HandleFrame", "go/proxy/mono.go"]}
{"id": "C42", "title": "Requester credit accounting", "statement": "The frames a requester sends for a stream are exactly: the request frame for the first request that reaches the source, carrying it as initial credit, one RequestN frame for each later one, none once the stream is marked complete, and one Cancel frame per cancellation. With one thread the requests that reach the source are those the subscriber made, in order (plus automatic requests of 2147483647 if it makes none itself), so the total on the wire is the total requested, each request modulo 2^32; with goroutines they are a permutation. Requests during the delivery of the completion and Cancels after it are still sent.", "quantifier": "all request histories", "why_tests_cant": "Unbounded histories.", "anchors": ["go/proxy/flux.go: streamFlux.Request"]}
{"id": "C43", "title": "Linking invariant of the mesh", "statement": "After any sequence of module loads, no import is left unlinked while an export of that name exists, every linked import points to an export of exactly that name, and the outcome does not depend on the load order when every name is exported once. With several exports it is determined which one an import gets; a link never changes afterwards, so after reloading a module imports still lead to the old instance while requests through the mesh go to the new one, and the kinds of operations are not compared. A linked request has exactly the first four metadata bytes replaced by the destination's index.", "quantifier": "all load histories", "why_tests_cant": "Unbounded histories, factorially many orders.", "anchors": ["go/transport/wasmrs/mesh/mesh.go: linkOperations, linkOperation"]}
{"id": "C44", "title": "Custom sections are extracted exactly", "statement": "For every well-formed module, the requested custom sections are returned with exactly their contents, the last of a name winning, and other sections are ignored; everything that is not a well-formed module (sizes, names, UTF-8, LEB128) yields an error, never a panic. The one exception: a well-formed module that ends with an empty section asked for is an error too.", "quantifier": "all modules", "why_tests_cant": "Unbounded inputs.", "anchors": ["go/transport/wasmrs/customsections/customsections.go: Read"]}
{"id": "C45", "title": "UUID text round trip", "statement": "Parsing returns a UUID exactly for the four notations of it (hyphenated, urn:uuid:, braced, plain hex; digits and prefix in either case) and otherwise an error determined by length, prefix and digits, never a panic; String and URN write notations that parse back; UnmarshalText leaves its receiver alone on error. Of the braces only the places are checked.", "quantifier": "all 2^128 UUIDs, all strings", "why_tests_cant": "2^128 values.", "anchors": ["go/types/uuid/uuid.go: Parse, ParseBytes, String, URN", "go/types/uuid/marshal.go"]}
{"id": "C46", "title": "Random UUIDs are well-formed and lossless on the other bits", "statement": "For every random input the generated UUID has version 4 and RFC4122 variant, and the remaining 122 bits are exactly the random bits, so equal UUIDs imply equal random bits; with any interleaving of pooled and unpooled generation, switching and failing reads, the UUIDs are made of disjoint parts of the random stream.", "quantifier": "all random streams, any number of UUIDs drawn", "why_tests_cant": "All streams.", "anchors": ["go/types/uuid/version4.go: NewRandomFromReader, newRandomFromPool"]}
{"id": "C47", "title": "UUID clock readings are never repeated back to back", "statement": "Any 16384 consecutive clock readings are pairwise different (time, sequence) pairs, whatever the wall clock does and whatever was called before (16385 is too many); the sequence always carries the variant bits; a reading converts back to the wall clock cut to 100 ns, for every int64 nanosecond count; time, sequence, version and variant fields of a UUID are read back.", "quantifier": "all wall clock behaviours", "why_tests_cant": "All clocks.", "anchors": ["go/types/uuid/time.go: getTime, setClockSequence, UnixTime, UUID.Time, UUID.ClockSequence"]}
{"id": "C48", "title": "Linked handlers are found under the index they were set for", "statement": "After any sequence of Set*Handler calls with indices below 2^32-1, looking an index up yields the handler set last for it and none for an index never set; no call panics. The index 2^32-1 always panics.", "quantifier": "all sequences of registrations, all indices", "why_tests_cant": "Unbounded sequences; the failing index is one in 2^32.", "anchors": ["go/transport/wasmrs/host/instance.go: SetRequestResponseHandler and alike, getRequestResponseHandler and alike", "go/handler/handler.go: SetRequestResponseHandler and alike"]}
{"id": "C49", "title": "Frames reach only the stream they name", "statement": "A frame that is not a request makes exactly the calls it stands for (the payload, then completion; the error, then completion; the cancellation as completion; the added credit) on the stream registered under its id, in that order, and on no other stream; it removes exactly that stream if it ends it. A frame for an unknown stream has no effect.", "quantifier": "all registries of streams, all frames, all received bytes", "why_tests_cant": "All registries and frames.", "anchors": ["go/handler/handler.go: HandleFrame", "go/transport/wasmrs/host/instance.go: recvOne", "go/transport/wasmrs/guest/guest.go: GuestSend"]}
{"id": "C50", "title": "Which frames crash a receiver", "statement": "The exact set of received frames or bytes that make a peer, host or guest panic, in every state of its streams: a header cut short, a body cut short for a request or a known stream, and for known streams the frames whose method reaches a nil sink, subscription or processor. In particular a request for a stream followed by its Cancel crashes a peer.", "quantifier": "all received bytes, all registries of streams", "why_tests_cant": "All inputs and states.", "anchors": ["go/handler/handler.go: HandleFrame, requestStream", "go/transport/wasmrs/host/instance.go: recvOne", "go/transport/wasmrs/guest/guest.go: GuestSend", "go/proxy/flux.go", "go/proxy/mono.go"]}
{"id": "C51", "title": "What the MessagePack readers accept", "statement": "Readers of booleans, floats, strings, byte arrays, array sizes and map sizes return a value exactly when one of the byte sequences standing for it is at their position, and then stand behind it: sizes also take nil as 0, byte arrays also take nil and one-byte array heads, strings also take array heads (so an array of small numbers can be read as a string).", "quantifier": "all buffers below 2^31 bytes, all positions", "why_tests_cant": "All inputs; needs the reverse direction (nothing else is accepted).", "anchors": ["go/msgpack/decoder.go: ReadBool, ReadFloat32, ReadFloat64, ReadString, ReadByteArray, ReadArraySize, ReadMapSize"]}
{"id": "C52", "title": "What ReadAny makes of any value", "statement": "For every MessagePack value in any formats ReadAny, in document order, stops with an error at the first extension, panics at the first map key that is a byte string, array or map (after having read the value belonging to it), and otherwise returns the value, in whose maps every key is bound to the entry that came last (NaN keys all kept).", "quantifier": "all values of any depth, with repeated keys", "why_tests_cant": "Unbounded trees.", "anchors": ["go/msgpack/decoder.go: ReadAny, readArray, readMap"]}
{"id": "C53", "title": "Conversions of decoded values", "statement": "Converting between integer types yields the one congruent number of the target type, the value itself exactly when it fits; a read error is passed on. An optional field read through NillableNumeric, NillableBool or NillableString yields its value exactly when one stands at the reader's position and panics in every other case, a nil field included; NillableParse never panics and reads nil as nil.", "quantifier": "all integer types and values, all buffers below 2^31 bytes", "why_tests_cant": "All inputs, and exactly which of them crash.", "anchors": ["go/msgpack/convert/convert.go: Numeric, NillableNumeric, NillableBool, NillableString, NillableParse", "go/msgpack/decoder.go: ReadNillable*"]}
{"id": "C54", "title": "A streaming call brings the subscriber what its handler emits", "statement": "For one call of RequestStream between two peers, at every moment of every execution: the handler named by the metadata has run at most once, with the caller's payload and the credit of the first request; what the caller's subscriber has seen is a beginning of what the handler's source emitted up to its first completion or error, in that order; the responder has got at most the credit the subscriber granted. Once nothing is under way, and without a cancellation, the handler has run and the subscriber has seen all of it. A call that names no handler runs none and ends with one error.", "quantifier": "all executions (any threads, any order of steps, any frames of other streams in between), all payloads below the size limits, all handlers with non-overlapping sink calls", "why_tests_cant": "Unbounded interleavings of two peers and the wire between them.", "anchors": ["go/handler/caller.go: RequestStream", "go/proxy/flux.go", "go/handler/handler.go: HandleFrame, handleRequestStream", "go/transport/wasmrs/host/instance.go", "go/transport/wasmrs/guest/guest.go"]}
{"id": "C55", "title": "Every way of asking a mono gives its one outcome, and Block returns it", "statement": "For monos built in any nesting from Just, Error, Create and Map, the outcome is the first result of the innermost mono passed through the transforms up to the first error. Subscribe runs exactly one of OnSuccess and OnError with it, once; Block, before or after other subscriptions, and Get, after completion, return it; Block waits for ever exactly if there is none and never closes its channel twice. Block on a flux, plain or mapped, returns exactly when one end has happened - the source's, a Cancel, or a value its transform fails on - and returns that end's error; with two ends it panics.", "quantifier": "all monos of any depth with any transforms and any calls on their subscriptions; all fluxes and all executions of one thread with re-entrant callbacks", "why_tests_cant": "Unbounded nesting, all transforms, all executions.", "anchors": ["go/rx/mono/mono.go: Just, Error, Create, Map", "go/rx/mono/mono_host.go: Block", "go/rx/flux/flux_host.go: Block"]}
{"id": "C56", "title": "A channel brings each side what the other emits", "statement": "For one call of RequestChannel between two peers, at every moment of every execution: the handler named by the metadata has run at most once, with the caller's payload and the credit of the first request; what the caller's subscriber has seen is a beginning of what the handler's flux emitted up to its first end unless the handler cancelled its input; what the handler has seen of its input is a beginning of what the caller's flux emitted unless the caller cancelled - after such a Cancel of the reverse direction, a beginning of some of the first items and an end. Neither side gets more credit than the other granted. As long as the caller has not cancelled, no item, end or error reaches an input that the handler has not subscribed. Once nothing is under way, and without cancellations, the handler has run once and both have seen all of it. A call that names no handler runs none, ends with one error, and asks nothing of the caller's flux.", "quantifier": "all executions (any threads, any order of steps, any frames of other streams in between), all payloads below the size limits, both fluxes with non-overlapping sink calls, the caller's flux emitting only once asked", "why_tests_cant": "Unbounded interleavings of two peers, two streams of items in opposite directions over one stream id.", "anchors": ["go/handler/caller.go: RequestChannel", "go/proxy/flux.go: Request, Cancel, DoRequest, OnNext, OnComplete, OnError", "go/handler/handler.go: HandleFrame, handleRequestChannel, requestStream", "go/transport/wasmrs/host/instance.go", "go/transport/wasmrs/guest/guest.go"]}
{"id": "C57", "title": "What ReadTime accepts", "statement": "ReadTime returns a time exactly when what comes next is a text the text parser takes, or a timestamp of 4, 8 or 12 bytes and of type -1 or 13 that denotes this time, and it then stands behind that item. The data of a timestamp denotes one time only. Every timestamp a conforming peer writes in the shortest form is read. The head of an extension is written in the shortest form for its length and counted so by the sizer.", "quantifier": "all buffers below 2^31 bytes, all positions, all text parsers", "why_tests_cant": "All inputs, with the reverse direction: nothing else is taken for a time.", "anchors": ["go/msgpack/decoder.go: ReadTime, decodeTime, extHeader, parseExtLen", "go/msgpack/encoder.go: encodeExtLen", "go/msgpack/sizer.go: encodeExtLen"]}
{"id": "C58", "title": "A source is asked for what its subscriber requests", "statement": "For a flux made by Create whose source hands over its functions once and sends items only once asked: at every moment the source has been asked for at most the sum of the Request calls (plus RequestMax for a subscription without OnRequest and NoRequest), and once the library has nothing left to do it has been asked for exactly that, whether the requests came before or after the source's OnSubscribe; for nothing if it never came.", "quantifier": "all executions with any number of threads and re-entrant calls, on the host (requests run in goroutines) and in a guest", "why_tests_cant": "Requests racing with OnSubscribe; unbounded interleavings.", "anchors": ["go/rx/flux/flux.go: Subscribe, OnSubscribe, handleOnSubscribe, Request, Next", "go/rx/flux/flux_host.go: doRequest", "go/rx/flux/flux_webassembly.go: doRequest"]}
{"id": "C59", "title": "The life of a transport", "statement": "A transport's Start hands every frame it reads to the dispatcher, each once and in the order read, and returns (closing the connection) only after all of them have been handled. There is a reason for what it returns: nil after the end of the connection, the error of a failed read, the context's error after cancellation, and a dispatching error only as the error of the first frame whose handling failed. After such a failure at most one more read returns, and if that read gives a frame the failure is reported unless the context is cancelled. On its way out Start takes boundedly many steps and never gets stuck; nothing panics.", "quantifier": "all executions of the reading and the dispatching goroutine, any frames, any failures, any time of cancellation", "why_tests_cant": "Unbounded interleavings of two goroutines over an unbounded queue.", "anchors": ["go/transport/rsocket/transport.go: Start, loopReadBuffer, Close"]}
{"id": "C60", "title": "A fire-and-forget call runs its handler once or is refused once", "statement": "Between two peers that call FireAndForget on each other, at every moment the handlers run on one side are among those named by the other side's calls, each at most once per call, with the caller's data and metadata (without the first eight bytes except in a host); once nothing is under way each call that names a handler has run it exactly once, and each other call has been refused exactly once, with the error text of its reason. Nothing panics or blocks, and what is under way comes to an end. The caller learns of a refusal only as a NotFound error of its dispatcher, in a Peer; a host or guest drops it. No stream stays registered at the caller; at the callee the stream of every run stays registered for ever, except in a host.", "quantifier": "all executions of two peers of any kinds, any number of calls below 2^62, all payloads below the size limits, any order of goroutines", "why_tests_cant": "Unbounded interleavings of two peers and unboundedly many calls.", "anchors": ["go/handler/caller.go: FireAndForget", "go/handler/handler.go: HandleFrame, handleFireAndForget", "go/transport/wasmrs/host/caller.go", "go/transport/wasmrs/host/instance.go: handleFireAndForget", "go/transport/wasmrs/guest/caller.go", "go/transport/wasmrs/guest/guest.go: handleFireAndForget"]}
{"id": "C61", "title": "A generated client returns what the service makes of the arguments", "statement": "For a request/response operation called through a generated client and served through a generated wrapper, at every moment of every execution the client's user has seen nothing, or exactly one thing: the value or error of the service's method on the arguments given; once nothing is under way a subscribed user has seen it. Client and service may have different versions of the request record: fields are matched by name, fields the client lacks have their zero values, fields the service lacks are ignored unless they are times outside 1970-2514. Undecodable arguments end in the decoder's error without asking the service, unknown numbers in not_found. The number an import returned names the handler of that name if the service exports what the client imports in the same order; otherwise it may name another.", "quantifier": "all executions of two peers with any number of calls, all schemas of scalar, nillable and list fields, all records and results below 4 GiB, all services (any mono, any value or error, any transform)", "why_tests_cant": "All schemas, values and interleavings; the end-to-end claim spans codec, caller, dispatcher, wrapper and mono.", "anchors": ["go/example/greeter/greeter.go", "go/transport/wasmrs/example/greeting.go", "go/transport/wasmrs/example/counter.go", "go/transform/transform.go", "go/invoke/handlers.go", "go/handler/caller.go: RequestResponse", "go/handler/handler.go: handleRequestResponse"]}
{"id": "C62", "title": "A TCP server that is told to stop closes its listener and every connection it serves, and Listen returns", "statement": "If user code calls Close only once the listener exists, then after Close, after a cancelled context has been noticed, or after Listen has returned, the listener is closed, no connection is accepted any more, and every connection that was taken on is closed (unless onClose was called for it). A connection that is not served is the last one accepted, caught by the closing. Each served connection is served once, the acceptor is called once for it, and its end closes it. Once accepting, a cancelled context always finds a watcher to close the server, and from there Listen returns within a bounded number of its own steps, none of them blocked; its result has a cause. The registry is exactly the set of connections accepted. Refuted: that every accepted connection is closed when Listen has returned; that Close and cancellation end Listen (not if Close came before the listener: then connections are accepted for ever, neither served nor closed; not while nobody reads the notifier); that ended connections are forgotten.", "quantifier": "all interleavings of Listen, its watcher, user calls to Close, cancellation, ends of connections and onClose, any number of connections", "why_tests_cant": "Races between Accept, Close and the context have no deterministic trigger; leaks of connections and registry entries show only over long histories.", "anchors": ["go/transport/rsocket/tcp_transport.go: Listen", "go/transport/rsocket/tcp_transport.go: Close", "go/transport/rsocket/tcp_transport.go: putTransport", "go/transport/rsocket/tcp_transport.go: removeTransport"]}
{"id": "C63", "title": "A host instance passes frames on in order and comes to rest with all of them delivered, unless its two channels deadlock", "statement": "The frames the guest is called with are those sent, in order and each once; the frames handled are those the guest sent, in order and each once; the channels never hold more than 100. Left alone, an open instance comes within a bounded number of steps to a state where it can go on no more, and such a state is either at rest (everything sent was given to the guest, everything received was handled, nobody waits) or the deadlock in which the guest waits in hostSend for room in recvCh while the handling of a frame waits in SendFrame for room in sendCh. If handling frames never sends from within recvLoop the deadlock cannot occur; otherwise it can (refuted: never stuck), and then it is permanent. Without Close nothing panics; a closed instance ends cleanly exactly if nothing was on its way into a channel or to the guest when it was closed, otherwise it panics.", "quantifier": "all interleavings of sendLoop, recvLoop, the guest, handlers, any number of senders and Close; all frames and buffer layouts", "why_tests_cant": "The deadlock needs more than 200 frames in flight in one guest call; the panics need a particular race with Close.", "anchors": ["go/transport/wasmrs/host/instance.go: SendFrame", "go/transport/wasmrs/host/instance.go: sendLoop", "go/transport/wasmrs/host/instance.go: hostSend", "go/transport/wasmrs/host/instance.go: recvLoop", "go/transport/wasmrs/host/instance.go: Close"]}
{"id": "C64", "title": "A frame received by a host keeps its bytes while it is handled, and not longer", "statement": "Frames a guest sends reach recvOne with the bytes they were sent with, in order, provided slices of earlier frames are written to only while their frame is being handled. A payload handed on from a frame is a part of that frame and reads the same until recvOne returns. After that the buffer goes back to the pool: from then on the payload reads the same, or else it lies in a buffer into which a later frame has been put and reads that frame's bytes. Refuted: that the handler of a request, which runs in its own goroutine, finds the data it was called with (it can read the data of the next request); that requests waiting to be handled are safe from a mesh destination rewriting the metadata of an earlier one.", "quantifier": "all frames, all choices of the buffer pool and of capacities, all interleavings of hostSend, recvLoop, receivers reading and writing their slices, and the collector emptying the pool", "why_tests_cant": "Which buffer the pool returns and when a goroutine reads its payload is not deterministic; tests with one request at a time cannot see it.", "anchors": ["go/transport/wasmrs/host/instance.go: hostSend", "go/transport/wasmrs/host/instance.go: recvLoop", "go/transport/wasmrs/host/instance.go: recvOne", "go/internal/frames/request_payload.go: Decode", "go/internal/frames/payload.go: Decode", "go/transport/wasmrs/mesh/mesh.go: destination.RequestResponse"]}
{"id": "C65", "title": "A request/response call from module to module through the mesh is answered once, by the export of the import's name", "statement": "In a mesh of any number of loaded modules, at every moment of every execution a guest's call has seen nothing, or exactly one thing: not_found or invalid_metadata if its import is not linked, not_found if the module it is linked to cannot run that index, or else the very value or error with which the linked guest's handler concluded, a run with the caller's data and metadata (without its first eight bytes). Each call is passed on at most once, to a call of its own. A call of an import of request/response kind is answered by a handler some module exports under the import's name, or refused if none does, provided the exports of that name are of the same kind; without that another handler answers (refuted). Nothing panics; what is under way comes to an end in a bounded number of moves, unless at rest some move is possible, and at rest every subscribed call has its outcome.", "quantifier": "all executions of any number of modules, any cycles of imports, any number of calls (fewer than 2^30 per instance), all payloads below the size limits, any order of goroutines", "why_tests_cant": "Unbounded interleavings of any number of modules and of calls passed on between them.", "anchors": ["go/transport/wasmrs/mesh/mesh.go: destination.RequestResponse", "go/transport/wasmrs/mesh/mesh.go: Link", "go/transport/wasmrs/host/instance.go: handleRequestResponse", "go/transport/wasmrs/host/caller.go: RequestResponse"]}
{"id": "C66", "title": "A subscriber with OnRequest is asked for more when its demand is used up, and a Cancel reaches the source", "statement": "For a flux made by Create and subscribed to with OnNext and OnRequest: whenever the library has nothing left to do and all items requested have been delivered, OnRequest has been run since, if the source never sends more than it was asked for and requests are positive (refuted for a source that overruns). In one thread OnRequest is run, but for once, only when exactly as many items have been delivered as requested (refuted with several threads); without OnRequest or with NoRequest it is never run. The source's Cancel is run at most once per Cancel call; in one thread exactly once for every Cancel called after the source's OnSubscribe found the subscription open. A Cancel before that never reaches the source (refuted).", "quantifier": "all executions with any number of threads and re-entrant calls, on the host and in a guest; all sequences of calls", "why_tests_cant": "Demand bookkeeping over unbounded re-entrant histories; races between Next and Request.", "anchors": ["go/rx/flux/flux.go: Next", "go/rx/flux/flux.go: handleOnSubscribe", "go/rx/flux/flux.go: Request", "go/rx/flux/flux.go: OnSubscribe", "go/rx/flux/flux.go: Cancel"]}
{"id": "C67", "title": "The instance of a guest knows the guest's buffers and its operations under the guest's own numbers", "statement": "NewInstance on a guest made with the library returns an instance whose buffer addresses are the guest's, whose operation table lists each export under the number that finds its handler in the guest and each import under the number the guest's callers use, and with no frame waiting. Frames the guest sends while it is initialised wait in order if there are at most a hundred; with more NewInstance never returns. For any guest an instance that comes to be has the buffers and the operations announced last. A module without the init or the send function is refused with an error. Refuted: that a module without __wasmrs_op_list_request is refused (the host panics; exactly when is stated), that a guest whose table cannot be read is refused (its instance has no operations).", "quantifier": "all modules: any calls of host functions with any memory contents; for library guests all sequences of registrations (fewer than 2^32, names up to 65535 bytes)", "why_tests_cant": "Depends on what an arbitrary WebAssembly module does while it is initialised.", "anchors": ["go/transport/wasmrs/host/instance.go: NewInstance", "go/transport/wasmrs/host/instance.go: setBuffers", "go/transport/wasmrs/host/instance.go: opList", "go/transport/wasmrs/host/instance.go: hostSend", "go/transport/wasmrs/guest/guest.go: Init", "go/transport/wasmrs/guest/guest.go: OperationList"]}
{"id": "C68", "title": "A request/response call by an imported name reaches a handler registered under that name, from registration to the user's result", "statement": "Any set of modules made with the library, whatever they register, can be booted and loaded into a mesh in any order. In every execution a guest's call made with the number its import of a name returned is answered by a handler that some module registered under exactly this name, run with the caller's data and metadata, and its outcome is that handler's; if no module exports the name it ends with the not-found error; at rest every subscribed call has its outcome. The same holds for requests the application makes through the mesh by name, which get nil exactly for names nobody exports. With generated code on both sides the user sees the result or error of such a service called with the user's arguments. (All exports of the name must be request/response handlers, not nil: see C65.)", "quantifier": "all modules and registration histories (fewer than 2^32 registrations), all executions of the mesh, all services and arguments within the size limits", "why_tests_cant": "Spans the numbering of imports and exports, the published tables, linking and unbounded concurrent executions.", "anchors": ["go/invoke/handlers.go: ImportRequestResponse", "go/invoke/handlers.go: ExportRequestResponse", "go/transport/wasmrs/host/instance.go: NewInstance", "go/transport/wasmrs/mesh/mesh.go: linkOperations", "go/transport/wasmrs/mesh/mesh.go: RequestResponse", "go/transport/wasmrs/mesh/modules/greeting/import.go"]}
{"id": "C69", "title": "The user of a generated streaming client sees the service's items, in order, and their end", "statement": "For an operation that streams, called through a generated client and served through a generated wrapper: whatever the two peers do, the user's callbacks see a beginning of what the service put into its sink - the same values of its type in the same order, then the end or the error - and all of it once nothing is under way, if the user neither cancels nor closes. The service is called at most once, with the arguments the user gave, by name, and zero values for the fields the client does not know. An operation nobody serves ends with one not-found error. If the handler emits payloads of any other making, the user gets those that decode and an error for each that does not; refuted: that the stream ends with such an error. The wrapper sends an error frame and then panics exactly for requests that do not decode; refuted: that a peer may send any request.", "quantifier": "all executions of a stream between two peers (any dispatchers, threads, order of frames, other traffic), all scalar item types and values below 4 GiB, all argument records", "why_tests_cant": "Combines unbounded interleavings of a stream with codecs over all values.", "anchors": ["go/transport/wasmrs/example/counter.go: CountToN", "go/transport/wasmrs/example/counter.go: counterWrapper", "go/rx/flux/flux.go: Map", "go/rx/flux/flux.go: Error", "go/handler/handler.go: handleRequestStream", "go/transform/transform.go: String"]}
{"id": "C70", "title": "A request/response call is answered once whatever other streams share the connection", "statement": "One request/response call between two peers, followed in small steps (the steps of Subscribe, each act of a dispatcher, each goroutine) while both queues carry any frames of other streams, of any kinds and in any order: at every moment its callbacks have seen nothing or exactly one outcome, that of the one handler run made for it (the handler it names, its data and metadata) or the refusal if it names none. As long as something is under way some move is possible, no foreign frame stops a dispatcher, and every move leaves less to do; at rest a subscribed call has its outcome and its stream is no longer registered. Refuted: that this holds if a frame of another origin carries the call's stream id.", "quantifier": "all executions, all payloads below the size limits, all foreign frames, all three dispatchers on either side", "why_tests_cant": "The other traffic is arbitrary and interleaves with every step of the call.", "anchors": ["go/proxy/mono.go: Subscribe", "go/proxy/mono.go: OnNext", "go/handler/handler.go: HandleFrame", "go/handler/handler.go: handleRequestResponse", "go/transport/wasmrs/host/instance.go: recvOne", "go/transport/wasmrs/guest/guest.go: HandleFrame"]}
{"id": "C71", "title": "Both users of a generated channel operation see each other's items, in order, and their ends", "statement": "For an operation with a streamed input and output, called through a generated client and served through a generated wrapper: in every execution the user's callbacks see a beginning of what the service put into its sink, and the service's callbacks on its input a beginning of what the user put into the input flux - the same values in the same order, then the end or the error - and all of it once nothing is under way if neither cancels nor closes; if the other side cancels, a beginning of some of the first calls and an end. The service is called at most once. An operation nobody serves ends with one not-found error and the user's input is not asked for anything. From a peer that was not generated each side gets the items that decode and an error for each that does not; refuted: that a side's flux ends with such an error.", "quantifier": "all executions of a channel between two peers (any dispatchers, threads, order of frames, other traffic), all scalar item types and values below 4 GiB both ways", "why_tests_cant": "Combines unbounded interleavings of two opposite streams with codecs over all values.", "anchors": ["go/transport/wasmrs/example/uppercase.go: Uppercase", "go/transport/wasmrs/example/uppercase.go: uppercaseWrapper", "go/rx/flux/flux.go: Map", "go/handler/handler.go: handleRequestChannel", "go/proxy/flux.go: Request"]}
{"id": "C72", "title": "The subscriber of a flow sees the first thing its steps report", "statement": "Whatever the steps, the awaitables and the subscriber's callbacks do: whenever user code runs, the subscriber of a flow has seen exactly the items reported before the first ending report, then that report - a success, completion or error reported by user code or an error returned by a step - and nothing after it; a cancellation ends it silently. An error both reported and returned is seen once. Success panics for a flux and Next and Complete for a mono, no other call does. The order, waiting and stopping of C31 hold whatever the callbacks do. Refuted: that a flow whose steps are all done ends its subscription; that reporting success stops the steps that follow.", "quantifier": "all executions: any number of steps, any results, any re-entrant calls from steps, awaitables and callbacks", "why_tests_cant": "User code re-enters the flow from every callback; executions are unbounded.", "anchors": ["go/rx/flow/flow.go: Next", "go/rx/flow/flow.go: Complete", "go/rx/flow/flow.go: Success", "go/rx/flow/flow.go: Error", "go/rx/flow/flow.go: Mono", "go/rx/flow/flow.go: Flux", "go/rx/flow/flow.go: next"]}
{"id": "C73", "title": "A streaming call through the mesh brings the caller what the exporting module emits", "statement": "For a streaming call of a guest to an import that is linked to another module's export, in every interleaving of the two guests, the host's goroutines and dispatchers and other traffic: what the caller's subscriber has seen is a prefix of what is owed for the calls made by the source in the exporting guest, and all of it once nothing is under way and the caller has not cancelled; the linked handler runs at most once, with the caller's data and metadata in which only the index is replaced; a link to an index the other guest has no handler for gives the caller that one error; and the demand that reaches the source never exceeds the demand the caller sent, at every hop. Refuted: that the caller can cancel - its host's dispatcher panics and the source is not told.", "quantifier": "all meshes, tables, stream ids, payloads, subscribers and all executions of any length with any number of threads", "why_tests_cant": "Four processes' threads interleave over two streams that share one subscriber object; the number of interleavings is unbounded.", "anchors": ["go/transport/wasmrs/mesh/mesh.go: RequestStream", "go/transport/wasmrs/host/instance.go: handleRequestStream", "go/proxy/flux.go: streamFlux", "go/rx/flux/processor.go: NewProcessor"]}
{"id": "C74", "title": "The example components answer the first marked message of their port and nothing after it", "statement": "WordFrequency.Process emits every word that is not ignored once, lower-cased, with the number of its occurrences, in descending order. The generated channel handlers, in the guest build, for every sequence of messages, input ends and cancellations: until the first marked message for the component's port nothing is sent; that message is answered with the value computed from it (for WordFrequency: its count 1 and the end of the counts) and the end, or with the error of decoding it; nothing follows. If the input completes before, WordFrequency sends the end and the others nothing; if it fails before, nothing. The guest crashes exactly when the metadata of a message is too short for what it announces or the reader of strings panics. Refuted: that WordFrequency counts more than one word - the two port marks are the same bit.", "quantifier": "all sequences of input events, all metadata and data bytes, all lower-casing functions, all sort orders", "why_tests_cant": "Sequences of messages and byte contents are unbounded; the crash condition is an exact equivalence over all of them.", "anchors": ["go/transport/wasmrs/example/wordfrequency/wordfrequency.go: Process", "go/transport/wasmrs/example/wordfrequency/generated.go: wordFrequencyHandler", "go/transport/wasmrs/example/concat/generated.go: concatHandler", "go/transport/wasmrs/example/greeter/generated.go: greeterHandler", "go/invoke/portio.go: FlagComplete"]}
{"id": "C75", "title": "A fire-and-forget call through the mesh runs the linked handler once, in the other module, and is never told what it found", "statement": "In a mesh of any number of modules, with any traffic: at every moment what guests have run is part of what the calls fired so far are to run - each call of a guest the handler its import is linked to, in the module of that handler, once, with the caller's data and its metadata without the first eight bytes; each call the application fires at the mesh (by name) or at an instance likewise. When nothing is under way it is all of it. A guest is sent refusals of exactly the calls whose metadata are too short or name no linked import; a linked call that finds no handler there vanishes. No dispatcher returns an error; nothing blocks or panics; work runs out. For modules made with the library a call fired with an import's number runs a handler registered under that very name, if all exports of the name are fire-and-forget handlers; refuted without this: imports are linked whatever the kind. Metadata of fewer than four bytes make Mesh.FireAndForget panic, if the name is exported.", "quantifier": "all meshes, all handler tables, all payloads, all interleavings of callers, dispatchers and goroutines", "why_tests_cant": "Counting effects over all interleavings of all modules needs an invariant; tests see one schedule of one pair of modules.", "anchors": ["go/transport/wasmrs/mesh/mesh.go: Mesh.FireAndForget, destination.FireAndForget", "go/transport/wasmrs/host/instance.go: handleFireAndForget", "go/transport/wasmrs/host/caller.go: FireAndForget"]}
{"id": "C76", "title": "Calls of the stream registry made at the same time take effect one after the other, though Get takes no lock", "statement": "Any number of goroutines call Get, Add and Remove of one registry in any interleaving of their single reads and writes of pointers (Add and Remove hold the mutex, Get does not take it). Every Add and Remove that has returned took effect exactly once between its beginning and its end, nothing else took effect, and whenever the mutex is free the registry answers as if the same operations had been made one after the other. Every Get answers what the sequential Get would have answered at one moment between its beginning and its end; so a stream that is registered the whole time is found, and an id under which nothing is registered the whole time is not (for histories on which the registry is a map, see C12). No call dereferences nil; a Get never waits; there is no deadlock, and no call takes more than 2n+7 steps when n registrations have been begun. Refuted: what a Get returns is still registered when it returns.", "quantifier": "all numbers of goroutines, all calls, all interleavings of their steps", "why_tests_cant": "A reader that walks over nodes being unlinked goes wrong only in particular interleavings of single pointer writes; a race test samples a few of them.", "anchors": ["go/proxy/lookup.go: Get, Add, Remove, find"]}
{"id": "C77", "title": "A string decoded from a payload the host has received is part of the receive buffer and holds only as long as the payload does", "statement": "A string or byte array that the msgpack decoder returns is no copy: it is exactly the part of the payload's data before the decoder's new offset, in the same array. If nobody writes to received slices, a value decoded while its frame was being handled keeps its bytes for as long as the frame is being handled, however many frames arrive meanwhile; after that it keeps them or it reads, at the same place, the bytes of a frame that was received later. Refuted: a string that a caller got from a response stays as it was (the next response, received in the same buffer, replaces its characters).", "quantifier": "all payloads and offsets, both methods, all runs of the receive loop, all choices of the buffer pool", "why_tests_cant": "Strings are immutable in Go, so no test compares one with its earlier self; the change needs a later frame in the same pooled buffer.", "anchors": ["go/msgpack/data_reader.go: GetBytes", "go/msgpack/decoder.go: ReadString, readString, ReadByteArray", "go/msgpack/unsafe.go: UnsafeString", "go/transport/wasmrs/host/instance.go: hostSend, recvLoop"]}
{"id": "C78", "title": "The example modules of the mesh greet a customer by name, and report no error of each other", "statement": "concat answers its two strings with a space between them, greeting answers \"Hello, \" and the name. customer sends exactly one request to concat, then, after its first answer, exactly one to greeting with the string of that answer, and answers its caller once, after the first later answer of greeting, with the string of that; answers out of turn or repeated have no effect. In every execution of a mesh where customer's imports are linked to the other two, a call of customer by another module or by the application has seen nothing or exactly \"Hello, First Last\", and the latter once nothing is under way. Refuted: a failing call of concat or greeting makes the customer's call fail (it is taken for the empty string, and the caller gets a success).", "quantifier": "all strings (records shorter than 4 GiB), all sequences of answers, all interleavings of all modules, all other modules and calls in the mesh", "why_tests_cant": "Takes three WASM modules, a host and all interleavings of their calls; failures of inner calls look like successes with empty strings.", "anchors": ["go/transport/wasmrs/mesh/modules/concat/cmd/main.go: main", "go/transport/wasmrs/mesh/modules/greeting/cmd/main.go: main", "go/transport/wasmrs/mesh/modules/customer/cmd/main.go: NewCustomer", "go/transport/wasmrs/mesh/modules/customer/export.go: newCustomerWrapper", "go/rx/flow/flow.go: Steps, next, check", "go/transport/wasmrs/mesh/mesh.go: Load"]}
{"id": "C79", "title": "The Rust and the Go implementation read each other's frames", "statement": "For every byte string, the Rust decoder returns a frame exactly when the Go decoder does and the text of an error frame is UTF-8; it is then the same frame, except for the complete mark of a non-channel request and the credit of a request with a single answer, which mean nothing. It returns an error exactly for an error frame whose text is not UTF-8, and panics exactly where Go panics or where Go skips a frame of a type it does not know. Every Rust frame is written as the bytes the frame stands for, from which Go reads it back, and every Go frame is read by Rust. A frame behind its 24-bit length is read back whole and nothing else is. Refuted: Rust reads every error Go sends (text that is not UTF-8), Rust survives what Go skips, the two sides agree on the ignore bit.", "quantifier": "all byte strings; all frames of both implementations with 31-bit stream ids (metadata below 2^24 for reading back)", "why_tests_cant": "The two implementations are in different languages and have separate tests over a few literal frames; the claim is about all bytes.", "anchors": ["rust/crates/wasmrs/src/frames/mod.rs: Frame::decode, Frame::encode", "rust/crates/wasmrs/src/frames/header.rs: FrameHeader", "rust/crates/wasmrs/src/frames/f_payload.rs: PayloadFrame", "rust/crates/wasmrs/src/frames/request_payload.rs: RequestPayload", "rust/crates/wasmrs/src/frames/f_error.rs: ErrorFrame", "rust/crates/wasmrs/src/util.rs: read_frame", "go/internal/frames: Decode, Encode", "go/transport/rsocket/tcp_conn.go: ReadFrame"]}
{"id": "C80", "title": "The Rust and the Go implementation read each other's operation lists", "statement": "A table written by Go is read by Rust exactly when all its types are the four known ones and its names are UTF-8; Rust then has exactly its exports and its other entries, in order. A list written by Rust is read by Go as the exports followed by the imports, with their indexes, kinds and names, and Rust reads it back as it was. Out of arbitrary bytes Rust reads exactly the entries laid out one after the other with a two-byte field behind each. A wrong magic number or version is refused by both for the same reason. Looking up a name answers the index of the first entry of that name. The metadata of a request names the index at its front. Refuted: Rust survives entries of a type Go reads, skips reserved bytes as Go does, writes long names readably, and finds an operation by its kind.", "quantifier": "all tables and lists (names up to 65535 bytes, fewer than 2^32 entries), all byte strings", "why_tests_cant": "The two codecs live in different languages; reserved fields, unknown types and long names are not in any test.", "anchors": ["rust/crates/wasmrs/src/operations.rs: OperationList", "rust/crates/wasmrs/src/frames/metadata.rs: Metadata::encode", "rust/crates/wasmrs/src/frames/mod.rs: Payload::parse_metadata", "go/operations/operatons.go: FromBytes, ToBytes"]}
{"id": "C81", "title": "Calls between a Go host and a Rust guest are answered like calls within one implementation", "statement": "However request/response calls in both directions interleave, a subscribed call of the host ends at most once, with the outcome of the guest's single run of the handler at the index it named on its own payload, or with the guest's \"no handler\" error; a call of the guest ends with what it is told of the outcome of the host's single run, or of the host's refusal (error code 0; an empty text replaced). Handlers run at most once per call and only for calls made. No enabled move of either side panics, every inner move brings rest nearer, rest is always reachable, and at rest every subscribed call of the host and every call of the guest has its outcome. All this although the two sides use the same stream ids: the k-th call of each has id 2(k+1). A request crashes the guest exactly if its metadata is shorter than four bytes. Refuted: that a host may leave the metadata out; that every error of the host reaches the guest (a text that is not UTF-8 leaves the call waiting for ever); that a guest may give up a call (an error for it then crashes the guest).", "quantifier": "all handler tables, all interleavings of any number of calls in both directions, all payloads a frame can carry", "why_tests_cant": "The two implementations are never tested against each other; interleavings, coinciding ids and error texts that are not UTF-8 are in no test.", "anchors": ["rust/crates/wasmrs/src/socket.rs: WasmSocket::process_once, on_request_response, on_payload, on_error, request_response", "rust/crates/wasmrs-guest/src/guest.rs: send_frame", "rust/crates/wasmrs-guest/src/server.rs: WasmServer::request_response", "go/transport/wasmrs/host/instance.go: recvOne, handleRequestResponse"]}
{"id": "C82", "title": "Frames cross the memory of a guest between Go and Rust exactly if they fit its buffers", "statement": "Whatever arrives at a Go host's send loop when, a Rust guest is handed all of it, in order, except what is still in the buffer. Out of any buffer a Rust guest reads exactly the frames laid out from its start, up to the first that reaches the position it was given; if they cannot all be read it handles none and complains once. Frames a Rust guest sends reach a Go host one by one as they were sent, if each fits the host buffer with its three length bytes; one frame is seen by the host, whatever else lies in the memory, exactly if it does. A larger one is dropped silently; one that fits only without its length makes the guest's buffer move, after which the host sees only what lies at the old place. A Rust host reads what a Go guest sends; what it writes is read by a guest in either language exactly if it fits the 1024 bytes it told the guest, but it refuses only what exceeds 4092. It starts exactly the modules whose init has no result. Refuted: that readable frames in front of an unreadable one are handled; that frames no larger than the buffer arrive; that a Rust host reads several frames sent at once; that it never writes beyond the guest's buffer; that it can start a module made with the Go library.", "quantifier": "all frames, all arrival orders, all buffer sizes and contents, all memories", "why_tests_cant": "The two implementations are never run against each other; frames at the edge of a buffer, growth of the guest's vector and foreign buffer contents are in no test.", "anchors": ["rust/crates/wasmrs-guest/src/guest.rs: send_frame, read_frames, send_host_frame, spawn_writer", "rust/crates/wasmrs-wasmtime/src/memory.rs: read_frame, write_bytes_to_memory", "rust/crates/wasmrs-wasmtime/src/engine_provider.rs: write_frame, init", "go/transport/wasmrs/host/instance.go: sendLoop, hostSend", "go/transport/wasmrs/guest/guest.go: GuestSend, doSendFrame"]}
{"id": "C83", "title": "What the Go subscriber of a stream served by a Rust guest sees", "statement": "A Go host calls a stream of a Rust guest, other frames cross in both directions, and every party moves in any order. What the subscriber has seen is always a beginning of what is owed for what the guest said on the stream, and all of it once nothing is under way unless the subscriber cancelled or closed. What the guest said, its complaints aside, is a beginning of what was sent into the flux of the handler up to the flux's end, and of the end; once nothing is under way it is all of it. The guest complains exactly once about each RequestN frame, so a subscriber that asks once sees the flux and its end, and one that asks again sees some of the items and then an error in place of the rest. The handler is the one at the index in front of the metadata; it runs at most once, with the payload of the call, and exactly once if the request was sent and nothing is under way. If there is none the subscriber sees one error and nothing else. Metadata of fewer than four bytes stops the guest: no handler ever runs and the task has no next step. Refuted: that a subscriber sees no more items than it asked for; that one that asks item by item gets the second; that the guest says nothing more once it was given a Cancel frame.", "quantifier": "all interleavings of all threads of both sides, all payloads, subscribers, handler tables, signals sent into the flux, foreign frames and stream ids", "why_tests_cant": "No test runs the Rust guest against the Go host; the tests of either side ask once for everything, never by hand, and never cancel while items are under way.", "anchors": ["rust/crates/wasmrs/src/socket.rs: process_once, on_request_n, on_cancel, on_request_stream", "rust/crates/wasmrs-guest/src/server.rs: request_stream, get_process_handler", "rust/crates/wasmrs-rx/src/flux/receiver.rs: poll_next, recv", "go/handler/caller.go: RequestStream", "go/proxy/flux.go: Flux, Request, Cancel, Subscribe", "go/handler/handler.go: HandleFrame"]}
{"id": "C84", "title": "What a Rust guest reads of a stream served by a Go host", "statement": "A Rust guest calls a stream of a Go host, other frames cross in both directions, and every party moves in any order. What the guest has read is always a beginning of what is owed for the calls the handler's source made - each item, an error followed by the end, or the end - and all of it once nothing is under way if it has kept the receiver. The named handler runs at most once, with the payload of the call, and exactly once if the call was made and nothing is under way; without one the guest reads one error and the end. The guest never grants credit: the handler is run for 0 items and nothing asks for more, so a source that hands out a slice on demand hands out nothing, and not even its end unless the slice is empty. The guest sends one request, then nothing but Cancel frames, and those only after the receiver was dropped. A Cancel frame that reaches a host where the stream is registered stops its dispatcher. The guest panics only if the receiver was dropped and the source failed. Refuted: that a guest can stop reading a stream without stopping the host; that it never panics when it does; that a failure with text that is not UTF-8 is read.", "quantifier": "all interleavings of all threads of both sides, all payloads, handler tables, calls made on the handler's flux that do not overlap, foreign frames and stream ids", "why_tests_cant": "No test runs a Rust guest that calls a Go host; the tests of the Go side always ask for items, so a request for none and a Cancel frame are never seen.", "anchors": ["rust/crates/wasmrs/src/socket.rs: request_stream, on_payload, on_error, on_cancel", "rust/crates/wasmrs/src/frames/mod.rs: new_request_stream", "rust/crates/wasmrs-rx/src/flux/receiver.rs: poll_recv", "go/handler/handler.go: HandleFrame, handleRequestStream", "go/rx/flux/slice.go: FromSlice"]}
{"id": "C85", "title": "What a Rust socket makes of any frames of any peer", "statement": "A Rust socket, guest or host, calls, opens channels, serves requests and is given any frames in any order. The n-th call takes the id first+2n and its request is sent at once, except that a channel is requested by the first item of its input. What is put into the receiver of a handler is what the frames of its stream tell while the receiver is there, up to the first that ends it or until another handler is registered for the stream. Each request received is served once, in order; what its task says is a beginning of what is owed for what the implementation gave, and all of it once the task cannot go on. What the task of a channel says is a beginning of what is owed for its input - request, payloads, errors, end - and, the end aside, at most one more than the credit granted; once it cannot go on it has said all of it or used all the credit. A frame is answered at once only by a Cancel when the receiver is gone or by an error to a RequestN for nothing or for no channel. The socket panics exactly at an error for a registered handler, or a Cancel for a waiting call, whose receiver was dropped. Refuted: that a channel whose input ends is ever requested; that it says so without further credit; that a Cancel stops what serves the stream; that a receiver may be dropped without harm; that an answer to a call always reaches it, as a peer's channel with the same id takes its place.", "quantifier": "all sequences of calls, feeds, drops, task moves and frames of any peer (fewer than 2^31 calls for the statements on channels), all payloads and ids", "why_tests_cant": "The tests join two sockets with well-behaved peers; frames out of turn, displaced handlers, dropped receivers and exhausted credit never occur there.", "anchors": ["rust/crates/wasmrs/src/socket.rs: process_once, on_payload, on_cancel, on_error, on_request_n, request_response, request_stream, request_channel, fire_and_forget", "rust/crates/wasmrs-rx/src/flux/receiver.rs: poll_recv"]}
{"id": "C86", "title": "What callers and handlers joined by two Rust sockets see of each other", "statement": "Two Rust sockets are joined: each processes the frames of the other in order. Whatever both do and however their tasks interleave, each request received is for one call of the other end, of its kind and with its payload, and each call but a channel is received exactly once when all is at rest. The receiver of a call gets nothing or what the handler of that very call concluded with; that of a stream gets a beginning of what its handler gave, up to the first error; a channel's caller a beginning of what its handler gave, and the handler a beginning of the channel's input, where an error has another text. At rest they have all of it, unless a receiver was dropped (for the input: up to 2^31 signals). A channel reaches the other end exactly if its input begins with an item. The two never answer each other's frames with errors of their own, and neither panics at a frame unless a receiver was dropped. Refuted: that a channel with an item in its input reaches the other end (an error before it uses up the credit for the request); that what a handler gives reaches a caller that did not drop its receiver (the handler's dropping its input ends both directions); that the handler is told the caller's error; that a Cancel stops the handler of the stream.", "quantifier": "all interleavings of calls, feeds, drops, task moves and processing at both ends (up to 2^31 calls at each), both ways round, all payloads", "why_tests_cant": "The tests of socket.rs make one call of each kind between two echoing sockets; several calls at once, both ways, with errors and drops at any point, are never run.", "anchors": ["rust/crates/wasmrs/src/socket.rs: make_echo, process_once, request_response, request_stream, request_channel, fire_and_forget, on_payload, on_cancel, on_error, on_request_n"]}
{"id": "C87", "title": "What the record codecs written by the code generator make of a record", "statement": "The generator writes an Encode and a Decode for each Apex type and union. The Go code for a field compiles exactly for the plain types: those without a list directly in a list, a map directly in a map, a list of optional lists, maps or bytes, `any`, map keys of type bytes, aliases (not imported) of datetime or of a required u8, and optional aliases of bytes. With plain fields, every record, of any depth and with recursive types, that is written with ToBytes and read with Decode is the same record, but for this: lists and maps that are nil are empty, of a union's members the first that is set is left, a pointer to a union without a member set is nil; and Decode panics exactly when a part of the record that is written has an optional enum or an optional alias (not imported) that is nil. Records without these come back as they were. Refuted: that every type compiles, that what is read is what was written, that what was written can be read.", "quantifier": "all types built of primitive types, records, unions, enums, aliases, lists and maps; all sets of record types, recursive or not; all values of them; all formats and parsers of imported aliases that fit each other", "why_tests_cant": "The generator has no tests; generated code in the repository shows one nesting of each kind. The properties range over all type definitions and over values of unbounded depth.", "anchors": ["codegen/src/tinygo/msgpack_helpers.ts: msgpackRead, msgpackWrite", "codegen/src/tinygo/msgpack_constants.ts: msgpackDecodeFuncs, msgpackDecodeNillableFuncs, msgpackEncodeFuncs, msgpackEncodeNillableFuncs, msgpackCastFuncs, msgpackCastNillableFuncs", "codegen/src/tinygo/msgpack_decoder_visitor.ts", "codegen/src/tinygo/msgpack_encoder_visitor.ts", "go/msgpack/decoder.go: Decode, DecodeNillable", "go/msgpack/convert/convert.go"]}
{"id": "C88", "title": "A record written by one version of a type and read by another", "statement": "A record is written with ToBytes by the generated code of one record type and read with Decode by that of another, and the fields of the same name are of the same type in both. Then every field that both have comes back as in C87, whatever the order of the fields; every field that only the reader has is the zero value of its Go type; and every field that only the writer has is passed over, however deep its value is, when its times lie in the years 1970 to 2514 and its maps have fewer than 2^31 pairs. Decode panics exactly when one of the fields that both have makes it panic; what is nil in a field that is passed over does no harm. Refuted: that any field can be passed over. A time after 2514 in a field the reader does not know makes the record unreadable.", "quantifier": "all sets of record types with plain fields, recursive or not; all pairs of record types of them whose shared fields agree; all values of the first", "why_tests_cant": "No test reads a record with a type other than the one that wrote it, and the branch of the generated Decode that skips an unknown field is never run. The claim is over all pairs of types and values of unbounded depth.", "anchors": ["codegen/src/tinygo/msgpack_decoder_visitor.ts", "codegen/src/tinygo/msgpack_encoder_visitor.ts", "go/msgpack/decoder.go: Skip", "codegen/src/tinygo/msgpack_helpers.ts: msgpackRead, msgpackWrite"]}
{"id": "C89", "title": "Which operations the generated invokers and wrappers are for, and what they carry", "statement": "The generator writes for each operation an invoker (the caller's side) and a wrapper (the handler's side). Which operations the Go code compiles for is described exactly for each side: what a unary parameter, the fields of other parameters, the items of a stream parameter (at most one; on the handler's side the last parameter) and the result or its items can be. For the operations that compile on both sides, the handler receives the parameters and the items of the stream parameter, and the caller the result or its items, as values that are what was given but for the differences that C87 describes; an operation without parameters is sent and received as no data. Refuted: that an operation compiles on both sides or on none: results that are streams of records, and streams before another parameter, compile only for the caller; stream parameters of numbers, unary aliases and unary datetimes only for the handler; some results on neither.", "quantifier": "all operations (unary or with any number of parameters, with or without streams), all types of parameters, items and results, all sets of record types, all values of them", "why_tests_cant": "The generator has no tests and its output is only compiled for a few example interfaces; the properties range over all operations and values.", "anchors": ["codegen/src/tinygo/invokers_visitor.ts: doOperation", "codegen/src/tinygo/wrappers_visitor.ts: doHandler", "codegen/src/tinygo/utilities.ts: getOperationParts", "codegen/src/tinygo/constants.ts: primitiveTransformers", "go/transform/transform.go: SliceEncode, SliceDecode, MsgPackEncode, MsgPackDecode, Int32Encode, StringEncode", "go/msgpack/codec.go"]}
{"id": "C90", "title": "Modules generated from Apex namespaces find each other's operations by name", "statement": "The generator writes what a module registers. The style in which an operation is imported and called, exported and wrapped is the same, and the one its streams ask for. A generated module exports exactly the operations with code of its services, under namespace.interface and the operation's name, with the user's method for it; it imports exactly the provided functions and the operations of the providers its services use. Different operations have different names if interface names have no dots. Linked in a mesh, in any number and order, a call of a single-answer operation made by an invoker is answered once, by the user's method of a service of that name in one of the modules, with the caller's data, or refused if no module has one; at rest every call subscribed to is answered so. If both sides compile for the operation (C89), the method receives the value that the caller passed (up to C87's differences). Refuted: that names never clash (a function of namespace a.P and an operation of the interface P of a), and that every handler for which a wrapper and a registration are written is registered (those of events, and functions, are not).", "quantifier": "all namespaces (any functions, interfaces, annotations and operations), all user methods, any number of generated modules, all executions of the mesh, all types and values of parameters", "why_tests_cant": "The one generated module in the repository has one service and one provider and is never linked with another; the properties range over all namespaces, modules and interleavings.", "anchors": ["codegen/src/tinygo/main_visitor.ts: visitAllOperationsBefore", "codegen/src/tinygo/register_visitor.ts: RegisterVisitor", "codegen/src/tinygo/import_visitor.ts: ImportBaseVisitor.visitNamespace, ProviderNewVisitor", "codegen/src/tinygo/utilities.ts: getOperationParts", "go/invoke/handlers.go", "go/transport/wasmrs/mesh/mesh.go"]}
{"id": "C91", "title": "Generated Go files import what they name, and nothing else, exactly for certain namespaces", "statement": "Go rejects files that name a package they do not import or import one they do not name. For the two generated files of wrappers (export.go) and invokers (providers.go), of namespaces whose operations compile one by one (C89), it is proved exactly when imports and names agree. export.go: when there is a handler, none takes a single primitive value by itself, and the packages imported for operations that get no wrapper (without code, or provided functions) are named for others. providers.go: when there is no provider, or some operation of a provider has parameters, some provider has only operations with code (or is a function), and the operations without code need no package that the others do not. When all operations have code this is: some handler and no single primitive parameter; some parameter in some operation of the providers. Refuted: that files compile when their functions do; a service with op[text: string] (msgpack is not imported), a module without handlers, a provider without parameters (msgpack is not named), a provider with an operation without code.", "quantifier": "all namespaces: any functions, interfaces, roles, operations with or without code, types of parameters and results, and any imports of aliases", "why_tests_cant": "The expected files in the repository are of one namespace; a test compiles the files of the namespaces it has, while imports depend on which operations occur together.", "anchors": ["codegen/src/tinygo/export_visitor.ts: ExportVisitor, ImportsVisitor", "codegen/src/tinygo/import_visitor.ts: ImportBaseVisitor, ProviderVisitor, ImportsVisitor", "codegen/src/tinygo/wrappers_visitor.ts: doHandler", "codegen/src/tinygo/invokers_visitor.ts: doHandler"]}
{"id": "C92", "title": "Scaffolded services compile exactly for certain namespaces, and implement their interfaces unless a result is a stream", "statement": "The scaffolding visitor writes a Go file with a method for each operation with code of the chosen interfaces. Its import section has each package that the file names, once, and no others, exactly if no interface is chosen, or: some service has an operation with code, so does some chosen interface, the operations without code need no package that those with code do not, and no two imported aliases in the operations are of one package. When services are chosen and all operations have code, the last condition alone decides. The type of a scaffolded method's result is the one that the interface asks for exactly if the result is not a stream. Refuted: that scaffolds always compile: a service all of whose operations are without code (errors unused), events without services (context missing), two aliases of one package (imported twice), an operation that returns a stream (a flux of fluxes is written).", "quantifier": "all namespaces without functions: any interfaces, roles, operations with or without code, types, choices of interfaces, and imports of aliases", "why_tests_cant": "The scaffold kept in the repository's test data is one file, not of this visitor; whether a file compiles depends on which operations and aliases occur together.", "anchors": ["codegen/src/tinygo/scaffold_visitor.ts: ScaffoldVisitor, ServiceVisitor, ImportsVisitor", "codegen/src/tinygo/interface_visitor.ts: visitOperationReturn"]}
