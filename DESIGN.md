# Formal model of nanobus/iota (Go part)

## Scope and method

The model is written in Coq 8.16.1 (`rocq/theories`, logical name `Verif`). It covers the Go code under
`/repo/go`. The Rust and TypeScript/codegen parts, the examples and the thin bindings to wazero/TinyGo are not
modelled.

File roles, one group per area `X`:

| file | contents |
|---|---|
| `Base.v` | outcomes (value / error / panic), bytes, big-endian numbers, lists as slices |
| `XModel.v` | the code, function by function; each definition cites file and lines; no proofs |
| `XSpec.v` | small specification, independent of the model's helpers |
| `XProofs.v` | lemmas |
| `XProps.v` | only the property theorems, each with `Print Assumptions` and a concrete instance |

Conventions

* A byte is an `N` below 256, a buffer is `list N`. Go `uint32`/`uint64` arithmetic wraps explicitly.
* Go panics (slice out of range, nil dereference, close of closed channel, explicit `panic`) are an explicit
  outcome `Panic`; Go `error` returns are `Err`.
* Writes into a caller-supplied buffer are modelled as writes into a fixed-length list at an offset, where the
  buffer length matters.
* Goroutines, channels and callbacks are explicit state machines whose steps are the atomic actions
  (a mutex-protected section, one channel operation, one callback invocation).
* Loops without an evident bound are fuelled; running out of fuel is its own outcome and theorems
  exclude it by proving that enough fuel exists.
* A desired property that the code violates is recorded twice: a theorem `..._refuted` with a computed
  witness, and a positive theorem with the exact guard under which the property does hold.

## Plan per property

| id | what is modelled | how it is proved |
|---|---|---|
| C01 | header packing (`NewFrameHeader`, accessors) | arithmetic on shifts/masks for all inputs |
| C02 | `Cancel`, `RequestN`, `Error` Encode/Decode | composition with C01, list lemmas |
| C03 | `Payload` Encode/Decode | case split on flags, big-endian round trip; refutation at 2^24 |
| C04 | `RequestPayload` Encode/Decode | as C03; iff on the follows mark |
| C05 | `Size` and Encode into a buffer of that size | length lemmas, write-into-buffer semantics |
| C06 | `Payload.Fragment`, `splitPayloads` | induction on remaining length |
| C07 | same, fuelled loop | measure for termination; invariant for divergence |
| C08 | `RequestPayload.Fragment` | builds on C06; refutation |
| C09 | `u24` package | arithmetic |
| C10 | stream id counters | closed form of the n-th id, modular arithmetic |
| C11 | `Unbounded` as a state machine | inductive invariant over all schedules |
| C12 | `Lookup` linked list with explicit heap | invariant relating list to map on guarded histories; refutation |
| C13,C14 | `operations` ToBytes/FromBytes | induction over the list |
| C15 | `PortMessage` | list lemmas; refutation for the conflated flags |
| C16,C17 | msgpack encoder/decoder on scalars | case split on ranges, big-endian lemmas |
| C18 | msgpack sizer vs encoder, buffer writes with overflow check | induction over operation sequences |
| C19 | integer readers | independent spec of the number denoted by the bytes |
| C20 | `DataReader` offset arithmetic with uint32 wrap | invariant over arbitrary read sequences |
| C21,C22 | `Skip`, `ReadAny`, `WriteAny` | mutual induction on value depth |
| C23 | `WriteTime`/`ReadTime` | case split on three encodings |
| C24 | struct codec pattern from the tests, over the modelled reader | induction over fields |
| C25 | typed transforms | corollaries of C16/C18 |
| C26,C27 | mono subscriber and processor as state machines | invariant over histories |
| C28,C29 | flux subscriber, mapper | invariant over histories; refutations |
| C30 | slice source | invariant |
| C31 | flow | state machine over completion schedules |
| C32,C33 | import/export tables | induction over histories |
| C34 | `LiveInstances` | induction over histories |
| C35 | length-prefixed batch parsing (guest and host) | induction; refutation for the host |
| C36 | host send loop | invariant over all schedules |
| C37,C38 | TCP scanner split function and buffer aliasing | induction over chunkings; refutation |
| C39,C40 | dispatcher state machine | case analysis, invariant over histories |
| C41 | caller + codec + dispatcher composition | invariant over interleavings |
| C42 | requester flux | invariant |
| C43 | mesh linking | invariant, order independence |
| C44 | custom section reader | induction over sections |
| C48 | linked-handler tables | induction over histories |
| C49,C50 | dispatch of received frames | case analysis; exact characterisation of crashes |
| C51,C52 | readers of sizes, strings, booleans, floats; `ReadAny` on every value | exact inversion; induction over values |
| C53 | `convert.go` | exact inversion; refutation |
| C54 | a streaming call: requester, codec, dispatcher, responder together | invariant over interleavings; refutations |
| C55 | outcomes of monos through Subscribe, Block, Get, Notify; Block on fluxes | induction over monos, invariants; refutations |
| C56 | a channel call: both directions of items between two peers | invariant over interleavings; refutations |
| C57 | `decoder.go` ReadTime and extension heads: what is accepted | exact inversion; refutation |
| C58 | demand between a subscriber and its source (`flux.go`) | invariant over all interleavings; refutation |
| C59 | the life of a transport (`transport.go` Start, loopReadBuffer) | invariant over all interleavings, measure; refutations |
| C60 | fire-and-forget calls between two peers | multiset invariant over all interleavings, measure; refutation |
| C61 | generated clients and wrappers, end to end; records of different versions | composition of C24/C25, C32/C33, C41, C55 over all executions; refutations |
| C62 | life of a TCP server: accepting, closing, cancellation, the registry | interleaving automaton; inductive invariants over all histories; refutations |
| C63 | frames through a host instance: order, rest, deadlock, closing | interleaving automaton over bounded channels; invariants, a measure, exact characterisation of stuck states; refutation |
| C64 | bytes of frames a host has received, with buffer reuse | automaton with arrays, buffers, pool and slices; ownership invariants; refutations with encoded frames |
| C65 | request/response calls from module to module through the mesh | n pairs of peers as of C41, each reachable by itself (projection), links between runs of destinations and the calls they make; a measure over all pairs; joined with C29/C30's linking by name |
| C66 | when a flux runs OnRequest and the source's Cancel | the Flux model; where every requested item is (a sum over all threads), what is pending when demand is used up; for one thread also what may lie below the top of the stack |
| C67 | what NewInstance learns from its guest | the calls a guest makes of the host while it is initialised, run over the instance; C32, C33 and the table round trip for guests made with the library |
| C68 | calls by name, from what modules register to what users see | C67 gives the tables, C32/C33 their numbers, C43 the links, C65 the run that answers, C61 the user's view |
| C69 | generated clients and wrappers of streaming operations | C54 for the stream, C28's lemmas for Map, C25 for items and arguments; an invariant that only typed items are on their way into the wrapper's flux |
| C70 | a request/response call among any other traffic, in small steps | the call goes through phases; an execution, foreign frames left out of both queues, always looks like one of them |
| C71 | generated clients and wrappers of channel operations | C56 for the channel, the typing invariant of C69 on both ends, C28's lemmas for Map |
| C72 | flows and their sinks | invariant: seen plus pending callbacks is what the reports owe; erasure to the machine of C31 |
| C73 | streams relayed by a host | lock-step projection of the composite on two streams of C54, which share one subscriber; credit invariant across the hop |
| C74 | example components | closed form of each handler by the first decisive event; map invariant for the counts |
| C75 | fire-and-forget through the mesh | multiset invariant over all modules: calls of hosts = what was asked + what destinations passed on |
| C76 | registry under concurrency | a reader's position is on the list with no match before it, or on an unlinked node whose frozen next pointer leads back to such a position |
| C77 | decoded strings alias the buffer | the result of GetBytes is the sub-slice that ends at the new offset; C64 for the slice it is part of |
| C78 | customer flow | stages of the flow after any answers; invariant over mesh executions: every concluded run of the three handlers ends as it should, by C65's characterisation of what customer's own calls have seen |
| C79 | Rust frames | both headers computed on the wire form of any six bytes; then the bodies case by case on the frame type |
| C80 | Rust operation lists | inversion of the reader entry by entry; uniqueness of the entries laid out in a table |
| C81 | Calls between Go and Rust | one invariant per direction, instantiated twice; frames related through the agreement of the codecs (C79) |
| C82 | Buffers between Go and Rust | inversion of the readers; case split on the size of a frame against the capacity of the buffer |
| C83 | Streams between Go and Rust | invariant of the whole system: hinv of the Go side (the proxy's reachability plus what lies on the lines), ginv of the guest (frames taken, tasks, sayings) |
| C84 | Rust guests calling Go streams | invariant of the whole system: the responder's half as for C54 with the readability of what it sends, and the guest's registration, channel and readings as a function of the frames it was given |
| C85 | Rust sockets | invariants over all moves: each receiver as a function of the history after its registration, each task as a function of what was put into what it reads and of the credit, the history as a function of the moves |
| C86 | Rust sockets | per-socket invariants of C85 composed: ids of the two ends are apart, so that the frames of a stream in one direction are those of one task, and each end's receivers are a function of the other's tasks |
| C87 | Generated codecs | the generator as a function to small programs, typed and run by an interpreter; induction on types for compiling, on values for the round trip, with reads that may panic composed |
| C88 | Generated codecs, two versions | what the generated Encode writes is one MessagePack value that Skip passes over (induction on values); the loop of Decode with fields found or skipped |
| C89 | Generated invokers and wrappers | the functions named by the generated code as a table, typed against the values, and run with the models of C17-C22 and C87; case analysis on types, C87's round trip for records |
| C90 | Generated registrations | the registrations as a function of the namespace; membership iff a declarative reading; composed with C68 (calls by name) and C89 (values) |
| C91 | Imports of generated files | packages imported by the visitors against packages named by what is written; set equality characterised by which operations there are |
| C92 | Scaffolds | imports kept by name against packages named by the methods; set equality and no duplicates characterised; result types compared |
| C45,C46,C47 | uuid package | finite sweeps lifted to all bytes, stream invariants |

No property is currently considered inexpressible.

## Modelled and not modelled

| area (files `X*.v`) | modelled, under `/repo/go` | left out or simplified |
|---|---|---|
| Frames | `internal/u24`, `internal/frames`: headers, all frame kinds, `Size`, `Fragment`, `splitPayloads` | `String`/debug output; sharing of byte slices between frames |
| StreamId | `internal/socket/stream_id.go` | the atomic counter's memory model (one atomic step per call) |
| Unbounded | `internal/buffer/unbounded.go`, one step per channel operation | - |
| Lookup | `proxy/lookup.go` with an explicit heap | calls made at the same time (LookupRace) |
| Operations | `operations/operatons.go` | string conversion (strings are their bytes) |
| Port | `invoke/portio.go` | - |
| Msgpack | `msgpack/`: reader, encoder, sizer, decoder, codec, `Skip`, `ReadAny`, `WriteAny`, times | floats are their bit patterns; `time.Parse` and float64-to-float32 are parameters; aliasing of returned strings (Alias); error texts; locations of times |
| Convert | `msgpack/convert/convert.go` on integers, strings, booleans, parsers | floating-point conversions, time formatting (parameter) |
| Transform | the generated record codec scheme, `transform/transform.go` | time formatting (parameter) |
| Mono, Flux, Slice, Flow | `rx/mono`, `rx/flux`, `rx/flow`; user code is an arbitrary environment that may re-enter | scheduling of goroutines inside one method (one method section per step), second subscriptions, `context`-based `Block` |
| Invoke | `invoke/handlers.go`, `invoke/instances.go`, the guest's OperationList, the linked-handler tables (`Set…Handler`/`get…Handler`) | locks; the allocator is an arbitrary choice of address per `Put` |
| Uuid | `types/uuid`: uuid.go, marshal.go, util.go, version4.go, time.go | locks; non-ASCII letters in the URN prefix (cannot matter); a panicking random source in setClockSequence |
| Mesh | `mesh/mesh.go`: export table, unsatisfied list, linkOperations, linkOperation, the lookup of the four request methods, the metadata rewrite of destinations | compiling and instantiating modules (each load is a numbered instance with its operation table), closing replaced instances, printing |
| Custom | `customsections/customsections.go`: Read, decodeUTF8, decodeCustomSection, all of it; from their documentation bytes.Reader, io.ReadFull, io.CopyN, utf8.Valid and wabin's leb128.DecodeUint32 (external; the u32 of the WebAssembly specification) | error texts, allocation limits |
| Batch | `host/instance.go`: sendLoop (every schedule of frames, idle moments and closing), hostSend; `guest/guest.go`: GuestSend up to the decoding of frames, doSendFrame | what is done with a decoded frame, growth of the WebAssembly memory, calls into WebAssembly (the guest is handed the shared buffer as it is then) |
| Tcp | `transport/rsocket/decoder.go`: all; `tcp_conn.go`: Read, Write, Flush; `transport.go`: Send, the loops of Start and loopReadBuffer (as a schedule of reads and handlings); from Go's package bufio: Scanner.Scan with its buffer, Writer.Write, Writer.Flush | contexts, deadlines, closing, TLS, accepting connections; data races inside bufio.Writer (its methods are taken as atomic) |
| Dispatch | `handler/handler.go`: HandleFrame, handleRequest*, requestStream's methods; `transport/wasmrs/host/instance.go`: recvOne, handle*; `transport/wasmrs/guest/guest.go`: GuestSend, handle*: what is done on receiving one frame, as a list of actions | what the actions do to handlers and streams (the other rows); contexts and their cancellation; the goroutines in which handlers run |
| Proxy | `proxy/flux.go`: streamFlux with Request, Cancel, Subscribe, OnNext, OnComplete, OnError; `rx/flux/processor.go`: all | the input flux of a channel (its subscription is arbitrary user code), the lock of flux_host.go (a request's body is one step), proxy/mono.go beyond its processor (C27) |
| Responder | `handler/handler.go` (and alike `host/instance.go`, `guest/guest.go`): handleRequestStream, handleRequestChannel from the handler's return on, requestStream's methods; the returned flux and the input flux are the machines of Flux, for credit that of Slice | handlers returning flux.Error (its Subscription is nil, so the Request after Subscribe panics) or a response processor; the lock of flux_host.go |
| Call | `handler/caller.go` (and alike `host/caller.go`, `guest/caller.go`): RequestResponse; `proxy/mono.go`: all; handlers' monos concluding (`handler/handler.go` handleRequestResponse); with Dispatch, Lookup, StreamId, Frames and Mono: whole executions of two peers | the carrier between the peers is two queues of encoded frames (Batch and Tcp are its rows); moves are atomic; contexts; request/response only; payloads are values (what reuse of the host's receive buffers does to them is Recycle) |
| Stream | one call of `RequestStream` (`handler/caller.go`, `host/caller.go`, `guest/caller.go`) between two peers: the machines of Proxy (requester), Dispatch, Responder and Frames joined by two queues of encoded frames, with frames of other streams in between | other calls between the peers (their frames are arbitrary), splitting into fragments, contexts |
| Fnf | `FireAndForget` of `handler/caller.go`, `host/caller.go`, `guest/caller.go` and `handleFireAndForget` of `handler.go`, `instance.go`, `guest.go`, between two peers, over Dispatch, Lookup, StreamId and Frames | what handlers do; other kinds of calls at the same time; the task of a request is one step |
| Stub | the client method and the wrapper of a request/response operation (`example/greeter/greeter.go:65-108`; `wasmrs/example/*.go` alike), over Transform, Outcome, Invoke and Call | operations that stream (StubStream); results that are records; the mono of RequestResponse is the list of calls its processor makes (Call) |
| Pipe | `SendFrame`, `sendLoop`, `hostSend`, `recvLoop`, `Close` over the channels of `host/instance.go:82-83, 104-252` as goroutines | layout of frames (Batch); what handling a frame does beyond sending; panics end the program |
| Recycle | the buffers of `host/instance.go:214-218, 230-252` with sync.Pool and bytes.Buffer (from their documentation), slices handed on by recvOne, writes to them (`mesh.go:263-293`) | which slices recvOne takes (any); data races within one read or write |
| Relay | `mesh.go:263-269` with `host/instance.go:427-465` and `host/caller.go:31-40`, on top of Call and Mesh | modules loaded while calls are under way; the other three kinds of request; aliasing of the metadata (Recycle) |
| Boot | `host/instance.go`: NewInstance, setBuffers, opList, hostSend as called from it; `host/host.go:88-127`; `guest/guest.go`: Init, OperationList. A module is any calls of host functions with any memory; a panic of a host function is taken to come back as an error of the call (wazero does so) | compiling and instantiating; start functions (they run before the instance exists); the loops started at the end |
| Names | Boot, Invoke, Mesh, Relay and Stub put together | as there |
| StubStream | the client method and the wrapper of a streaming operation (`wasmrs/example/counter.go`), `flux.Map` on both sides, `flux.Error` returned to handleRequestStream; over Stream, Transform and Stub's records | items that cannot be encoded; Block on the mapped flux; channels |
| Solo | one request/response call with Subscribe's steps, the dispatchers' acts and the goroutines apart (`proxy/mono.go`, `handler/handler.go` and alike), over Dispatch, Frames and the processor of Mono | registries are reduced to whether they hold the stream; a call on the processor is atomic; one Subscribe |
| StubChannel | the client method and the wrapper of a channel operation (`wasmrs/example/uppercase.go`), `flux.Map` four times; over Channel and the items of StubStream | items that cannot be encoded; Block on the mapped flux |
| Server | `Listen`, its watcher, `Close`, `putTransport`, `removeTransport` (`transport/rsocket/tcp_transport.go:16-143`) | a second Listen; data races on `t.l` (taken as atomic); the serving of a connection (Transport has it); `SetAcceptor` and the builders |
| Transport | `transport/rsocket/transport.go`: Start, loopReadBuffer, Close over the steps of Unbounded | ReadFirst, SetLifetime, deadlines; panics of the dispatcher; errors of conn.Close |
| Channel | one call of `RequestChannel` (`handler/caller.go`, `host/caller.go`, `guest/caller.go`) between two peers: as Stream, with the requester's subscription to `in` (`proxy/flux.go` Request, DoRequest) and the handler's input (`handler/handler.go` handleRequestChannel) | as Stream; `in` is a flux made by flux.Create that nobody else subscribes; the theorems assume its sink calls do not overlap and follow a first request (otherwise: `C56_unasked_refuted`) |
| Outcome | `rx/mono/mono.go`: Just, Error, Create, Map with Subscribe, Get, Notify; `rx/mono/mono_host.go`: Block; `rx/flux/flux_host.go`: Block over the machine of Flux | the goroutine Block subscribes in (what it sees is all that counts); one type of values for all stages; the value a failing transform returns beside its error; `proxy/mono_host.go` (the same text over the proxy's Subscribe) |
| FlowSink | `Next`, `Complete`, `Success`, `Error`, `Mono`, `Flux` of `rx/flow/flow.go` over the subscribers of `rx/mono` and `rx/flux`; callbacks are user code | a second subscription, calls before the first, demand |
| RelayStream | the `RequestStream` destination of `mesh/mesh.go` and the subscription of `host/instance.go` over what `proxy/flux.go` returns, on two streams of StreamModel | several relayed streams at a time, relays over more than one hop of destinations, channels through the mesh |
| Component | `example/wordfrequency`, `example/concat`, `example/greeter`: Process and the generated channel handlers, guest build | the host build (requests run in goroutines), strings.ToLower and sort.Sort (parameters) |
| FnfRelay | mesh.go:77-90, 271-277; host/caller.go:42-51; host/instance.go:467-492, for any number of modules | loading while calls are made |
| LookupRace | `proxy/lookup.go` with goroutines, one step per read or write another goroutine can see | weak memory: reads and writes happen in the order of the steps |
| Alias | where the result of `ReadString`, `ReadByteArray` is: `data_reader.go` GetBytes, `unsafe.go`, over Recycle's buffers | values decoded by ReadAny and records are made of such parts, but only the two methods are treated |
| Customer | `mesh/modules/{concat,greeting,customer}`: records, wrappers, clients (instances of Stub), `NewCustomer`'s three steps and `flow.go` for them | that the flow's callbacks run inside the guest's single thread is assumed; other shapes of flows are C31's |
| RustFrames | `rust/crates/wasmrs/src/frames/*` (header, all frame types, constructors), `util.rs` | `frames/metadata.rs`, display code; `String::from_utf8` is taken to accept what Go's utf8.Valid accepts |
| RustOps | `rust/crates/wasmrs/src/operations.rs`, `frames/metadata.rs`, `Payload::parse_metadata` | display code; the host side storage of the list |
| RustCall | `rust/crates/wasmrs/src/socket.rs` request/response paths, `rust/crates/wasmrs-guest/src/{guest,server}.rs` request/response paths, run against the Go host of CallModel.v | Rust streams and channels; the async runtime's scheduling beyond the order of its steps; the guest's buffers |
| RustBuffer | `rust/crates/wasmrs-guest/src/guest.rs` buffers, `rust/crates/wasmrs-wasmtime/src/{memory,engine_provider,store,wasmrs_wasmtime}.rs` sending and receiving | the allocator (what lies at the place of a moved buffer is arbitrary); writing beyond the end of the memory; the wasmtime engine |
| RustStream | `rust/crates/wasmrs/src/socket.rs` serving a stream, `rust/crates/wasmrs-guest/src/server.rs` request_stream, `rust/crates/wasmrs-rx/src/flux/receiver.rs` | what a handler computes (any signals may be sent into its flux at any time); memory buffers between them (C82); the guest's own calls while the stream is open |
| RustAsk | `rust/crates/wasmrs/src/socket.rs` calling a stream, `rust/crates/wasmrs-rx/src/flux/receiver.rs` as its caller reads it | what a handler computes (any calls may be made on its flux, not overlapping); memory buffers between them (C82); other calls of the guest; the thread scheduling of the guest beyond the order of its moves |
| RustSocket | `rust/crates/wasmrs/src/socket.rs` whole: both sides of all four interactions | what an implementation computes (any results may be given); scheduling beyond the order of moves; errors of the underlying channels other than a receiver that is gone; abort handles (never used) |
| RustPair | two sockets of `rust/crates/wasmrs/src/socket.rs` joined as `make_echo` does | the bytes and buffers frames cross in (C79, C82); as for RustSocket otherwise |
| Gen | `codegen/src/tinygo/msgpack_{helpers,constants,decoder_visitor,encoder_visitor}.ts`: the programs written for a field, their Go types, and what they do with the Decoder and Writer of C17-C22; `go/msgpack/decoder.go` Decode, DecodeNillable; `convert.go` as used by them | the text of the generated code, expandType and convertUnionToType (another project), services, providers, importers, aliases of types that are not primitive, map keys that are not of a primitive type |
| OpGen | `codegen/src/tinygo/{invokers_visitor,wrappers_visitor,utilities,constants}.ts`: which transform and msgpack functions the invoker and the wrapper of an operation name, whether they fit the Go types, and what they do with values; `go/transform/transform.go` SliceEncode, SliceDecode | the text of the generated code, `expandType`, `isObject`, `msgpackRead` and `msgpackVarAccessParam` of the other project (taken as the header of OpGenModel.v says), optional unary parameters, results and items, aliases of types that are not primitive, the metadata of the request (C10 and others), importers and exporters |
| RegGen | `codegen/src/tinygo/{main_visitor,register_visitor,import_visitor}.ts`: the Export and Import calls of the package initialisation, NewX of providers, RegisterX and main, in order; the styles of `utilities.ts`, `register_visitor.ts` and `wrappers_visitor.ts` | `isHandler`, `isService`, `isProvider`, `noCode`, `methodName` and InterfaceUsesVisitor of the other project (taken as the header of RegGenModel.v says), the imports of Go packages that the files write, ImportVisitor's clients of services, registrations that the user writes by hand |
| PkgGen | `codegen/src/tinygo/{export_visitor,import_visitor}.ts`: the imports written, with both ImportsVisitors, hasAny and the filters of ProviderVisitor and ImportVisitor, the variables _opX; the packages in what `wrappers_visitor.ts` and `invokers_visitor.ts` write | the visitors' order and the accept methods of the other project, the imports of interfaces.go, services.go and msgpack.go (written in part by the other project), unary operations whose parameter is a stream (whose type is not checked for imports) |
| ScafGen | `codegen/src/tinygo/scaffold_visitor.ts`: the import section with its ImportsVisitor (imports kept by name), the packages in the methods, the result types; `interface_visitor.ts`: the result types | functions (isValid reads the name of a missing interface), loggers, imports configured for types that are not aliases, hasServiceCode and isOneOfType of the other project (taken as the header of ScafGenModel.v says), the bodies of NewX |

Not modelled at all: the rest of the Rust and TypeScript code, the other code generators, command-line programs, wazero/TinyGo bindings,
OpenTelemetry and logging.

## Trusted base

Coq's kernel. Each `XProps.v` prints the assumptions of its theorems: every one is "Closed under the global context",
i.e. no axioms. (Loading the standard library also brings in the parameters of its module type
`Coq.ssr.ssrunder.Under_rel` - `Under_rel`, `Under_rel_from_rel`, `Under_relE`, `Over_rel`, `over_rel`, `over_rel_done`,
`under_rel_done` - which checkers of the whole environment list; no theorem here depends on them.)
What is trusted beyond that is the reading of the Go source recorded in the citing comments.
