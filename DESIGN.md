# Formal model of the Thrift Python library

The model covers `lib/py/src` and the Python code produced by
`compiler/cpp/src/thrift/generate/t_py_generator.cc`, with the compiler's
numbering of fields and enum members in front of it, at the commit in /repo.
It is written in Coq 8.16.1 with the standard library only.

## Approach

* **Shallow model.** Each Python method is a total Gallina function with the
  same branches, in a state-and-exception monad `M S A = S -> outcome A * S`
  (`theories/Base.v`). Exceptions are values (`exn`) that keep the Thrift
  exception type code. The state after an exception is kept, so statements
  about what is left behind by a failure can be made.
* **Bytes** are `Byte.byte`, so an input is any `list byte` without side
  conditions. Python integers are `Z`. Doubles are their 64-bit patterns.
  Strings are lists of code points.
* **Protocols** are records of the API methods (`theories/Proto.v`), so the
  code in `TProtocolBase` and the generated struct code is modelled once and
  run with each protocol.
* **Loops** without a structural bound take fuel; running out is the separate
  outcome `Diverge`, which no statement treats as success. Termination
  theorems show `Diverge` does not occur, and non-termination findings show it
  occurs for every fuel.
* **Environment** (kernel, peer, zlib, SASL library, handlers) is an explicit
  argument: a schedule, an oracle function, or a list of events.
* **Specifications** are separate from the model (`theories/Spec*.v`): typing
  of values, wire formats transcribed from `doc/specs`, abstract streams.
* **Property theorems** live in `theories/Props*.v`, which hold only theorems
  closed by `exact`, examples that meet the hypotheses, and
  `Print Assumptions`.

## Plan per property

| id | modelled | proof |
|----|----------|-------|
| C01 C02 C03 | `Proto.v` (generated read/write), `Binary.v`, `Compact.v`, `Json.v` over a memory buffer | generic simulation: a record of per-method laws (writer bytes are read back by the matching reader method); one induction over typed values gives the struct theorem for every lawful protocol; each protocol is shown lawful |
| C04 C05 | writers against `SpecBinary.v`, `SpecCompact.v` | induction over values; the specification is a pure function from value to bytes written from the documents |
| C06 | `pack` and `makeZigZag` | case analysis on the range test, for all `Z` |
| C07 C08 | `readMessageBegin`/`writeMessageBegin` | bit arithmetic plus string round trip |
| C09 C10 | `skip`, generated reader | from the same protocol laws, by induction; `_refuted` witnesses for non-UTF-8 |
| C11 | binary and compact readers with fuel | every loop iteration consumes a byte; fuel above the input length never runs out |
| C12 C46 | readers | reads are stable under extension of the input; with the round trip this rules out strict prefixes |
| C13 | depth counter in the protocol state | invariant over all executions, including failing ones |
| C14 | `_check_length` and its callers, with a log of transport read sizes | invariant on the log for all inputs |
| C15 | `readStruct`/`writeStruct` next to the generated code | simulation for non-negative ids; witnesses for the defects |
| C16 C17 C18 | transports over a stream with an arbitrary short-read schedule | refinement to a byte stream |
| C19 C20 | flush/write with failing or partial underlying operations | invariant over histories |
| C21 C22 | `THeaderTransport` | round trip by parsing lemmas; refusals by case analysis; transforms are an oracle with an inverse |
| C23 | `TZlibTransport.readComp` with a decompressor oracle limited only by its documented contract | invariant plus witness |
| C24-C27 | `TNonblockingServer.Connection` and the select loop as a state machine driven by receive results | refinement to frame parsing; witnesses for the defects |
| C28 | multiplexed protocol and processor | string lemmas on the first colon |
| C29 C30 | generated processor and client over the protocol records | composition of the round-trip theorems with the dispatcher |
| C31 C32 | client state with a connection that may time out | induction for the good case, witnesses for the defects |
| C33 | the C encoder of `ext/` as a second model | equality with the Python writer by induction |
| C34 C35 C36 | JSON reader and writer primitives | induction; divergence for every fuel as witness |
| C37 | `TRecursive.fix_spec` over a heap of specification cells | induction over nesting |
| C38 | dict operations with the overridden methods | case analysis, witness |
| C39 | `_Lock` queue | invariant over histories |
| C40 | Twisted client request table | invariant over histories |
| C41 | HTTP handler | case analysis over all outcomes |
| C42 C43 | varint and zigzag functions | arithmetic on `Z` |
| C44 | server loops | induction over connections |
| C45 | generated `validate` and reader | case analysis, witness |
| C47 | UTF-8 codec | case analysis by range |
| C48 | `TSocket.open` | induction over addresses |
| C49 | `TSaslClientTransport` over a connection and a SASL oracle | induction over the server's messages |
| C50 | write side of `TNonblockingServer.Connection` | invariant over all runs |
| C51 C52 C53 | `TZlibTransport`, its counters, `TZlibTransportFactory` | refinement to a byte stream with a lawful compressor; interleavings of atomic steps for the factory |
| C54 C55 | the C decoder of `ext/` | generic over the two encodings: per-method laws for what was written, closure of an invariant for arbitrary input; witnesses for the defects |
| C56 | `readBool` of the two protocols | induction over the bytes |
| C57 | `Json.v`, `SimpleJson.v` (TSimpleJSONProtocol) against `SpecJsonDoc.v`, the RFC 8259 grammar | induction over values; a scanner that rejects what the grammar cannot produce gives the witnesses |
| C58 | `HttpClient.v` (THttpClient over an http.client that may fail) | invariant over histories of operations; reading by induction on the chunks |
| C59 | `HttpClient.v`, `HttpServer.v`, `Rpc.v` composed | per-call lemma from the message laws, then induction over the calls |
| C60 | `HeaderProtocol.v` (THeaderProtocol over `Header.v`, sub-protocols from `Binary.v`, `Compact.v`) | per-message lemmas from the message laws and C21/C22, for both sub-protocols at once; induction over the requests |
| C61 | `Compact.v` under any sequence of API calls (`CompactOrder.v`) | effect of each method on the state and the two stacks; induction over the calls with the open brackets as invariant |
| C62 | `Tls.v` (TSSLSocket, TSSLServerSocket, sslcompat) over the documented rules of the ssl module | invariant over histories; case analysis; witnesses for the defects |
| C63 | `TornadoRpc.v` (generated Tornado client and processor, TTornadoServer.handle_stream) | invariant over event lists: calls split into answered, served, under way; ledger invariant for arbitrary executions; witnesses for the defects |
| C64 | (no new code) | depth-indexed postconditions for the generated readers; `relax env` drops required flags; composed with C01, C02, C03, C33, C54 |
| C65 | `TwistedServer.v` | invariant relating calls, invocations, answers and both streams; ledger for arbitrary bytes |
| C66 | `RpcVersions.v` | whole-message laws with a different schema at each end; reading of a reply field by field |
| C67 | `ExtTransport.v` | simulation of the decoder over a transport by the decoder over memory; more fuel changes nothing; each refill returns a prefix of what is to come |
| C68 | `GenClass.v` (model), `SpecClass.v` (what is assumed of names) | simulation between objects with named attributes and positional structs; equality of writers |
| C69 | `GenClass.v` | invariants of attribute operations; the loop of read ends in a STOP header |
| C70 | `Json.v`, `Rpc.v` | the message laws, instantiated for a protocol with look-ahead |
| C71 | `GenClass.v` | what comes out of the generated readers, constructors and the C decoder, against `enums_ok` on plain values (`SpecClass.v`) |
| C72 | `Const.v` | what Python makes of the text printed for a constant, against the value the IDL gives it (`meaning`, `SpecConst.v`) |
| C73 | `Defaults.v` | which object each attribute is, in a heap, against the value of the constant (`eval`, C72) |
| C74 | `Service.v` | what names find: methods through the chain of classes, module names, locals; statements in terms of the IDL's names (`SpecService.v`), and equal to the calls of `Rpc.v` |
| C75 | `Listen.v` | who is reached at a path, after any interleaving of the servers' calls to the kernel |
| C76 | `Modules.v` | the bindings of the modules, in order; what is meant by a name is given with its use |
| C77 | `Into.v`, `IntoFast.v` | readers that carry the object they fill, so that a failure shows what is left in it |
| C78 | `RpcFast.v` | codecs at each end, agreeing with the protocol's laws |
| C79 | `NbThreads.v` | interleaving semantics; invariants over all executions; deadlock as an invariant |
| C80 | `Ids.v` | the parser's numbering of fields and enum members, requiredness by place, and ids beyond 16 bits in each protocol |
| C81 | `Timeout.v` | histories of one thread; isOpen's statements interleaved |

## What is modelled, file by file

Line numbers are in the comments of the definitions.

| code in /repo | model | left out |
|---|---|---|
| `lib/py/src/protocol/TProtocol.py` (base class, `skip`, `_check_length`, recursion depth, `readStruct`/`writeStruct` and the container helpers) | `Proto.v`, `Dynamic.v` | `TFrozenList`-style immutable containers other than `TFrozenDict` |
| `TBinaryProtocol.py` | `Binary.v` | `TBinaryProtocolFactory`, the accelerated class (modelled as the C code, see below) |
| `TCompactProtocol.py` | `Compact.v` | as above |
| `TJSONProtocol.py` | `JsonText.v` (numbers and base64, including the 17-digit text of doubles and Python's `float`), `Json.v` (TJSONProtocol), `SimpleJson.v` (TSimpleJSONProtocol) | `json.dumps` of a double in `TSimpleJSONProtocol` is an arbitrary function |
| `TMultiplexedProtocol.py`, `TMultiplexedProcessor.py`, `TProtocolDecorator.py` | `Rpc.v` | |
| `TBase.py` | `Dynamic.v` | `__repr__` |
| `TRecursive.py` | `Recursive.v` | |
| `Thrift.py` | `TFrozenDict` in `Frozen.v`; `TApplicationException` in `Rpc.v`; `TType`, `TMessageType` as constants | |
| `transport/TTransport.py` | `Transport.v` (TTransportBase.readAll, TBuffered, TFramed, TMemoryBuffer, TSaslClientTransport) | `TFileObjectTransport`, factories |
| `transport/TSocket.py` | `Transport.v` (TSocket.open, read, write), `Timeout.v` (time-outs, isOpen in threads), `Listen.v` (TServerSocket) | option setting; TServerSocket on TCP beyond the choice of the address |
| `transport/TSSLSocket.py`, `sslcompat.py` | `Tls.v` | positional arguments, keep-alive and timeouts, Python 2 |
| `transport/THeaderTransport.py` | `Header.v` | zlib is an oracle |
| `transport/THttpClient.py` | `HttpClient.v` | URL parsing, proxy lookup, TLS contexts and timeouts; http.client is an oracle |
| `protocol/THeaderProtocol.py` | `HeaderProtocol.v` | `get_headers` and the like called by handlers; a message body running on into the next frame |
| `transport/TZlibTransport.py` | `Zlib.v` | zlib is an oracle |
| `transport/TTwisted.py` | `Twisted.v` (ThriftClientProtocol, with the generated client), `TwistedServer.v` (ThriftServerProtocol, ThriftResource, with the generated processor) | SASL client (on Python 3 it fails before sending anything), the factories |
| `TTornado.py` | `Tornado.v` (`_Lock`, readFrame, write, flush), `TornadoRpc.v` (server, with the generated client and processor) | connect; several connections at once |
| `server/TServer.py`, `TProcessPoolServer.py` | `Servers.v` | |
| `server/TNonblockingServer.py` | `Nonblocking.v`, `NbThreads.v` | `_select` (no poll) in the thread model; `close` while somebody is in `serve` |
| `server/THttpServer.py` | `HttpServer.v` | HTTP parsing, which is the base class's |
| `ext/binary.h`, `compact.h`, `protocol.tcc`, `module.cpp`, `types.cpp` | `Ext.v` (encoder), `ExtRead.v` (decoder), `ExtTransport.v` (decoder over transports) | allocation failure; the int passed for a Py_ssize_t in readBytes |
| `compiler/cpp/src/thrift/generate/t_py_generator.cc` (output for structs, exceptions, services; default options, Twisted and Tornado clients and processors) | `Proto.v` (read, write, validate), `Recursive.v` (field tables), `Rpc.v` (client, processor), `Twisted.v`, `TwistedServer.v`, `TornadoRpc.v`, `GenClass.v` (names, constructor, attributes, `slots`, `enum`, `python.immutable`, equality, hashes), `Const.v` (constants.py), `Defaults.v` (defaults as objects), `Service.v` (names in service modules, Python 3), `Modules.v` (what names find in the modules), `Into.v`, `IntoFast.v` (reading into an existing object, with TSerialization.py), `RpcFast.v` (calls with accelerated protocols) | `dynamic`, `old_style`, `no_utf8strings` and `type_hints` options, positional constructor arguments, `__repr__`, remote script; fields named like a temporary (`_size12`); class statements that fail |
| `compiler/cpp/src/thrift/thrifty.yy` (442-522, 802-851, 1018-1097), `parse/t_struct.h` | `Ids.v` | the rest of the grammar; xsd attributes; identifier tests; field counters below -2^31 |

## Not modelled

The inside of the ssl module (its documented rules are in `Tls.v`), thread scheduling inside
CPython other than where a theorem is about interleavings, zlib and SASL internals (oracles), real time. The other language
libraries in /repo are out of scope.

## Trusted base

* **Coq 8.16.1's kernel**, and the standard library it loads. `coqchk` accepts
  the compiled files.
* **`Print Assumptions`** is run on every property theorem at the end of its
  `Props*.v` file. Every one prints `Closed under the global context`: no
  axiom is used. The checker lists seven parameters of the standard library's
  `Coq.ssr.ssrunder` (module type `UNDER_REL`), because `Lia`'s dependencies
  load that file; no theorem depends on them.
* **The model is a faithful reading of the code.** This is by inspection; each
  definition cites the lines it follows. The assumptions made while reading:
  * *Python.* Integers are unbounded. A `dict` is its items in insertion order
    and keys are compared with `==`. A `set` is read back in the order it was
    written. Attribute and method lookups find what the class declares; nobody
    monkey-patches. No `KeyboardInterrupt` or `MemoryError` arrives except in
    `Servers.v`, where they are events. The interpreter's own recursion limit
    is not reached.
  * *Unix sockets* (`Listen.v`). As on Linux: connecting to a path that is no
    socket, or whose socket nobody listens on, is refused; a path that exists
    cannot be bound; it outlives its socket. CPython closes a socket when the
    last reference to it goes.
  * *Memory buffers.* `Base.readAll` raises `EOFError` when too few bytes are
    left. For a size of 2^63 or more Python's `BytesIO.read` would raise
    `OverflowError` instead; both are exceptions.
  * *Values.* A double is its 64-bit pattern, so NaN payloads are kept, as
    `struct` keeps them on the supported platforms. A `uuid` is its 16 bytes.
    Enums are their integers.
  * *Generated code.* A schema is a list of struct types with typed fields,
    ids, required flags and defaults; `schema_ok` (ids distinct, in the i16
    range, defaults well typed) is what the compiler guarantees. Handlers are
    arbitrary functions of their arguments and a state, and raise only
    subclasses of `Exception` except in `Servers.v`.
    Outside `Defaults.v` a default is a value: that nobody has changed the
    object behind it, and that no class with a negative field id has a default
    of container or struct type, is assumed there (C73).
  * *Connections* deliver what was flushed, in order, cut in arbitrary pieces,
    or fail. Each theorem says which.
  * *Non-blocking server.* In `Nonblocking.v` `Connection.ready` runs as one
    step; workers finish in any order. In `NbThreads.v` its send into the socket
    pair is a step of its own, which can happen when fewer than `K` bytes are
    there (both ends are blocking sockets); the main thread's three looks at a
    connection in `_poll_select` are one step.
  * *Twisted, Tornado.* One reactor thread; callbacks run to the end. Tornado's
    futures resolve in the order the loop is told to resume them.
  * *C code.* `int` is 32 bits, `long` and `ssize_t` 64 bits, conversions to
    narrower signed types wrap (gcc and clang). Both byte orders are covered.
    A `TType` cast from a byte outside the enumeration keeps its number.
  * *Oracles.* zlib, SASL, number formatting and handlers are universally
    quantified; where a law is needed (decompress inverts compress, reading a
    number inverts writing it) it is a hypothesis of the theorem and is shown
    to be satisfiable by an example.
