{"id": "C01", "title": "Binary protocol struct round trip", "statement": "Serialising any well-typed generated struct with TBinaryProtocol succeeds, and deserialising those bytes (followed by any further bytes) with the same schema returns an equal struct and leaves exactly the further bytes unread. Unset fields come back as their schema default.", "quantifier": "every schema (including recursive ones), every well-typed value nested at most 64 structs deep with containers and strings shorter than 2^31, every trailing byte string", "why_tests_cant": "The space of schemas and values is infinite; tests sample a handful of structs and never vary the bytes that follow.", "anchors": ["lib/py/src/protocol/TBinaryProtocol.py:TBinaryProtocol", "lib/py/src/protocol/TProtocol.py:TProtocolBase", "compiler/cpp/src/thrift/generate/t_py_generator.cc:generate_py_struct_reader/generate_py_struct_writer"]}
{"id": "C02", "title": "Compact protocol struct round trip", "statement": "The same round-trip guarantee for TCompactProtocol, including booleans folded into field headers, field-id deltas, short and long collection headers, and the protocol object being back in its initial state afterwards so it can be reused.", "quantifier": "every schema, every well-typed value nested at most 64 structs deep, every trailing byte string", "why_tests_cant": "The compact protocol carries hidden state (current state, last field id, stacks); only an invariant over all nestings shows it is always restored.", "anchors": ["lib/py/src/protocol/TCompactProtocol.py:TCompactProtocol", "lib/py/src/protocol/TProtocol.py:TProtocolBase"]}
{"id": "C03", "title": "JSON protocol struct round trip", "statement": "The same round-trip guarantee for TJSONProtocol, for every value whose doubles are finite.", "quantifier": "every schema, every well-typed value with finite doubles nested at most 64 structs deep, every trailing byte string", "why_tests_cant": "Context stacks, key quoting, escapes and look-ahead interact; tests use a few documents.", "anchors": ["lib/py/src/protocol/TJSONProtocol.py:TJSONProtocol"]}
{"id": "C04", "title": "Binary wire format is the published one", "statement": "The bytes TBinaryProtocol writes for a value are exactly those given by the published binary protocol description (big-endian fixed-width integers, one-byte type codes, two-byte field ids, four-byte sizes, a zero stop byte).", "quantifier": "every schema and well-typed value", "why_tests_cant": "A round-trip test cannot see a symmetric mistake; golden-file tests cover finitely many values.", "anchors": ["lib/py/src/protocol/TBinaryProtocol.py", "doc/specs/thrift-binary-protocol.md"]}
{"id": "C05", "title": "Compact wire format is the published one", "statement": "The bytes TCompactProtocol writes for a value are exactly those given by the published compact protocol description (ULEB128 varints, zigzag, delta field headers, folded booleans, little-endian doubles, empty-map byte).", "quantifier": "every schema and well-typed value", "why_tests_cant": "As C04, and the encoding depends on the previous field id, so the number of distinct paths is unbounded.", "anchors": ["lib/py/src/protocol/TCompactProtocol.py", "doc/specs/thrift-compact-protocol.md"]}
{"id": "C06", "title": "Out-of-range integers are refused, never truncated", "statement": "Writing an integer that does not fit the declared width (i8, i16, i32, i64) through TBinaryProtocol or TCompactProtocol raises and hands no byte of that integer to the transport; an integer that fits is written.", "quantifier": "every mathematical integer and every width", "why_tests_cant": "Tests try the neighbours of the boundary; the claim is about all integers.", "anchors": ["lib/py/src/protocol/TBinaryProtocol.py:writeByte/writeI16/writeI32/writeI64", "lib/py/src/protocol/TCompactProtocol.py:makeZigZag", "lib/py/src/protocol/TProtocol.py:checkIntegerLimits"]}
{"id": "C07", "title": "Binary message header round trip and version policy", "statement": "A message header (name, type, sequence id) written by TBinaryProtocol is read back identically in both the strict and the old format; a strict reader refuses every old-format header, and every header whose first word is negative but not version 1 is refused by every reader.", "quantifier": "every name, message type 0..127, 32-bit sequence id, both strictness settings on each side, and every 4-byte first word", "why_tests_cant": "2^32 first words and unbounded names.", "anchors": ["lib/py/src/protocol/TBinaryProtocol.py:writeMessageBegin/readMessageBegin"]}
{"id": "C08", "title": "Compact message header round trip", "statement": "A message header written by TCompactProtocol is read back identically, including negative sequence ids; any other protocol id or version is refused.", "quantifier": "every name, message type 0..7, 32-bit sequence id, and every other first or second byte", "why_tests_cant": "The sequence id conversion must be inverse on all 2^32 values.", "anchors": ["lib/py/src/protocol/TCompactProtocol.py:writeMessageBegin/readMessageBegin"]}
{"id": "C09", "title": "Schema evolution: unknown and retyped fields are ignored", "statement": "A reader whose schema lacks some of the writer's fields, or declares them with another wire type, obtains exactly the same values for the fields both sides agree on, and stops at the same byte, provided every string or binary inside an ignored field is valid UTF-8.", "quantifier": "every pair of schemas, every well-typed value, binary and compact and JSON protocols", "why_tests_cant": "Quantifies over pairs of schemas and all values of the dropped fields.", "anchors": ["lib/py/src/protocol/TProtocol.py:skip", "compiler/cpp/src/thrift/generate/t_py_generator.cc:generate_py_struct_reader"]}
{"id": "C10", "title": "skip consumes exactly one value", "statement": "Skipping a value of the type it was written with consumes exactly the bytes that were written, for every value whose strings and binaries are valid UTF-8; an unknown binary field that is not valid UTF-8 makes skip raise (defect).", "quantifier": "every type and well-typed value of nesting depth below 64, every trailing byte string", "why_tests_cant": "skip is a separate recursion from reading; tests only skip small values.", "anchors": ["lib/py/src/protocol/TProtocol.py:skip"]}
{"id": "C11", "title": "Decoding terminates on every input", "statement": "Reading a struct or skipping a value with TBinaryProtocol or TCompactProtocol from any finite byte string terminates, no loop running more than one iteration more than there are unread bytes, whatever sizes the input declares.", "quantifier": "every byte string, every schema, every requested type", "why_tests_cant": "Malicious inputs are unbounded in number; fuzzing samples.", "anchors": ["lib/py/src/protocol/TProtocol.py:skip/readContainerList/readContainerMap", "lib/py/src/protocol/TBinaryProtocol.py", "lib/py/src/protocol/TCompactProtocol.py"]}
{"id": "C12", "title": "Truncated input never decodes", "statement": "If a byte string is a strict prefix of a valid encoding of a struct, reading it raises; it never yields a value.", "quantifier": "every schema, every well-typed value, every strict prefix, binary and compact", "why_tests_cant": "Every cut point of every encoding.", "anchors": ["lib/py/src/transport/TTransport.py:TTransportBase.readAll", "lib/py/src/protocol/TBinaryProtocol.py", "lib/py/src/protocol/TCompactProtocol.py"]}
{"id": "C13", "title": "Nesting depth is bounded and the depth counter never leaks", "statement": "Generated read and write code never has more than 64 structs open; one more raises DEPTH_LIMIT; and after any read or write of a struct, successful or not, the protocol object's depth counter has its previous value. Skipping never goes deeper than 64 levels.", "quantifier": "every input byte string, every value, every schema, every starting depth", "why_tests_cant": "Failure can strike at any point of any nesting; the counter must be restored on each path.", "anchors": ["lib/py/src/protocol/TProtocol.py:increment_recursion_depth/decrement_recursion_depth/skip", "compiler/cpp/src/thrift/generate/t_py_generator.cc:2108-2145"]}
{"id": "C14", "title": "Configured length limits hold", "statement": "With string_length_limit or container_length_limit set, a struct reader never asks the transport for a string longer than the limit nor accepts a container header above it (SIZE_LIMIT), and negative lengths are refused (NEGATIVE_SIZE); the name in an old-format binary message header is the one string that escapes the limit (defect).", "quantifier": "every input byte string and every limit", "why_tests_cant": "Must hold for all declared lengths in all positions.", "anchors": ["lib/py/src/protocol/TProtocol.py:_check_length", "lib/py/src/protocol/TBinaryProtocol.py:readMessageBegin", "lib/py/src/protocol/TCompactProtocol.py"]}
{"id": "C15", "title": "Dynamic and generated struct code agree", "statement": "For field ids that are not negative, the table-driven reader and writer used by dynamic classes behave like the generated code on the same schema; a negative field id on the wire is taken by the table-driven reader as counting from the end of the field table and overwrites a declared field (defect), and the table-driven code enforces no depth limit (defect).", "quantifier": "every schema without negative ids, every value, every encoding", "why_tests_cant": "Equivalence of two programs over all schemas.", "anchors": ["lib/py/src/protocol/TProtocol.py:readStruct/writeStruct", "lib/py/src/protocol/TBase.py", "compiler/cpp/src/thrift/generate/t_py_generator.cc"]}
{"id": "C16", "title": "readAll is exact under any chunking", "statement": "readAll(n) returns exactly the next n bytes of the stream however the underlying read splits them, raises EOFError when fewer remain, and returns nothing without reading when n <= 0.", "quantifier": "every stream, every n, every sequence of short reads", "why_tests_cant": "The schedule of short reads is chosen by the network.", "anchors": ["lib/py/src/transport/TTransport.py:TTransportBase.readAll"]}
{"id": "C17", "title": "TBufferedTransport is transparent", "statement": "Reading through TBufferedTransport yields the same byte stream as reading the wrapped transport, with no byte lost, duplicated or reordered, for any mix of positive read sizes (a read of size zero discards the read buffer: defect); writing followed by flush hands the wrapped transport exactly the bytes written since the last flush.", "quantifier": "every stream, every buffer size, every sequence of reads and writes, every short-read schedule", "why_tests_cant": "Unbounded histories of interleaved reads.", "anchors": ["lib/py/src/transport/TTransport.py:TBufferedTransport"]}
{"id": "C18", "title": "TFramedTransport preserves the payload stream", "statement": "What is written and flushed through TFramedTransport is read back by a TFramedTransport as the same payload stream, for every chunking of the underlying stream, when no flushed frame is empty; an empty frame is reported to the reader as end of file (defect).", "quantifier": "every sequence of non-empty frames below 2^31 bytes, every read pattern, every short-read schedule", "why_tests_cant": "Frame boundaries, chunk boundaries and read sizes interleave arbitrarily.", "anchors": ["lib/py/src/transport/TTransport.py:TFramedTransport"]}
{"id": "C19", "title": "A failed flush leaves no residue", "statement": "If the underlying write fails during flush of a buffered or framed transport, the write buffer is empty afterwards, so the next flush sends only what was written after the failure. The SASL transport keeps the failed data and resends it (defect).", "quantifier": "every history of writes and flushes and every pattern of underlying failures", "why_tests_cant": "Failure points are chosen by the environment.", "anchors": ["lib/py/src/transport/TTransport.py:TBufferedTransport.flush/TFramedTransport.flush/TSaslClientTransport.flush"]}
{"id": "C20", "title": "TSocket.write sends everything exactly once", "statement": "TSocket.write hands the kernel exactly the given bytes, in order and once, whatever partial counts send returns, or raises; and if send reports zero it raises rather than looping.", "quantifier": "every buffer and every sequence of partial sends", "why_tests_cant": "The kernel chooses the partial counts.", "anchors": ["lib/py/src/transport/TSocket.py:TSocket.write/read"]}
{"id": "C21", "title": "THeaderTransport round trip", "statement": "A payload flushed through THeaderTransport in header format with any info headers, flags, sequence id, protocol id and transforms is read back by a THeaderTransport with the same payload and the same headers, flags, sequence id and protocol id. The payload must be below the decompression limit if a zlib transform is used: one of exactly the limit can be refused (defect).", "quantifier": "every payload, every set of string headers fitting the header length, every transform list over an invertible transform", "why_tests_cant": "Header lengths, padding and varints vary without bound.", "anchors": ["lib/py/src/transport/THeaderTransport.py:flush/readFrame/_parse_header_format"]}
{"id": "C22", "title": "THeaderTransport limits and client allow-list", "statement": "A frame longer than the configured maximum is refused with SIZE_LIMIT before its body is read, and data from a client type not on the allow-list is refused with INVALID_CLIENT_TYPE. A length with the top bit set, or a frame shorter than four bytes, raises struct.error instead of a transport exception (defect).", "quantifier": "every input stream, every maximum, every allow-list", "why_tests_cant": "All first words, sizes and allow-lists.", "anchors": ["lib/py/src/transport/THeaderTransport.py:readFrame/_set_client_type/set_max_frame_size"]}
{"id": "C23", "title": "Decompressed size limit", "statement": "TZlibTransport refuses to hand out more than the configured number of decompressed bytes unless a read ends exactly on the limit, in which case the next read is unlimited (defect).", "quantifier": "every sequence of compressed chunks and every decompressor meeting the documented contract", "why_tests_cant": "Depends on adversarial chunk boundaries.", "anchors": ["lib/py/src/transport/TZlibTransport.py:readComp"]}
{"id": "C24", "title": "Non-blocking server delivers exactly the frames sent", "statement": "Whatever way the network splits the bytes of a connection, the requests handed to workers are exactly the length-prefixed frames in order, each once.", "quantifier": "every sequence of frames, every split into receive chunks shorter than the receive buffer", "why_tests_cant": "Every chunking of every stream.", "anchors": ["lib/py/src/server/TNonblockingServer.py:Connection.read"]}
{"id": "C25", "title": "Non-blocking server keeps making progress", "statement": "After a request has been answered the server goes back to waiting for input on that connection; violated when a receive fills the buffer exactly and completes a frame: the server then spins without ever reading again (defect).", "quantifier": "every history of receive sizes", "why_tests_cant": "Needs a particular alignment of frame and buffer sizes.", "anchors": ["lib/py/src/server/TNonblockingServer.py:Connection.read/TNonblockingServer._select/handle"]}
{"id": "C26", "title": "A connection the non-blocking server closed stays closed", "statement": "Once a connection is closed by the server it is never processed again; violated when a bad length follows a complete frame in the same receive (defect).", "quantifier": "every received byte string", "why_tests_cant": "Requires two frames coalesced into one receive.", "anchors": ["lib/py/src/server/TNonblockingServer.py:Connection.read"]}
{"id": "C27", "title": "Requests on the non-blocking server are isolated", "statement": "A worker decoding one request sees only the bytes of that frame; violated because the worker is given the whole receive buffer (defect). It holds when no other bytes were received with the frame.", "quantifier": "every pair of pipelined frames", "why_tests_cant": "Needs a malformed frame coalesced with another one.", "anchors": ["lib/py/src/server/TNonblockingServer.py:Connection.read/Worker.run"]}
{"id": "C28", "title": "Multiplexed routing", "statement": "A call made through TMultiplexedProtocol for a registered service reaches exactly that service's processor with the original method name, type and sequence id, for every service name without a colon and every method name; names with no colon go to the default processor if there is one; unknown services are refused.", "quantifier": "every service name, method name, set of registered services", "why_tests_cant": "Names are arbitrary strings, including ones with colons.", "anchors": ["lib/py/src/TMultiplexedProcessor.py", "lib/py/src/protocol/TMultiplexedProtocol.py"]}
{"id": "C29", "title": "Exactly one reply per two-way call, none for one-way", "statement": "Processing a well-formed request for a two-way method writes exactly one reply carrying the request's method name and sequence id: REPLY for a result or declared exception, EXCEPTION for anything else, and flushes it; a one-way method writes nothing; an unknown method gets one UNKNOWN_METHOD exception and its arguments are consumed so the next request can be read. A handler result that cannot be encoded gets no reply and leaves partial bytes in the transport (defect).", "quantifier": "every service, request, handler behaviour", "why_tests_cant": "Handler behaviour is arbitrary.", "anchors": ["compiler/cpp/src/thrift/generate/t_py_generator.cc:generate_service_server/generate_process_function"]}
{"id": "C30", "title": "End-to-end RPC result", "statement": "With a generated client and processor over a binary or compact protocol, a call returns exactly what the handler returned for the same arguments, raises the declared exception the handler raised, and raises TApplicationException for anything else.", "quantifier": "every service signature, arguments, handler behaviour", "why_tests_cant": "Composition of encoder, dispatcher and decoder over all values.", "anchors": ["compiler/cpp/src/thrift/generate/t_py_generator.cc:generate_service_client/generate_process_function", "lib/py/src/Thrift.py:TApplicationException"]}
{"id": "C31", "title": "A reply is matched to its request", "statement": "A synchronous client that has had no failed call pairs each reply with its own request; after a call that timed out while waiting, the next call returns the stale reply of the earlier one because neither name nor sequence id is compared (defect).", "quantifier": "every history of calls and timeouts", "why_tests_cant": "Needs a particular failure history.", "anchors": ["compiler/cpp/src/thrift/generate/t_py_generator.cc:1640-1757"]}
{"id": "C32", "title": "A call that fails to serialise does not disturb the next call", "statement": "Users expect a call that raised while encoding its arguments to have no effect on later calls; violated: with a buffered or framed transport the partial bytes are sent in front of the next request, and the compact protocol object refuses all further messages (defect).", "quantifier": "every sequence of calls in which one argument is not encodable", "why_tests_cant": "Needs a failing encode followed by a good call on the same connection.", "anchors": ["compiler/cpp/src/thrift/generate/t_py_generator.cc:1560-1640", "lib/py/src/protocol/TCompactProtocol.py:writeMessageBegin", "lib/py/src/transport/TTransport.py"]}
{"id": "C33", "title": "Accelerated encoder matches the pure-Python encoder", "statement": "The C encoder and the pure-Python encoder produce identical bytes, or both raise the depth exception, for every well-typed value of every schema whose field ids are not negative, in both binary and compact format; a struct with a negative field id is written by the C encoder as an empty struct, required fields of nested structs are not checked by it, and it accepts bytes for string fields (defects).", "quantifier": "every schema and well-typed value, either byte order of the machine", "why_tests_cant": "Two independent implementations over an infinite input space.", "anchors": ["lib/py/src/ext/protocol.tcc", "lib/py/src/ext/binary.h", "lib/py/src/ext/compact.h"]}
{"id": "C34", "title": "JSON decoding of truncated input", "statement": "Reading a truncated JSON document raises; violated when the cut falls inside a number and no string length limit is set: the reader then loops forever (defect). With a limit set it raises SIZE_LIMIT.", "quantifier": "every truncated document", "why_tests_cant": "A test that hits it does not terminate, and only one kind of cut triggers it.", "anchors": ["lib/py/src/protocol/TJSONProtocol.py:readJSONNumericChars/isJSONNumeric"]}
{"id": "C35", "title": "JSON string escaping round trip", "statement": "Any Unicode string without surrogates written as a JSON string is read back identically, and the text written is itself a JSON string for strings without raw control characters.", "quantifier": "every Unicode string, every following byte", "why_tests_cant": "1.1 million code points in every combination.", "anchors": ["lib/py/src/protocol/TJSONProtocol.py:writeJSONString/readJSONString"]}
{"id": "C36", "title": "Base64 and UUID text round trip in JSON", "statement": "Any byte string written as JSON base64 (with padding removed or not) is read back identically, and any UUID written as text is read back identically.", "quantifier": "every byte string, every 128-bit UUID", "why_tests_cant": "Unbounded lengths and all residues of padding.", "anchors": ["lib/py/src/protocol/TJSONProtocol.py:writeJSONBase64/readJSONBase64/writeUuid/readUuid"]}
{"id": "C37", "title": "Recursive schema fix-up", "statement": "After fix_spec, every struct reference inside every field specification of every listed class, however deeply nested in containers, carries that class's own field table, and nothing else changed.", "quantifier": "every list of classes and nesting of container types", "why_tests_cant": "Arbitrary nesting depth and reference graphs.", "anchors": ["lib/py/src/TRecursive.py"]}
{"id": "C38", "title": "Frozen dictionaries", "statement": "Item assignment and deletion on a TFrozenDict always raise and change nothing, but other dict methods still modify it, so equal dictionaries can have different hashes (defect).", "quantifier": "every dictionary and operation sequence", "why_tests_cant": "Requires reasoning about all methods of the base class.", "anchors": ["lib/py/src/Thrift.py:TFrozenDict"]}
{"id": "C39", "title": "Tornado transport lock", "statement": "The Tornado transport's write/read locks give mutual exclusion and are granted in request order, for every interleaving of acquire and release.", "quantifier": "every history of acquire and release", "why_tests_cant": "All interleavings.", "anchors": ["lib/py/src/TTornado.py:_Lock"]}
{"id": "C40", "title": "Twisted client completes every request exactly once", "statement": "Each request's Deferred fires exactly once: with its reply, or with an error when the connection is lost; replies are matched by sequence id whatever their order. A request whose reply has an unreadable body never fires (defect), and a user that retries from the error callback on connection loss loops for ever (defect).", "quantifier": "every interleaving of calls, replies and connection loss", "why_tests_cant": "All interleavings.", "anchors": ["lib/py/src/transport/TTwisted.py:ThriftClientProtocol", "compiler/cpp/src/thrift/generate/t_py_generator.cc:1560-1757"]}
{"id": "C41", "title": "HTTP server answers each request once", "statement": "THttpServer sends one HTTP response per POST: before the handler runs for a one-way call and after it otherwise; a handler error after a one-way response produces no second response. When processing a two-way message raises, no response is sent; the default processor of a multiplexed processor, and a threading HTTP server class, break the ordering (defects).", "quantifier": "every request type and handler outcome", "why_tests_cant": "All combinations of message type and failure point.", "anchors": ["lib/py/src/server/THttpServer.py"]}
{"id": "C42", "title": "Varints and zigzag", "statement": "Zigzag maps each signed width one-to-one onto the unsigned numbers of that width; varint writing is one-to-one, uses the minimal number of bytes, never more than ten for 64 bits, and reading inverts it; a varint longer than ten bytes is refused.", "quantifier": "every integer, every byte string", "why_tests_cant": "All 2^64 values and all byte strings.", "anchors": ["lib/py/src/protocol/TCompactProtocol.py:makeZigZag/fromZigZag/writeVarint/readVarint"]}
{"id": "C43", "title": "Integers read have their declared width", "statement": "Every integer TBinaryProtocol returns for a declared width fits that width; TCompactProtocol can return integers up to 70 bits wide for any declared width (defect), which then cannot be written back.", "quantifier": "every input byte string", "why_tests_cant": "All inputs.", "anchors": ["lib/py/src/protocol/TBinaryProtocol.py:readI16/readI32/readI64", "lib/py/src/protocol/TCompactProtocol.py:readI16/readI32/readI64/readVarint"]}
{"id": "C44", "title": "A bad connection does not stop the server", "statement": "In the simple, threaded, pooled and forking servers, any exception raised while serving one connection is contained: both transports of that connection are closed and the accept loop continues. The forking server, parent and child, also contains an I/O error from closing them. BaseException, failures of accept and of setting up the transports, and in the other servers failures of closing them, are not contained (defects).", "quantifier": "every sequence of connections and every exception raised in processing", "why_tests_cant": "All failure points.", "anchors": ["lib/py/src/server/TServer.py"]}
{"id": "C45", "title": "Required fields are enforced on write", "statement": "Writing a struct with an unset required field raises before any byte of the enclosing struct's end is written, and calling validate raises; reading a struct whose required field is absent succeeds silently (defect).", "quantifier": "every schema and value", "why_tests_cant": "All schemas and all subsets of unset fields.", "anchors": ["compiler/cpp/src/thrift/generate/t_py_generator.cc:1264-1286"]}
{"id": "C46", "title": "Encodings are self-delimiting", "statement": "Two well-typed values of the same schema whose encodings, each followed by arbitrary bytes, are equal must be equal values with equal following bytes; in particular no encoding is a proper prefix of another.", "quantifier": "every schema, pair of values and pair of trailing byte strings", "why_tests_cant": "Pairs of values.", "anchors": ["lib/py/src/protocol/TBinaryProtocol.py", "lib/py/src/protocol/TCompactProtocol.py"]}
{"id": "C47", "title": "UTF-8 strings survive exactly", "statement": "Encoding a string without surrogates to UTF-8 and decoding it returns the same string; decoding any accepted byte string and encoding it returns the same bytes; overlong forms, surrogates and values above U+10FFFF are refused.", "quantifier": "every string and byte string", "why_tests_cant": "All code points and byte strings.", "anchors": ["lib/py/src/protocol/TProtocol.py:writeString/readString"]}
{"id": "C48", "title": "Connection attempts", "statement": "TSocket.open connects to the first address, in order, that accepts, leaves exactly that socket open, closes every socket that failed, and raises NOT_OPEN when none accepts, provided each socket can be created and configured; a failure to create one stops the search and a failure to configure one leaks it (defects). isOpen is true until the peer closes or the connection fails, and then closes the socket.", "quantifier": "every list of addresses and every pattern of connection failures", "why_tests_cant": "All failure patterns.", "anchors": ["lib/py/src/transport/TSocket.py:TSocket.open"]}
{"id": "C49", "title": "SASL negotiation and framing", "statement": "TSaslClientTransport.open succeeds only if the server sent a sequence of OK challenges followed by COMPLETE and the SASL library reports completion; a server behaving so is accepted after sending exactly the mechanism, the initial response and one answer per challenge; any other status raises NOT_OPEN. After that, payloads flushed on one side are read as the same stream on the other, for any invertible wrap/unwrap pair and any chunking.", "quantifier": "every server byte stream, every SASL library behaviour, every sequence of non-empty payloads, every short-read schedule", "why_tests_cant": "the server's messages, the library's answers and the chunking are unbounded and independent of each other", "anchors": ["lib/py/src/transport/TTransport.py:377-449"]}
{"id": "C50", "title": "Non-blocking server sends exactly the framed answers", "statement": "However the kernel cuts the sends, the bytes sent on a connection followed by the bytes still buffered are the answers of the workers, each with its length in front, in order; nothing is buffered when the connection waits for input or for a worker.", "quantifier": "every history of events, every number of connections, every size of partial sends", "why_tests_cant": "Every split of the output and every interleaving with other connections.", "anchors": ["lib/py/src/server/TNonblockingServer.py:Connection.write/Connection.ready"]}
{"id": "C51", "title": "TZlibTransport round trip", "statement": "Data flushed through one TZlibTransport is read back unchanged through another in pieces of any sizes when it stays below the decompression limit and the transport underneath raises at its end; over a transport that returns nothing at its end a read never returns, and a flush with nothing written raises TypeError when zlib has bytes to flush (defects).", "quantifier": "every sequence of messages, every partition into reads and every zlib meeting the stated contract", "why_tests_cant": "Unbounded messages and chunk boundaries; a hang is not observable by a test.", "anchors": ["lib/py/src/transport/TZlibTransport.py:read/readComp/flush"]}
{"id": "C52", "title": "TZlibTransport statistics and reopening", "statement": "The outbound counters count uncompressed and compressed bytes as documented; the inbound counters are swapped, so the inbound compression ratio is inverted (defect). Closing and then opening gives the state of a new transport; opening without closing keeps decompressed bytes of the old stream, which are read before those of the new one (defect).", "quantifier": "every history of reads, writes and flushes", "why_tests_cant": "All histories.", "anchors": ["lib/py/src/transport/TZlibTransport.py:getCompRatio/readComp/flush"]}
{"id": "C53", "title": "TZlibTransportFactory cache", "statement": "Calls that are not interleaved always return a transport wrapping the one given; interleaved calls from two threads can return the transport of another connection, and a cached transport is returned whatever limit is asked for (defects).", "quantifier": "every sequence of calls; every interleaving", "why_tests_cant": "Depends on the thread schedule.", "anchors": ["lib/py/src/transport/TZlibTransport.py:TZlibTransportFactory.getTransport"]}
{"id": "C54", "title": "Accelerated decoder reads what was written", "statement": "For schemas with ids 0..32767 the C decoder (binary and compact, either byte order) reads the encoding of every well-typed object, under the reader's own version of the schema, into exactly what the pure-Python reader is to see, and inverts the C encoder. Exceptions: an unknown field nested, with the structs around it, beyond 64 levels is refused where Python skips it; an unknown binary field that is not UTF-8 is skipped where Python raises; a schema with a negative first id has all its fields skipped (defect).", "quantifier": "all pairs of compatible schemas, all well-typed objects nested up to 64 structs, all trailing bytes, both byte orders, all limits admitting the object", "why_tests_cant": "Infinitely many schemas, objects and schema pairs; the other byte order needs other hardware.", "anchors": ["lib/py/src/ext/protocol.tcc:readStruct/decodeValue/skip", "lib/py/src/ext/binary.h", "lib/py/src/ext/compact.h", "lib/py/src/ext/module.cpp:decode_impl"]}
{"id": "C55", "title": "Accelerated decoder on arbitrary input", "statement": "On every input the C decoder terminates, either raises EOFError, ValueError, TypeError, OverflowError or the depth-limit exception, or returns a well-typed object within the limits, at most 64 structs deep, having consumed a nonempty prefix. Exceptions: a truncated uuid makes the binary decoder read outside its buffer (defect); strings that are not UTF-8 get U+FFFD; bool bytes other than 0 and 1 are false where Python says true; strings in unknown fields escape the limit; compact varints are cut to their width; a map over its limit raises TypeError.", "quantifier": "all byte sequences, all schemas, all limits, both byte orders", "why_tests_cant": "All inputs, including hostile ones; memory errors need not show.", "anchors": ["lib/py/src/ext/protocol.tcc:readBytes/readStruct/decodeValue/skip/checkLengthLimit", "lib/py/src/ext/binary.h:readUuid/readBool", "lib/py/src/ext/compact.h:readVarint", "lib/py/src/ext/compact.cpp:readFieldBegin"]}
{"id": "C56", "title": "Bool bytes that are neither 0 nor 1", "statement": "Reading a list of booleans from arbitrary bytes never fails: TBinaryProtocol gives true exactly for the bytes other than 0, TCompactProtocol exactly for the byte 1; the rest of the input is untouched.", "quantifier": "all byte strings as elements, all following bytes, all element counts admitted by the header", "why_tests_cant": "Writers only ever produce two of the 256 bytes, so round-trip tests cannot see what the others mean.", "anchors": ["lib/py/src/protocol/TBinaryProtocol.py:readBool", "lib/py/src/protocol/TCompactProtocol.py:readBool"]}
{"id": "C57", "title": "The JSON protocols write JSON", "statement": "What TJSONProtocol and TSimpleJSONProtocol write for a struct or a message is UTF-8 text of the RFC 8259 grammar that stands for the documented JSON document, with no member name twice in an object; a message of TSimpleJSONProtocol is its struct alone. Exceptions: infinities and NaN, control characters in strings, and maps with struct keys give text that is not JSON (defects).", "quantifier": "all schemas, all well-typed values nested up to 64 structs with finite doubles and clean strings, all message headers; for TSimpleJSONProtocol all field names and all correct double formatters", "why_tests_cant": "All values and strings; a test's parser is usually more lenient than the grammar (Python's json accepts Infinity and NaN).", "anchors": ["lib/py/src/protocol/TJSONProtocol.py:TJSONProtocol/TSimpleJSONProtocol/JSONListContext/JSONPairContext"]}
{"id": "C58", "title": "THttpClient sends what was written, once per flush, and reads that response", "statement": "Every flush of THttpClient posts exactly what was written since the flush before, labelled with its length and Thrift's content type, on a connection of its own; the previous connection is closed first. What is then read is the body of the response to that request, whole or EOFError. A Cookie header carries the first Set-Cookie value of the last response. Proxy credentials go into a request only with a proxy and plain http. Exceptions (defects): the status code is ignored; a failed flush loses what was written; a cookie is forgotten after one response without it, sent back with its attributes, and only one is kept; with a proxy and plain http the origin server is sent the proxy's credentials; a custom User-Agent in other case gives two; open() while open leaks a connection.", "quantifier": "all sequences of open, close, write, flush, read and setCustomHeaders, all configurations, all fates of requests, all response bodies, headers and statuses, all short reads", "why_tests_cant": "Histories with failures between flushes and arbitrary chunking are endless, and tests use a server that answers.", "anchors": ["lib/py/src/transport/THttpClient.py:open/close/isOpen/setCustomHeaders/read/write/flush"]}
{"id": "C59", "title": "Calls over HTTP survive losses without stale replies", "statement": "A generated client over THttpClient calling a THttpServer gets, for every call, the outcome of that very call or the exception of the network, whichever requests and responses of earlier calls were lost; the handler runs exactly once for each request that arrived, in order. A handler's TTransportException hangs up on the caller. Exception (defect): arguments that cannot be encoded leave bytes that spoil the next call.", "quantifier": "all services, handlers and handler states, all call sequences with encodable arguments and results, every pattern of lost requests and responses, any earlier state of the THttpClient with nothing unsent", "why_tests_cant": "All interleavings of losses with calls; over a plain socket the same client does return stale replies (C31).", "anchors": ["lib/py/src/transport/THttpClient.py:flush", "lib/py/src/server/THttpServer.py:do_POST", "compiler/cpp/src/thrift/generate/t_py_generator.cc:generate_service_client"]}
{"id": "C60", "title": "THeaderProtocol serves every dialect on one connection and answers each in its own", "statement": "A generated processor on THeaderProtocol serves any sequence of requests arriving on one connection, each in any allowed dialect (header format with info headers and compression, framed, unframed) and with the binary or the compact protocol: every two-way request is answered in turn in its own dialect and protocol, with its name, sequence id and flags, by a message its caller decodes as the outcome of that call; one-way requests are not answered; unknown methods are answered by an exception. A THeaderProtocol client and server with any info headers and any number of compressions give for each call what calling the handler gives, and the server sees the headers of that call. Exceptions (defects): a request with an unknown protocol id or transform is never answered, because the exception path writes a bytes name and raises TypeError half way; after a request without headers the server still has the headers of the one before.", "quantifier": "all services, handlers and handler states, all request sequences with encodable arguments and results that keep to the frame limits, all dialects, flags, sequence ids, headers and transform counts, any correct zlib", "why_tests_cant": "The dialect is detected afresh for each message from its first bytes, so every ordered mixture of dialects and protocols is a different path.", "anchors": ["lib/py/src/protocol/THeaderProtocol.py:readMessageBegin", "lib/py/src/protocol/THeaderProtocol.py:writeMessageBegin", "lib/py/src/protocol/THeaderProtocol.py:_set_protocol", "lib/py/src/transport/THeaderTransport.py:readFrame", "lib/py/src/transport/THeaderTransport.py:flush", "compiler/cpp/src/thrift/generate/t_py_generator.cc:generate_process_function"]}
{"id": "C61", "title": "TCompactProtocol detects calls out of order", "statement": "A method of TCompactProtocol called in a state it is not meant for raises AssertionError (or refuses unencodable text) and changes nothing. For any sequence of calls, reading or writing, none of which raises, every end matches the innermost open struct or container in kind and direction, and inside brackets each call stands in its place. Not detected (defect): a message ended inside a field, a field outside any struct, a stop byte anywhere, and a container with another number of elements than announced.", "quantifier": "all sequences of calls of the whole protocol API with all arguments, all inputs", "why_tests_cant": "Sequences of calls are unbounded; tests make the right calls.", "anchors": ["lib/py/src/protocol/TCompactProtocol.py:26-47", "lib/py/src/protocol/TCompactProtocol.py:141-442"]}
{"id": "C62", "title": "TLS sockets use only peers that passed what was asked", "statement": "TSSLSocket sends bytes only to a peer whose handshake completed under the verification asked for (certificate chain, and name if the context checks names); an open that returns while verifying has had the callback's consent and is marked valid; no socket is leaked; with default protocol version every opened connection has a verified chain and name. TSSLServerSocket.accept hands out a transport only for clients that passed handshake and callback, and otherwise closes the socket. The legacy callback accepts exactly a first commonName equal to the host. Exceptions (defects): a refusing callback leaves the connection open and writable; is_valid is never cleared; with an explicit ssl_version on Python 3.12+ nobody checks the name; cert_reqs=CERT_NONE cannot be used with the default version; the default TSSLServerSocket raises ValueError for every client; a verifying server on a Unix socket raises IndexError; close of an unopened socket raises AttributeError.", "quantifier": "all configurations, callbacks, peers, address lists and histories of open, close and write", "why_tests_cant": "Configurations, peers and histories are unbounded, and failures of verification need hostile peers.", "anchors": ["lib/py/src/transport/TSSLSocket.py:118-309", "lib/py/src/transport/TSSLSocket.py:330-416", "lib/py/src/transport/sslcompat.py:29-117"]}
{"id": "C63", "title": "Tornado calls in any interleaving", "statement": "A generated Tornado client and a TTornadoServer over one connection: for every interleaving of calls, bytes arriving in pieces, server turns and receiving turns, with encodable arguments and results, every call returns its Future, the handler runs once per call in order, the Futures settled so far are a prefix of those of the two-way calls and each has the result of its own call, and when no bytes are on the way all are settled (which can always be reached). For every execution at all, with arbitrary bytes from the server, cancellation and loss: a Future is settled at most once, only by a frame carrying its own call's sequence id or by loss of the connection, and never after cancellation; a loss while the receiving coroutine runs fails every pending Future, if none was cancelled; later calls raise. Exceptions (defects): when the receiving coroutine has ended no Future is ever settled again, even by loss; it is ended by the proper reply to a cancelled Future, by a frame without a header and by one naming an unknown method; loss after a cancellation leaves later Futures waiting; a call whose arguments cannot be encoded spoils the next one, for which the handler runs with arguments nobody passed; a request too long for a frame stays in the write buffer, so that every later call raises and nothing is ever sent again; a request whose handling raises in the server ends the serving of its connection.", "quantifier": "all schemas, services, handlers, lists of events (calls, partial deliveries, turns, injected bytes, loss, cancellation), binary and compact protocol", "why_tests_cant": "Interleavings and partial deliveries are unbounded; the failures need particular orders of events.", "anchors": ["lib/py/src/TTornado.py:66-204", "compiler/cpp/src/thrift/generate/t_py_generator.cc:1473-1532", "compiler/cpp/src/thrift/generate/t_py_generator.cc:1553-1752", "compiler/cpp/src/thrift/generate/t_py_generator.cc:2088-2270"]}
{"id": "C64", "title": "What a reader accepts can be passed on", "statement": "On every input, an object TBinaryProtocol or TCompactProtocol decodes is an object of the schema: every attribute has its declared type, integers their declared width (compact: up to 70 bits, the defect of C43), sets and dicts no equal keys, sizes within the configured limits and the length of the input, at most 64 nested structs, and unsent attributes their default. It can be encoded again, in binary or compact, exactly when every required attribute is set at every depth (and, read from compact, the integers have their declared width); every reader whose limits allow those sizes, in particular the one that read it, then decodes the same object; likewise through JSON if the doubles are finite, and through the accelerated encoder and decoder. Exceptions (defects): an object without a required attribute is accepted but cannot be passed on; compact accepts integers it refuses to write; fields unknown to the relay are lost.", "quantifier": "all byte strings, schemas with hashable set elements and map keys and well-typed struct-free defaults, protocol configurations", "why_tests_cant": "The inputs are arbitrary bytes, not encodings of objects a test would build; the claim is about everything the decoder accepts.", "anchors": ["lib/py/src/protocol/TBinaryProtocol.py:TBinaryProtocol", "lib/py/src/protocol/TCompactProtocol.py:TCompactProtocol", "lib/py/src/protocol/TProtocol.py:_check_length", "compiler/cpp/src/thrift/generate/t_py_generator.cc:generate_py_struct_reader/generate_py_struct_writer"]}
{"id": "C65", "title": "The Twisted server", "statement": "A Twisted client and a Twisted server on one connection, whose handlers answer at once or through Deferreds fired in any order, with any cutting of the byte streams: the handler is invoked for the calls in order with what was sent, each invocation finishes once, and each caller gets what its own call earned, in the order the Deferreds fired; when nothing is under way every call has been served and every caller answered, and that state can be reached. With any client and any bytes: every invocation is waited for or finished, never both; at most one answer per invocation, in the order they finished; pieces do not matter while the connection is open; an unknown method gets one exception; bytes that are no message close the connection without invoking anything; a reply nobody waits for closes the client's and fails every waiting call. An HTTP request to ThriftResource is finished with that answer. Exceptions (defects): a result outside the range of i32 reaches a binary client as the successful result -2147418109, because the exception message is appended to the half-written reply; in compact it costs the connection; a TTransportException from one handler closes the connection for all calls on it, and what came in the same piece is still served; ThriftResource never finishes a request whose Deferred fails; a call that cannot be encoded leaves its beginning in the client's buffer, and the next call reaches the handler with other arguments.", "quantifier": "all call sequences, handlers, results, orders of completion, cuttings of the streams, byte strings, schemas; strict binary and compact", "why_tests_cant": "The interleavings of calls, completions and pieces of the two streams are unbounded, and a test of unencodable results would have to look at the value the client got.", "anchors": ["lib/py/src/transport/TTwisted.py:51-109", "lib/py/src/transport/TTwisted.py:214-239", "lib/py/src/transport/TTwisted.py:294-329", "compiler/cpp/src/thrift/generate/t_py_generator.cc:2018-2214"]}
{"id": "C66", "title": "Calls between versions of a service", "statement": "A client and a server generated from different versions of a service, on one connection: for every program of calls the handler is invoked, in order, for the calls the server knows with the server's version of the arguments (same id and wire type: the value sent, otherwise the server's default), each caller gets the client's version of the result or exception, or MISSING_RESULT if it knows neither, or UNKNOWN_METHOD if the server lacks the method, and nothing is left over; with one version this is the plain call. Exceptions (defects): the caller of a void method sees success when the handler raised an exception its version does not declare; a one-way call of a method the server lacks or has as two-way leaves an answer that the next call takes for its own; a two-way call of a method that is one-way at the server is never answered; a new required argument arrives as None.", "quantifier": "all pairs of schemas compatible field by field, methods, handlers and handler states, call sequences with encodable values; binary and compact", "why_tests_cant": "Pairs of versions, values and call sequences are unbounded; the losses are silent.", "anchors": ["compiler/cpp/src/thrift/generate/t_py_generator.cc:1478-1757", "compiler/cpp/src/thrift/generate/t_py_generator.cc:2018-2063", "compiler/cpp/src/thrift/generate/t_py_generator.cc:2272-2352"]}
{"id": "C67", "title": "The accelerated decoder over transports", "statement": "Reading a struct with the C decoder from a TBufferedTransport, TFramedTransport, TSaslClientTransport or (unframed peer) THeaderTransport over any byte stream, delivered in pieces of any sizes, gives what decoding those bytes in memory gives: the same value, the same bytes left for the next read, the same exception with the transport's end of file in place of EOFError; so objects sent one after the other are read back one after the other. A struct that lies wholly in the transport's buffer is read from any transport without touching anything else. Over any transport at all the decoder gets exactly as many bytes as it asks for, or an exception. Exceptions (defects): cstringio_refill of TZlibTransport drops whatever was decompressed beyond what it returns (all after the first 4096 bytes of a piece), that of THeaderTransport the rest of each frame it reads, so that objects vanish or are made up; that of THeaderTransport never returns at the end of an unframed stream that ends by returning nothing. Unlike the Python reader, the decoder passes over empty frames.", "quantifier": "all streams and chunkings, buffer sizes, frame boundaries, schemas, byte strings and sequences of objects; binary and compact", "why_tests_cant": "The refill path depends on where pieces and frames end inside a value; every position of every value.", "anchors": ["lib/py/src/ext/protocol.tcc:298-366", "lib/py/src/transport/TTransport.py:183-199", "lib/py/src/transport/TTransport.py:308-321", "lib/py/src/transport/TTransport.py:455-468", "lib/py/src/transport/TZlibTransport.py:251-264", "lib/py/src/transport/THeaderTransport.py:357-366"]}
{"id": "C68", "title": "Generated classes behave as the struct model; field names and keywords", "statement": "The classes emitted for structs, unions and exceptions (mutable or python.immutable, with or without the slots option) read, write and pass through the C encoder and decoder exactly as the plain struct model: same result and exception for every input, same bytes for every object; slots make no difference to either; what is written is read back in binary, compact and JSON, with the enum option too if enum values are members. Hypothesis: field names are distinct, none is a word the generator escapes or a method name, and none used by an immutable class's read. Escaping yields no Python keyword except await (and async), and two names clash only as from/from_. Where the hypothesis fails (defects): a field named by a keyword makes a slots class impossible to construct, an immutable object impossible to write or hash, is not found by the C encoder, and is never delivered by the C decoder whatever the input; a field named write, validate or read breaks that method.", "quantifier": "all programs, classes, options, protocols, inputs, objects and field names", "why_tests_cant": "The names are escaped in some places and not in others; every name in every kind of class over every protocol is needed, and losses are silent.", "anchors": ["compiler/cpp/src/thrift/generate/t_py_generator.cc:55-58", "compiler/cpp/src/thrift/generate/t_py_generator.cc:381-386", "compiler/cpp/src/thrift/generate/t_py_generator.cc:776-1017", "compiler/cpp/src/thrift/generate/t_py_generator.cc:1095-1285", "lib/py/src/ext/protocol.tcc:571-596", "lib/py/src/ext/protocol.tcc:937-1053"]}
{"id": "C69", "title": "Immutable generated classes", "statement": "Whatever attributes code sets or deletes on an object of a python.immutable class (exceptions by default), in any order, every field keeps its value and each attempt on a field raises TypeError; nothing else changes either, unless it is an exception with slots. Objects that compare equal have equal hashes, equality is symmetric, and without slots every object equals itself. Exceptions (defects): with slots, an object holding a NaN differs from itself; read keeps fields in local variables, so a field named fid reads as 0 (binary, compact, JSON), ftype as 0, fname as None, whatever was sent, and a field named iprot, TType or cls makes every read fail.", "quantifier": "all classes, objects, sequences of attribute operations, protocols and inputs", "why_tests_cant": "Immutability is about every sequence of operations; the name clashes lose data for particular field names only, on every input.", "anchors": ["compiler/cpp/src/thrift/generate/t_py_generator.cc:896-1017", "compiler/cpp/src/thrift/generate/t_py_generator.cc:1042-1080", "compiler/cpp/src/thrift/generate/t_py_generator.cc:1095-1205"]}
{"id": "C70", "title": "Calls over TJSONProtocol", "statement": "What C28-C32 and C64 say of calls over the binary and compact protocols holds over TJSONProtocol when doubles are finite, whatever state earlier messages left the protocol objects in: each request gets exactly one reply (none when one-way), unknown methods are refused and their arguments consumed, whatever bytes they hold; every caller in any history gets the outcome of its own request, also between versions of a service, over HTTP and pipelined over Tornado; a multiplexed request does in the multiplexed processor what it does in the service's own. Exceptions (defects): a call that gave up waiting hands its reply to the next one; a call that fails while its arguments are encoded leaves the beginning of its message in the buffer, and the next call is sent behind it.", "quantifier": "all schemas, services, handlers, arguments, histories, limits and protocol states", "why_tests_cant": "The reader looks one byte ahead and shares its context stack with the writer; that no message ever disturbs the next one is a fact about all histories.", "anchors": ["lib/py/src/protocol/TJSONProtocol.py:153-211", "lib/py/src/protocol/TJSONProtocol.py:423-435", "lib/py/src/protocol/TJSONProtocol.py:507-516", "lib/py/src/TMultiplexedProcessor.py:30-80"]}
{"id": "C71", "title": "Enum values in classes generated with the enum option", "statement": "With the `enum` option the Python reader gives, for any input and protocol, what it gives without the option but with enum members for the integers, or raises ValueError; no object it returns holds, at any depth, an enum value that is not a member. Between two ends that agree on everything but their enums, a well-typed value arrives exactly if the reader knows all the enum values in it, and is rejected with ValueError otherwise (binary, compact, JSON). In a mutable class, construction and assignment turn an integer into the member of that value or fail. Exceptions (defects): the constructor of an immutable class turns an integer into None, so that the C decoder never delivers an enum field of an immutable class; the C decoder leaves plain integers in containers and typedef'd enum fields, and the Python writer fails on every object with such a value.", "quantifier": "all programs with plain names, protocols, inputs, values, states", "why_tests_cant": "Where an enum value can hide in a type and which of the three assignment paths it takes are unbounded; a test tries the shapes it thought of.", "anchors": ["compiler/cpp/src/thrift/generate/t_py_generator.cc:907-937", "compiler/cpp/src/thrift/generate/t_py_generator.cc:990-1017", "compiler/cpp/src/thrift/generate/t_py_generator.cc:2373-2430", "compiler/cpp/src/thrift/generate/t_py_generator.cc:2555-2640", "lib/py/src/ext/protocol.tcc:723-1053"]}
{"id": "C72", "title": "Constants in constants.py", "statement": "Every constant of the IDL whose value lies within the limits below is accepted, printed as valid Python and evaluates on import to the value the IDL gives: strings, ASCII binaries, uuids, integers of any size, 0/1 booleans, doubles that are zero or of magnitude at least 0.5, enum members by name or number, lists, sets and maps with hashable elements or keys, structs with their defaults, and references to constants of the same base type; the whole module imports with every constant under its name. Outside these limits (defects): a binary constant with a non-ASCII byte makes constants.py a SyntaxError; a double below 2^-55 becomes zero and others below 0.5 change; an infinite double is a NameError; a container constant given by a reference or by a value of another kind is accepted and empty; a reference to a double given as an integer is 0.0; a string or double given for an enum is taken for member 0; booleans other than 0 and 1 are accepted and true if positive; a struct constant naming a field that is a Python word raises TypeError; a non-empty set of, or map keyed by, mutable containers cannot be built.", "quantifier": "all programs with plain names, scopes, types, constants and values", "why_tests_cant": "Whether escaping, number formatting and checking agree depends on every byte and digit; tests try a few constants.", "anchors": ["compiler/cpp/src/thrift/parse/t_scope.h:109-210", "compiler/cpp/src/thrift/main.cc:736-880", "compiler/cpp/src/thrift/parse/t_const_value.h:55-258", "compiler/cpp/src/thrift/generate/t_py_generator.cc:596-760", "compiler/cpp/src/thrift/generate/t_generator.cc:150-161"]}
{"id": "C73", "title": "Default values as objects", "statement": "After types.py has loaded, a class without negative field ids can be called with any of its parameters, and each attribute is the argument or the one object made for that parameter when the class was defined; a default without structs reads as the constant it is until that object is changed; defaults of base and enum types cannot be changed. So (defect) all objects made without a field whose default is a list, set, map or struct share that one object, as do decoded mutable objects and immutable objects decoded by the C decoder when the field is absent: what is appended through one is seen in all, and in objects made later; the copy that __init__ intends is made only for an argument that is the very object in thrift_spec. The Python reader of an immutable class makes new objects. (defects) A class with a negative field id and a default that is not of base or enum type raises IndexError whenever it is called; a default that constructs a struct whose class has such a default, or that is declared later or is the class itself, makes types.py fail to import.", "quantifier": "all programs, classes, fields, default expressions, heaps, keyword arguments and histories between two constructions", "why_tests_cant": "Sharing shows only when one of two objects made at different times is changed; tests compare values of single objects.", "anchors": ["compiler/cpp/src/thrift/generate/t_py_generator.cc:776-812", "compiler/cpp/src/thrift/generate/t_py_generator.cc:896-941", "compiler/cpp/src/thrift/generate/t_py_generator.cc:1127-1195", "compiler/cpp/src/thrift/generate/t_py_generator.cc:2780-2794", "lib/py/src/ext/protocol.tcc:938-1053"]}
{"id": "C74", "title": "Names in generated services", "statement": "In the plain, Twisted and Tornado clients and processors generated for a service and those it extends: if no function is called like a word of Python or like an auxiliary method of another, and no parameter like a name the client uses, then a call sends the message of that function with every argument under its name and (plain client) reads its result; a reply goes to the recv_ method of its function; messages go to the process_ method of the function they name, others nowhere; and if no exception is called like a name the processor uses, every outcome of the handler gets the reply due to it. Defects: an argument for a parameter called args, or (Twisted) oprot or seqid, or (Tornado) oprot or future, is dropped and an object of the client or the sequence number written in its place; a parameter called like a module name the client reads (TMessageType, <fn>_args, defer, concurrent) makes every call fail, in one case after the message has been begun; a function called like a word of Python can neither be called nor served; an exception called oprot, msg_type, seqid or result, like its class, or TMessageType, leaves calls unanswered; a parameter self, a word beside the same word with an underscore, or an exception called self or success make the module a SyntaxError; a function called send_<other> is replaced by the other's method.", "quantifier": "all chains of services, functions, parameters, exceptions, arguments, handler outcomes and states, in three flavours", "why_tests_cant": "Which names collide depends on the IDL; the test IDLs use none of these names, and the compiler accepts them silently.", "anchors": ["compiler/cpp/src/thrift/generate/t_py_generator.cc:1292-1377", "compiler/cpp/src/thrift/generate/t_py_generator.cc:1429-1757", "compiler/cpp/src/thrift/generate/t_py_generator.cc:1971-2352", "compiler/cpp/src/thrift/generate/t_py_generator.cc:2814-2829", "compiler/cpp/src/thrift/parse/t_service.h:40-72", "lib/py/src/transport/TTwisted.py:96-110"]}
{"id": "C75", "title": "Listening sockets", "statement": "TServerSocket.listen takes the first address of the configured family (IPv6 if none is configured), or the last. On a Unix path: if nobody is reached there, a server that starts alone comes up, is the one reached, has its backlog, and leaves no other socket open, whatever any number of servers did before and wherever their processes ended; while one is reached, no number of others starting at any time takes its path, and their listen does not return; if listen raises, the server is not reached; a closed server is not reached, and can be set up again. Defects: a family given as a plain int is not recognised and the last address taken; a file at the path that is no socket is deleted; calling listen on a listening server raises and leaves nobody reached; two servers that start at the same time may both return from listen with one unreachable; a failed listen leaves a handle that cannot accept, after which setBacklog has no effect.", "quantifier": "all address lists, kernel states, numbers of servers, interleavings of their calls to the kernel, injected errors and process ends", "why_tests_cant": "The interleavings are the scheduler's, and the files at the path and the failures are the environment's.", "anchors": ["lib/py/src/transport/TSocket.py:203-256", "lib/py/src/transport/TSocket.py:32-48"]}
{"id": "C76", "title": "Names of types in generated modules", "statement": "Exactly which class a name finds: in ttypes.py, of the types written so, the last defined; in constants.py so, unless the name begins with an underscore; in a service's module so, unless it begins with an underscore or is bound there after the types are imported (TProcessor, TTransport, what zope, Twisted and Tornado need, all_structs, Iface, Client, Processor, <fn>_args, <fn>_result). If the types of a program are written differently from each other and from those names, the names ttypes.py uses and the packages it includes, and no name needed begins with an underscore, importing ttypes.py and the service's module succeeds and every name in them finds what the generator means. Otherwise (defects): a library or builtin name finds the library's object exactly if no type is written so; of types written alike (from, from_) only the last is ever found; a struct or exception called all_structs, TType (if any struct has fields) or like an included package that is referred to makes ttypes.py fail to import; a function that takes, returns or throws a struct whose name, or whose package's, begins with an underscore makes the service's module fail to import.", "quantifier": "all programs, services, options, type names, package names and sets of builtin names", "why_tests_cant": "Every name a user may choose, in every position, against the order of imports in three kinds of modules.", "anchors": ["compiler/cpp/src/thrift/generate/t_py_generator.cc:423-522", "compiler/cpp/src/thrift/generate/t_py_generator.cc:776-842", "compiler/cpp/src/thrift/generate/t_py_generator.cc:1292-1377", "compiler/cpp/src/thrift/generate/t_py_generator.cc:2873-2886"]}
{"id": "C77", "title": "Reading into an existing object", "statement": "TSerialization.deserialize(base, buf), in pure Python and with the accelerated protocols, for any protocol and any input: how it ends, which attributes of base it assigns and what it assigns to them depend on the input only, also when it fails, and all others keep what base had; on a new object it gives what reading a new object gives. For binary, compact and JSON messages written by this or a compatible version of the program: the fields sent with the reader's id and wire type are in base as the reader should see them, and the others are base's own, so that values of an earlier message stay where a new object would have the default. Defects: for classes whose objects cannot be changed (exceptions, python.immutable) base is returned as it was, whatever the message says; a message that ends after the header of a field holding a container or an object of a changeable class raises EOFError and leaves that attribute of base emptied. With the accelerated protocols the same holds of complete messages; each attribute assigned gets a value read to its end, also when reading fails later.", "quantifier": "all protocols, schemas, pairs of compatible schemas, objects, byte strings and messages followed by any bytes", "why_tests_cant": "What is left in the object is asked for every input and every way of failing, and for every earlier content of the object.", "anchors": ["lib/py/src/TSerialization.py:31-38", "compiler/cpp/src/thrift/generate/t_py_generator.cc:1095-1205", "compiler/cpp/src/thrift/generate/t_py_generator.cc:2361-2547", "lib/py/src/ext/protocol.tcc:937-1053", "lib/py/src/ext/module.cpp:83-116"]}
{"id": "C78", "title": "Calls with accelerated protocols", "statement": "Generated clients and processors over TBinaryProtocolAccelerated and TCompactProtocolAccelerated. With the client, the server's input and the server's output each accelerated or not, on machines of any byte order, and ids of 0 or more: every history of calls gives every caller what the handler says, and leaves nothing behind. Defects: when the arguments of a method are declared without ids (so that they get negative ones), an accelerated client sends an empty struct and raises nothing, and an accelerated server calls the handler with the defaults whatever was sent, where two plain ends deliver the arguments. A request whose arguments the encoder refuses leaves its header, and nothing else, in the client's buffer: a binary client sends it in front of its next request, and a compact client raises AssertionError on every later call.", "quantifier": "all schemas, services, handlers, histories of calls, limits, byte orders, and choices of the three codecs", "why_tests_cant": "The agreement is asked for every service and every history, with every mixture of codecs and byte orders; a test runs one machine.", "anchors": ["lib/py/src/protocol/TBinaryProtocol.py:262-294", "lib/py/src/protocol/TCompactProtocol.py:461-487", "compiler/cpp/src/thrift/generate/t_py_generator.cc:1095-1120", "compiler/cpp/src/thrift/generate/t_py_generator.cc:1209-1223", "compiler/cpp/src/thrift/generate/t_py_generator.cc:1631-1757", "compiler/cpp/src/thrift/generate/t_py_generator.cc:2018-2109", "lib/py/src/ext/module.cpp:42-116"]}
{"id": "C79", "title": "The threads of the non-blocking server", "statement": "TNonblockingServer's main loop, workers, wake-up socket, stop, close and prepare, one step per visible action. In every interleaving handle raises nothing, every connection has at most one request in the queue or with a worker, the assertion of ready holds, and requests are taken in the order they were handed over, each once. A stop after the first statement of serve is noticed: at most one more poll returns, boundedly many steps follow, and the byte that ends a wait in poll is there or about to be sent. The main thread can always move, is in poll, or waits for a connection's lock held by a worker in wake_up. Without exiting handlers and without close before prepare, the live workers are the pool plus one per mark of close. Defects: (1) when the socket pair is full that wait is a deadlock, which one client pipelining one-way requests reaches for every capacity and number of threads, and no stop returns after it; (2) a stop before serve's first statement is lost; (3) once a recv fills the buffer with the end of a message the whole server never polls again, leaving other connections' answers unsent; (4) close before prepare ends the workers started later, and no request is ever worked on; (5) a handler raising SystemExit ends its worker, and after the last one nothing is worked on.", "quantifier": "all interleavings, all numbers of threads and connections, all capacities of the socket pair, all results of poll, recv, send, accept and the handlers", "why_tests_cant": "The defects need particular interleavings or a full socket pair; the safety part is about every interleaving.", "anchors": ["lib/py/src/server/TNonblockingServer.py:45-63", "lib/py/src/server/TNonblockingServer.py:132-224", "lib/py/src/server/TNonblockingServer.py:240-301", "lib/py/src/server/TNonblockingServer.py:322-416"]}
{"id": "C80", "title": "Field ids and enum values given by the compiler", "statement": "What the parser accepts as a list of fields has one member per declaration, in order, with distinct names and ids; positive numbers of 32 bits are kept, missing and (without --allow-neg-keys) nonpositive ones count down from -1; the generated code has the members in the order of their ids; declarations added at the end change no id before them. Exactly the lists with distinct names and distinct positive numbers are accepted, under -strict only without missing numbers, in a union only with at most one default. Members of a union become optional, `optional` is dropped from arguments, and both are dropped from throws clauses. With numbers of 16 bits the schema meets what the other properties assume of schemas. Enum members have the values given or one more than the one before, all of 32 bits, under distinct names. Defects: numbers beyond 32 bits are cut without a warning; ids beyond 16 bits are only warned about, and then the plain binary protocol raises on every value with the field set, the compact protocol raises or not depending on the field written before, and the accelerated binary encoder writes the id cut to 16 bits, so that the value arrives in another field; one missing number empties the field table of the struct; two enum members may get the same value without a warning.", "quantifier": "all lists of declarations, places, options, values, states of the protocols", "why_tests_cant": "The numbering is a function of every list of declarations and of three options; the ids that go wrong lie outside what test files use, and each protocol fails on them differently.", "anchors": ["compiler/cpp/src/thrift/thrifty.yy:442-522", "compiler/cpp/src/thrift/thrifty.yy:802-851", "compiler/cpp/src/thrift/thrifty.yy:1018-1097", "compiler/cpp/src/thrift/parse/t_struct.h:71-99", "compiler/cpp/src/thrift/parse/t_struct.h:169-232", "compiler/cpp/src/thrift/parse/t_scope.h:74-80", "lib/py/src/ext/binary.h:90-94", "lib/py/src/protocol/TBinaryProtocol.py:76-78", "lib/py/src/protocol/TCompactProtocol.py:193-211"]}
{"id": "C81", "title": "The time-out of a TSocket", "statement": "Without setHandle, an open TSocket always has the time-out of the last setTimeout, before or after opening and whatever isOpen was called in between; data that comes within it is read and otherwise the read times out; without a time-out a read waits. isOpen is True exactly with a handle on which there is something, nothing yet, or where peeking is refused, and then changes nothing; otherwise it closes the handle. From any number of threads in any order isOpen leaves the handle closed, with its own time-out or non-blocking, and closes nothing and never fails while the connection lives; calls that do not overlap never fail and leave it closed or with its own time-out. Defects: setHandle does not apply the time-out set before; two overlapping isOpen leave an open socket non-blocking for good, so that every read that would wait fails at once with UNKNOWN; a thread that is inside isOpen when another closes the handle fails with AttributeError, whatever it has found; a read during another thread's isOpen fails with UNKNOWN.", "quantifier": "all histories of operations, time-outs, results of peeking, numbers of threads and interleavings", "why_tests_cant": "The losses need two calls of isOpen overlapping between two of their statements, and the guarantees are about every history and every schedule.", "anchors": ["lib/py/src/transport/TSocket.py:45-48", "lib/py/src/transport/TSocket.py:74-118", "lib/py/src/transport/TSocket.py:127-180"]}
