{"id": "C01", "title": "Name registry is a bijection", "statement": "After any history of register_name calls (explicit or automatic identifiers, valid or invalid names, including calls that raise), identifier(name)=id holds exactly when name(id)=name: no two names share an identifier and no identifier has two names.", "quantifier": "every name-validation pattern, every initial mapping, every finite history of register_name calls", "why_tests_cant": "a collision needs a particular interleaving of explicit and automatic identifiers; histories are unbounded", "anchors": ["runtimepy/mapping.py:TwoWayNameMapping._set", "runtimepy/registry/name.py:NameRegistry.register_name"]}
{"id": "C02", "title": "Registrations are permanent", "statement": "Once name is known under an identifier, no later register_name call (successful, refused or raising) changes or removes that association, and registering the same name again without an identifier returns the same identifier.", "quantifier": "every history, every later call", "why_tests_cant": "must hold after every possible later call, not just sampled ones", "anchors": ["runtimepy/registry/name.py:NameRegistry.register_name"]}
{"id": "C03", "title": "Automatic identifiers are always fresh and always available", "statement": "register_name(name) with no identifier succeeds for every valid unregistered name, and the identifier returned was not associated with any name before the call; explicit identifiers already in use are refused (None) and leave the registry unchanged.", "quantifier": "every reachable registry state, every name", "why_tests_cant": "depends on the scan position and on all explicit identifiers used before", "anchors": ["runtimepy/registry/name.py:NameRegistry.register_name"]}
{"id": "C04", "title": "A conflicting mapping entry is rejected without side effects", "statement": "When loading a (key, name) association that conflicts with an existing association raises, the mapping is left exactly as it was.", "quantifier": "every mapping state and every conflicting pair", "why_tests_cant": "atomicity of failure over every state", "anchors": ["runtimepy/mapping.py:TwoWayNameMapping._set", "runtimepy/mapping.py:TwoWayNameMapping.load_key_to_name"]}
{"id": "C05", "title": "Object registry: name and identifier retrieve the same item", "statement": "For every history of register_dict calls, an item registered under a name is what get(name), get(its id) and [name] return, forever; a refused registration leaves all lookups unchanged; two items never share a name or id.", "quantifier": "every history of register_dict calls with arbitrary data", "why_tests_cant": "unbounded histories of conflicting names and ids", "anchors": ["runtimepy/registry/__init__.py:Registry.register_dict", "runtimepy/registry/__init__.py:Registry.get"]}
{"id": "C06", "title": "Runtime enumerations translate both ways", "statement": "For an integer (or boolean) enumeration built by any history of registrations, get_str(get_int(name)) = name for each registered name, get_int(get_str(v)) = v for each registered value, and asdict then reconstruction yields the same translations.", "quantifier": "every history of register_int/register_bool calls", "why_tests_cant": "every pair of names and values", "anchors": ["runtimepy/enum/__init__.py:RuntimeEnum", "runtimepy/registry/bool.py:BooleanRegistry.register"]}
{"id": "C07", "title": "Integer primitives store values modulo their width", "statement": "Assigning any integer v to an n-bit integer primitive stores the unique representable value congruent to v modulo 2^n (two's complement when signed), and v itself when v is in range.", "quantifier": "every integer v and every integer kind int8..uint64", "why_tests_cant": "unbounded integers", "anchors": ["runtimepy/primitives/base.py:Primitive.value", "runtimepy/primitives/types/int.py"]}
{"id": "C08", "title": "Integer wire encoding round-trips in every byte order", "statement": "For every integer kind and byte order, encoding a representable value yields exactly size bytes and decoding them returns the value; decoding any size bytes then encoding returns those bytes; big-endian output is the reverse of little-endian output.", "quantifier": "every kind, byte order and value", "why_tests_cant": "2^64 values per kind", "anchors": ["runtimepy/primitives/base.py:Primitive.binary", "runtimepy/primitives/base.py:Primitive.update", "runtimepy/primitives/byte_order.py"]}
{"id": "C09", "title": "Change callbacks fire exactly once per change with the values seen", "statement": "Each assignment invokes every registered callback exactly once, in registration order, iff the stored value changes; the callback receives the stored value before and the stored value after the assignment.", "quantifier": "every primitive state, every set of callbacks, every assigned value", "why_tests_cant": "all values including out-of-range ones", "anchors": ["runtimepy/primitives/base.py:Primitive.set_value", "runtimepy/primitives/base.py:Primitive._check_callbacks"]}
{"id": "C10", "title": "Callback identifiers and one-shot callbacks", "statement": "Over any history of register/remove/assign operations: callback identifiers are never reused, a removed callback never fires again, and a once-callback fires at most once over the whole history.", "quantifier": "every history of register_callback/remove_callback/assignments", "why_tests_cant": "unbounded histories", "anchors": ["runtimepy/primitives/base.py:Primitive.register_callback", "runtimepy/primitives/base.py:Primitive.remove_callback"]}
{"id": "C11", "title": "Scaled values clamp into the representable range", "statement": "Setting a scaled value never stores a value outside the integer kind's bounds, whatever the requested value; within range, the inverse of a unit-exact scaling followed by the scaling is the identity.", "quantifier": "every scaled request, every linear scaling with non-zero slope", "why_tests_cant": "all rationals", "anchors": ["runtimepy/primitives/scaling.py:invert", "runtimepy/primitives/scaling.py:apply", "runtimepy/primitives/base.py:Primitive.invert", "runtimepy/primitives/types/bounds.py:IntegerBounds.clamp"]}
{"id": "C12", "title": "String primitives are self-delimiting", "statement": "Writing any string primitive to a stream followed by arbitrary bytes and reading a string primitive back returns the same string and leaves exactly the following bytes.", "quantifier": "every Unicode string, every following byte sequence", "why_tests_cant": "all strings", "anchors": ["runtimepy/primitives/string.py:StringPrimitive"]}
{"id": "C13", "title": "PrefixedChunk framing", "statement": "For every payload that fits its length prefix, serializing a prefixed chunk followed by arbitrary bytes and reading it back returns the payload and leaves the rest; oversized payloads are rejected by an exception.", "quantifier": "every payload, every prefix width, every suffix", "why_tests_cant": "all lengths up to 2^32", "anchors": ["runtimepy/primitives/serializable/prefixed.py:PrefixedChunk"]}
{"id": "C14", "title": "Bit fields read back what was written", "statement": "Writing v to a w-bit field and reading it returns v mod 2^w; inverting a field twice restores it.", "quantifier": "every field position and width inside the register, every register value, every integer v", "why_tests_cant": "2^64 register values", "anchors": ["runtimepy/primitives/field/__init__.py:BitFieldBase.__call__", "runtimepy/primitives/field/__init__.py:BitFieldBase.invert"]}
{"id": "C15", "title": "Writing one bit field leaves all other bits alone", "statement": "Writing any value to a field changes no bit of the underlying register outside the field; so fields occupying disjoint bits are independent.", "quantifier": "every register value, field and value", "why_tests_cant": "all register values", "anchors": ["runtimepy/primitives/field/__init__.py:BitFieldBase.__call__"]}
{"id": "C16", "title": "Allocated bit fields never overlap", "statement": "For any history of flag/field/pad allocations on one register (automatic or explicit index, including failing calls), no two allocated fields overlap, each stays inside the register, and an allocation that cannot fit raises.", "quantifier": "every register width and every allocation history", "why_tests_cant": "unbounded allocation orders", "anchors": ["runtimepy/primitives/field/fields.py:BitFields._claim_bits", "runtimepy/primitives/field/fields.py:BitFields.field"]}
{"id": "C17", "title": "Struct arrays round-trip through bytes", "statement": "For every array of primitives in a standard byte order, bytes(array) has length array.size, updating an array of the same shape with those bytes gives equal values, and updating from any size bytes then serializing returns those bytes (for arrays without booleans, which normalise any non-zero byte).", "quantifier": "every reachable array of integer, boolean and (by bit pattern) float elements, every byte string", "why_tests_cant": "all shapes and values", "anchors": ["runtimepy/primitives/array/__init__.py:PrimitiveArray.update", "runtimepy/primitives/array/__init__.py:PrimitiveArray.__bytes__"]}
{"id": "C18", "title": "Array byte/index tables are inverse of each other", "statement": "For each recorded element boundary, index_at_byte(byte_at_index(i)) = i and byte_at_index(i) is the total size of the elements before i; elements added with array_length lack interior entries.", "quantifier": "every sequence of add calls", "why_tests_cant": "all shapes", "anchors": ["runtimepy/primitives/array/__init__.py:PrimitiveArray.add", "runtimepy/primitives/array/__init__.py:PrimitiveArray.byte_at_index"]}
{"id": "C19", "title": "Fragments are exactly the slices of the whole array", "statement": "fragment_bytes of a fragment over element indices [a,b) equals the corresponding byte slice of bytes(array), and updating a fragment changes exactly those elements.", "quantifier": "every array, every valid fragment, every payload", "why_tests_cant": "all shapes and index ranges", "anchors": ["runtimepy/primitives/array/__init__.py:PrimitiveArray.fragment_bytes", "runtimepy/primitives/array/__init__.py:PrimitiveArray.update_fragment"]}
{"id": "C20", "title": "Frames fit the MTU and lose no samples", "statement": "For any history of captures, every frame emitted by the framer is at most mtu-overhead bytes, frames contain whole elements, and the concatenation of all frames (after a final flush) is the concatenation of all captured samples in order.", "quantifier": "every mtu, element size, capture/flush history", "why_tests_cant": "unbounded histories", "anchors": ["runtimepy/primitives/serializable/framer.py:SerializableFramer.capture", "runtimepy/primitives/serializable/framer.py:SerializableFramer.set_mtu"]}
{"id": "C21", "title": "Serializable chains serialize in order and copy deeply enough", "statement": "A chain of serializables is written as the concatenation of its members in order, its reported length is the number of bytes written, and reading a chain of the same shape consumes exactly that many bytes.", "quantifier": "every chain", "why_tests_cant": "all chain shapes", "anchors": ["runtimepy/primitives/serializable/base.py:Serializable.to_stream", "runtimepy/primitives/serializable/base.py:Serializable.length"]}
{"id": "C22", "title": "Message framing is independent of chunking", "statement": "However the byte stream produced by encoding a list of messages is split into chunks, feeding the chunks to the message processor delivers exactly those messages, in order, once each.", "quantifier": "every list of messages shorter than 2^32 bytes and every chunking", "why_tests_cant": "exponentially many chunkings", "anchors": ["runtimepy/message/__init__.py:MessageProcessor.process", "runtimepy/message/__init__.py:MessageProcessor.encode"]}
{"id": "C23", "title": "Telemetry event streams decode to the events sent", "statement": "Feeding the bytes produced by streaming channel events to parse_event_stream yields exactly the events (channel name, timestamp, value) in order, for every chunking of the stream.", "quantifier": "every event list, every chunking", "why_tests_cant": "exponentially many chunkings", "anchors": ["runtimepy/channel/environment/telemetry.py:TelemetryChannelEnvironment.parse_event_stream", "runtimepy/channel/event/__init__.py:PrimitiveEvent._poll"]}
{"id": "C24", "title": "Event rate limiting", "statement": "Between two emitted events of one channel at least min_period elapses, every emitted event carries the value stored when it was emitted, and a change arriving min_period or more after the last event is always emitted.", "quantifier": "every sequence of value changes with non-decreasing timestamps", "why_tests_cant": "unbounded histories", "anchors": ["runtimepy/channel/event/__init__.py:PrimitiveEvent._poll"]}
{"id": "C25", "title": "HTTP message framing is independent of chunking", "statement": "However an HTTP byte stream is split into chunks, the HTTP processor yields the same sequence of (header, payload) pairs and ends in the same state.", "quantifier": "every byte stream over ASCII, every chunking", "why_tests_cant": "exponentially many chunkings", "anchors": ["runtimepy/net/http/__init__.py:HttpMessageProcessor.ingest", "runtimepy/net/http/state.py:HeaderProcessingState.service"]}
{"id": "C26", "title": "HTTP requests and responses round-trip", "statement": "Serializing a request or response header together with its payload (content-length as set by the connection) and parsing the bytes yields one message with the same start line, headers and payload.", "quantifier": "every header with well-formed fields, every payload", "why_tests_cant": "all headers and payloads", "anchors": ["runtimepy/net/tcp/http/__init__.py:HttpConnection._send", "runtimepy/net/http/header.py:RequestHeader", "runtimepy/net/http/response.py:ResponseHeader"]}
{"id": "C27", "title": "Telnet data stream extraction", "statement": "For any chunk, the text delivered is the data bytes outside telnet commands in order, each command and option is reported once in order; result is independent of how the stream is chunked.", "quantifier": "every byte stream and chunking", "why_tests_cant": "exponentially many chunkings", "anchors": ["runtimepy/net/tcp/telnet/__init__.py:Telnet.process_binary"]}
{"id": "C28", "title": "TFTP blocks reassemble to the file", "statement": "The blocks produced for a file of any size concatenate to the file, all but the last are exactly block-size, and the last is shorter than block-size (so the receiver can detect the end).", "quantifier": "every file content, every block size >= 1", "why_tests_cant": "all file sizes", "anchors": ["runtimepy/net/udp/tftp/io.py:tftp_chunks"]}
{"id": "C29", "title": "TFTP request encoding", "statement": "Filename and mode survive encoding and parsing for every filename/mode without NUL; opcodes and block numbers are encoded in two big-endian bytes.", "quantifier": "every filename, mode", "why_tests_cant": "all strings", "anchors": ["runtimepy/net/udp/tftp/enums.py:parse_filename_mode", "runtimepy/net/udp/tftp/enums.py:encode_filename_mode"]}
{"id": "C30", "title": "TFTP transfer never delivers a corrupted file", "statement": "Under any loss, duplication and reordering of datagrams, what the receiving side has written is at every moment a prefix of the file sent, and when it reports success it is the whole file; an undisturbed transfer always succeeds.", "quantifier": "every file, every network schedule", "why_tests_cant": "unbounded adversarial schedules", "anchors": ["runtimepy/net/udp/tftp/endpoint.py:TftpEndpoint.ingest_file", "runtimepy/net/udp/tftp/endpoint.py:TftpEndpoint.serve_file", "runtimepy/net/udp/tftp/__init__.py:BaseTftpConnection.request_read"]}
{"id": "C31", "title": "Only commandable channels can be changed by commands", "statement": "No command without the force flag changes a channel that is not commandable; a command that reports failure changes nothing; a GET command never changes anything; remote and custom commands never change local channels.", "quantifier": "every environment, every command history", "why_tests_cant": "all command sequences", "anchors": ["runtimepy/channel/environment/command/processor.py:ChannelCommandProcessor.handle_command"]}
{"id": "C32", "title": "Command hooks run exactly for accepted commands", "statement": "Registered hooks run exactly once, in order, for each accepted set/toggle/remote/custom command, and never for a rejected command or a local GET.", "quantifier": "every environment, every command history", "why_tests_cant": "all command sequences", "anchors": ["runtimepy/channel/environment/command/processor.py:ChannelCommandProcessor.handle_command"]}
{"id": "C33", "title": "Environment set and value agree", "statement": "After a successful set of a channel or bit field, value returns what was set (through the enumeration when one applies; a scaled set clamps to the nearest representable value, an unscaled set wraps modulo the primitive's width), and all other channels and fields that do not share the register are unchanged.", "quantifier": "every environment, key and value", "why_tests_cant": "all environments", "anchors": ["runtimepy/channel/environment/base.py:BaseChannelEnvironment.set", "runtimepy/channel/environment/base.py:BaseChannelEnvironment.value"]}
{"id": "C34", "title": "Toggle is an involution on boolean channels", "statement": "Toggling a boolean channel or flag negates it, twice restores it, and affects nothing else.", "quantifier": "every environment", "why_tests_cant": "all environments", "anchors": ["runtimepy/channel/environment/command/processor.py:ChannelCommandProcessor.do_toggle"]}
{"id": "C35", "title": "No channels after finalization", "statement": "Once an environment is finalized, no channel, enumeration-typed channel or field can be added: the channel set never changes again; strict repeated finalization raises.", "quantifier": "every history of channel/add_field/finalize", "why_tests_cant": "unbounded histories", "anchors": ["runtimepy/mixins/finalize.py:FinalizeMixin", "runtimepy/channel/environment/create.py", "runtimepy/channel/environment/base.py:BaseChannelEnvironment.finalize"]}
{"id": "C36", "title": "Message identifiers of two peers never collide", "statement": "Identifiers drawn by a peer with an even start and one with an odd start are all distinct, within and across peers, for any number of draws.", "quantifier": "any interleaving, any number of draws", "why_tests_cant": "unbounded", "anchors": ["runtimepy/util.py:Identifier", "runtimepy/subprocess/peer.py:RuntimepyPeer.__init__"]}
{"id": "C37", "title": "A response reaches exactly the request that caused it", "statement": "In any interleaving of requests, responses, duplicates, unsolicited messages and timeouts, a waiting request completes only with a message carrying its own identifier, each response completes at most one request, and the message answering a request is never itself answered.", "quantifier": "every interleaving", "why_tests_cant": "unbounded interleavings", "anchors": ["runtimepy/message/interface.py:JsonMessageInterface.wait_json", "runtimepy/message/interface.py:JsonMessageInterface._handle_reserved"]}
{"id": "C38", "title": "Two peers never answer each other forever", "statement": "After a request is sent between two peers, the exchange stops after a bounded number of messages (request, response), including loopback polls.", "quantifier": "every message content, every handler set", "why_tests_cant": "unbounded exchange", "anchors": ["runtimepy/message/interface.py:JsonMessageInterface.process_json", "runtimepy/message/interface.py:JsonMessageInterface._poll_handler"]}
{"id": "C39", "title": "Requests do not leak bookkeeping", "statement": "After a request completes or times out, no bookkeeping for its identifier remains.", "quantifier": "every history of requests, responses and timeouts", "why_tests_cant": "unbounded histories", "anchors": ["runtimepy/message/interface.py:JsonMessageInterface.wait_json"]}
{"id": "C40", "title": "Reconnect back-off grows exponentially up to a cap", "statement": "The wait before attempt k never decreases, doubles until it reaches the cap, never exceeds the cap, and retrying stops after exactly max_tries attempts.", "quantifier": "every interval, cap, max_tries and attempt number", "why_tests_cant": "all attempt counts", "anchors": ["runtimepy/net/backoff.py:ExponentialBackoff"]}
{"id": "C41", "title": "A task with an iteration limit stops after that many dispatches", "statement": "A task run with max_iterations=n > 0 dispatches at most n times, for every n the limit channel can hold.", "quantifier": "every limit up to 2^32-1 and every dispatch behaviour", "why_tests_cant": "needs 2^32 iterations", "anchors": ["runtimepy/task/asynchronous.py:AsyncTask.run"]}
{"id": "C42", "title": "A periodic task stops when a dispatch fails or it is disabled", "statement": "After a dispatch returns False, or the task is disabled, no further dispatch happens; a paused task never dispatches; at most one run loop is active at a time.", "quantifier": "every schedule of dispatch results, pauses, disables, cancels and stop signals", "why_tests_cant": "unbounded schedules", "anchors": ["runtimepy/task/basic/periodic.py:PeriodicTask.run"]}
{"id": "C43", "title": "Application stages run in order and stop at the first failure", "statement": "Application stages run in order; a stage starts only if every application in every earlier stage returned 0 and none raised; results are recorded for every stage; the overall result is 0 exactly when every application returned 0.", "quantifier": "every list of stages and every combination of return codes", "why_tests_cant": "unbounded stage lists and codes", "anchors": ["runtimepy/net/arbiter/base.py:BaseConnectionArbiter._run_apps_list", "runtimepy/net/arbiter/base.py:BaseConnectionArbiter._run_apps", "runtimepy/net/arbiter/result.py:results"]}
{"id": "C44", "title": "Counters equal the traffic they count", "statement": "After any sequence of increments, the message counter is the number of increments mod 2^32 and the byte counter is the total byte count mod 2^64; task metrics count dispatches mod 2^32 and overruns mod 2^16.", "quantifier": "every history", "why_tests_cant": "unbounded histories", "anchors": ["runtimepy/metrics/channel.py:ChannelMetrics.increment", "runtimepy/metrics/task.py:PeriodicTaskMetrics.measure"]}
{"id": "C45", "title": "Connection lifecycle", "statement": "A connection's disable hook runs exactly once per enabled period whatever the number of disable calls; restart happens only while disabled, only before the back-off gives up and before the stop signal; queued writes are sent in order.", "quantifier": "every history of disable/restart/write operations", "why_tests_cant": "unbounded histories", "anchors": ["runtimepy/net/connection.py:Connection.disable", "runtimepy/net/connection.py:Connection._handle_restart"]}
{"id": "C46", "title": "SCPI replies belong to the command that was sent", "statement": "The reply returned for a command is the reply the instrument sent to that command, whatever timeouts happened before.", "quantifier": "every history of commands, replies and timeouts", "why_tests_cant": "unbounded histories", "anchors": ["runtimepy/net/tcp/scpi/__init__.py:ScpiConnection.send_command"]}
{"id": "C47", "title": "Served files stay inside the configured directories", "statement": "Whatever path a client requests, the server only reads files beneath its configured search directories.", "quantifier": "every request path", "why_tests_cant": "all strings", "anchors": ["runtimepy/net/server/__init__.py:RuntimepyServerConnection.try_file"]}
{"id": "C48", "title": "UI tab telemetry does not leak callbacks", "statement": "When a tab is hidden or its connection closes, no callbacks registered for it remain on any primitive, and while shown each channel has exactly one.", "quantifier": "every history of shown/hidden/close events", "why_tests_cant": "unbounded histories", "anchors": ["runtimepy/net/server/app/env/tab/message.py:ChannelEnvironmentTabMessaging.handle_shown_state", "runtimepy/net/server/websocket/state.py:TabState.clear_telemetry"]}
{"id": "C49", "title": "Asynchronous commands are processed first-in first-out, exactly once", "statement": "Every command accepted by the asynchronous command hook is handed to the handler exactly once, in acceptance order, whatever the interleaving with queue processing.", "quantifier": "every interleaving of enqueues and processing", "why_tests_cant": "unbounded interleavings", "anchors": ["runtimepy/mixins/async_command.py:AsyncCommandProcessingMixin.process_command_queue"]}
{"id": "C50", "title": "UDP struct telemetry round-trips", "statement": "Every datagram produced by a struct transmitter is accepted by a receiver of the same struct and yields the captured samples (values and timestamps) in order.", "quantifier": "every sample history, every mtu", "why_tests_cant": "unbounded histories", "anchors": ["runtimepy/net/arbiter/struct/__init__.py:TimestampedStruct.process_datagram", "runtimepy/net/arbiter/struct/__init__.py:UdpStructTransceiver.capture"]}
{"id": "C51", "title": "Dictionary export of a bit-field register reconstructs it", "statement": "Rebuilding a register from the exported description yields the same fields with the same positions, widths, names and raw value.", "quantifier": "every allocation history", "why_tests_cant": "unbounded histories", "anchors": ["runtimepy/primitives/field/fields.py:BitFields.asdict"]}
{"id": "C52", "title": "Protocol definitions survive export and import", "statement": "Importing an exported protocol definition yields a protocol with the same wire size, field order and encoding.", "quantifier": "every protocol definition", "why_tests_cant": "all definitions", "anchors": ["runtimepy/codec/protocol/json.py:JsonProtocol.export_json", "runtimepy/codec/protocol/json.py:JsonProtocol.import_json"]}
{"id": "C53", "title": "Type system sizes", "statement": "The size reported for a registered custom type is the sum of the sizes of its fields, recursively; names resolve uniquely in namespaces.", "quantifier": "every history of type registrations", "why_tests_cant": "unbounded histories", "anchors": ["runtimepy/codec/system/__init__.py:TypeSystem"]}
{"id": "C54", "title": "Remote log entries are delivered exactly once", "statement": "Entries staged for the peer's log leave with the following messages exactly once and in the order they were staged, and a peer that handles a message logs its entries once and in order.", "quantifier": "every history of staging, sending, requesting and receiving", "why_tests_cant": "unbounded histories", "anchors": ["runtimepy/message/interface.py:JsonMessageInterface.stage_remote_log", "runtimepy/message/interface.py:JsonMessageInterface.send_json", "runtimepy/message/interface.py:JsonMessageInterface._handle_reserved"]}
{"id": "C55", "title": "A peer's answer contains what was asked, and nothing else", "statement": "When a peer handles a message that is not the response to one of its own requests, it sends at most one answer. The answer carries the identifier of the message it answers, the result of each handler under that handler's key, and the sorted list of the keys it has no handler for; it carries nothing else apart from staged log entries. Loopback data comes back unchanged. A message with no identifier and only reserved keys gets no answer.", "quantifier": "every message, every set of handlers, every peer state", "why_tests_cant": "The combinations of keys, identifiers, handler results and pending requests are unbounded; tests try a handful of messages.", "anchors": ["runtimepy/message/interface.py: process_json, _handle_reserved", "runtimepy/message/handlers.py: loopback_handler"]}
{"id": "C56", "title": "Disabling a task takes effect", "statement": "After disable() is called on a task, no further dispatch of it starts until it is enabled or started again, whatever the task is doing at the time of the call.", "quantifier": "every schedule of disable calls, dispatches, sleeps and loops", "why_tests_cant": "The outcome depends on which suspension point the task is at when disable() is called.", "anchors": ["runtimepy/task/basic/periodic.py:PeriodicTask.disable", "runtimepy/task/basic/periodic.py:PeriodicTask.run", "runtimepy/task/asynchronous.py:AsyncTask.disable", "runtimepy/task/asynchronous.py:AsyncTask.run"]}
{"id": "C57", "title": "An enabled connection that is processed is served", "statement": "While process() of a connection is running and the connection reports to be enabled, its reader is waiting for or handling messages, and every text queued is handed to the transport as soon as the texts before it have been sent.", "quantifier": "every history of messages, sends, exceptions, disable calls, restarts and signals", "why_tests_cant": "It depends on which exception hits which task and when.", "anchors": ["runtimepy/net/connection.py:Connection.process", "runtimepy/net/connection.py:Connection._process_read", "runtimepy/net/connection.py:Connection._process_write_text"]}
{"id": "C58", "title": "The initialized event tells that the connection is ready", "statement": "The event 'initialized' is set only on a connection that is enabled and whose initialization has succeeded, and disabling the connection clears it.", "quantifier": "every history of initializations, disable calls and restarts", "why_tests_cant": "It depends on the order of disabling and initializing.", "anchors": ["runtimepy/net/connection.py:Connection._async_init", "runtimepy/net/connection.py:Connection._set_enabled"]}
{"id": "C59", "title": "When the run is over, every application method has ended", "statement": "When the arbiter's main routine has returned a result, every initialization or application method that it started has ended.", "quantifier": "every list of stages, every outcome of every method, every order in which parallel methods end", "why_tests_cant": "It depends on which parallel method raises first.", "anchors": ["runtimepy/net/arbiter/base.py:BaseConnectionArbiter._run_apps", "runtimepy/net/arbiter/base.py:BaseConnectionArbiter._main"]}
{"id": "C60", "title": "A file in a configured directory is served as it is", "statement": "The request for the path of a file relative to a configured directory is answered with the content of that file, provided no earlier directory contains a file of that path.", "quantifier": "every file system, every list of directories, every path", "why_tests_cant": "All file systems and path strings; tests use one directory with a few files.", "anchors": ["runtimepy/net/server/__init__.py:RuntimepyServerConnection.try_file", "runtimepy/net/server/__init__.py:RuntimepyServerConnection.get_handler"]}
{"id": "C61", "title": "A data query returns the data at its path", "statement": "A request for /json/k1/.../kn is answered with the value found by following the keys k1 ... kn in the registered data, calling what can be called; if a key leads nowhere the answer names that key and the path up to it.", "quantifier": "every data tree, every list of keys", "why_tests_cant": "Trees and key lists are unbounded and recursive.", "anchors": ["runtimepy/net/server/json.py:traverse_dict", "runtimepy/util.py:parse_path_parts", "runtimepy/util.py:path_has_part", "runtimepy/net/http/request_target.py:RequestTarget"]}
{"id": "C62", "title": "One connection of the web interface updates its metrics", "statement": "The number of interface connections is counted, and as long as there is any, exactly one of them updates the interface's metrics with its frames.", "quantifier": "every history of connections joining and leaving", "why_tests_cant": "unbounded histories; the count is a byte", "anchors": ["runtimepy/net/server/websocket/__init__.py:RuntimepyWebsocketConnection._get_ui", "runtimepy/net/server/websocket/__init__.py:RuntimepyWebsocketConnection.disable_extra"]}
{"id": "C63", "title": "A shown tab displays the current values", "statement": "Every change of a channel is reported exactly once, in order and with its time, to each tab that shows it, and a shown tab displays the current value of every channel after each frame.", "quantifier": "every history of showing, hiding, frames and assignments on any number of connections and tabs", "why_tests_cant": "unbounded histories, interleavings", "anchors": ["runtimepy/net/server/app/env/tab/message.py:ChannelEnvironmentTabMessaging.handle_shown_state", "runtimepy/net/server/websocket/state.py:TabState.frame"]}
{"id": "C64", "title": "A tab's log handler is attached once", "statement": "However often a tab is initialized, its log handler is attached to its logger once, and not at all after its connection closed.", "quantifier": "every history of events on any number of connections", "why_tests_cant": "unbounded histories", "anchors": ["runtimepy/net/server/websocket/state.py:TabState.add_logger", "runtimepy/net/server/websocket/state.py:TabState.clear_loggers"]}
{"id": "C65", "title": "The array of an environment holds the primitives of its names", "statement": "Creating an array from registered names succeeds exactly if all names are known, none is repeated and the fields of one bit-fields object are next to each other; the array then holds the primitives behind these names in their order, each primitive once.", "quantifier": "every environment, every list of keys", "why_tests_cant": "environments and key lists are unbounded; tests use a few lists", "anchors": ["runtimepy/channel/environment/array.py:ArrayChannelEnvironment.array"]}
{"id": "C66", "title": "Copies of a protocol", "statement": "A copy of a protocol has the layout of the original: after the same message both hold the same bytes and values, whatever is done afterwards; it keeps the identifier and byte order, and can itself be copied.", "quantifier": "every protocol definition and history of values, every message", "why_tests_cant": "all definitions and messages", "anchors": ["runtimepy/codec/protocol/base.py:ProtocolBase.__copy__", "runtimepy/codec/protocol/base.py:ProtocolBase.__init__"]}
{"id": "C67", "title": "Waiting for a condition tells whether it was met", "statement": "Waiting for a primitive to reach a value or state returns success exactly when the condition holds at the call or is met by a value it takes before the deadline; it returns soon after either, and leaves no callback behind.", "quantifier": "every primitive, condition and history of assignments, deadlines, resumptions and other observers, in every interleaving", "why_tests_cant": "the result depends on what happens between the change and the moment the waiting task runs; tests change the value once", "anchors": ["runtimepy/primitives/evaluation.py:evaluate", "runtimepy/primitives/evaluation.py:compare_latest", "runtimepy/primitives/bool.py:BooleanPrimitive.wait_for_state", "runtimepy/channel/environment/base.py:BaseChannelEnvironment.wait_for_numeric"]}
{"id": "C68", "title": "Sampling reports every change once, in order", "statement": "Sampling a primitive yields its present value (if asked for) and then every change until the deadline, in order, each once and with its time stamp, at most the given number; then the iteration ends.", "quantifier": "every primitive, count and history of assignments, requests for samples, deadlines and resumptions", "why_tests_cant": "interleavings of producer, consumer and deadline are unbounded", "anchors": ["runtimepy/primitives/evaluation.py:sample_for", "runtimepy/channel/environment/base.py:BaseChannelEnvironment.sample_int_for"]}
{"id": "C69", "title": "Waiting for a scaled value compares scaled values", "statement": "Waiting for a value on a scaled integer channel succeeds exactly when the scaled value compares to the given one as asked.", "quantifier": "every scaling, value, operator and raw value", "why_tests_cant": "all scalings and values", "anchors": ["runtimepy/primitives/int.py:BaseIntPrimitive.wait_for_value", "runtimepy/primitives/scaling.py:invert"]}
{"id": "C70", "title": "Captured log files are forwarded line by line", "statement": "LogCaptureMixin forwards what other programs append to the watched files: after init_log_capture, every visible character appended to a file is forwarded once, in order, at the level of that file, and nothing that was in the file before. When writers append whole lines, each line that is not blank becomes exactly one entry without its trailing white space. A call of dispatch_log_capture returns when writers pause, and enough calls forward everything written before them.", "quantifier": "All lists of paths (files or not), all contents, all interleavings of writers with the single reads of any number of dispatch calls.", "why_tests_cant": "A test writes a few lines between two dispatches; it cannot show that no interleaving of writer and reader loses, repeats or splits a line.", "anchors": ["runtimepy/mixins/logging.py:LogCaptureMixin.init_log_capture", "runtimepy/mixins/logging.py:LogCaptureMixin.dispatch_log_capture"]}
{"id": "C71", "title": "NP-05B responses are attributed to the commands they answer", "statement": "Whatever prompts and messages the device sends around them, when its echoes and responses arrive in lines (also several on one line), the outlets and their channels show the states of the last status response, each answered status query wakes one waiting call, and no exception is raised; how the text is divided into pieces makes no difference.", "quantifier": "All sequences of noise lines and echo/response pairs (separate or joined), all outlet states, all divisions of the text.", "why_tests_cant": "Tests use one mock device with fixed responses arriving in convenient pieces.", "anchors": ["runtimepy/net/tcp/telnet/np_05b.py:Np05bConnection.process_text", "runtimepy/net/tcp/telnet/np_05b.py:Np05bConnection.process_response"]}
{"id": "C72", "title": "Setting an NP-05B outlet reports what the device did", "statement": "set_outlet_state returns whether the outlet is in the wanted state: True at once if it is shown in that state, otherwise what the device reports after it handled this call's command; an index that does not exist gives False. When no call is talking to the device, outlets and channels show what it reported last, and a call returns once its answers arrived.", "quantifier": "All interleavings of any number of concurrent calls, the device, its front panel and delivery; all indices and states.", "why_tests_cant": "Whether the answer a call waits for belongs to its own query depends on the interleaving of calls, answers and time-outs.", "anchors": ["runtimepy/net/tcp/telnet/np_05b.py:Np05bConnection.set_outlet_state", "runtimepy/net/tcp/telnet/np_05b.py:Np05bConnection.np05b_command", "runtimepy/net/tcp/telnet/np_05b.py:Np05bConnection.request_outlet_status"]}
{"id": "C73", "title": "The output of a subprocess arrives complete and in order", "statement": "What a subprocess writes to stdout (stderr) is given to the handler of that stream chunk by chunk, in order, once, or still waits in the queue, or was logged when the process was closed; nothing is lost, repeated or given to the other stream, and receiving it raises nothing. Letting the polling task run empties the queues. The stdout and stderr metrics are the numbers of chunks and bytes handled.", "quantifier": "All schedules of pipe events, process exit, queue assignment, polling turns, message handlers, cancellation and closing; all chunks.", "why_tests_cant": "A test uses one schedule of a real process; the order in which the event loop reports data, exit and the start of the peer varies between runs.", "anchors": ["runtimepy/subprocess/protocol.py:RuntimepySubprocessProtocol.pipe_data_received", "runtimepy/subprocess/protocol.py:RuntimepySubprocessProtocol.process_exited", "runtimepy/subprocess/__init__.py:spawn_exec", "runtimepy/subprocess/__init__.py:close_protocol", "runtimepy/subprocess/peer.py:RuntimepyPeer.service_queues"]}
{"id": "C74", "title": "Messages and telemetry of a subprocess are processed as sent", "statement": "However the output of a subprocess is cut into chunks, the messages it sent are processed once each, in order, all complete ones as soon as the queue was emptied; the events on its stderr are ingested as sent once its environment is known; and the polling task does not stop before the process does.", "quantifier": "All message lists, event lists, chunkings and schedules.", "why_tests_cant": "Chunk boundaries and schedules cannot be enumerated; a boundary inside a length prefix or value is unlikely to occur in a test.", "anchors": ["runtimepy/subprocess/interface.py:RuntimepyPeerInterface.handle_stdout", "runtimepy/subprocess/interface.py:RuntimepyPeerInterface.handle_stderr", "runtimepy/subprocess/peer.py:RuntimepyPeer._poll"]}
{"id": "C75", "title": "A peer program processes its input and notices its end", "statement": "A peer program that reads its stdin byte by byte processes every message as soon as its last byte was read, in order, once; its stdin metrics count these messages and their bytes on the wire; when the input ends, the program is told so.", "quantifier": "All messages, all sequences of reads that give a byte, nothing yet, or the end.", "why_tests_cant": "The reads that give nothing can fall anywhere between the bytes.", "anchors": ["runtimepy/subprocess/program.py:PeerProgram.io_task"]}
{"id": "C76", "title": "The first registration of a connection name wins", "statement": "For every sequence of calls that register connections, factories, clients, servers, tasks, structs and processes, a connection name stands for what the first call that asked for it brought; a call returns True exactly if it was the first to ask; deferred connections are there after they were awaited, and stay; the connections in the table are exactly those given to the connection manager, in order.", "quantifier": "All histories of the registration interface, all names, classes and connections, successful or failing creation.", "why_tests_cant": "Which names collide depends on namespaces, factories and the order of calls; a test registers a few fixed names.", "anchors": ["runtimepy/net/arbiter/base.py:BaseConnectionArbiter.register_connection", "runtimepy/net/arbiter/base.py:BaseConnectionArbiter._init_connections", "runtimepy/net/arbiter/factory/connection.py:FactoryConnectionArbiter.factory_client", "runtimepy/net/arbiter/factory/connection.py:FactoryConnectionArbiter.register_connection_factory"]}
{"id": "C77", "title": "A configuration is registered entirely or refused", "statement": "Processing a configuration raises no exception exactly if every factory can be imported without two of a kind sharing a name, every entry names a factory of its kind, everything that is not deferred can be created, and no two entries of a kind share a name; then exactly the configured objects are registered, in order, under their names. Configuration files are loaded once each in the order of first mention, from the path itself or from the first package that has them, and a package added in front is searched first.", "quantifier": "All configurations, import results and creation results; all lists of paths and packages.", "why_tests_cant": "Configurations are written by users; a test loads a handful of files.", "anchors": ["runtimepy/net/arbiter/config/__init__.py:ConfigConnectionArbiter.process_config", "runtimepy/net/arbiter/config/__init__.py:ConfigConnectionArbiter.load_configs", "runtimepy/net/arbiter/config/__init__.py:ConfigConnectionArbiter.add_search_package", "runtimepy/net/arbiter/config/util.py:list_adder", "runtimepy/net/arbiter/imports/__init__.py:ImportConnectionArbiter.register_module_factory", "runtimepy/net/arbiter/imports/__init__.py:ImportConnectionArbiter.factory_process", "runtimepy/net/arbiter/factory/task.py:TaskConnectionArbiter.factory_task"]}
{"id": "C78", "title": "A started application has what its configuration says", "statement": "Starting a processed configuration gives every connection, struct, task and answering process its environment under its name, and nothing else; searching for connections gives exactly those of the wanted kind with a found name, or of the manager, once each; the configuration and its parameters as the application sees them are those loaded.", "quantifier": "All valid configurations, all outcomes of deferred connections and of the handshakes of processes; all tables, patterns and kinds; all configuration data.", "why_tests_cant": "Name collisions across kinds occur only for particular configurations; a test uses names that do not collide.", "anchors": ["runtimepy/net/arbiter/base.py:BaseConnectionArbiter._main", "runtimepy/net/arbiter/base.py:BaseConnectionArbiter._register_envs", "runtimepy/channel/environment/command/__init__.py:GlobalEnvironment.register", "runtimepy/net/arbiter/info.py:AppInfo.search", "runtimepy/net/arbiter/info.py:AppInfo.single", "runtimepy/net/arbiter/info.py:AppInfo.original_config", "runtimepy/net/arbiter/info.py:AppInfo.config_param"]}
{"id": "C79", "title": "An environment survives being exported and loaded", "statement": "After any history of creating channels, registers, enumerations and defaults, setting values and commands, exporting an environment and loading the result gives a finalized environment with the same names and identifiers, the same enumerations, the same channels (type, commandability, enumeration, description, controls, default), the same bit fields, and the same value for every name, scaled or raw, as number or enumeration name. Exporting changes no value.", "quantifier": "All histories of an environment, all enumeration registries, all names, types, defaults and values, with enumeration names exported or numbers.", "why_tests_cant": "Whether the exported form can be loaded depends on combinations of names, enumerations, scaling and registers; a test round-trips one environment.", "anchors": ["runtimepy/channel/environment/file.py:FileChannelEnvironment.export_json", "runtimepy/channel/environment/file.py:FileChannelEnvironment.load_json", "runtimepy/channel/environment/base.py:BaseChannelEnvironment.__init__", "runtimepy/channel/environment/base.py:BaseChannelEnvironment.values", "runtimepy/channel/environment/base.py:BaseChannelEnvironment.apply", "runtimepy/channel/__init__.py:Channel.asdict", "runtimepy/enum/__init__.py:RuntimeEnum.asdict"]}
{"id": "C80", "title": "A command line means what its words say", "statement": "A channel command line is accepted exactly when it consists of a command, a channel and further words with options at permitted places (before the command, before the channel, at the end; before the further words only in some Python releases); the command, channel, further words, force, remote and environment acted on are then the ones written, the last environment given winning. Words after \"--\" are taken as they are. A refused line changes nothing and calls no hook, and a line that asks for help has no effect.", "quantifier": "All lines, all words, all spellings and combinations of options, all environments and hooks, both behaviours of argparse.", "why_tests_cant": "There are unboundedly many lines, spellings, abbreviations and orders of options; tests try a few lines.", "anchors": ["runtimepy/channel/environment/command/parser.py:CommandParser.initialize", "runtimepy/channel/environment/command/parser.py:CommandParser.error", "runtimepy/channel/environment/command/processor.py:ChannelCommandProcessor.parse", "runtimepy/channel/environment/command/processor.py:ChannelCommandProcessor.command"]}
{"id": "C81", "title": "A remote command arrives at the peer as it was typed", "statement": "A command typed with the remote option is sent to the peer with the environment it names, and the peer runs exactly that command, with the same force, channel and further words, on that environment (or its default one) and no other; if it has no environment of that name nothing changes there and the reply says failure.", "quantifier": "All lines, all sets of environments at the peer, all environments and hooks.", "why_tests_cant": "The line is parsed, rebuilt and parsed again by another process; whether words survive this depends on how each looks, which a test samples.", "anchors": ["runtimepy/subprocess/interface.py:RuntimepyPeerInterface.handle_command", "runtimepy/net/stream/json/__init__.py:JsonMessageConnection.handle_command", "runtimepy/message/interface.py:JsonMessageInterface.channel_command", "runtimepy/message/handlers.py:channel_env_handler", "runtimepy/mixins/async_command.py:AsyncCommandProcessingMixin.process_command_queue"]}
{"id": "C82", "title": "Two processes end up with each other's environment", "statement": "A process that shares its environment with its peer, once that returns, holds the peer's environment and the peer holds exactly the one that was shared. A side's view is the first environment the other side sent that could be loaded; it never changes afterwards, and it is announced as ready exactly when it is held and its names are registered. The exchange completes when nothing else is under way. Sharing again is harmless.", "quantifier": "All histories of calls, deliveries, log entries, timeouts and wake-ups of two peers with arbitrary further handlers, all messages, all environments.", "why_tests_cant": "Either side may share at any time, requests and answers cross, and messages may carry anything; tests run one start-up sequence.", "anchors": ["runtimepy/subprocess/interface.py:RuntimepyPeerInterface._set_peer_env", "runtimepy/subprocess/interface.py:RuntimepyPeerInterface._register_handlers", "runtimepy/subprocess/interface.py:RuntimepyPeerInterface.share_environment"]}
{"id": "C83", "title": "Two processes end up with each other's configuration", "statement": "A process that shares a configuration with its peer, once that returns, knows the peer holds a configuration: the shared one if it held none before. A side's view is the first configuration the other side sent; it never changes afterwards and it is announced when one has arrived. Sharing any JSON object returns.", "quantifier": "All histories of two peers with arbitrary further handlers, all messages, all configurations.", "why_tests_cant": "As for environments; the outcome depends on what both sides did before in any order.", "anchors": ["runtimepy/subprocess/interface.py:RuntimepyPeerInterface._register_handlers", "runtimepy/subprocess/interface.py:RuntimepyPeerInterface.share_config"]}
{"id": "C84", "title": "A recording holds every change", "statement": "While channel changes of several environments are recorded to files, no assignment fails because of it, and once the recording is over loading its directory gives exactly the recorded environments and reading each gives exactly: the initial value of every recorded channel in order, then every assignment that changed a recorded channel, in order, with its time and stored value (except those closer to the channel's last event than its minimum period). What has reached a file when the process dies reads as the events completely in it. Afterwards the environments can be recorded again. However the recording ends, channels stay usable.", "quantifier": "All sets of environments, channels sharing primitives, patterns, histories of assignments, crash points, repeated recordings.", "why_tests_cant": "Tests record a few values of one environment and leave the recording normally.", "anchors": ["runtimepy/channel/environment/command/__init__.py:GlobalEnvironment.event_telemetry_output", "runtimepy/channel/environment/command/__init__.py:GlobalEnvironment.file_event_stream", "runtimepy/channel/environment/command/__init__.py:GlobalEnvironment.from_root", "runtimepy/channel/environment/command/__init__.py:GlobalEnvironment.read_event_stream", "runtimepy/channel/registry.py:ChannelRegistry.registered", "runtimepy/channel/event/__init__.py:PrimitiveEvent.registered"]}
{"id": "C85", "title": "Stepping the application by hand", "statement": "Every change of a stepper's step channel polls every struct it is configured for exactly 'count' times, in the same order, and assigning the same position does nothing; 'counts' is the number of iterations (modulo 2^32) and the simulated clock has advanced by the configured increment times the number of iterations, so while time is simulated consecutive polls of a struct see times exactly one increment apart and time_s is the time of the last poll. Counter and clock agree even when structs raise. The automatic task toggles every stepper once per dispatch.", "quantifier": "All sets of structs and steppers, increments, counts, histories of assignments, failures of structs.", "why_tests_cant": "Tests step one struct a few times and look at nothing but that it does not fail.", "anchors": ["runtimepy/control/step.py:ToggleStepper", "runtimepy/control/step.py:should_poll", "runtimepy/control/step.py:ToggleStepperTask"]}
{"id": "C86", "title": "Datagrams of a UDP connection go where they should", "statement": "Everything a UDP connection sends goes to the remote address it was created with (or was given since), datagrams sent to an explicit address go there, received datagrams are processed once each, in order, with their sender's address (an echo connection sends each back to its sender), and all of this keeps holding after the connection is restarted: restarting succeeds when the system allows it, and the connection keeps its local and remote address and what it received.", "quantifier": "All ways of creating the connection (connected or not, addresses, existing socket, back-off), histories of sends, receptions, changes of the remote address, failures, restarts.", "why_tests_cant": "Tests create connected pairs on the loopback and never restart an unconnected connection.", "anchors": ["runtimepy/net/udp/connection.py:UdpConnection", "runtimepy/net/udp/create.py:try_udp_transport_protocol", "runtimepy/net/mixin.py:TransportMixin.set_transport", "runtimepy/net/stream/__init__.py:UdpPrefixedMessageConnection"]}
{"id": "C87", "title": "Messages stay whole over restarts and between senders", "statement": "A connection for size-prefixed messages processes each message that was sent to it once, as it was sent and on behalf of its sender, in order; also when the connection was restarted in between, when several peers send datagrams to it, when handling a message failed, and after a session was cut in the middle of a message. Text sent to a string connection arrives as that text; an echo connection answers each message to its sender with the same message.", "quantifier": "All byte sequences and their chunking, senders, restarts at any point, and results (true, false, exception) of handling each message.", "why_tests_cant": "Tests send whole messages within one session between two peers; the parser's state across sessions, senders and failures is never exercised.", "anchors": ["runtimepy/net/stream/base.py:PrefixedMessageConnection", "runtimepy/net/stream/__init__.py:UdpPrefixedMessageConnection", "runtimepy/net/stream/string.py:StringMessageConnection", "runtimepy/net/stream/__init__.py:EchoMessageConnection", "runtimepy/message/__init__.py:MessageProcessor"]}
{"id": "C88", "title": "An HTTP request returns the response to that request", "statement": "Calling request on an HTTP connection sends the request and returns the response to that request, once, also when several tasks make requests on one connection and whatever order the tasks run in; every request can be answered. A request that is given up (cancelled, timed out) or lost with its connection does not affect the ones after it, and after a restart the connection is usable again.", "quantifier": "All numbers of concurrent requests, task schedules, cancellation points, losses and restarts of the connection; all header lines a parser may be given.", "why_tests_cant": "Tests make one request after the other on a healthy connection; no test cancels a request or restarts the connection.", "anchors": ["runtimepy/net/tcp/http/__init__.py:HttpConnection.request", "runtimepy/net/tcp/http/__init__.py:HttpConnection.process_binary", "runtimepy/net/http/state.py:HeaderProcessingState.service", "runtimepy/net/http/__init__.py:HttpMessageProcessor.ingest"]}
{"id": "C89", "title": "A POST request runs the command its path spells in the environment it names", "statement": "A POST request for /<environment>/<word>/... runs the command line made of the words in the environment registered under that name, exactly as if the line had been given to its command processor: only that environment changes, its hooks are called, and the answer repeats the command and reports the result. A request that names no registered environment changes nothing and is answered with the names that exist. No request has any other effect, every command line can be sent, and a name keeps standing for the processor it was first registered for until the names are cleared.", "quantifier": "All histories of registrations, clearings and requests; all request lines, paths, queries and header fields; all environments and commands.", "why_tests_cant": "Tests send a few fixed paths to an application with fixed environments; words with special characters, raising commands and re-registrations are not sent.", "anchors": ["runtimepy/net/server/__init__.py:RuntimepyServerConnection.handle_command", "runtimepy/net/server/__init__.py:RuntimepyServerConnection.post_handler", "runtimepy/net/tcp/http/__init__.py:HttpConnection._process_request", "runtimepy/channel/environment/command/__init__.py:GlobalEnvironment.register", "runtimepy/channel/environment/command/__init__.py:GlobalEnvironment.clear"]}
{"id": "C90", "title": "What a GET request that names no file is answered with", "statement": "A GET request for a path that names no file in the directories served is answered by the first redirect configured for the same path; without one, with data if a component of the path is 'json'; without that, with the page of the application of exactly that path or the default application; and if there is none of these, by a redirect to /404.html. It is never answered with a file.", "quantifier": "All file systems, lists of directories, tables of redirects, sets of applications and request paths.", "why_tests_cant": "Tests request a few fixed paths of one configuration; the order of the cases, the ways to write the same path and overlapping redirects are not requested.", "anchors": ["runtimepy/net/server/__init__.py:RuntimepyServerConnection.get_handler", "runtimepy/net/server/__init__.py:RuntimepyServerConnection.try_redirect", "runtimepy/net/server/html.py:html_handler", "runtimepy/util.py:path_has_part"]}
{"id": "C91", "title": "The bytes of a TCP connection are processed session by session", "statement": "Whatever happens to a TCP connection (data, losses, restarts, disabling, sending), the data processed of each session is what arrived in it first, in order, each piece once; data of a former session is never processed after data of a later one; everything that arrives is processed, also what arrived before the peer closed; a restarted connection works on a fresh session that the end of a former one does not touch; what is sent is transmitted by the session that is current, in order; and the metrics count the bytes processed and transmitted.", "quantifier": "All histories of arrivals, closings, losses, sends, disabling, processing and restarting, in every interleaving; all chunk contents.", "why_tests_cant": "Tests connect a pair on one machine and exchange a few messages; interleavings of a loss with queued data, late losses of former sessions and sends after a loss do not occur.", "anchors": ["runtimepy/net/tcp/connection.py:TcpConnection._await_message", "runtimepy/net/tcp/connection.py:TcpConnection.send_binary", "runtimepy/net/tcp/connection.py:TcpConnection.restart", "runtimepy/net/tcp/protocol.py:QueueProtocol.connection_lost", "runtimepy/net/tcp/protocol.py:QueueProtocol.data_received", "runtimepy/net/connection.py:Connection.disable", "runtimepy/net/connection.py:Connection.process", "runtimepy/net/connection.py:Connection._process_read"]}
{"id": "C92", "title": "The connection manager takes every connection once, in order, and keeps what is in use", "statement": "Whatever connections are handed to a connection manager and whenever, it starts processing each of them once when it takes it, in the order they were handed over, leaving none out; it keeps a connection while it is enabled or restarts automatically and lets go of the others, never to process them again unless handed over again; one call manages and others only wait; after the stop signal the managing call ends once the process() calls it started have ended or the time limit is over; a manager that stopped can be used again.", "quantifier": "All histories of hand-overs, enabling and disabling, ends of process() calls with and without exceptions, stop signals, calls and cancellations of manage(), in every interleaving; any number of connections.", "why_tests_cant": "Tests manage a handful of connections that are all handed over at the start; late arrivals, wake-ups while a restarting connection is disabled, exceptions during shutdown and cancelled calls do not occur.", "anchors": ["runtimepy/net/manager.py:ConnectionManager.__init__", "runtimepy/net/manager.py:ConnectionManager.manage", "runtimepy/net/connection.py:Connection.process", "runtimepy/net/connection.py:Connection.auto_restart"]}
{"id": "C93", "title": "The page of the web interface has a tab per environment, a row per name and the right control for each", "statement": "Whatever connections, tasks, structures and peers an application has, its page has one tab for each of their environments, in that order, with only the first one shown; every name of an environment has one row, in order; a name that accepts commands has exactly one element to choose its value with (a toggle for two states, a menu for an enumeration with the current member marked, else an input box with a button that sends it), and a name that does not has none; channels with a default can be reset and described sliders are drawn with their bounds.", "quantifier": "All applications: any number of environments, channels and bit fields of every kind, any enumerations, defaults, sliders, descriptions and custom commands, peers ready or not.", "why_tests_cant": "Tests request one fixed application's page and check that some HTML comes back; which control a channel gets depends on the combination of six attributes and no test looks at it.", "anchors": ["runtimepy/net/server/app/env/__init__.py:populate_tabs", "runtimepy/net/server/app/env/tab/controls.py:ChannelEnvironmentTabControls", "runtimepy/net/server/app/env/tab/html.py:ChannelEnvironmentTabHtml", "runtimepy/net/server/app/env/widgets.py:channel_table_header", "runtimepy/net/server/app/env/widgets.py:enum_dropdown", "runtimepy/net/html/bootstrap/tabs.py:TabbedContent.create", "runtimepy/net/html/bootstrap/elements.py:slider"]}
{"id": "C94", "title": "An application answers with its own page", "statement": "An application that does not keep its page answers every request with a page composed at that moment; one that keeps its page answers every request with the page it composed first, and never with the page of another application.", "quantifier": "All histories of requests to any number of applications with any composing functions, keeping or not, with the program in any state at each request and composition failing at any of them.", "why_tests_cant": "Tests create one application per process and ask for its page; what a second application answers, or the first one after the program changed, is never asked.", "anchors": ["runtimepy/net/server/app/create.py:create_cacheable_app", "runtimepy/net/server/app/create.py:create_app", "runtimepy/net/server/app/create.py:DOCUMENTS"]}
{"id": "C95", "title": "The text interface shows the current values", "statement": "Once the text interface is set up in a terminal with room for the channels, every channel has one line with its name and, after each drawing, the text of its current value in the column after the longest name; what else is in the line is what longer texts left there; setting up a second time changes nothing, the list of channels stays the one of the set-up; and a cursor that is moved stays inside the window.", "quantifier": "All sizes of the terminal, all lists of names, all histories of drawings and changes of size with all values of the channels, all moves of the cursor.", "why_tests_cant": "Tests draw two or three times in one fake terminal and look at nothing on the screen; whether a line is right depends on every text drawn in it before and on the size of the terminal.", "anchors": ["runtimepy/tui/channels/__init__.py:ChannelTui.init", "runtimepy/tui/channels/__init__.py:ChannelTui.update_dimensions", "runtimepy/tui/channels/__init__.py:ChannelTui.update_body", "runtimepy/tui/channels/__init__.py:ChannelTui.dispatch", "runtimepy/tui/mixin.py:TuiMixin.init", "runtimepy/tui/mixin.py:TuiMixin.handle_char", "runtimepy/tui/cursor.py:Cursor"]}
{"id": "C96", "title": "A WebSocket connection delivers messages as they were sent and every accepted client is served once", "statement": "Every message of the peer reaches the user's handler at most once, as text or binary as it was sent, in order and without a gap; texts leave in the order they were sent in and so do binary messages; when the peer closes, what arrived before is still handled and then the connection is disabled, and no exception reaches the user; a client that is accepted is given to the connection manager (or processed) exactly once, and the server lets it go exactly when its connection is disabled or the server is stopped.", "quantifier": "All histories of messages of both sides, closing at any point, every order of the three loops, all handlers with any replies and results, all configurations of the server and orders of its events.", "why_tests_cant": "Tests exchange a handful of messages over a local connection in one order; closing between two turns of the loops, or a stop while a client is being set up, is not exercised.", "anchors": ["runtimepy/net/websocket/connection.py:WebsocketConnection._handle_connection_closed", "runtimepy/net/websocket/connection.py:WebsocketConnection._await_message", "runtimepy/net/websocket/connection.py:WebsocketConnection._send_text_message", "runtimepy/net/websocket/connection.py:WebsocketConnection._send_binay_message", "runtimepy/net/websocket/connection.py:WebsocketConnection.server_handler", "runtimepy/net/connection.py:Connection._process_read", "runtimepy/net/connection.py:Connection._process_write_text", "runtimepy/net/connection.py:EchoConnection"]}
{"id": "C97", "title": "Hosts mean what was given for them and the discovered packet size is the network's", "statement": "An address reported by a socket gives back its host, a host stays what it is, and the number of values decides the family; a discovered packet size is what the system reports, or the fallback, and is never zero unless the fallback is; the probe is sent with fragmenting forbidden and the socket is afterwards as before; discovery does not use the port of the connection it is made for, closes its socket and gives the size that holds now.", "quantifier": "All argument lists, hosts of both families and values, all outcomes of reading and writing the option, of sending the probe and of asking for the size, and all histories of calls with any arguments.", "why_tests_cant": "Tests discover sizes on a loopback interface, where every call succeeds and the size never changes; failures at each step and repeated calls after a change are not produced.", "anchors": ["runtimepy/net/util.py:normalize_host", "runtimepy/net/util.py:IPv4Host.zero_port", "runtimepy/net/util.py:IPv6Host.zero_port", "runtimepy/net/util.py:get_free_socket", "runtimepy/net/mtu.py:socket_discover_mtu", "runtimepy/net/mtu.py:host_discover_mtu", "runtimepy/net/mtu.py:discover_mtu"]}
{"id": "C98", "title": "The server command serves what its arguments say, on the port it was given", "statement": "For every command line of the 'server' command there is exactly one listener, of the kind that was asked for, on the assigned port, with the host and the certificate options that were given and no others; a loopback client exists exactly if it is asked for, connects to that port, and uses TLS if the server does; port names resolve to the ports that the system assigned whatever other ports are configured; certificate arguments make a context for the right side and none of them is left over.", "quantifier": "All command lines (factory names, hosts, ports, options), all lists of further configured ports and overrides, all answers of the system to requests for a port, and all dictionaries of keyword arguments.", "why_tests_cant": "Tests start three factories with default ports and one certificate and check that the program exits with zero; they do not look at what was configured, and cannot try all names, ports and combinations of options.", "anchors": ["runtimepy/commands/server.py:config_data", "runtimepy/commands/server.py:server_data", "runtimepy/commands/server.py:client_data", "runtimepy/commands/server.py:get_kwargs", "runtimepy/commands/server.py:port_name", "runtimepy/net/arbiter/config/codec.py:ConnectionArbiterConfig.init", "runtimepy/net/arbiter/config/util.py:fix_args", "runtimepy/net/arbiter/config/__init__.py:ConfigConnectionArbiter.process_config", "runtimepy/net/ssl.py:handle_possible_ssl"]}
{"id": "C99", "title": "Sine and cosine channels follow their controls, sources their amplitudes, and telemetry is flushed in time", "statement": "After every history of assignments and dispatches that raised nothing, the sine and cosine channels are the amplitude assigned last times the function at the angle of the last dispatch plus the phase assigned last; the outputs of a signal source are its amplitudes times its values, each under its own name; the sample telemetry task captures at every dispatch and flushes at least once in every flush_count of them.", "quantifier": "All sequences of assignments to amplitude, phases and steps and of dispatches; all number types with the operations used; all sources and counts; all values of flush_count over time.", "why_tests_cant": "Tests dispatch a few times with default controls and look at nothing but the absence of exceptions; which callback a control has, and what happens when controls change between dispatches, depends on the whole history.", "anchors": ["runtimepy/mixins/trig.py:TrigMixin", "runtimepy/control/source.py:PrimitiveSource.init_env", "runtimepy/control/source.py:PrimitiveSource.poll", "runtimepy/telemetry/sample.py:SampleTelemetryTask.dispatch"]}
{"id": "C100", "title": "Setting up the web server registers what the configuration says", "statement": "After any number of setups in a process that returned, every path is answered with the application that was configured for it last, every configured redirect is followed, and every other path that names no file is answered with the page that says there is nothing; a setup fails exactly if its application cannot be found, a redirect was configured before, or a browser is wanted and no ports are configured; a browser is opened once for every port of a server of a wanted kind, with its address.", "quantifier": "All sequences of configurations (applications, paths, redirects, ports, browser options), all tables that were there before, all requests and file systems.", "why_tests_cant": "Tests set up the server once per process with one configuration and request a few paths; the tables are attributes of a class, so what is answered depends on every setup before, and path spellings are unbounded.", "anchors": ["runtimepy/net/server/app/__init__.py:setup", "runtimepy/net/server/app/__init__.py:launch_browser", "runtimepy/net/server/__init__.py:RuntimepyServerConnection.add_redirect_path", "runtimepy/util.py:normalize_root"]}
{"id": "C101", "title": "Python enumeration classes and the runtime enumerations made of them agree", "statement": "A number (or boolean, or member of any integer enumeration) is normalized to the member of the class with that value and a text to the member that the text in capitals names, and unknown ones raise; a runtime enumeration made of a class, directly or by registering it, has exactly the members' names in small letters with their values, so that every member can be translated both ways and back to the member, provided no two names differ only in case; registering succeeds exactly if nothing is registered under the name, uses the primitive of the class, and a failed registration changes no item.", "quantifier": "All classes (any number of definitions, aliases and values), all arguments, all reachable registries.", "why_tests_cant": "Tests use one or two small classes with distinct capital names; aliases, names that differ in case and values out of range are unbounded.", "anchors": ["runtimepy/enum/registry.py:RuntimeIntEnum.normalize", "runtimepy/enum/registry.py:RuntimeIntEnum.runtime_enum", "runtimepy/enum/registry.py:RuntimeIntEnum.register_enum", "runtimepy/enum/__init__.py:RuntimeEnum.data_from_enum", "runtimepy/enum/__init__.py:RuntimeEnum.from_enum"]}
{"id": "C102", "title": "Application prefixes are served by the web server", "statement": "Preparing a configuration for any list of prefixes fails exactly if one is empty or ends with a slash; otherwise every redirect and path that was configured stays, a request for a prefix is redirected to its index, its index to its page, and the page is answered with the application, and preparing it again changes nothing; the server can then be set up exactly if the same redirect is always written the same way.", "quantifier": "All lists of prefixes (with or without leading slash, repeated, nested), all configurations, file systems and requests.", "why_tests_cant": "Tests use one prefix with the packaged configuration and request its page; how prefixes, configured redirects and their spellings interact is unbounded.", "anchors": ["runtimepy/net/html/arbiter.py:web_app_paths", "runtimepy/net/server/app/__init__.py:setup", "runtimepy/net/server/__init__.py:RuntimepyServerConnection.get_handler"]}
