# Formal model of vkottler/runtimepy in Coq 8.16.1

## Shape of the development

`rocq/theories/` is organised by area. Each area `X` has

* `XModel.v`  - shallow, total, computable Gallina transcription of the Python
  functions, branch by branch, exceptions as values. Definitions cite the file
  and lines they model (paths relative to /repo/runtimepy; the header of the
  file gives the directory when only a base name is cited) and say where they
  simplify.
* `XSpec.v`   - the small independent specification (what a user would write
  down without reading the code), when the property needs one.
* `XProofs.v` - lemmas (large areas have several such files).
* `XProps.v`  - only property theorems, each followed by `Print Assumptions`,
  next to `Example`s showing that a concrete, non-trivial case meets the
  hypotheses.

`Base.v` holds the Python-dictionary model (insertion-ordered association
list) and byte lists (`list Z`, each element in [0,256)).

## Modelling conventions

* Python `int` is `Z`; lengths and indices are `nat` or `Z`.
* ctypes-backed integers store `v mod 2^n` (two's complement if signed).
* `struct.pack/unpack` for standard formats is modelled as exact big/little
  endian positional encoding; the native format includes C padding.
* Exceptions are values: a step returns `(state, outcome)`, where the state is
  what the interpreter leaves behind when the exception propagates.
* `await` points: state machines whose steps are the code between two awaits;
  schedules are arbitrary lists of steps.
* Behaviour of third-party code that a property depends on is a section
  parameter (so the theorem holds for every such behaviour) or is listed in the
  trusted base below.
* Where the full property is false of the code, the theorem `..._refuted`
  gives a witness (or a general refutation) and `..._partial` (or an exact
  iff-characterisation) states what does hold. What is missing is said in the
  comment beside the theorem and in the manifest note.

## Areas: what is modelled

| Model files | Code in /repo/runtimepy | Properties |
|---|---|---|
| `RegistryModel` | mapping.py, registry/name.py, registry/__init__.py, registry/item.py, mixins/regex.py (the pattern is a parameter) | C01-C05 |
| `EnumModel` | enum/__init__.py, registry/bool.py | C06 |
| `PrimModel` | primitives/types/*.py, primitives/byte_order.py, conversions of primitives/base.py, primitives/int.py, bool.py, float.py | C07, C08 |
| `CallbackModel` | primitives/base.py:102-166 | C09, C10 |
| `ScalingModel` | primitives/scaling.py, primitives/base.py:168-192, primitives/types/bounds.py | C11 |
| `StringModel`, `Utf8Model`, `PyStrModel` | primitives/string.py, primitives/serializable/{fixed,prefixed}.py; Python's str and UTF-8 codec | C12, C13 |
| `FieldModel` | primitives/field/__init__.py, primitives/field/fields.py | C14-C16, C51 |
| `ArrayModel` | primitives/array/__init__.py | C17-C19 |
| `ChainModel` | primitives/serializable/{base,fixed,prefixed,framer}.py | C20, C21 |
| `MessageModel`, `FifoModel` | message/__init__.py, net/stream/base.py | C22 |
| `EventModel` | channel/event/__init__.py, channel/event/header.py, channel/environment/telemetry.py | C23, C24 |
| `HttpModel` | net/http/{__init__,state,common,header,request_target,response,version}.py, the sending half of net/tcp/http/__init__.py | C25, C26 |
| `TelnetModel` | net/tcp/telnet/{codes,__init__}.py | C27 |
| `TftpModel` | net/udp/tftp/{io,enums,base,endpoint,__init__}.py | C28-C30 |
| `EnvModel` (proofs: EnvProofs, EnvLife, EnvMore, EnvValue, EnvWf) | channel/environment/base.py, create.py, command/processor.py, command/parser.py, primitives/field/manager/base.py, mixins/finalize.py | C31-C35 |
| `IfaceModel` (proofs: Iface*) | message/interface.py, message/handlers.py, message/types.py, identifiers of util.py | C36-C39, C54, C55 |
| `BackoffModel` | net/backoff.py and the connection loops of net/tcp/create.py, net/udp/create.py | C40 |
| `TaskModel` | task/asynchronous.py, task/basic/periodic.py | C41, C42, C56 |
| `ArbiterModel` | net/arbiter/base.py (stages), net/arbiter/result.py, net/arbiter/config/__init__.py, imports/util.py | C43, C59 |
| `MetricsModel` | metrics/{channel,connection,task}.py, counters of net/connection.py and of the transports | C44 |
| `ConnModel` | net/connection.py, net/manager.py, net/{tcp,udp,websocket}/connection.py | C45, C57, C58 |
| `ScpiModel` | net/tcp/scpi/__init__.py | C46 |
| `ServeModel` | net/server/__init__.py (GET), net/server/json.py, net/server/html.py | C47, C60, C61 |
| `TabModel` | net/server/app/env/tab/message.py, net/server/websocket/state.py, net/server/websocket/__init__.py | C48, C63, C64 |
| `UiCountModel` | net/server/websocket/__init__.py:47-86, 125-162, net/server/struct/__init__.py | C62 |
| `AsyncCmdModel` | mixins/async_command.py, channel/environment/command/processor.py, net/arbiter/housekeeping/__init__.py | C49 |
| `StructModel` | channel/environment/array.py, net/arbiter/struct/__init__.py, net/arbiter/info.py:77-90 | C50, C65 |
| `ProtoModel` (proofs: Proto*) | codec/protocol/{base,json,__init__}.py, primitives/field/manager/{base,__init__}.py | C52, C66 |
| `TypeModel` | codec/system/__init__.py | C53 |
| `EvalModel` | primitives/evaluation.py, primitives/int.py:43-61, primitives/bool.py:33-42 | C67-C69 |
| `LogCapModel` | mixins/logging.py:85-133 | C70 |
| `Np05bModel` | net/tcp/telnet/np_05b.py (the device at the other end is an assumption written in the model) | C71, C72 |
| `SubprocModel` | subprocess/protocol.py, subprocess/__init__.py:38-138, subprocess/peer.py:57-103 and 239-258, subprocess/interface.py:198-251, subprocess/program.py:90-122 | C73, C74, C75 |
| ConfigModel | net/arbiter/base.py 86-276, net/arbiter/factory/, net/arbiter/imports/__init__.py, net/arbiter/config/__init__.py 50-242, net/arbiter/config/util.py, net/arbiter/info.py 199-319, task/basic/manager.py 26-33 | C76, C77, C78 |
| ExportModel | channel/environment/file.py, channel/environment/base.py 49-106, 168-187, channel/__init__.py 70-134, enum/__init__.py 50-89, channel/registry.py 87-139, data/schemas/Channel.yaml, ChannelRegistry.yaml, RuntimeEnum.yaml | C79 |
| CmdLineModel | channel/environment/command/parser.py, channel/environment/command/processor.py 184-219, subprocess/interface.py 132-150, net/stream/json/__init__.py 33-50, message/handlers.py 31-62 | C80, C81 |
| ExchangeModel | subprocess/interface.py 66-69, 102-130, 152-194 | C82, C83 |
| RecordModel | channel/environment/command/__init__.py 43-219, channel/registry.py 140-167, channel/event/__init__.py 41-102 | C84 |
| StepModel | control/step.py (refresh_all_plots and count_rate left out) | C85 |
| UdpModel | net/udp/connection.py, net/udp/create.py 21-58, net/mixin.py 36-50, 86-95, net/stream/__init__.py 33-54 | C86 |
| MsgConnModel | net/stream/base.py, net/stream/__init__.py 33-65, net/stream/string.py, net/connection.py 322-340 (effect of the result) | C87 |
| HttpExchModel | net/tcp/http/__init__.py 64-78, 126-142, 174-203 (both ends); parser state from HttpModel | C88 |
| PostModel | net/server/__init__.py 202-247; net/tcp/http/__init__.py 64-78, 105-130; channel/environment/command/__init__.py 218-258; header lines from HttpModel, path parts from ServeModel, command lines from CmdLineModel | C89 |
| ServeModel, ServeSpec, ServeApi | net/server/__init__.py (get_handler, try_redirect), net/server/html.py, util.py (path_has_part) | C90 |
| TcpModel | net/tcp/connection.py 43-133, 211-213; net/tcp/protocol.py; net/connection.py 167-201, 257-340 | C91 |
| MgrModel | net/manager.py 28-34, 67-132 | C92 |
| WebModel | net/server/app/env/{__init__,widgets}.py, net/server/app/env/tab/{controls,html}.py, net/html/bootstrap/tabs.py 20-147, net/html/bootstrap/elements.py 128-149, net/server/app/create.py, channel/environment/__init__.py 44-58 | C93, C94 |
| TuiModel | tui/cursor.py, tui/mixin.py 30-83, tui/channels/__init__.py 53-103 and 125-153 | C95 |
| WsModel | net/websocket/connection.py 43-165, net/connection.py 164-204 and 321-409 | C96 |
| HostModel | net/util.py 17-134 and 178-191 (not names: hostname, address_str), net/mtu.py | C97 |
| SrvCmdModel | commands/server.py, net/ssl.py, net/arbiter/config/codec.py 37-60, net/arbiter/config/util.py 25-54, net/arbiter/config/__init__.py 155-191 (resolution of ports) | C98 |
| SignalModel | mixins/trig.py, control/source.py, telemetry/sample.py 96-104 | C99 |
| SetupModel | net/server/app/__init__.py, net/server/__init__.py 66-77, util.py 26-32 | C100 |
| PyEnumModel | enum/registry.py 48-94, enum/__init__.py 166-181 | C101 |
| PrefixModel | net/html/arbiter.py | C102 |

## Properties: model, proof, status

Each line: what is modelled and how it is proved; the verdict and the scope are
those of MANIFEST.json.

### C01 Name registry is a bijection

Mapping + NameRegistry as a step function over operations; invariant by induction over histories.
Status: **proved**, theorems in `RegistryProps.v`. All histories of construction, register_name (any outcome) and non-raising bulk loads. After a bulk load that raised the bijection can be lost: see C04.

### C02 Registrations are permanent

Same model; frame lemma per step, lifted over histories.
Status: **proved**, theorems in `RegistryProps.v`.

### C03 Automatic identifiers are always fresh and always available

Same model; the next identifier is proved above every one in use.
Status: **proved**, theorems in `RegistryProps.v`.

### C04 A conflicting mapping entry is rejected without side effects

Same model; refuted with a witness, exact characterisation of the non-atomic cases.
Status: **partial**, theorems in `RegistryProps.v`. Full statement is false of the code (mapping.py:62-82 inserts the key before checking the name); refuted with a witness, and the exact set of non-atomic cases is proved.

### C05 Object registry: name and identifier retrieve the same item

Item table on top of the name registry; invariant over histories.
Status: **proved**, theorems in `RegistryProps.v`. Item construction (schema validation) is an arbitrary partial function.

### C06 Runtime enumerations translate both ways

Enumerations as two registries; invariant and round trip, `int(str)` and string-to-bool as parameters.
Status: **proved**, theorems in `EnumProps.v`. int(str) and StrToBool.parse are arbitrary parameters.

### C07 Integer primitives store values modulo their width

`store` is ctypes wrap-around; arithmetic modulo powers of two.
Status: **proved**, theorems in `PrimProps.v`. All eight integer kinds, all integers.

### C08 Integer wire encoding round-trips in every byte order

Positional encoding; induction on the number of bytes.
Status: **proved**, theorems in `PrimProps.v`. Floats by bit pattern; boolean decode is not injective (any non-zero byte), stated as the exception.

### C09 Change callbacks fire exactly once per change with the values seen

A primitive with its callback table and a log of calls; invariant over histories of assignments.
Status: **partial**, theorems in `CallbackProps.v`. False for out-of-range assignments (callbacks receive the unwrapped value); exact iff proved. Passive callbacks.

### C10 Callback identifiers and one-shot callbacks

Same model; invariant on identifiers, counting of calls in the log.
Status: **partial**, theorems in `CallbackProps.v`. One-shot claim is false when a callback raises during dispatch; proved when no assignment raises.

### C11 Scaled values clamp into the representable range

Polynomials and clamping over the rationals; algebra.
Status: **partial**, theorems in `ScalingProps.v`. Over exact rationals (Python float rounding is not modelled). One-term scalings are refuted: invert and apply disagree.

### C12 String primitives are self-delimiting

Length prefix and UTF-8; round trip, exact set of strings for which it holds.
Status: **partial**, theorems in `StringProps.v`. False for non-ASCII strings; the exact set of surviving strings is proved.

### C13 PrefixedChunk framing

Prefix and payload; round trip and error cases.
Status: **proved**, theorems in `StringProps.v`.

### C14 Bit fields read back what was written

Bit operations on Z; `Z.testbit` extensionality.
Status: **proved**, theorems in `FieldProps.v`. All eight integer kinds; fields overhanging the register (only via the direct constructor) are characterised.

### C15 Writing one bit field leaves all other bits alone

As C14: every other bit is unchanged.
Status: **proved**, theorems in `FieldProps.v`.

### C16 Allocated bit fields never overlap

Allocation of bits as a step function; invariant that allocated ranges are disjoint.
Status: **proved**, theorems in `FieldProps.v`. The claim in full; the converse (a fitting request succeeds) is false after a failed call leaked bits, and proved otherwise.

### C17 Struct arrays round-trip through bytes

Arrays as lists of primitives; induction on the elements.
Status: **proved**, theorems in `ArrayProps.v`. Standard byte orders; the native (padded) order is refuted for the length.

### C18 Array byte/index tables are inverse of each other

The two dictionaries built by `add`; induction on construction.
Status: **proved**, theorems in `ArrayProps.v`. The claim (recorded boundaries) in full; which boundaries are recorded is characterised.

### C19 Fragments are exactly the slices of the whole array

Fragments as index ranges; list slicing lemmas.
Status: **proved**, theorems in `ArrayProps.v`. Standard byte orders.

### C20 Frames fit the MTU and lose no samples

Framer state machine; invariant over capture histories.
Status: **proved**, theorems in `ChainProps.v`. Element size is constant between set_mtu calls.

### C21 Serializable chains serialize in order and copy deeply enough

Chains as lists; induction on the chain.
Status: **partial**, theorems in `ChainProps.v`. False for arrays in native byte order (refuted); proved for chains of standard-order members. No shared tails or cycles.

### C22 Message framing is independent of chunking

Framing state machine; fusion lemma feed (a++b) = feed a; feed b.
Status: **proved**, theorems in `MessageProps.v`. For consumers that take every message; a consumer that raises on a message (e.g. invalid JSON) loses the framing, proved as a separate theorem.

### C23 Telemetry event streams decode to the events sent

Decoder state machine over chunks; refuted in general, exact condition on the chunking.
Status: **partial**, theorems in `EventProps.v`. False when a chunk ends between an event's header and the end of its value; the exact set of good chunkings is proved.

### C24 Event rate limiting

Rate limiter state machine; invariant on time stamps.
Status: **proved**, theorems in `EventProps.v`. Timestamps below 2^64 ns. The change test compares the assigned value with the stored one (C09).

### C25 HTTP message framing is independent of chunking

Byte-at-a-time parser; fusion lemma for any header class.
Status: **proved**, theorems in `HttpProps.v`. All byte streams, any header class; after an exception the remaining chunks are not fed (the connection's task ends).

### C26 HTTP requests and responses round-trip

Request/response text; round trip for well-formed headers.
Status: **proved**, theorems in `HttpApi.v`, `HttpProps.v`. Well-formed = ASCII text without CR/LF; non-ASCII header text written by the sender always raises at the receiver (proved).

### C27 Telnet data stream extraction

Telnet reader per chunk against a grammar-like specification; chunking characterised.
Status: **partial**, theorems in `TelnetProps.v`. Extraction proved for every byte string in one call; chunk independence holds when chunks end at item and character boundaries and is refuted otherwise (the parser state is local to a call). process_option handlers that read further bytes are not modelled.

### C28 TFTP blocks reassemble to the file

Blocks of a file; induction on the file.
Status: **proved**, theorems in `TftpProps.v`.

### C29 TFTP request encoding

Packet encoding and parsing; round trip.
Status: **proved**, theorems in `TftpProps.v`. NUL-free names as stated; a NUL in a name silently changes the request (proved).

### C30 TFTP transfer never delivers a corrupted file

Two endpoints and a network that may lose, duplicate and reorder; invariant over arbitrary schedules.
Status: **partial**, theorems in `SmallApi.v`, `TftpProps.v`. Read safety holds for all schedules of one transfer. Write safety holds when the write request is delivered at most once and is refuted for duplicated requests; empty and too-large files can never be written; stale datagrams of an earlier transfer are accepted.

### C31 Only commandable channels can be changed by commands

Environment heap and command processor; frame theorem per command, lifted over histories.
Status: **partial**, theorems in `EnvProps.v`. Full for rejected, GET, remote and custom commands. The commandability claim is refuted when a channel and a field share a name (the check reads the channel, the write goes to the field); proved for all histories when no name denotes both.

### C32 Command hooks run exactly for accepted commands

As C31 with a log of hook calls.
Status: **proved**, theorems in `EnvProps.v`. Hooks are passive (they do not themselves raise or issue commands).

### C33 Environment set and value agree

As C31; value after set per kind of channel.
Status: **proved**, theorems in `EnvApi.v`, `EnvProps.v`, `MoreApi.v`. Exact rationals for scaled values; float storage rounding, int(str), float(str) and StrToBool are arbitrary parameters.

### C34 Toggle is an involution on boolean channels

As C31; two toggles.
Status: **proved**, theorems in `EnvProps.v`.

### C35 No channels after finalization

As C31 with creation and finalization; invariant over histories.
Status: **partial**, theorems in `EnvApi.v`, `EnvProps.v`. Full for channels; for fields it is refuted (add_field succeeds after finalization and the next non-strict finalization makes it live), proved for histories without add_field.

### C36 Message identifiers of two peers never collide

Identifier generators of two peers; arithmetic on parity.
Status: **proved**, theorems in `IfaceApi.v`, `IfaceProps.v`. Finding: two peers of the same kind (both ends of a JSON TCP/websocket connection) draw identical identifiers; only subprocess hosts offset theirs.

### C37 A response reaches exactly the request that caused it

One peer against an arbitrary environment of events; invariant over interleavings.
Status: **proved**, theorems in `IfaceApi.v`, `IfaceProps.v`. Against an arbitrary peer, all interleavings of requests, sends, receives, wake-ups, time-outs and failing writes. Handlers are atomic and do not send. Finding: with coinciding identifiers a peer's request is taken for a response and never answered.

### C38 Two peers never answer each other forever

Two peers and ordered channels; measure on messages in flight.
Status: **partial**, theorems in `IfaceProps.v`, `MoreApi.v`. At most two messages per request for any handlers between an odd and an even peer over reliable ordered channels; sends of the standard commands are bounded by their poll count. Refuted for a loopback command sent without waiting and for duplicated responses (both ping-pong for ever).

### C39 Requests do not leak bookkeeping

As C37; exact count by invariant.
Status: **partial**, theorems in `IfaceProps.v`. Exact count of bookkeeping entries in every history; holds for completed requests, refuted for timed-out ones (each leaves an entry for ever).

### C40 Reconnect back-off grows exponentially up to a cap

Back-off over the rationals; induction on attempts.
Status: **partial**, theorems in `BackoffProps.v`, `SmallApi.v`. The cap and the attempt limit hold. Refuted: the code writes 2 ^ attempt, which is exclusive or, so the waits grow linearly and not monotonically; the fourth attempt follows the third at once.

### C41 A task with an iteration limit stops after that many dispatches

Task loop as a state machine; induction on the run.
Status: **partial**, theorems in `TaskProps.v`. Holds for limits up to 255; refuted above: the dispatch counter is a uint8 that wraps, so the limit is never reached.

### C42 A periodic task stops when a dispatch fails or it is disabled

Periodic task, its callers and its signal as state machines; invariants over schedules.
Status: **partial**, theorems in `TaskProps.v`. Pausing, signals and the dispatch condition hold in every schedule. Refuted: with a stop signal a dispatch that returns False does not end the loop; concurrent starts can make two loops; after an exception in dispatch the task cannot be restarted.

### C43 Application stages run in order and stop at the first failure

Stages with arbitrary ends of methods; induction over stages.
Status: **partial**, theorems in `ArbiterProps.v`. Order, single start and reports hold for every run. Exit code 0 iff all pass is proved when no method returns a negative code and refuted otherwise: the codes of a stage are summed, so c and -c cancel. Failing initialization methods leave no results for the applications.

### C44 Counters equal the traffic they count

Counters as a step function; induction over histories.
Status: **partial**, theorems in `ConnProps.v`, `MetricsProps.v`, `TaskProps.v`. Exact for tasks, TCP and UDP. Refuted for websockets: texts are counted in characters and failed sends are counted. The rates (floats, clock) are not modelled.

### C45 Connection lifecycle

Reader, initializer, writer, process() and manager as state machines; invariants over schedules.
Status: **partial**, theorems in `ConnProps.v`, `MoreApi.v`. The disable hook, the attempt limit and the order of writes hold in every history; the rest when process() calls do not overlap. Refuted: the manager itself starts overlapping process() calls for an auto-restarting connection, which then restart it while it is enabled; and a stop signal during the back-off sleep does not prevent the restart.

### C46 SCPI replies belong to the command that was sent

Callers, lock, one-place queue and instrument; invariants over schedules.
Status: **partial**, theorems in `ScpiProps.v`, `SmallApi.v`. Proved for instruments that answer in whole lines and calls that only time out when there is no answer. Refuted: one late reply shifts all later replies by one command; a reply in two TCP segments is taken for two replies.

### C47 Served files stay inside the configured directories

Path resolution of a GET request over an abstract file system; case analysis on path components.
Status: **partial**, theorems in `ServeProps.v`. Proved for requests that do not begin with two slashes, in which .. does not lead out, and that name something. Refuted otherwise: every file of the machine is served; and the request / is answered with the markdown file beside the first directory. Symbolic links are not modelled.

### C48 UI tab telemetry does not leak callbacks

Connections, tabs, primitives and callbacks; exact count by invariant over histories.
Status: **partial**, theorems in `TabProps.v`. Exact count of callbacks for every history; the claim holds when a tab is never shown while shown, and is refuted otherwise (a callback per name outlives the connection).

### C49 Asynchronous commands are processed first-in first-out, exactly once

Queue and processors; refinement to a FIFO over schedules.
Status: **partial**, theorems in `AsyncCmdProps.v`, `SmallApi.v`. Exactly once and in order for every history. Handlers end in order when processors do not overlap (refuted otherwise). A handler that raises ends the housekeeping task: no later command of any object is handled (refuted).

### C50 UDP struct telemetry round-trips

Sender and receiver structs over datagrams; round trip, histories.
Status: **partial**, theorems in `StructProps.v`. Proved for every history in the standard byte orders, each datagram on its own (so also under loss and reordering). Refuted: in native order the padded frames are refused; a byte order updated after the assignment is ignored by the transmitter.

### C51 Dictionary export of a bit-field register reconstructs it

Export and import of a register; exact condition.
Status: **partial**, theorems in `FieldProps.v`, `MoreApi.v`. The unrestricted claim is refuted (non-zero padding, upper-case names, raw bits outside fields); exact conditions proved for widths of at least one bit.

### C52 Protocol definitions survive export and import

Protocol builder, export and import; invariants over build histories and a simulation of all later calls.
Status: **partial**, theorems in `ProtoProps.v`. Proved for every history of protocols without array fields and serializables: identifier, order, size, values, and indistinguishability under all further calls if no bit is set outside the named fields. Refuted: array fields shrink to one element, serializables make the import raise, a second round trip loses every byte, bits outside named fields are lost, an unnamed enum value makes the export raise.

### C53 Type system sizes

Type registration histories with Namespace.search as a parameter; invariant.
Status: **partial**, theorems in `TypeProps.v`. Proved for every history in which no type is named like a primitive, alias or ByteOrder, under the stated assumption on Namespace.search: exact sizes, unique names, exact registration and lookup. Refuted: sizes are those at the time a field was added, names of primitives are unreachable and silently replaced, a global type ByteOrder counts as one byte.

### C54 Remote log entries are delivered exactly once

As C37 with the staged log entries; conservation invariant.
Status: **partial**, theorems in `IfaceApi.v`, `IfaceProps.v`. Exactly once and in order when every write succeeds and callers leave the reserved key alone; refuted for failing writes (entries lost).

### C55 A peer's answer contains what was asked, and nothing else

One request against one peer's handlers; case analysis with arbitrary handlers.
Status: **proved**, theorems in `IfaceApi.v`, `IfaceProps.v`. Handlers are arbitrary state transformers registered under non-reserved keys; staged log entries may ride along (C54).

### C56 Disabling a task takes effect

As C42; the enabled flag over schedules.
Status: **partial**, theorems in `TaskProps.v`. Refuted when disable() is called during a dispatch (the loop overwrites the flag when the dispatch returns); proved for the other suspension points.

### C57 An enabled connection that is processed is served

As C45; every received message is handled.
Status: **partial**, theorems in `ConnProps.v`. Proved when no handler or send raises and process() calls do not overlap. Refuted otherwise: an exception in a message handler ends the reader but leaves the connection enabled.

### C58 The initialized event tells that the connection is ready

As C45; the event and the enabled flag.
Status: **partial**, theorems in `ConnProps.v`. Proved when no initialization fails. Refuted otherwise: the event is set on the disabled connection.

### C59 When the run is over, every application method has ended

As C43; the set of running methods at the end.
Status: **partial**, theorems in `ArbiterProps.v`. Proved when no method raises; refuted otherwise: the first exception ends the stage while its other methods go on.

### C60 A file in a configured directory is served as it is

As C47; the converse direction.
Status: **partial**, theorems in `ServeApi.v`, `ServeProps.v`. Proved for files that are not hidden by a markdown file of the same name, not compressed and whose path does not begin with favicon; refuted for those.

### C61 A data query returns the data at its path

JSON data and dotted paths; induction on the path.
Status: **proved**, theorems in `ServeProps.v`. Encoding to JSON text is not modelled.

### C62 One connection of the web interface updates its metrics

Connections counted in a uint8 channel; invariant over histories.
Status: **partial**, theorems in `UiCountProps.v`. The count is right modulo 256; at most one updates (up to 255 connections) and one that is alone does; refuted: nobody does once the first of three has gone, everybody does with 257.

### C63 A shown tab displays the current values

As C48 with frames; reported changes against the history of assignments.
Status: **partial**, theorems in `TabProps.v`. Changes between frames are reported in order, once per unpaired showing; the display is current in tidy histories; refuted: a change after the last frame before hiding is never displayed.

### C64 A tab's log handler is attached once

As C48; handler flag over histories.
Status: **proved**, theorems in `TabProps.v`. Exact, for every history.

### C65 The array of an environment holds the primitives of its names

Environment array construction; exact contents.
Status: **partial**, theorems in `StructProps.v`. Acceptance and contents are exact. Refuted: the primitive of a bit-fields object is added once per field.

### C66 Copies of a protocol

As C52 for copies; invariant over build histories and simulation.
Status: **partial**, theorems in `ProtoProps.v`. Proved for every history with array fields, bit-fields and single chunk serializables. Refuted: the identifier becomes one, copies of copies are empty, a field after a nested array appears twice, repeated serializables become single.

### C67 Waiting for a condition tells whether it was met

A primitive with callbacks, any number of waits as state machines; invariant relating a wait to the changes since its call.
Status: **partial**, theorems in `EvalProps.v`, `SmallApi.v`. The result is exact for every history. Refuted: a further change before the waiting task runs turns a success into a failure; assigning an unrepresentable value counts although the primitive never has it.

### C68 Sampling reports every change once, in order

Same model with samplers (generator, queue, consumer); invariant relating delivered and queued samples to the changes.
Status: **partial**, theorems in `EvalProps.v`. Exact contents and order in every history. Refuted: a deadline that passes while the consumer is suspended in its loop body cancels the consumer there instead of ending the iteration. Values are those assigned (C09).

### C69 Waiting for a scaled value compares scaled values

Evaluator of `wait_for_value` over the rationals; monotonicity of the scaling.
Status: **partial**, theorems in `EvalProps.v`. Proved for positive scales and values on the grid, over rationals. Refuted: with a negative scale inequalities are turned round; values between steps are rounded first.

### C70 Captured log files are forwarded line by line

The loop of a dispatch is a program counter over the streams, one read per step, so writers interleave freely. Invariants by induction over histories: characters (all histories) and a queue of lines (whole-line histories), with a count of finished visits per stream for progress.
Status: **partial**, theorems in `LogCapProps.v`. Characters are proved for every history. One entry per line holds when writers append whole lines (a line written in two pieces becomes two entries: C70_split_refuted). One call stops at the first blank line (C70_call is exact, C70_delayed_refuted); enough calls forward everything (C70_progress_partial). A file that grows by a line for every forwarded line keeps a call busy for ever (C70_feedback).

### C71 NP-05B responses are attributed to the commands they answer

Text is a list of code points; splitlines, the marker split and the echo/response pairing are transcribed; the theorem is an induction over the items the device sends.
Status: **partial**, theorems in `Np05bApi.v`, `Np05bProps.v`. Proved for texts that arrive in pieces ending at line ends. A piece that ends inside a status line makes outlets show states that were never reported (C71_chunks_refuted); a prompt in front of an echo shifts the pairing (C71_prompt_refuted).

### C72 Setting an NP-05B outlet reports what the device did

Connection, calls, lock, semaphore, device and both directions of the wire form one transition system; an invariant says how far the exchange of the call holding the lock got. Delivery runs the modelled process_text on the real text.
Status: **partial**, theorems in `Np05bApi.v`, `Np05bProps.v`. Proved for histories without time-outs; after a time-out the late answer wakes the next call (C72_timeout_refuted). The index after the last outlet raises IndexError instead of giving False (C72_range_refuted).

### C73 The output of a subprocess arrives complete and in order

The protocol's callbacks and the polling task, cut at its awaits, are the operations of one transition system; the theorem is an invariant over all operation lists that relates handled, logged and waiting chunks to those that arrived.
Status: **partial**, theorems in `SubprocProps.v`. Proved for everything that arrives after the queues were assigned; what the process writes before that is dropped (C73_early_refuted), and what arrives after the queues were logged at the end stays there (C73_late_refuted). C73_raises says exactly when receiving data raises: with a stderr queue but no stdout queue every chunk on stdout does.

### C74 Messages and telemetry of a subprocess are processed as sent

The message processor and event parser are the models of C22 and C23; invariants tie their state to the concatenation of the chunks handled so far, and the C22/C23 theorems do the rest.
Status: **partial**, theorems in `SubprocApi.v`, `SubprocProps.v`. Messages: proved for all chunkings and schedules. Events: exactly when no chunk ends inside a value (C23). The polling task lives on if no handler raises and stderr carries only telemetry; a line of text on stderr ends it and no later message is processed (C74_stderr_refuted).

### C75 A peer program processes its input and notices its end

Induction over the reads, with the same message processor model; the byte counter plus the bytes accounted for is what was read.
Status: **partial**, theorems in `SubprocProps.v`. Processing and metrics are proved. The end of the input is noticed if no message raised; one message whose handling raises ends the task without the signal, for ever (C75_eof_refuted).

### C76 The first registration of a connection name wins

Operations on the dictionaries of the arbiter as a step function (ConfigModel). The claims of a history (name and object brought, ConfigSpec) are an append-only list; an invariant says that the tables agree with the first claim of each name. Induction over the history.
Status: **partial**, theorems in `ConfigProps.v`, `MoreApi.v`. All parts hold, except that a connection created for a name that is taken is given to nobody and stays open (C76_unmanaged_refuted), and that awaiting deferred connections a second time always raises (C76_again_refuted).

### C77 A configuration is registered entirely or refused

process_config as a sequence of loops over the configuration; a separate predicate valid (ConfigSpec) that mentions no tables; equivalence by induction over each loop. Import, creation and namespaces are parameters.
Status: **partial**, theorems in `ConfigProps.v`. All parts hold except the order of packages: a package added in front is put last, and one not added in front first (C77_front_refuted).

### C78 A started application has what its configuration says

start composes the process environments, the deferred connections and the registration loop; its success is characterised by NoDup of the list of names. Search and configuration data by induction over the tables.
Status: **partial**, theorems in `ConfigProps.v`. C78_start says exactly which valid configurations start. Not all do: names of different kinds may collide (C78_shared_name_refuted). A connection with two names is found twice (C78_two_names_refuted); parameter lookup needs a loaded file with a config part (C78_param_refuted).

### C79 An environment survives being exported and loaded

ExportModel extends the environment of EnvModel by channel metadata and the enumeration registry; x_export gives the dictionary and x_load runs the constructor, each step with its exceptions. An invariant of reachable environments (ExportProofs) plus the shape of the dictionary (ExportRound) give that every loading step succeeds (ExportLoad, ExportBuild); writing the values one by one keeps a relation between the two heaps (ExportApply), from which equal views follow (ExportFinal). Refutations by computation for each dropped condition.
Status: **partial**, theorems in `ExportProps.v`, `MoreApi.v`. Proved for every environment the exported form can carry (ExportSpec.portable). Each condition is needed: scaled channels lose their scaling (general: C79_scaling_lost), values without a name cannot be exported, boolean channels with integer enumerations, upper-case names and overlapping fields cannot be loaded, NaN becomes the default, a name left by a failed channel makes exporting raise, channels sharing a primitive or name with a bit field come apart. Registers are listed once more by each export.

### C80 A command line means what its words say

Model of argparse for the declared arguments (classification of words, options with attached values and combined letters, abbreviation, matching positionals in runs, both release behaviours). An independent grammar of lines (CmdLineSpec.line_says); the parser accepts exactly that grammar by induction on the words, with the option spellings proved sound and complete. In-order property by induction over the main loop.
Status: **partial**, theorems in `CmdLineProps.v`. Proved: exact meaning of every line without "--" (C80_exact), sufficient forms of lines with it (C80_separator), for all lines that nothing is made up or reordered. Not proved: which of the remaining lines with "--" are refused. False and refuted: that asking for help keeps the command from running; that the meaning does not depend on the Python release.

### C81 A remote command arrives at the peer as it was typed

The sent line is the join of words that C80 characterises, so the peer's parse follows from C80 and from splitting being the inverse of joining.
Status: **partial**, theorems in `CmdLineProps.v`. Proved for lines typed without "--", and exactly which words survive (C81_exact). False in general: words after "--" are sent without it and taken for options by the peer; custom commands are run locally and never sent.

### C82 Two processes end up with each other's environment

The two handlers on top of the messaging interface of C36-C39 with an arbitrary set of further handlers. What one message does to the view is computed by induction over its entries, lifted to histories by induction; between two peers received messages are a prefix of sent ones. The provenance of answers (C37) gives what a returned call implies: the answer belongs to the very event that made the call, and whether it carries an environment tells what the other side knew when it processed the request. Progress by executing the four events symbolically from any reachable quiet state.
Status: **partial**, theorems in `ExchangeProps.v`. Proved: the view is the first loadable environment received and stays; what holds when sharing returns; a side shares successfully at most once; the exchange completes from any quiet state. False and refuted for every history: sharing when the peer already has a view raises KeyError.

### C83 Two processes end up with each other's configuration

As C82.
Status: **partial**, theorems in `ExchangeProps.v`. Proved: the view is the first configuration that is not null and stays; what holds when sharing returns. False and refuted: an object without a "config" entry makes the peer raise, nothing is answered and the call never returns.

### C84 A recording holds every change

Primitives with their callback lists, channels with their events, open files; entering, assigning, leaving as code. An invariant ties callback lists to the recorded channels in order, each channel's last event time to the specification's and each file's bytes to the encoding of what the specification tells; it is kept by entering each channel and by every assignment. Reading any prefix then follows from the stream parser's theorems (C23).
Status: **partial**, theorems in `RecordProps.v`. Proved for every history: what a finished recording contains, what any prefix of a stream reads as, that another recording can follow, and exactly when recording can start. False and refuted for every such history: when the body raises, the channels can never be recorded again and changing them raises; also a recording that fails to start, an environment under two names, bit-field changes (never recorded), reading a cut stream twice.

### C85 Stepping the application by hand

Structs are numbered, some are steppers with their flags, counter, simulated clock and list of structs; polls are recorded with the time seen. A refinement relation to views (switch, flag, count, total) is kept by every operation; the counter/clock agreement is an invariant of arbitrary worlds, including raising structs and nested steppers.
Status: **partial**, theorems in `MoreApi.v`, `StepProps.v`. Proved for every history when no struct raises and no stepper polls a stepper; counter and clock agree in every history. Refuted: a stepper class of another name polls itself and every edge raises; a struct that raises leaves the structs unequally polled; with two steppers one switches the other's simulated time off.

### C86 Datagrams of a UDP connection go where they should

Sockets with local address, peer and open flag; transports, connection, network as code; the system's decisions (refusal, chosen port, fate of each datagram) are arbitrary. Invariants over arbitrary histories: transport built for the peer, socket connected to the peer; without restarts, the same socket, the remote last set, processed plus queued datagrams equal what arrived.
Status: **partial**, theorems in `MoreApi.v`, `UdpProps.v`. Proved for connected connections in every history, for others until they are restarted. False and refuted in general: a restart of an unconnected connection forgets its remote address and the next send ends its transport; a changed remote address is ignored or raises when connected; messages ignore the remote address; a restart loses received datagrams; restarting raises when a back-off or an existing socket was given. What asyncio's datagram transport does is assumed (listed in UdpModel).

### C87 Messages stay whole over restarts and between senders

The connection over MessageModel: processor, reading flag and log of process_single calls; events are data of a sender or a restart. Refinement to a relational specification in terms of arriving bytes only (wire format, held bytes), proved by induction over the processor's loop for every buffer and consumer; the specification is shown deterministic, the named cases follow from it.
Status: **partial**, theorems in `MsgConnProps.v`. Proved: an exact specification of what is processed for every history, and the full claim when only whole messages arrive and each is handled without failure. False in general and refuted: after a cut inside a message the next session (or sender) is misread, and after an exception the next n bytes count as a message of n bytes, because one processor with its buffer serves all senders and is kept over restarts.

### C88 An HTTP request returns the response to that request

Labelled requests and responses over two queues, the bounded semaphore, the one-place response queue, the expecting flag, a reading task that may be suspended in put or fail; any interleaving of task steps. Invariants: the sent requests are the responses handed out, queued and under way, in order; the calls that returned or hold the turn are the sent ones that were not cancelled. Parser facts by induction over HttpModel.
Status: **partial**, theorems in `HttpExchProps.v`. Proved for connections that stay up when no request is cancelled after it was sent, for every schedule and number of concurrent calls. False otherwise and refuted: after a cancelled request later ones get others' responses, then the reading task fails and the connection is unusable even after restarts; a request lost with the connection blocks all others.

### C89 A POST request runs the command its path spells in the environment it names

PostModel composes HttpModel's header parsing, ServeModel's path parts and CmdLineModel's command over a table of names and processors. Splitting lemmas for the request line, the target and the path; the registry by induction over the history.
Status: **partial**, theorems in `PostProps.v`. Proved in full except two parts that are false: words with '/' or '?' (and, without a tab, empty ones and '.') cannot be sent (which words can is characterised exactly), and a command that raises is not answered.

### C90 What a GET request that names no file is answered with

ServeModel's get_handler, with the components of a path and 'the same path' stated separately from the model's normalisation; case analysis with lemmas relating the two.
Status: **proved**, theorems in `ServeApi.v`. Proved over ServeModel for paths written as a request gives them (one leading slash).

### C91 The bytes of a TCP connection are processed session by session

TcpModel keeps a transport and a queue per session, the enabled flag and the reading task's position; one invariant by induction over histories (processed ++ queued = arrived per session, transmitted = accepted sends, ascending session numbers); refutations are general where possible.
Status: **partial**, theorems in `TcpProps.v`. Order, at-most-once, session separation, routing of sends and received counts proved; false: data queued when the connection is lost or disabled is never processed, the late end of a former session disables the new one, a connection disabled before it is processed leaves its first transport open, and bytes sent after a loss are counted. TLS (data before the protocol is attached) and several process() calls at once are not in this model.

### C92 The connection manager takes every connection once, in order, and keeps what is in use

MgrModel: a transition system over the queue, the connections held, the task that waits for a connection and the process() calls; one invariant (handed over = accepted ++ in hand ++ queued, phase against running flag) by induction over histories, exact effects of each wake-up.
Status: **partial**, theorems in `MgrProps.v`. Order, keeping, letting go, waking and ending proved; false: a connection can get several process() calls at once, calls start after the stop signal, and a manager whose managing call was cancelled or ended with an exception manages nothing any more and loses a connection. What a process() call does is C45, C57, C58 (one connection).

### C93 The page of the web interface has a tab per environment, a row per name and the right control for each

WebModel: the page as a list of tabs with rows with controls, a total function of the application that is None where the code raises; induction over environments and rows, case analysis over the attributes of a channel.
Status: **partial**, theorems in `WebProps.v`. Tabs, rows, controls, menus, sliders and buttons proved exactly; false: enumerated channels with a default have no reset button, sliders of whole numbers can have step 0, one peer that is not ready or one bad slider takes the whole page away, ids are not unique. Classes, icons, scripts and the plot are not modelled.

### C94 An application answers with its own page

WebModel: the global dictionary of documents and a history of requests; by induction over histories what is kept under a name is the last document given out under it, so each answer is exact.
Status: **partial**, theorems in `WebProps.v`. The answer to every request of every history proved exactly; false: pages are kept by the name of the composing function, which is main for every application made with create_app, so the second application answers with the page of the first.

### C95 The text interface shows the current values

TuiModel: the body window as a grid of characters with addstr, the interface as a state machine over set-up, change of size and drawing; induction over the channels and over the drawings gives each character as that of the last text long enough.
Status: **partial**, theorems in `TuiProps.v`. Every character of a channel's line proved exactly, for any history of drawings; false: longer texts leave characters behind, values of enumerated channels never appear, the names are gone after a change of size, a negative move puts the cursor outside. The header window and the title are not modelled, and addstr is as the curses documentation says.

### C96 A WebSocket connection delivers messages as they were sent and every accepted client is served once

WsModel: a connection as a state machine with an inbox and two queues and one event per turn of a loop; invariants by induction over histories that relate what was asked, queued, on the wire and lost. The server's call as a second machine, with the state after every history determined by the first answer of init.
Status: **partial**, theorems in `WsProps.v`. Delivery, order, losses (at most one message, at a close), the end of the connection and of the server's call proved for every history; false: texts and binary messages keep no common order, a message lost at a close is counted as transmitted, and after an exception of the handler the connection stays enabled but handles nothing. The websockets library is assumed; a send that waits and is cancelled is not modelled.

### C97 Hosts mean what was given for them and the discovered packet size is the network's

HostModel: hosts as tuples; discovery on one socket as a function of what the system does at each step; a history of calls with the cache, the sockets left open and the addresses bound. The answer to each call is the first result with its arguments, by induction over the history.
Status: **partial**, theorems in `HostProps.v`. Hosts, result, option and the answer to every call of every history proved; false: a port given without a name or with a host is dropped, the first answer is kept for ever, an exception other than OSError leaves the option changed, and a call that raises does not close its socket. What the system reports is a parameter.

### C98 The server command serves what its arguments say, on the port it was given

SrvCmdModel: the configuration as a function of the arguments, the assignment of ports as a function of the system's answers, and the arguments the factories are called with after names are resolved. Keyword arguments are stated as lookups for every key; ports by induction over the items.
Status: **partial**, theorems in `SrvCmdProps.v`. Ports, listeners, the loopback client and certificates proved for every command line; false: --host is ignored with --udp, the TCP loopback client does not use TLS, a key without a certificate is left over, of two ports with one name references mean the last, and a colon in a factory's name breaks the loopback address. The resolution of variables and the merging of files are vcorelib's and assumed.

### C99 Sine and cosine channels follow their controls, sources their amplitudes, and telemetry is flushed in time

SignalModel: the trigonometric mixin as a state with one step per assignment or dispatch, over an abstract number type; an invariant (each channel is right for the stored controls) by induction over the history, and a separate definition of the last assignment. Flushes are counted by a telescoping quotient.
Status: **partial**, theorems in `SignalProps.v`. Proved for every number type in which a value that compares equal to a stored one is stored as the same (up to the sign of zero this holds of floats), and for a constant flush_count; false: before the first dispatch the cosine is 0, an infinite sine phase stops the cosine too, a flush_count of 0 ends the task, and changing flush_count can put a flush off.

### C100 Setting up the web server registers what the configuration says

SetupModel: the class-level tables as state, one setup as a function that may raise in the middle. Induction over the setups with the invariant that the redirects are the normalized keys of the configurations so far; the tables are then given to the get_handler of ServeModel.
Status: **partial**, theorems in `SetupProps.v`. Proved for every sequence of configurations and composed with the model of how requests are answered; false: the same configuration cannot be set up twice if it has a redirect, and a path of an application without the slash in front is never answered. vcorelib's normalize is taken to be pathlib's Path.

### C101 Python enumeration classes and the runtime enumerations made of them agree

PyEnumModel: a class as the list of its definitions, members as the first definitions of values, the items of the runtime enumeration as a fold. Inductions over the definitions characterise the members and the last member with given letters; the runtime enumeration is the one of EnumModel, the registry the one of RegistryModel.
Status: **partial**, theorems in `PyEnumProps.v`. Proved for every class and reachable registry; false: names with small letters cannot be normalized, members that differ only in case are lost, other names of members are unknown to the runtime enumeration, and enumerations made directly are always uint8. Names are ASCII.

### C102 Application prefixes are served by the web server

PrefixModel: the builder as a fold over the prefixes on the configuration of SetupModel. Induction shows that looking a redirect up afterwards is looking it up in the configured ones followed by those the prefixes stand for; with C100 the answers of ServeModel's get_handler follow.
Status: **partial**, theorems in `PrefixProps.v`. Proved for every configuration and list of prefixes, composed with the models of the setup and of how requests are answered; false: a prefix that was configured as redirect with another spelling (without the slash) makes the setup fail. Values in the configuration have the expected types.

## Trusted base

* Coq 8.16.1's kernel (coqc; the compiled files can be re-checked with coqchk).
  No kernel check is switched off; no plugins; no axioms of our own; no module
  types, functors or `Declare Module`.
* `Print Assumptions` stands after every property theorem in the `*Props.v`
  files. For every one of them it prints `Closed under the global context`: no
  theorem depends on any axiom, not even on one of the standard library. (A
  listing of the axioms of all loaded libraries also shows parameters of module
  types in `Coq.ssr.ssrunder`; they are loaded with the standard library and no
  theorem uses them.)
* The correspondence between the Python text and the Gallina transcription,
  which was made by reading. Every definition names the lines it stands for.
* Python and asyncio: coroutines interleave only at `await`s that suspend;
  `asyncio.gather`, `asyncio.Lock` (fair), `asyncio.Queue` (FIFO) and
  `asyncio.Event` behave as documented; dictionaries keep insertion order;
  built-in `int`, `str`, `bytes`, `struct` and the UTF-8 codec behave as
  documented.
* Behaviour of vcorelib that is assumed because its source is not in /repo:
  * `ByteFifo`: `ingest` appends, `pop n` returns the first n bytes or nothing.
  * `StrToBool.parse`, name patterns, JSON encoding: arbitrary functions
    (parameters of the theorems); JSON decoding inverts encoding.
  * `DictCodec.copy` goes through `asdict` and `create`.
  * `Namespace`: names are joined by "::", a child shares the remembered names,
    `search` with an exact name finds it (the premise `search_ok`).
  * `TargetResolver`/`PathMatcher`-style request path handling as written in
    `ServeModel.v`.
* Simplifications are listed in the header comment of each model file; the
  important ones: Python floats are rationals or bit patterns (no rounding
  error), durations and clocks are inputs, log output is not modelled except
  where a property is about it, hooks overridden by users are passive unless
  the property says otherwise.

## Not modelled

* Command-line entry points and the terminal interface: `commands/`, `entry.py`,
  `tui/` (they only start what is modelled or draw on a screen).
* HTML generation: `net/html/`, `net/server/app/**/html.py`, `widgets.py`,
  `modal.py`, `bootstrap/` (appearance), and all JavaScript and CSS in `data/`.
* Sample and test helpers: `sample/`, `task/sample.py`, `net/apps/`.
* Real sockets, TLS, operating-system processes, signals and the file system
  (beyond the abstract path/file map of `ServeModel`).
* psutil metrics (`mixins/psutil.py`), trigonometric test signals
  (`mixins/trig.py`): floating-point values without a claim a user relies on.
* Schema validation (`schemas.py`, `data/schemas`): an arbitrary predicate.

* The behaviour of argparse (`CmdLineModel`) is transcribed from CPython 3.11.10 and trusted, with the one difference between releases that matters here as a parameter.

## Findings

Places where the code does not do what its users would expect. Each is proved
as a `..._refuted` (or exact) theorem unless marked (noted).

* C04 A conflicting bulk load leaves the key of the failed entry behind.
* C09 Callbacks receive the assigned, not the stored (wrapped) value.
* C10 One-shot callbacks fire again when a callback raises during dispatch.
* C11 For a one-term scaling `invert` and `apply` disagree.
* C12 StringPrimitive counts characters, not bytes: non-ASCII text is cut.
* C16 A failed `field()` call leaks the bits it looked at.
* C17, C21 Arrays in native byte order have padded bytes but unpadded lengths.
* C18 Interior array boundaries are not recorded by `array_length`.
* C21 `add_to_end` with `array_length` returns the first member; a truncated
  stream shrinks a FixedChunk.
* C22 A consumer that raises (bad JSON) loses the framing for good; a message of
  2^32 bytes or more is framed with the wrong length.
* C23 Telemetry split between an event's header and its value is stuck for ever.
* C25, C26 Non-ASCII header text, or a leading blank line, raises in the
  receiver; a negative content-length counts as zero.
* C27 Telnet parser state is lost at chunk boundaries; an escaped IAC raises.
* C29 A NUL in a file name changes the request; error messages gain a NUL.
* C30 A duplicated write request corrupts the transfer; empty files and files of
  65535 blocks or more cannot be written; the server never sees a read succeed;
  stale datagrams of an earlier transfer are accepted.
* C31 When a channel and a field share a name, a command writes to the field
  although only the channel's permission was checked.
* C35 `add_field` works after finalization; re-finalization duplicates fields.
* C36, C37 JSON peers of the same kind use the same identifiers: a peer's request
  is taken for a response and never answered.
* C38 A loopback sent without waiting, or a duplicated response, is answered
  back and forth for ever.
* C39 Timed-out requests leave an entry behind for ever.
* C54 A failed write loses the staged log entries.
* C40 `2 ^ attempt` is exclusive or: the back-off is linear and not monotone.
* C41 The dispatch counter is a uint8: limits above 255 are never reached.
* C42, C56 With a stop signal a dispatch that returns False does not end the loop;
  concurrent starts make two loops; after an exception the task cannot be
  restarted; disable() during a dispatch is overwritten.
* C43, C59 The exit codes of a stage are summed, so c and -c cancel; failing
  initialization leaves no application results; an exception ends the stage
  while its other methods go on.
* C44 Websocket texts are counted in characters, failed sends are counted; the
  channel "restart_attempts" is bound to the number of restarts.
* C45, C57, C58 The manager starts overlapping process() calls; a stop signal
  during back-off does not prevent the restart; an exception in a handler leaves
  the connection enabled without a reader; the initialized event is set although
  initialization failed.
* C46 A late SCPI reply shifts all later replies by one command; a reply in two
  TCP segments is taken for two.
* C47, C60 `GET //etc/passwd` and `..` are served; `GET /` can render a markdown
  file beside the directory; compressed files raise; "favicon*" is never served.
* C48, C62-C64 A tab shown twice leaks callbacks; a change after the last frame
  before hiding is never displayed; nobody or everybody may update the metrics.
* C49 A handler that raises ends housekeeping for all objects.
* C50, C65 Native-order struct frames are refused; a byte order changed after the
  assignment is ignored; a bit-fields primitive is added once per field.
* C51 Bit-field exports with padding, upper-case names or stray bits do not
  re-import to the same register.
* C52, C66 Protocol import drops array lengths and raises on serializables; a
  second round trip or a copy of a copy is empty; copies lose their identifier
  and repeat fields after nested arrays. (noted) A copy shares the name registry
  of the original.
* C53 Type sizes are those at the time a field was added; types named like
  primitives are unreachable and silently replaced.
* C67 A wait whose condition was met returns failure if the value changes again before the waiting task runs; an unrepresentable value satisfies a wait.
* C68 A sampling deadline that passes in the consumer's loop body raises CancelledError there.
* C69 Waiting on a channel with a negative scale uses the opposite inequality.
* C70: dispatch_log_capture stops reading a file at the first blank line, so lines after it wait for the next dispatch; a line that was only partly written when it is read becomes two entries.
* C71: np_05b.py process_text works on whatever piece of text arrived: a piece that ends inside a status response sets wrong outlet states; a prompt directly before an echo makes the response be taken for an echo, and the next echo raises AssertionError.
* C72: np_05b.py:158 compares with `<= self.num_ports`, so the index num_ports + 1 raises IndexError. After a time-out (line 139) the late status response leaves the semaphore at one, and every later call returns before its own answer arrives.
* C73: subprocess/__init__.py assigns the queues after `subprocess_exec` returned, so output that arrives before is dropped; with a stderr queue and no stdout queue, stdout data raises AssertionError (protocol.py:84); close_protocol logs what is left as soon as the process exited, although asyncio can report more data afterwards, and labels the remaining stderr bytes "stdout" (__init__.py:88).
* C74: the bytes of stderr are parsed as telemetry, so a warning printed there raises KeyError in the polling task; the peer then receives no message any more.
* C75: io_task sets got_eof only when it ends normally; after one message whose handler raised, the program never notices the end of its input.
* C76: factory_client creates the connection before it looks at the name (factory/connection.py:95-98). If the name is taken it returns False, and the open connection is in no table and unknown to the manager (C76_unmanaged_refuted). Running the application of an arbiter with deferred connections a second time always raises, since the same coroutines are awaited again (C76_again_refuted).
* C77: list_adder is inverted: front=True appends and front=False inserts at the front (config/util.py:15-21), so packages added with the default are searched last (C77_front_refuted). The namespaces of task, struct and process factories are recorded but never used (C77_content gives these objects their plain names).
* C78: names are checked within each kind only; a valid configuration whose connection and task (or struct, or NAME.host of a process) share a name stops with an AssertionError when it starts (C78_shared_name_refuted). A connection registered under two names is yielded twice by search and makes single fail (C78_two_names_refuted). config_param raises KeyError unless a file was loaded, and ignores the configuration given to the arbiter if the file has no config part (C78_param_refuted).
* C79: `export_json` does not export scaling: a scaled channel comes back unscaled, with the scaled value as raw value (`C79_scaling_lost`, `C79_scaling_refuted`).
* C79: `export_json` raises when any enumeration channel holds a value without a name, which includes every new channel whose enumeration has no member 0 (`C79_unnamed_refuted`), and for ever after a failed channel creation left its name in the registry (`C79_orphan_refuted`).
* C79: what `export_json` returns cannot be loaded for boolean channels with integer enumerations, names with upper-case letters (valid for channels, refused by the schema) and overlapping bit fields (`C79_bool_enum_refuted`, `C79_upper_refuted`, `C79_overlap_refuted`).
* C79: every export calls `finalize` again, which adds all registers once more to the manager and the exported list (`C79_registers_repeat`).
* C79: NaN values are dropped and come back as the default; a channel on the primitive of a register comes back on a primitive of its own; a channel with the name of a bit field loses its value (`C79_nan_refuted`, `C79_shared_refuted`, `C79_same_name_refuted`).
* C80: `CommandParser.exit` does not exit, so a line with `-h` prints the help and the command is run all the same: `set x 5 -h` sets x (`C80_help_ignored`, `C80_help_refuted`).
* C80: an option between the channel and the further words (`set x -f 5`) is refused by some Python releases and accepted by others (`C80_release_refuted`).
* C81: words after `--` are sent to the peer without the `--` and taken for options there: `set -r x -- -r` makes the peer send the command on (`C81_separator_refuted`, `C81_exact`).
* C81: a custom command with `-r` is run by the local custom command handler and never sent (`C81_custom_refuted`).
* C81: an environment registered under the name `default` cannot be reached by a remote command (message/handlers.py:47-48).
* C82: share_environment raises KeyError whenever the peer already holds an environment, for instance the second time it is called, or when both sides share (`C82_share_again_refuted`, `C82_share_once`).
* C83: share_config with an object that has no "config" entry makes the peer's handler raise; nothing is answered and the call waits for its timeout (`C83_no_entry_refuted`, `C83_no_entry_never_returns`).
* C84: PrimitiveEvent.registered has no try/finally (event/__init__.py:41-65): when the body of a recording raises, or entering it fails part way, the callbacks stay registered on closed files and the events stay marked as streaming, so later changes raise ValueError and later recordings raise AssertionError (`C84_exception_refuted`, `C84_failed_start_refuted`).
* C84: no metadata is written when the body raises, so the recorded files cannot be loaded (`C84_exception_refuted`).
* C84: recordings use the channels' events only, so bit-field changes are never recorded although the stream parser supports them (`C84_fields_refuted`).
* C84: an environment registered under two names cannot be recorded (`C84_two_names_refuted`).
* C84: reading a cut stream leaves the parser's leftovers in the environment; reading the file again gives nothing or wrong events (`C84_read_twice_refuted`).
* C85: should_poll goes by the class name, so a subclass of ToggleStepper with another name is put into its own to_poll and each step recurses until RecursionError (`C85_own_subclass_refuted`; control/step.py:35-41, 160-164).
* C85: restore_time_source does not look at other steppers: switching simulate_time off on one makes time real while another still shows simulate_time on (`C85_two_clocks_refuted`).
* C85: a struct that raises aborts the iteration before the counter advances but after others were polled, and the step channel keeps its new position (`C85_lockstep_refuted`).
* C86: create_connection(connect=False, remote_addr=...) removes remote_addr from the stored arguments, so a restart leaves the connection without remote address; the next send passes addr=None on an unconnected socket, which ends the transport while the connection stays enabled (`C86_restart_forgets_refuted`; udp/connection.py:145-168).
* C86: a back-off passed to UdpConnection.create_connection is stored with the endpoint's arguments, so restart raises TypeError; created from an existing socket (create_pair), restart raises OSError because the socket was closed (`C86_restart_raises_iff`).
* C86: UdpPrefixedMessageConnection sends messages to addr, never to remote_address: on an unconnected connection send_message without addr ends the transport (`C86_message_remote_refuted`; stream/__init__.py:47-54).
* C86: set_remote_address on a connected connection makes every send raise ValueError, or be sent to the old peer when created from a socket (`C86_other_remote_refuted`, `C86_socket_other_remote_refuted`).
* C87: the message processor is created once per connection object and kept over restarts: a session cut within a message makes the next session's first bytes the rest of it, so its messages are lost or garbled (`C87_cut_message`, `C87_new_session_refuted`; net/stream/base.py:25-29).
* C87: a UDP message connection has one processor for all senders: a datagram cut within a message (or not starting with a size) is completed with the next datagram of anyone, and attributed to them (`C87_cut_message`).
* C87: an exception while handling a message of n bytes (bytes that are not UTF-8, for a string connection) leaves the processor expecting n more bytes: after a restart the next n bytes are taken as a message (`C87_exception_misaligns_refuted`; message/__init__.py:78-83).
* C88: request() that is cancelled while waiting (asyncio.wait_for) leaves expecting_response set and its response unclaimed: the next request returns the response to the cancelled one; no later request gets its own response (`C88_after_cancel_refuted`; net/tcp/http/__init__.py:134-142).
* C88: after that, a response arrives while none is expected, is parsed as a request header and raises; the refused lines stay in the header parser, so every later header raises too, also after the connection restarted: no request ever returns again (`C88_never_again_refuted`, `C88_refused_header_stays`; net/http/state.py:50-55).
* C88: a request waiting when the connection breaks is neither failed nor released: it keeps the semaphore, and no other request is sent after the restart (`C88_lost_request_blocks_refuted`).
* C88: the response queue is kept over restarts: a response left there answers a request of the next session (`C88_next_session_refuted`).
* C89: words of a command sent as a POST path are cut at '/' and '?', and empty or '.' words vanish, with no percent-decoding to send them otherwise (`C89_not_transmitted`, `C89_nothing_else`, `C89_slash_refuted`; net/server/__init__.py:243-245).
* C89: a command that raises (e.g. get of an enumeration channel whose value has no name, KeyError) is not answered: the exception leaves process_binary (`C89_answered_refuted`).
* `increment` on a primitive returns the sum before it is wrapped by the storage, so the returned number can differ from the stored one (C07_increment).
* A change callback that registers or removes callbacks on the same primitive makes the assignment raise after the value is already stored, and later callbacks are not called (C10_disturbed_assignment).
* A telemetry record with an unknown identifier consumes only its identifier; the bytes after it are read as new records (C23_after_unknown_refuted).
* An array packed with native order can contain padding, so its reported size is exact only when no padding is needed (C17_native_length_iff).
* A register with a signed or floating kind can be exported but no file naming it can be loaded (C51_unsigned_only).
* The text after a second "?" of a request target is dropped (C26_target_forms).
* Metadata of the peer that lacks a key raises and is not answered, but it counts as received, so complete metadata sent later is ignored (C55_metadata).
* An infinite raw value with a zero polynomial coefficient reads as NaN (C33_infinity_zero_coefficient).
* Setting an integer channel to an infinite value raises an error that the callers do not expect (C33_not_finite_refused).
* C40: with the default settings the ten-second maximum of the back-off is never reached: twenty attempts wait 17.3 s in all, at most 1.9 s at once (`C40_defaults`); the limit would apply from the 105th attempt (`C40_default_limit`).
* C86: a datagram whose processing raises (a reply to another address from a connected endpoint) is processed but not counted as received (`C86_received_counted_refuted`).
* C91: data queued when connection_lost is called is never processed, because losing the connection cancels the reading task (`C91_disabled_drops_refuted`, `C91_all_processed_refuted`; net/tcp/protocol.py:46, net/connection.py:193-201). A peer that sends and closes at once can lose its last data.
* C91: connection_lost of a former session (whose transport was still flushing when it was closed) disables the restarted connection (`C91_stale_loss_refuted`; the protocol keeps its reference to the connection).
* C91: a connection disabled before process() runs leaves its first transport open when it is restarted (`C91_former_open_refuted`).
* C91: restarting the server's side of a connection raises ValueError out of process() instead of returning (`C91_server_side`).
* C91: bytes sent after the connection was lost are dropped and counted as sent (`C91_counted_dropped_refuted`).
* C91: if process_binary raises, the reading task ends but the connection stays enabled, and nothing more of the session is processed (`C91_raised_stalls_refuted`; net/connection.py:324-341 disables only for a false result).
* C92: every wake-up of the manager calls process() again for each disabled connection that restarts automatically, although earlier calls of it still run (`C92_one_process_refuted`; net/manager.py:104-107).
* C92: after the stop signal one more pass of the loop restarts connections and starts new ones (`C92_stop_refuted`).
* C92: a managing call that is cancelled, or ends because a process() call raised during shutdown (only TimeoutError is suppressed, net/manager.py:129-130), leaves the manager marked as running for ever (`C92_reuse_refuted`); a cancelled one also leaves a task behind that swallows the next connection (`C92_swallowed_refuted`).
* C92: a later manage() forgets the connections an earlier one still held (`C92_manages_again`; net/manager.py:79).
* C94: every application made with create_app keeps its page under the name "main" (create.py:55, 80, 98), so with caching on (the default) all of them answer with the page of the one that was asked first (`C94_own_page_refuted`), also when that one does not keep pages itself (`C94_uncached_leaks_refuted`).
* C94: a kept page marks the values of the first request as current for ever and never gets channels that are created later (`C94_current_refuted`).
* C93: a channel with an enumeration and a default has no button to reset it, because the button is only made with the toggle or the input box (`C93_reset_refuted`; controls.py:87-119).
* C93: a slider with whole bounds closer together than its number of steps gets step 0 (`C93_slider_step_refuted`; elements.py:146-148).
* C93: while one peer has not shared its environment yet, or if one slider has bounds in the wrong order or 0 steps (both allowed by the schema), no page can be composed at all (`C93_composes`, `C93_unready_peer_refuted`; env/__init__.py:69, elements.py:141, 146).
* C93: a connection, a task and a structure of one name get tabs with the same ids (`C93_tab_ids_refuted`), and every control of a row has the id of the row (`C93_element_ids_refuted`).
* C95: a value that becomes shorter leaves the end of the longer text on the screen: after 123456 a 7 is shown as "7    6" (`C95_only_the_value_refuted`, `C95_remains_stay`; channels/__init__.py:139 pads to five characters only, floats not at all).
* C95: the value of a channel with an enumeration is never shown, because its text is only made for numbers (`C95_enumerated_not_shown`; channels/__init__.py:133-137).
* C95: after a change of size the screen is cleared and only the values are drawn again, so no line has a name any more (`C95_names_lost`; names are drawn in `init` only).
* C95: with more channels than lines setting up raises, and since the interface then counts as set up, a second try returns False and every drawing raises (`C95_too_many`).
* C95: Cursor.move does not test for negative positions: inc_x(-1) at column 0 answers True and stores column 4294967295 (`C95_cursor_inside_refuted`).
* C96: texts and binary messages are in two queues with one task each, so a text and a binary message sent one after the other can leave in the other order (`C96_order_of_kinds_refuted`; net/connection.py:63-68, 341-367).
* C96: a message that is taken from its queue after the peer closed is lost but counted as transmitted (`C96_counts_refuted`; websocket/connection.py:75-83).
* C86: `connected` of a UDP connection is decided once, at its creation: a connection that is given a remote address later stays "not connected" for ever, so a JSON connection never tests the link and silently drops remote commands (`C86_connected_flag`; udp/connection.py:55-56, stream/json/__init__.py:38, 58).
* C97: `normalize_host(None, 80)` and `normalize_host(host, 80)` drop the port, and `normalize_host("::1", 80)` is an IPv4 host (`C97_port_dropped_refuted`, `C97_v6_address_refuted`; net/util.py:126-133).
* C97: the size found first is kept for the life of the process, also when it is only the fallback, so a change of the path is never seen (`C97_current_refuted`; net/mtu.py:94). The probe function is part of the key: one that is made anew for every connection (net/arbiter/struct/__init__.py:119-135) is never found again and is kept for ever with the connection it refers to (`C97_kept_for_ever`).
* C97: if connecting fails or making the probe raises, the socket is not closed, and in the second case its fragmentation option stays changed (`C97_sockets`, `C97_option_restored_refuted`; net/mtu.py:69-77, 104-110).
* C98: with --udp the host of the command line is ignored: the connection is bound to 0.0.0.0 (`C98_udp_host_refuted`; commands/server.py:100-108).
* C98: the loopback client of a TCP server with a certificate is configured without TLS, so it cannot talk to its server (`C98_loopback_tls_refuted`; commands/server.py:72-74).
* C98: a key without a certificate is left in the arguments of the server, which has no such argument (`C98_keyfile_refuted`; net/ssl.py:27-30); with --udp every certificate option is (`C98_udp_server`).
* C98: a port name used twice stands for the last port, although the configuration that applications see shows both (`C98_duplicate_port_refuted`; config/codec.py:58-60).
* C99: the cosine channel is 0 and not its amplitude until the first dispatch or assignment (`C99_initial_refuted`; mixins/trig.py:26-63).
* C99: an infinite phase of the sine makes every later change of the amplitude raise after it is stored and before the cosine is updated (`C99_one_stops_both_refuted`; mixins/trig.py:59-79).
* C99: flush_count can be commanded to 0, which is a ZeroDivisionError in the next dispatch and ends the task (`C99_flush_zero_refuted`; telemetry/sample.py:100).
* C99: flush_count is described as the maximum number of samples before a flush, but a changing flush_count can put a flush off for tens of thousands of samples (`C99_flush_late_refuted`).
* C100: redirects are kept in an attribute of the class and may not be registered again, so a second setup in one process fails if its configuration has a redirect, as the packaged server configuration does (`C100_again_refuted`; net/server/__init__.py:66-77, data/server_base.yaml); its landing page is then missing and no browser is opened (`C100_clash`).
* C100: two spellings of one redirect in a configuration ("/a" and "a") make the setup fail (`C100_clash`), while a path of an application without the slash is silently never answered (`C100_relative_app_refuted`).
* C101: `normalize` looks a text up in capitals only, so a member whose name has a small letter is not even found by its own name (`C101_small_letters_refuted`; enum/registry.py:51-64); anything that is neither number nor text, such as a float, is returned as it is (`C101_other_refuted`).
* C101: members whose names differ only in case: the earlier one is silently missing from the runtime enumeration, and translating its value raises (`C101_case_refuted`; enum/__init__.py:166-173). Other names of a member are accepted by `normalize` and unknown to the runtime enumeration (`C101_alias_refuted`).
* C101: `runtime_enum` and `from_enum` ignore the primitive of the class, so the enumeration is uint8 whatever its values are, while `register_enum` uses it (`C101_primitive_refuted`; enum/registry.py:66-94).
* C102: the builder compares redirects as texts while the server compares them as paths, so a redirect configured as "b" and a prefix "/b", or prefixes "a" and "a/.", make the setup of the server fail with an assertion instead of the configured one being kept (`C102_spelling_refuted`; net/html/arbiter.py:18-32, net/server/__init__.py:66-77).
