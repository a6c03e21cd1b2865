# Design

Formal model of QuantStack/xeus (the commit in /repo) in Coq 8.16.1, under `rocq/theories`.
The C++ sources are read as text; nothing is built or run. Every model definition cites the
file and lines it was transcribed from.

## Trusted base

* Coq's kernel (8.16.1), including `vm_compute`.
* What `Print Assumptions` lists. Every theorem named in `MANIFEST.json` is followed by
  `Print Assumptions` in its `Props*.v` file and the answer is "Closed under the global context"
  for all of them: no axiom is used, neither own nor from the standard library. Only the standard
  library is imported.
* The transcription of the C++ code (this document and the comments in the model files).
* The semantics given to the libraries the code calls (section *Libraries*).
* The simplifications of the sections *Modelled* and *Not modelled*.

## Files

| files | contents |
|---|---|
| `Base`, `BaseFacts`, `Json`, `JsonText`, `JsonTextProofs`, `JsonParseProofs` | outcomes, bytes, maps; nlohmann values, serializer and parser |
| `Utf8`, `Hex`, `Auth`, `Message` + `*Proofs`, `WireSpec`, `WireLemmas`, `PropsWire`, `PropsFrames` | bytes on the wire (C01-C06, C48, C49, C58) |
| `Comm`, `CommSpec`, `CommHandlersSpec`, `CommProofs`, `PropsComm` | comm objects and registries (C23, C24) |
| `History`, `HistoryProofs`, `PropsHistory` | history manager (C27-C31) |
| `Tree`, `Kernel`, `KernelSpec`, `Kernel*` (proofs), `PropsKernel`, `PropsStarted` | kernel core and interpreter base class (C07-C22, C25, C26, C57) |
| `Server`, `ServerSpec`, `Server*`, `Split`, `Split*`, `Threads`, `PropsServer` | threads and servers (C32-C37) |
| `SequentialSpec`, `Sequential`, `SequentialProofs`, `PropsSequential` | whole runs of the default server (C67-C70) |
| `SplitStreamSpec`, `SplitStream`, `SplitIds`, `PropsSplitStream` | whole runs of the split servers (C71-C73) |
| `SplitPathSpec`, `SplitPath`, `PropsSplitPath` | what a thread of the split servers does is a path of its listener's program (C81) |
| `LiveSpec`, `Live`, `LiveDemo`, `PropsLive` | infinite executions of the default server, fairness (C74-C76) |
| `AnsweredSpec`, `Answered`, `PropsAnswered` | requests of the shell socket are answered in order (C77) |
| `ClientSpec`, `Client`, `PropsClient` | the same as seen by a client: bytes sent, bytes received (C82) |
| `SplitLiveSpec`, `SplitLive`, `SplitLiveDemo`, `PropsSplitLive` | infinite executions of the split servers, fairness (C78-C80) |
| `SplitAnsweredSpec`, `SplitAnswered`, `SplitRests`, `PropsSplitAnswered` | requests answered by the split servers while the other thread is at work (C83, C84) |
| `SplitRaceSpec`, `SplitRace`, `PropsSplitRace` | which objects the threads of the split servers use, data races (C85) |
| `Pretty`, `PrettyProofs` | `dump(4)` and reading it back (C87) |
| `Monitor`, `MonitorProofs`, `PropsMonitor` | objects protected by a mutex: signatures, log files (C86, C87) |
| `DapConnect`, `DapConnectSpec`, `DapConnectProofs`, `PropsDapConnect` | the debug adapter client among the debugger, the adapter and the notifications of its socket (C103) |
| `Chain`, `ChainSpec`, `ChainProofs`, `PropsChain` | chains of loggers used by several threads (C102) |
| `Calendar`, `CalendarSpec`, `CalendarProofs`, `PropsCalendar` | `iso8601_now` called by several threads (C95) |
| `LogSpec`, `LogSim`, `LogServer`, `PropsLog` | the kernel with loggers and the kernel without (C88) |
| `LoggedSpec`, `Logged`, `PropsLogged` | messages are logged before they leave and before they are acted upon (C98) |
| `Reentry`, `ReentrySpec`, `ReentryProofs`, `PropsReentry` | the kernel with undefined behaviour for functions destroyed while they run (C101) |
| `Dap`, `DapSpec`, `Dap*`, `PropsDap` | debug adapter client (C38-C41, C59-C62) |
| `Debugger`, `DebuggerSpec`, `Debugger*`, `PropsDebugger` | debugger (C42-C47, C63-C65) |
| `HeardSpec`, `Heard`, `PropsHeard` | the iopub socket of the default server as seen by a subscriber (C91) |
| `Startup`, `StartupSpec`, `StartupProofs`, `PropsStartup` | the start of the split servers (C92) |
| `Join`, `JoinSpec`, `JoinProofs`, `PropsJoin` | the start of the default server and the subscription of its publisher thread (C97) |
| `Pipes`, `PipesSpec`, `PipesProofs`, `PropsPipes` | the two pipes of the publications in the split servers, with subscriptions and high-water marks (C105) |
| `AskedSpec`, `AskedProofs`, `PropsAsked` | which message on the stdin socket answers which input request, in runs of all servers (C106) |
| `Shipped`, `ShippedSpec`, `ShippedProofs`, `PropsShipped` | the interpreters of example/ and test/ as user code, and what their kernels say (C107) |
| `Program`, `ProgramSpec`, `ProgramProofs`, `PropsProgram` | the `main` functions, from the command line to the frames on the sockets (C108) |
| `ThreadSpec`, `ThreadProofs`, `PropsThread` | the shipped kernels under the split servers, one thread at a time (C109) |
| `ShutdownSpec`, `ShutdownProofs`, `PropsShutdown` | the end of the shipped programs (C110) |
| `MetadataSpec`, `PropsMetadata` | the metadata of outgoing messages (C111) |
| `CommTargets`, `PropsTargets` | on which targets comms can be created (C112) |
| `Bounded`, `BoundedSpec`, `BoundedProofs`, `PropsBounded` | the iopub sockets of the default server with high-water marks, and its subscribers (C104) |
| `Construct`, `ConstructSpec`, `ConstructProofs`, `PropsConstruct` | the construction of a kernel (C96) |
| `Destroy`, `PropsDestroy` | the destruction of a kernel, construction that fails (C99) |
| `SplitClientSpec`, `SplitClient`, `PropsSplitClient` | the sockets of the split servers as seen by clients and subscribers (C93, C94) |
| `DapSessionSpec`, `DapSession`, `DapWaiting`, `DebugSession`, `PropsSession` | sessions of debugger, client and adapter together (C59, C89, C90) |
| `Stopped`, `PropsStopped` | the set of stopped threads under the threads of the debugger and its clients (C100) |
| `Host`, `Logger`, `HostSpec`, `*Proofs`, `PropsHost` | configuration, end points, ports, directories, loggers, registration, timestamps (C50-C56, C66) |

`X.v` without suffix is the model, `XSpec.v` the vocabulary of the statements (independent of the
model's helpers), `Props*.v` the theorems with their `Print Assumptions` and examples.

## Conventions of the model

* **Outcomes.** A C++ call ends in a value, an exception (`Std what` or `Foreign tag`, the latter
  for what does not derive from `std::exception`) or undefined behaviour (reading outside a buffer,
  dereferencing null, popping an empty container, missing key in const `operator[]`, ...), which
  is absorbing and never caught. A call of the client or debugger may also wait for ever.
* **Bytes.** `std::string`, zmq frames: Coq `string` (a list of `ascii`, i.e. bytes).
* **JSON.** `nlohmann::json` values, with objects as association lists sorted by key, as
  `std::map`. Accessors follow nlohmann 3.x (`value`, `at`, `operator[]` const / non-const,
  `get<T>`). A float is a decimal literal; rounding to binary64 is not modelled.
* **User code.** Interpreter, comm callbacks, debugger, loggers are universally quantified. In the
  kernel, user code is a tree of operations (`kprog`) that xeus offers to interpreters; it may
  inspect the state it can reach and may throw at any point.
* **Environment.** HMAC, guid generator, clock, file system, what arrives on the sockets: oracles,
  universally quantified; hypotheses on them ("the digest has the announced size", "guids are
  distinct") are stated in the theorem that needs them. What is going to arrive is given in advance
  (prophecy): the number of rounds of the loop in `abort_queue_impl` (`KShellLen`, any answer is
  allowed), the messages still to come from the adapter and on the client's sockets.
* **Concurrency.** Threads are interleaved by an arbitrary schedule at the granularity of the
  kernel's operations. Accesses are sequentially consistent: the races on the split servers'
  shared fields, which are undefined in C++, are given this meaning; C85 says when there are none. Termination statements are
  about fair executions.

## Libraries (assumed semantics, not verified)

* cppzmq `multipart_t`: a deque of frames; `pop` on an empty deque is undefined. Sending a
  `message_t` empties it, so that the second use of `stop_msg` sends an empty frame.
* ZeroMQ: unbounded queues, FIFO for each pair of sockets, no high-water mark (but see C104 and C105, `Bounded.v` and `Pipes.v`), no subscription
  race (but see C97 and C105), no loss on inproc pipes. A REQ/REP pair is a slot holding a request or an answer; a REQ
  socket that sends twice waits (in ZeroMQ it throws), a REP socket that answers without request
  throws. Messages of the shell and control threads reach the publisher in the order in which they
  were sent, except in `Pipes.v` (C105; two sockets: ZeroMQ only orders each of them).
* OpenSSL HMAC: a function `key -> bytes -> digest`, of fixed length for each scheme.
* nlohmann::json: `dump` (with the three error handlers) and `parse` are modelled concretely
  (`JsonText.v`), so is the text of `dump(4)` in the loggers (`Pretty.v`).
* `std::regex` ECMAScript: the fragment the history search generates. On other patterns (with a
  backslash) the behaviour is a parameter.
* libuuid and the like: 16 arbitrary bytes.
* File system: a map from paths to directories and plain files, no links, no `.` and `..`, no
  errors while writing to an open file.

## Modelled

| source | what | simplifications |
|---|---|---|
| `xmessage`, `xauthentication`, `xguid`, `xstring_utils`, `xlogger_impl` (UTF-8) | all functions | `hex_string` only for unsigned char buffers; `new_xguid` from the 16 bytes of the generator on (libuuid, CoreFoundation; on Windows the fields of the GUID, in big-endian order) |
| `xkernel_core` | all functions | the logger is a parameter that returns or throws; most theorems assume one that logs nothing (`quiet`). The chains of loggers are in `Logger.v`, and C88 carries the theorems over to kernels with such chains |
| `xinterpreter`, `xinput` | all functions that send, publish or request | user code does not replace the publisher, does not call the entry points of xinterpreter meant for the kernel and does not modify `comms()` directly |
| `xcomm` | objects in a heap, registries, handlers by number | a `std::function` that is destroyed while running keeps running, except in `Reentry.v` (C101); a moved-from one is empty. Identifiers longer than 55 bytes, given or made by concatenation: `e_long_id`, see C25. An aborted `comm_open` is answered with `comm_reply` |
| `xhistory_manager`, `xin_memory_history_manager` | all functions | patterns containing NUL, list sizes beyond `int` |
| `xserver_zmq`, `xserver_zmq_split`, `xserver_*_main`, `xshell`, `xcontrol`, `xpublisher`, `xheartbeat`, `xzmq_messenger`, `xtrivial_messenger`, `xcontrol_messenger` | threads from the start of their loops; user code that never returns is not excluded, it makes no promise | destruction of sockets other than in the destructor of the kernel (`Destroy.v`). The creation of the threads, the start message and `m_request_stop = false` are in `Startup.v` for the split servers (C92), the creation of the threads and the start message in `Join.v` for the default server (C97); elsewhere runs begin with all threads in their loops and the start message published. Except in `Join.v` the publisher thread is subscribed from the beginning; C97_same carries the other theorems over (C91 then holds for what was published since the subscription) |
| `xdap_tcp_client` | the loop, framing, queue, attach sequence | `handle_event` of a derived class does not wait for messages; the identity frames of the STREAM socket are dropped, as in the code, and bytes of other peers are not modelled. Connection: the notifications of the socket are in `DapConnect.v` (C103), where a client that waits for bytes goes on when they arrive |
| `xdebugger`, `xdebugger_base` | all functions | derived classes start and stop the adapter and have handlers that only forward; events are delivered while the debugger waits; accesses to the stopped threads are atomic (in `process_request_impl` they are cleared without the lock: a data race, C100); not the WIN32 branches |
| `xkernel_configuration`, `xmiddleware`, `xsystem`, `xkernel` | all functions; the constructors of the servers as far as they bind sockets to the outside (`Construct.v`); the destruction of the members in order (`Destroy.v`) | `ZMQ_LAST_ENDPOINT` is the end point that was bound; murmur hash is a parameter; the temporary directory is computed once; not the WIN32 branches |
| `custom_interpreter` (example/), `test_interpreter` (test/) | all virtual functions, as user code | what they print on the standard output is left out |
| `main` of example/src/main.cpp, test/main.cpp, test/main_shell.cpp, test/main_control.cpp; `get_user_name` (src/xkernel.cpp:40-71) | the command line, the files, the password entry and USER, load_configuration, the constructor, `start` up to the loop of the server | what they print, and failures to create the context or the sockets, are left out |
| `xlogger`, `xlogger_impl`, `xmock_interpreter` | all functions | in the chains (C54) a text is represented by its JSON value, and the line that a console logger may leave when the message has no text is left out; the texts are in `Monitor.v` (C87). Opening the file always succeeds. C87 is about one logger; chains with several threads, each logger with its own mutex and perhaps the same sink, are in `Chain.v` (C102): every piece of a text is appended to what the sink then holds |

## Properties

"violated" means that the faithful model refutes the plain statement: a `_refuted` theorem gives the
witness and a positive theorem the region in which the property holds. `MANIFEST.json` says which.

| id | modelled | proof |
|---|---|---|
| C01 | xmessage (de)serialize, auth, JSON text | layout of the frames; round trip, from dump/parse round trip and sign/verify agreement |
| C02 | xpub_message (de)serialize | same |
| C03 | deserialize with explicit UB on empty pop and short signature | exact characterisation of UB; violated |
| C04 | verify with `CRYPTO_memcmp` on a prefix | iff-characterisation of acceptance; equality refuted |
| C05 | signed bytes = concatenation of frames | JSON texts of objects are a prefix code |
| C06 | scheme table, sign, verify | case analysis |
| C07 | kernel dispatch as program tree, arbitrary user code | induction over the tree: trace shape busy … idle |
| C08 | dispatch/dispatch_stdin | equality of final and initial state |
| C09 | send_reply, abort_request | predicate over all Send events of the trace |
| C10 | all request handlers | count of Send events |
| C11 | handler table | exact trace |
| C12 | execution counter | invariant over message sequences, from the start of the kernel on |
| C13 | execute_request, silent | trace predicate |
| C14 | history store | refinement to abstract log, from the start of the kernel on; line number refuted |
| C15 | abort_queue over arbitrary arrival schedule | induction over the queue; violated case refuted |
| C16 | exceptions in handlers | no `Throw std` outcome of dispatch; violated case refuted |
| C17 | publish_message, parent header | predicate over Publish events |
| C18 | make_header, guid supply | predicate + NoDup over trace |
| C19 | comm_info | refinement to filter of registry |
| C20 | shutdown | exact trace |
| C21 | kernel_info | reply content |
| C22 | blocking input with input handler | exact trace and result |
| C23 | heap of comm objects, registry | invariant over operation sequences; violated cases refuted |
| C24 | idem | invariant |
| C25 | comm_open/close/msg with callbacks | trace of handler runs; the handlers as a relation on the history of operations (`holds`) |
| C26 | comm open/send/close | exact publication |
| C27-C31 | in-memory history manager, process_request | functional specification on lists; glob semantics via derivation of regex semantics |
| C32 | default server loop over arbitrary schedules | invariant over schedules |
| C33-C34 | publisher / heartbeat loops | trace refinement; lost tail refuted |
| C35 | stop handshake as transition system | measure decreasing along every fair run, no deadlock |
| C36 | two threads of kernel programs interleaved | rely/guarantee invariant |
| C37 | internal channel, JSON dump never "stop" | dump/parse lemma + protocol model |
| C38 | TCP framing state machine, arbitrary chunking | refinement to abstract decoder |
| C39-C40 | DAP queue | list induction; loss refuted |
| C41 | forward_message framing | decode o encode |
| C42-C46 | debugger base as state machine | invariants over request/event sequences |
| C47 | file system as map | refinement |
| C48 | hex_string | list induction |
| C49 | DFA table | equivalence with RFC 3629 grammar |
| C50-C53 | configuration, end points, ports, temp dir, create_directory | functional specifications |
| C54-C55 | logger chain, interpreter registration | list induction |
| C56 | iso8601_now, civil calendar | injective; denotes the instant iff the fraction has no leading zero |
| C57 | start sequence | exact first event; state of a started kernel |
| C58 | dump with the three error handlers | valid UTF-8 output, strict throws iff invalid |
| C59 | attach handshake of the client | exact sequence of sends for every schedule; invariant of rounds: the handshake is due in parallel initialisation until the first attach request (`DapWaiting`) |
| C60 | reply socket of the client | invariant: forwarded = replied (+1) |
| C61 | parent header socket, events | trace predicate |
| C62 | polling loop of the client | progress under a complete stream, attach handshake included (frame property of the reader: chunks to come do not matter); blocking refuted |
| C63 | dumpCell then source | composition over the file system |
| C64 | header socket of the debugger | trace predicate |
| C65 | requests to the client | trace predicate: alternation |
| C66 | cell file names | injectivity |
| C67 | default server, kernel programs | every path of `dispatch` is an initial part of its sequential execution with the messages it took pending; invariant over runs |
| C68-C69 | idem | the trace of one dispatch (C07, C09, C15) summed over the run |
| C70 | idem | numbering of identifiers (C18) over the run |
| C71-C72 | split servers, kernel programs | rely/guarantee with an invariant of the thread's own events since its last message (`rgs`, SplitStream.v); induction on the number of messages for C72 |
| C73 | idem | invariant: numbers used are distinct, and each thread holds at most one number not used yet |
| C74-C76 | default server | weak fairness per thread (`just`); leads-to lemmas by induction on the handler's program and ranks of the forwarding threads (Live.v) |
| C77 | default server and kernel | each episode of C67 sends one reply per message it took (C10, C16), the invariant `sound` (headers and history in UTF-8, counter below the limit) being kept; liveness from C75 (Answered.v) |
| C78-C80 | split servers | weak fairness per thread; progress of one thread as long as a condition kept by the others holds (`sh_go`, `ct_go`), a request being answered through the invariant `flag_inv` of the shell thread's poll; termination by reduction to C35 (SplitLive.v) |
| C81 | split servers | invariant: the thread's program counter is where a path of the listener's program with the thread's own labels leads (`gfollows`, SplitPath.v) |
| C82 | client, default server and kernel | C77 and C69 composed with the wire format: the frames of a reply are split at the delimiter, verified and parsed (Client.v) |
| C83, C84 | split servers | the number of replies a listener's program still owes, whatever it reads that the shared state can hold (`sure`, `found`); three invariants of the shared state: stored headers and history are UTF-8, the counter is bounded by the messages handled, answers to internal requests are texts the interpreter returned (SplitAnswered.v) |
| C85 | split servers | the objects each operation uses (`op_uses`); invariant: every thread's program keeps to the objects of its thread (`at_home`, SplitRace.v) |
| C86 | xauthentication | threads as interleaved steps under a lock (`mstep`); the calls are serialised (`run_serial`, MonitorProofs.v), so that each returns what `Auth.sign` and `Auth.verify` say |
| C87 | xlogger_impl | the same lock; the file is the concatenation of the texts; `pretty_pval` (PrettyProofs.v): the text of a value is read back |
| C88 | xkernel_core with xlogger | the programs with and without a logger are the same tree (`sim`, LogSim.v) as long as the identities read are not empty; runs of the servers correspond step by step (LogServer.v) |
| C89 | sessions of the DAP client (`serves`) | invariant over the rounds: the messages read so far are those dispatched, with the handshake at one place (`session`) |
| C90 | debugger, client and adapter | `linked` connects the log of a debugger with a run of a client; lock step (C60) and counting |
| C91 | default server, kernel and publisher | C68 composed with the wire format; C75 and C76 for the liveness parts |
| C92 | start_impl of the split servers (Startup.v) | simulation of Split.v with the start message early or late in the publisher's queue; violated: the start message is not always first, a shutdown can be lost |
| C93 | split servers, kernel, wire format | C83 and C72 composed with the wire format; uniqueness over both sockets by counting messages up to permutation |
| C94 | split servers, kernel, publisher, wire format | C71 turn by turn composed with the wire format and C33; C79 for the liveness part |
| C95 | iso8601_now | threads that write and read the fields of one `tm` in any order; invariant: every field written or read comes from a call in progress (`during_inv`, CalendarProofs.v) |
| C96 | xkernel, xmiddleware, constructors of the servers | `bind` is a parameter, with what ZeroMQ says about tcp as a hypothesis (`tcp_binds`, `exclusive`); violated: sockets may stay unbound, other transports |
| C97 | start_impl of the default server, publisher | invariant on the publisher's queue; simulation of Server.v with a publisher that is given everything (`lag`); violated: the start message may be lost |
| C98 | xkernel_core with xlogger | walk over all programs of the kernel: each message event comes after an accepting call of the logger (`vetted`, Logged.v); runs of the servers emit only what the programs do; violated for aborted requests and the start message |
| C99 | xkernel::~xkernel, xkernel::init | destruction of the members one after the other; `zmq_ctx_term` waits for the sockets that are open; violated for the order of the code, proved for orders with the context before the server and the debugger and the core before the interpreter |
| C100 | m_stopped_threads, debug requests, client loop, as an interleaving model of their own (Stopped.v) | invariants: who holds the mutex (`locked`), clients that are to stop hold no event (`kept`); violated for events after the response to disconnect |
| C101 | comm handlers, target callbacks, input handlers, with the functions that are running | the programs of the kernel are those of Kernel.v cut at some places (`cut`, ReentryProofs.v); violated for handlers that destroy their comm and one-shot input handlers |
| C102 | chains of loggers, their mutexes and sinks; any threads | the text of a sink is cut into pieces, each with its logger; what a logger has written is whole whenever its mutex is free; violated for sinks with several loggers |
| C103 | client loop, init_tcp_socket, append_tcp_message, with the debugger's REQ sockets and any adapter | every step lowers a lexicographic measure and every state that is not served has a step; the notifications are empty chunks; violated for clients whose adapter waits to be asked, and for servers to which somebody else connects |
| C104 | publish_impl and xpublisher of the default server, with pipes that drop what they have no room for, and any subscribers | invariant on what has passed each pipe; simulation of Server.v (`lag`, as in C97) for the rest; violated for every high-water mark: the end of a cell may be lost |
| C105 | publish_impl of the split servers with a pipe for each channel, the publisher thread reading from any of them, from start_impl on | invariant: what was taken from and is in a pipe against what was published since the subscription; simulation of Startup.v (`lag`); violated: an idle status may overtake output published through the other socket, the start message of the shell main server may be lost |
| C106 | send_stdin, send_stdin_impl, dispatch_stdin, input_request, blocking_input_request within runs of the default and the split servers | weakest precondition of the kernel's programs over (turn, variable), invariant of the runs: requests sent, messages arrived and read |
| C107 | custom_interpreter (example/), test_interpreter (test/) under dispatch, the handlers and the default server | evaluation of each handler with the concrete interpreter, invariant (no comm registered, targets, UTF-8), C67 for the runs; C75 for the eventual version (no program of these kernels reads stdin) |
| C108 | the four `main` functions: load_configuration, init, the constructed kernel core, start, the run of the default server, the frames | composition of C50, C51, C96, C107, C67 and C76; every program of these kernels emits only signed messages without buffers, with a header of the user (`speaks`) |
| C109 | the shipped kernels on the two threads of the split servers | simulation: what thread `c` has done is a run of the sequential kernel on its messages alone, with the identifiers and dates it drew (`inv`); the steps of the other thread keep what `c` reads (`other_step`), its own are steps of the sequential kernel (`own_step`) |
| C110 | the end of the shipped programs | per message: the call of `stop` is among the events iff the message is a readable shutdown request (`stop_message`); carried to runs by the sequence of C67 (default) and the invariant of C109 (split); the exit by C74 and C80, whose exceptional cases C107 and C109 exclude |
| C111 | metadata of replies, input requests and publications | `always` over the programs of the kernel for what is emitted, decomposition of the runs of execute and debug requests for the clock readings |
| C112 | comms on registered and unregistered targets | registration as a condition on the history of operations; invariant: distinct nodes, and an entry has a manager exactly if its name is registered. Refuted for `comm_open` |

## Findings

Besides the refuted statements:

* `xdebugger_base::process_request_impl` clears `m_stopped_threads` without taking the mutex that
  the event thread takes; a `disconnect` when the debugger is not started still calls `stop()`; an
  exception in forwarding a `disconnect` leaves the debugger started.
* `source_request` builds the body of its failure reply with `{{}}`, which nlohmann reads as
  `[null]`, not as an empty object.
* `init_socket` ignores a failed search for a port: the kernel is constructed with sockets that are not bound and empty
  ports in its configuration (C96). The default range of ports ends with 65536.
* `start_impl` publishes the start message right after it created the publisher thread. A PUB socket drops messages while
  it has no subscriber, and the SUB socket subscribes when its thread first uses it: the start message may be lost (C97).
  The same holds for `xshell` in the shell main server, whose socket connects after that of the publisher was bound (C105).
* The code sets no high-water mark, and publishing never waits: a cell that publishes faster than the publisher thread forwards, or
  than a subscriber reads, loses publications, the idle status with them, although the request is answered (C104). Few publications,
  or a publisher thread and subscribers that keep up, lose nothing.
* The split servers publish through two sockets, chosen by channel. The output of a cell executed on the control channel is published
  on the shell channel, its status on the control channel: a subscriber may see the idle status before the output. The same goes for
  the `shutdown` message of a shutdown request on the shell channel (C105).
* The start message is not logged, and the requests that are aborted after a failed execution are answered without being
  logged as received (`build_start_msg`, `abort_request`; C98).
* `m_control_stopped` and `m_request_stop` are plain `bool`s; the first is read and written by two
  threads at every end of the shell main server, the second when a shutdown request comes on the
  shell channel (C85). An interpreter that prints in `shutdown_request_impl`, or in
  `kernel_info_request_impl` called through the control channel, uses the shell thread's socket in
  the control thread.
* In C++17 a console logger inserts its line into the stream before `dump(4)` throws: the line is
  left without a message, and the loggers behind it do not log (C87, C54).
* A logger dumps strictly whatever the error handler of the kernel is: with `replace` or `ignore`
  and a logger, output that is not UTF-8 is not published (C88). A message from a client that names
  itself `<IDS|MSG>`, or asking for input before the first shell message, is undefined behaviour with
  a logger (`front()` of no identities) and harmless without.
* `wait_for_message` drops every message of a batch that it recognises, not only the first: a second
  response to `configurationDone` or `attach` in the same chunk is lost (C89). A request for the
  adapter while the debugger is not started is answered with `{}` on the control channel (C90).
* The constructor of `xinterpreter` leaves `p_comm_manager`, `p_messenger` and `p_history` uninitialised until the kernel
  registers them (src/xinterpreter.cpp:21-24).
* In the split servers the thread created by `start_impl` may publish before the start message, and a
  shutdown request handled on the shell channel before the control thread executes
  `m_request_stop = false` (src/xcontrol.cpp:57) is lost: it is answered, and the server keeps running (C92).
* `iso8601_now` uses `std::gmtime`, whose result is one object for the whole process (src/xmessage.cpp:236). In the
  split servers both threads make headers, so that the dates of two headers made at the same time may be mixed (C85,
  C95). The other theorems hold for any dates: in the kernel model the date is an arbitrary function of the call.
* A `comm_msg` or `comm_close` for an unknown comm throws `"No such comm registered: " + id`; the sum is an `xguid`, which
  holds 55 bytes, and 25 + 32 is more. xtl's fixed strings do not check the size by default (C25_unknown_refuted; the
  library is left open in the model, `e_long_id`).
* The results of `HMAC_Init_ex`, `HMAC_Update` and `HMAC_Final` are ignored: where OpenSSL refuses the digest the
  signature of every message is a row of zeros. The model's `hmac` is total; this case is the constant function.
* `m_context` is declared after `p_server` and `p_debugger` (include/xeus/xkernel.hpp:78-92), so that it is destroyed
  first: `zmq_ctx_term` waits for sockets that only this thread would close afterwards. The destructor of a kernel with a
  server of the library does not return, and neither does the constructor when the builder of the debugger or `configure`
  throws (C99). Kernels that are served until a shutdown request do not get there, since `start` ends with `std::exit`.
* Comm handlers, target callbacks and the input handler are called in place: one that destroys its comm, unregisters its
  target or itself goes on without its captured variables (C101).
* Each logger locks its own mutex: two loggers of one file (or two console loggers) mix their records when two threads log, and the
  file can then not be read. The files of one chain need not have the records in the same order (C102).
* `handle_tcp_socket` takes the notification of a connection (an empty chunk, ZMQ_STREAM_NOTIFY) for the beginning of a message and waits for the rest. A
  server takes the first notification itself, a client does not: with an adapter that waits to be asked, the first request is never forwarded. The same
  happens to a server when somebody else connects to its port (C103).
* Requests aborted after a failing cell are answered, but no busy or idle status is published for them (C91).
* The message read after an input request is taken for its answer whatever its sender, parent header and type, and even if it arrived before
  the request; from then on every answer is taken for that of the following request. In the split servers a debugger that asks for input does so
  in the control thread, with the socket and the client of the shell thread, and may take the answer to a request of a cell (C106).
* The kernel of the tests registers a target whose callback leaves the comm where it is: every `comm_open` for it ends with the destruction of a comm whose
  `m_moved_from` was never initialised (C107).
* The `main` functions of `example/` and `test/` use `argv[2]` whenever `argc != 1`: with one argument they make a string of a null pointer (C108).
* A user name that is not UTF-8 ends the process when the start message is serialized (C108).
* Under the split servers an interrupt (or shutdown) request on the shell socket publishes with the parent header of the last control request, and cells sent to both sockets share one count (C109).
* A shutdown request on the shell socket of a split server is answered without ending the process: the flag is only tested by the control thread, after its next message (C110).
* The reply to a shutdown request is sent before the process exits, but the broadcasts about it may be lost: the stop message may overtake them in the publisher, which then leaves its loop with only the start message sent (C110).
* The date "started" in the metadata of a debug reply is read after the debugger has returned, unlike that of an execute reply (C111).
* `xcomm_manager::target` makes an entry with a null manager for a name that is not registered; a `comm_open` request for that name then dereferences the null pointer instead of being refused (C112).


## Not modelled

Memory allocation failure, integer overflow outside the places noted, threads' data races below
the granularity of one operation, the contents of the TCP and ZeroMQ protocols, performance, the
WIN32 branches, what the programs of `example/` and `test/` print (their interpreters and `main` functions are modelled, C107 and C108), the Python
and C++ unit tests, the build system.
