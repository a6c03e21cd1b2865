{"id": "C01", "title": "Wire round-trip of request/reply messages", "statement": "Serializing an xmessage and deserializing the produced frames with an authentication object of the same scheme and key yields a message with the same identities, header, parent header, metadata, content and buffers, provided no identity frame equals the delimiter and all JSON strings are valid UTF-8.", "quantifier": "all identity lists, all JSON values (any depth and size), all buffer lists, all schemes and keys", "why_tests_cant": "the space of JSON documents, identity lists and buffers is infinite; tests sample a few messages", "anchors": ["src/xmessage.cpp: xmessage::serialize, xmessage::deserialize, xmessage_base::serialize, xmessage_base::deserialize", "src/xauthentication.cpp: sign_impl, verify_impl"]}
{"id": "C02", "title": "Wire round-trip of published messages", "statement": "Serializing an xpub_message and deserializing the frames with the same authentication yields the same topic, header, parent header, metadata, content and buffers.", "quantifier": "all topics, JSON values, buffers, schemes and keys", "why_tests_cant": "infinite message space", "anchors": ["src/xmessage.cpp: xpub_message::serialize, xpub_message::deserialize"]}
{"id": "C03", "title": "Deserialization of an arbitrary multipart message is memory safe", "statement": "Whatever frames a peer sends, deserializing them either yields a message or throws an exception derived from std::exception; it never reads outside the received frames. (The code violates this for some frame counts and short signatures; the exact set is characterised.)", "quantifier": "all lists of byte-string frames, of any length, all schemes and keys", "why_tests_cant": "the adversary chooses frames; only a proof covers every frame count and content", "anchors": ["src/xmessage.cpp: xmessage::deserialize, xmessage_base::deserialize", "src/xauthentication.cpp: verify_impl"]}
{"id": "C04", "title": "Authentication soundness", "statement": "If deserialization succeeds under an HMAC scheme, the signature frame equals the lower-case hexadecimal HMAC, under the configured key, of header, parent header, metadata and content frames. (The code only compares a prefix; the exact acceptance condition is proved and the equality is refuted.)", "quantifier": "all frame lists, keys, schemes and HMAC functions", "why_tests_cant": "a test can only try some wrong signatures", "anchors": ["src/xauthentication.cpp: openssl_xauthentication::verify_impl", "src/xmessage.cpp: xmessage_base::deserialize"]}
{"id": "C05", "title": "A signature pins the four signed frames", "statement": "Two accepted frame sequences with the same signed bytes, whose four signed frames are JSON objects without trailing whitespace, have identical header, parent header, metadata and content: a peer cannot move bytes from one signed frame to the next. Identities and buffers are outside the signature.", "quantifier": "all pairs of frame sequences with equal concatenation", "why_tests_cant": "requires reasoning about every re-cut of the concatenated bytes", "anchors": ["src/xauthentication.cpp: sign_impl, verify_impl", "src/xmessage.cpp: xmessage_base::deserialize"]}
{"id": "C06", "title": "Sign and verify agree", "statement": "For every scheme accepted by make_xauthentication and every key, the signature produced by sign for four frames is accepted by verify for the same frames; under scheme \"none\" every signature is accepted; an unknown scheme is rejected at construction.", "quantifier": "all schemes, keys, frames", "why_tests_cant": "all keys and all frames", "anchors": ["src/xauthentication.cpp: make_xauthentication, asevp, sign_impl, verify_impl"]}
{"id": "C07", "title": "Busy/idle bracketing", "statement": "For every authenticated message on shell or control whose header is an object with an absent or string msg_type, the first message the kernel publishes is status busy and the last is status idle, both with the request header as parent header, whatever the handler and the interpreter do (return, or throw a std::exception); in particular idle is published exactly once per busy.", "quantifier": "all messages, all interpreters (arbitrary programs over the xeus API), all kernel states", "why_tests_cant": "quantifies over every interpreter behaviour and every message", "anchors": ["src/xkernel_core.cpp: dispatch, publish_status"]}
{"id": "C08", "title": "A rejected message has no effect", "statement": "A message that fails to deserialize or to authenticate on shell, control or stdin causes no publication, no reply, no change to history, execution counter, comms or parent headers.", "quantifier": "all frame lists that do not deserialize, all kernel states", "why_tests_cant": "adversarial input space", "anchors": ["src/xkernel_core.cpp: dispatch, dispatch_stdin"]}
{"id": "C09", "title": "Replies are routed to the requester", "statement": "Every reply sent while handling a message goes to the channel on which the message arrived, carries the identities of that message as routing prefix, its header as parent header, and its msg_type is the request's type with _request replaced by _reply; pending requests aborted by stop_on_error are likewise answered to their own identities with their own header as parent.", "quantifier": "all messages, channels, interpreters, kernel states", "why_tests_cant": "needs all messages and all interpreters", "anchors": ["src/xkernel_core.cpp: send_reply, set_parent, get_parent_id, get_parent_header, abort_request"]}
{"id": "C10", "title": "At most one reply per request, exactly one for well-formed requests", "statement": "Handling one request sends at most one reply for that request; it sends exactly one whenever the request's content is well formed and the interpreter returns an object with a string status (and, for debug_request, a debugger is present).", "quantifier": "all requests, interpreters, kernel states", "why_tests_cant": "all interpreters and all contents", "anchors": ["src/xkernel_core.cpp: execute_request, complete_request, inspect_request, history_request, is_complete_request, comm_info_request, kernel_info_request, shutdown_request, interrupt_request, debug_request"]}
{"id": "C11", "title": "Unknown message types are ignored", "statement": "An authenticated message whose type is not one of the thirteen handled types produces exactly the two status messages and no reply, and leaves history, counter and comms unchanged.", "quantifier": "all message types outside the handler table", "why_tests_cant": "infinitely many type strings", "anchors": ["src/xkernel_core.cpp: dispatch, get_handler"]}
{"id": "C12", "title": "Execution counter", "statement": "Over any sequence of messages the execution count equals the number of non-silent execute requests whose content was well formed; each such request publishes one execute_input with the incremented count before the interpreter runs, and its reply carries that same count; silent requests leave the count unchanged.", "quantifier": "all message sequences, all interpreters", "why_tests_cant": "an invariant over unbounded histories", "anchors": ["src/xinterpreter.cpp: xinterpreter::execute_request", "src/xkernel_core.cpp: execute_request"]}
{"id": "C13", "title": "Silent executions leave no trace", "statement": "A silent execute request publishes no execute_input of its own, adds nothing to the history, does not change the counter and never aborts the pending queue, even with store_history or stop_on_error set.", "quantifier": "all silent requests, interpreters, states", "why_tests_cant": "all flag combinations and interpreters", "anchors": ["src/xkernel_core.cpp: execute_request", "src/xinterpreter.cpp: execute_request"]}
{"id": "C14", "title": "History records exactly the stored executions", "statement": "The history equals, in order, the code of the execute requests with store_history and not silent whose reply was sent; the recorded line number should be the execution count of the reply (violated: the request's own execution_count field, default 1, is used).", "quantifier": "all message sequences and interpreters", "why_tests_cant": "an invariant over unbounded histories", "anchors": ["src/xkernel_core.cpp: execute_request", "src/xin_memory_history_manager.cpp: store_inputs_impl"]}
{"id": "C15", "title": "stop_on_error aborts the pending shell requests", "statement": "When a non-silent execution with stop_on_error replies with status error, every request pending on the shell channel is answered with status error, in arrival order, and none is executed; the queue is empty afterwards (violated when a pending message's type has no underscore or its header is malformed).", "quantifier": "all pending queues, all arrival schedules", "why_tests_cant": "depends on the arrival schedule", "anchors": ["src/xkernel_core.cpp: execute_request, abort_request", "src/xserver_zmq.cpp: abort_queue_impl"]}
{"id": "C16", "title": "Exceptions do not take the kernel down", "statement": "No std::exception thrown by the interpreter, a comm handler, the history manager or the debugger escapes the message listeners: the kernel goes on with the next message (violated for authenticated messages whose header is not an object or whose msg_type is not a string).", "quantifier": "all messages, interpreters, states", "why_tests_cant": "all throw points", "anchors": ["src/xkernel_core.cpp: dispatch, execute_request, dispatch_stdin"]}
{"id": "C17", "title": "Output of a cell is attributed to that cell", "statement": "Every message published by the interpreter while it handles a shell request carries that request's header as parent header, and parent_header() returns it.", "quantifier": "all shell requests, interpreters, kernel states, and all interleavings with control messages", "why_tests_cant": "all interpreters and schedules", "anchors": ["src/xkernel_core.cpp: publish_message, set_parent, parent_header"]}
{"id": "C18", "title": "Outgoing headers are complete and their msg_id fresh", "statement": "Every message the kernel emits has a header with msg_type, the kernel's username and session, version 5.3, a date and a msg_id, and no two emitted messages use the same generated identifier.", "quantifier": "all message sequences", "why_tests_cant": "uniqueness over unbounded histories", "anchors": ["src/xmessage.cpp: make_header, get_protocol_version", "src/xguid.cpp: new_xguid"]}
{"id": "C19", "title": "comm_info lists exactly the registered comms", "statement": "A comm_info request without target_name (or with an empty one) is answered with all registered comms and their target names; with a target_name, with exactly those of that target.", "quantifier": "all comm registries, all requests", "why_tests_cant": "all registries", "anchors": ["src/xkernel_core.cpp: comm_info_request"]}
{"id": "C20", "title": "Shutdown", "statement": "A well-formed shutdown request calls the interpreter's shutdown once, asks the server to stop, broadcasts shutdown on iopub and replies with the same restart flag.", "quantifier": "all shutdown requests, states, interpreters", "why_tests_cant": "all states and interpreters", "anchors": ["src/xkernel_core.cpp: shutdown_request"]}
{"id": "C21", "title": "kernel_info always advertises the protocol version", "statement": "Every kernel_info reply contains the interpreter's fields and protocol_version 5.3, even when the interpreter sets another value.", "quantifier": "all interpreters", "why_tests_cant": "all interpreters", "anchors": ["src/xkernel_core.cpp: kernel_info_request"]}
{"id": "C22", "title": "Blocking input", "statement": "blocking_input_request sends exactly one input_request, to the identities of the current shell request, and returns the value field of the next stdin message; it returns the empty string if that message is rejected or has no value; afterwards no input handler remains registered.", "quantifier": "all prompts, stdin messages, kernel states", "why_tests_cant": "all stdin inputs", "anchors": ["src/xinput.cpp: blocking_input_request", "src/xkernel_core.cpp: send_stdin, dispatch_stdin", "src/xserver_zmq.cpp: send_stdin_impl"]}
{"id": "C23", "title": "Comm registry never dangles", "statement": "At any point of any sequence of comm operations (create, copy, move, assign, destroy, comm_open/close/msg), every registered identifier points to a live comm object that has this identifier (violated by the two constructors that leave the moved-from flag uninitialised, and by self-move-assignment).", "quantifier": "all sequences of comm operations", "why_tests_cant": "object-lifetime histories are unbounded", "anchors": ["include/xeus/xcomm.hpp: xcomm special members", "src/xcomm.cpp: register_comm, unregister_comm, comm_open, comm_close"]}
{"id": "C24", "title": "Every live comm is reachable by its identifier", "statement": "As long as identifiers are fresh and moved-from comms are only destroyed, every live comm that is not moved-from and has not been closed is registered under its own identifier, and distinct live comms have distinct identifiers.", "quantifier": "all disciplined sequences of comm operations", "why_tests_cant": "unbounded histories", "anchors": ["include/xeus/xcomm.hpp", "src/xcomm.cpp"]}
{"id": "C25", "title": "Comm messages reach their handler", "statement": "comm_msg runs the message handler of the comm registered under the comm_id exactly once and no other; with an unknown comm_id no handler runs; comm_close runs the close handler once and unregisters the comm; comm_open runs the callback of the named target once with a comm of the given id and unregisters it if the callback does not keep it. The handlers are those user code last gave to the comm; moving a comm takes them along and leaves none behind, a copy has none, and assigning a copy keeps those of the comm assigned to.", "quantifier": "all registries, requests, handlers", "why_tests_cant": "all states and handlers", "anchors": ["src/xcomm.cpp: comm_open, comm_close, comm_msg", "include/xeus/xcomm.hpp: handle_message, handle_close", "include/xeus/xcomm.hpp: on_message, on_close, constructors and assignments"]}
{"id": "C26", "title": "Outgoing comm messages", "statement": "open, send and close on a comm publish exactly one comm_open, comm_msg, comm_close message whose content has the comm's id and the given data (and for open the target name), with the given metadata and buffers.", "quantifier": "all comms, data, metadata, buffers", "why_tests_cant": "all values", "anchors": ["include/xeus/xcomm.hpp: open, send, close, send_comm_message", "src/xcomm.cpp: xtarget::publish_message"]}
{"id": "C27", "title": "History tail", "statement": "get_tail(n) with n >= 0 returns the last min(n,size) entries in chronological order; a negative n must not read outside the list (violated).", "quantifier": "all histories, all n", "why_tests_cant": "all sizes", "anchors": ["src/xin_memory_history_manager.cpp: get_tail_impl"]}
{"id": "C28", "title": "History range", "statement": "get_range(start,stop) with 0 <= start returns the entries at positions start..min(stop,size)-1 or an error when start exceeds stop or the size; it is defined exactly when start >= 0 or it is an error.", "quantifier": "all histories, start, stop", "why_tests_cant": "all sizes and bounds", "anchors": ["src/xin_memory_history_manager.cpp: get_range_impl"]}
{"id": "C29", "title": "History search is glob search", "statement": "search(pattern) without backslash returns, in order, exactly the entries whose input (up to its first NUL) contains a substring matched by the glob, where ? is one character and * any run of characters of one line and every other character stands for itself.", "quantifier": "all histories, all patterns, all inputs", "why_tests_cant": "all patterns and inputs", "anchors": ["src/xin_memory_history_manager.cpp: search_impl"]}
{"id": "C30", "title": "History search limit and uniqueness", "statement": "With n >= 0 search returns the last n matches; with unique it first removes entries equal to their predecessor among the matches; full uniqueness is not guaranteed (refuted).", "quantifier": "all histories, patterns, n", "why_tests_cant": "all sizes", "anchors": ["src/xin_memory_history_manager.cpp: clean_history, search_impl"]}
{"id": "C31", "title": "History request dispatch and defaults", "statement": "process_request behaves as get_tail, search or get_range with the documented defaults for missing fields, and throws std::exception on wrongly typed fields.", "quantifier": "all request contents", "why_tests_cant": "all contents", "anchors": ["src/xhistory_manager.cpp: process_request"]}
{"id": "C32", "title": "Default server: ordering, no loss, stop", "statement": "For every arrival schedule the default server hands control messages and shell messages to their listeners in arrival order, each at most once, gives control priority within a poll, and hands over no shell message after stop was requested.", "quantifier": "all schedules of arrivals and polls, all listeners", "why_tests_cant": "all schedules", "anchors": ["src/xserver_zmq.cpp: start_impl, poll, stop_impl"]}
{"id": "C33", "title": "Publisher forwards in order", "statement": "The publisher thread forwards published messages unmodified, in order, without duplication; it forwards all messages published before stop (violated: it may leave messages behind).", "quantifier": "all schedules of publications and stop", "why_tests_cant": "all schedules", "anchors": ["src/xpublisher.cpp: run"]}
{"id": "C34", "title": "Heartbeat echoes", "statement": "Every heartbeat message is echoed unmodified to its sender, in order, until stop.", "quantifier": "all schedules", "why_tests_cant": "all schedules", "anchors": ["src/xheartbeat.cpp: run"]}
{"id": "C35", "title": "Stop handshake terminates", "statement": "In the split servers, once the control thread leaves its loop, every fair schedule ends with shell, publisher and heartbeat stopped and the control thread finished: no reachable deadlock.", "quantifier": "all interleavings of the four threads", "why_tests_cant": "deadlock freedom over all interleavings", "anchors": ["src/xzmq_messenger.cpp: stop_channels", "src/xcontrol.cpp: run", "src/xshell.cpp: run", "src/xpublisher.cpp: run", "src/xheartbeat.cpp: run"]}
{"id": "C36", "title": "Shell and control do not interfere", "statement": "In the split servers, under every interleaving of the shell and control threads, the replies and status messages of each thread carry the parent header and identities of the message that thread is handling.", "quantifier": "all interleavings, messages, interpreters", "why_tests_cant": "all schedules", "anchors": ["src/xkernel_core.cpp: dispatch, set_parent, get_parent_header", "src/xserver_zmq_split.cpp"]}
{"id": "C37", "title": "Internal requests never stop the shell thread and are answered in lock step", "statement": "No JSON message sent with send_to_shell is mistaken for the stop command, and the reply returned is the interpreter's answer to that message.", "quantifier": "all JSON messages", "why_tests_cant": "all JSON values", "anchors": ["src/xzmq_messenger.cpp: send_to_shell_impl", "src/xshell.cpp: run", "src/xkernel_core.cpp: dispatch_internal", "src/xtrivial_messenger.cpp"]}
{"id": "C38", "title": "Debug adapter stream framing", "statement": "However the TCP stream is cut into chunks, the client delivers exactly the sequence of message bodies sent by the adapter, in order, without loss, duplication or corruption, even if bodies contain the header text.", "quantifier": "all message sequences and all chunkings", "why_tests_cant": "all chunkings", "anchors": ["src/xdap_tcp_client.cpp: handle_tcp_socket, append_tcp_message"]}
{"id": "C39", "title": "Waiting for an adapter message loses nothing", "statement": "wait_for_message returns a message satisfying the condition and keeps all other messages queued in order (violated when two matching messages arrive in one batch).", "quantifier": "all queues, batches and conditions", "why_tests_cant": "all arrival batches", "anchors": ["src/xdap_tcp_client.cpp: wait_for_message"]}
{"id": "C40", "title": "Adapter queue processing", "statement": "Every queued adapter message is consumed once, in order: events go to the event handler, all others are forwarded unmodified to the debugger; the loop is asked to stop iff a non-event message for command disconnect was processed.", "quantifier": "all queues", "why_tests_cant": "all queues", "anchors": ["src/xdap_tcp_client.cpp: process_message_queue"]}
{"id": "C41", "title": "Frames sent to the adapter are well formed", "statement": "Every request forwarded to the adapter is framed so that the framing decoder recovers exactly the JSON text, with Content-Length counting bytes.", "quantifier": "all JSON messages", "why_tests_cant": "all messages", "anchors": ["src/xdebugger_base.cpp: forward_message", "src/xdap_tcp_client.cpp: send_dap_request"]}
{"id": "C42", "title": "Breakpoints survive and are reported", "statement": "debugInfo reports for each source exactly the breakpoints of the last setBreakpoints since the last disconnect, and none when the debugger is not started.", "quantifier": "all request histories", "why_tests_cant": "unbounded histories", "anchors": ["src/xdebugger_base.cpp: set_breakpoints_request, debug_info_request, process_request_impl"]}
{"id": "C43", "title": "Stopped threads", "statement": "debugInfo's stoppedThreads is the set of threads with a stopped event not followed by a continued event, cleared by disconnect.", "quantifier": "all event/request histories", "why_tests_cant": "unbounded histories", "anchors": ["src/xdebugger_base.cpp: stopped_event, continued_event, process_request_impl"]}
{"id": "C44", "title": "Debugger gating", "statement": "Before a successful initialize and after disconnect, no request other than debugInfo reaches the adapter or changes breakpoints; it is answered with an empty object; a failing start is answered with success false.", "quantifier": "all request histories and start outcomes", "why_tests_cant": "unbounded histories", "anchors": ["src/xdebugger_base.cpp: process_request_impl"]}
{"id": "C45", "title": "Variables paging", "statement": "A variables request with start and count returns exactly that window of the adapter's list, start only returns the tail, neither returns all; an out-of-range window throws (and an empty window yields null instead of an array).", "quantifier": "all lists and windows", "why_tests_cant": "all sizes and bounds", "anchors": ["src/xdebugger_base.cpp: variables_request"]}
{"id": "C46", "title": "Stack trace filtering", "statement": "A stackTrace reply is the adapter's reply without its first frame whose path is <string>; all other frames keep their order.", "quantifier": "all replies", "why_tests_cant": "all lists", "anchors": ["src/xdebugger_base.cpp: stack_trace_request"]}
{"id": "C47", "title": "Dumped cells", "statement": "After dumpCell the returned file exists; if it did not exist before, it contains exactly the code; other files are untouched. A dumpCell request is answered even if something else stands in the place of the code, which then counts as empty.", "quantifier": "all codes and file systems", "why_tests_cant": "all file system states", "anchors": ["src/xdebugger_base.cpp: dump_cell_request, source_request", "src/xsystem.cpp: get_cell_tmp_file"]}
{"id": "C48", "title": "Hex encoding", "statement": "hex_string maps n bytes to 2n lower-case hexadecimal digits and is injective; generated identifiers have 32 characters and fit the fixed-size id type.", "quantifier": "all byte strings", "why_tests_cant": "all byte strings", "anchors": ["src/xstring_utils.hpp: hex_string", "src/xguid.cpp: new_xguid"]}
{"id": "C49", "title": "UTF-8 check", "statement": "is_utf8_valid accepts exactly the byte strings that are well-formed UTF-8 (RFC 3629: no overlong forms, surrogates or code points above U+10FFFF).", "quantifier": "all byte strings", "why_tests_cant": "all byte strings", "anchors": ["src/xlogger_impl.cpp: decode_utf8, is_utf8_valid"]}
{"id": "C50", "title": "Connection file loading", "statement": "load_configuration copies transport, ip, the five ports, scheme and key of a well-formed connection file and throws on missing or wrongly typed fields; a kernel can be started from any file it accepts (violated: missing or empty signature_scheme, and an empty key is replaced by a random one).", "quantifier": "all connection files", "why_tests_cant": "all documents", "anchors": ["src/xkernel_configuration.cpp: load_configuration", "src/xkernel.cpp: init", "src/xauthentication.cpp: make_xauthentication"]}
{"id": "C51", "title": "End points and ports", "statement": "get_socket_port recovers the port from the end point built by get_end_point for tcp; for other transports it does not (refuted). Two channels get different inproc end points.", "quantifier": "all transports, ips, ports", "why_tests_cant": "all strings", "anchors": ["src/xmiddleware.cpp: get_end_point, get_socket_port, get_controller_end_point"]}
{"id": "C52", "title": "Free port search", "statement": "find_free_port_impl performs at most max_tries binds, returns the port that was bound successfully, and the empty string exactly when all tries failed.", "quantifier": "all random sequences and bind outcomes", "why_tests_cant": "all outcomes", "anchors": ["src/xmiddleware.cpp: find_free_port_impl"]}
{"id": "C53", "title": "Temporary directory", "statement": "get_temp_directory_path uses the first set variable of TMPDIR, TMP, TEMPDIR, TEMP, else /tmp, without one trailing slash (undefined for an empty variable); create_directory creates the directory and all its parents and returns true exactly when the path exists afterwards.", "quantifier": "all environments, file systems, paths", "why_tests_cant": "all paths and file systems", "anchors": ["src/xsystem.cpp: get_temp_directory_path_impl, remove_ending_separator, create_directory"]}
{"id": "C54", "title": "Logger chain", "statement": "Each logger of a chain logs each message exactly once, at its own level, independent of the levels of the others; the default logger logs nothing.", "quantifier": "all chains and messages", "why_tests_cant": "all chains", "anchors": ["src/xlogger_impl.cpp: xlogger_common", "src/xlogger.cpp"]}
{"id": "C55", "title": "First registered interpreter wins", "statement": "Over any sequence of register_interpreter calls, exactly the first non-null registration returns true and get_interpreter returns it ever after; before that it returns the inert mock interpreter, whose output operations have no effect.", "quantifier": "all call sequences", "why_tests_cant": "unbounded sequences", "anchors": ["src/xmock_interpreter.cpp: register_interpreter, get_interpreter"]}
{"id": "C56", "title": "Timestamps identify instants", "statement": "Two different instants (at microsecond precision) have different ISO 8601 timestamps that denote them (violated: the fraction is not zero padded).", "quantifier": "all instants", "why_tests_cant": "all instants", "anchors": ["src/xmessage.cpp: iso8601_now"]}
{"id": "C57", "title": "Kernel start announcement", "statement": "The first message a started kernel publishes is status starting with an empty parent header, signed with the kernel's key, before any request is handled.", "quantifier": "all configurations and schedules", "why_tests_cant": "all configurations", "anchors": ["src/xkernel_core.cpp: build_start_msg", "src/xkernel.cpp: start", "src/xserver_zmq.cpp: start_impl"]}
{"id": "C58", "title": "Invalid UTF-8 in outgoing messages", "statement": "With the strict error handler a message containing a string that is not valid UTF-8 is not emitted and std::exception is thrown; with replace or ignore serialization always succeeds and yields valid UTF-8, and valid strings are unchanged under all three handlers.", "quantifier": "all JSON values and error handlers", "why_tests_cant": "all byte strings", "anchors": ["src/xmessage.cpp: write_zmq_message, xmessage_base::serialize", "src/xkernel_core.cpp: publish_message"]}
{"id": "C59", "title": "Attach handshake", "statement": "In parallel initialisation, an attach request is forwarded to the adapter unchanged; when the adapter sends, among any other messages and in any order and chunking, one initialized event, one configurationDone response and one attach response, the client sends exactly one configurationDone request numbered one after the event, publishes the event with the current parent header, replies with the attach response, and keeps all other messages in order.", "quantifier": "all message sequences, chunkings, queues and requests", "why_tests_cant": "interleavings of adapter messages", "anchors": ["src/xdap_tcp_client.cpp: handle_init_sequence, handle_control_socket, wait_for_message"]}
{"id": "C60", "title": "Requests of the debugger are answered in lock step", "statement": "The client forwards the requests of the debugger to the adapter unchanged, each once and in order, and never takes a request before the previous one was answered by exactly one reply.", "quantifier": "all executions of the client's loop", "why_tests_cant": "all executions", "anchors": ["src/xdap_tcp_client.cpp: start_debugger, handle_control_socket, process_message_queue"]}
{"id": "C61", "title": "Debug events carry the last header", "statement": "Every debug_event the client publishes has as its content the event just given to the callback and as its parent the header most recently received from the debugger (an empty object if none), signed with the configured key.", "quantifier": "all executions of the client's loop", "why_tests_cant": "all executions", "anchors": ["src/xdap_tcp_client.cpp: forward_event, handle_header_socket"]}
{"id": "C62", "title": "The client does not block while the debugger waits", "statement": "A round of the client's loop does not wait for the adapter while a request of the debugger is waiting (violated after an attach handshake that has read the adapter's messages, and by the empty chunk announcing a connection).", "quantifier": "all states of the client", "why_tests_cant": "all states", "anchors": ["src/xdap_tcp_client.cpp: start_debugger, handle_tcp_socket"]}
{"id": "C63", "title": "Dumped source round trip", "statement": "After a dumpCell request created the file of a cell, a source request for the returned path answers with exactly the code, whatever requests and events come in between; a source request gives the bytes of any readable file and a failure for any other. A source request with something else in the place of the path is answered as for a file that cannot be read.", "quantifier": "all codes, file systems, request and event histories", "why_tests_cant": "Any interleaving of later requests could overwrite the file; tests try one.", "anchors": ["src/xdebugger_base.cpp: dump_cell_request, source_request"]}
{"id": "C64", "title": "Parent header before the request", "statement": "While a request is processed, the first thing sent to the client is the header of that request, it is sent at most once, and no message is forwarded before it; a request that is answered locally sends neither.", "quantifier": "all requests, states, handlers registered for a started debugger, exceptions included", "why_tests_cant": "The order has to hold for every handler and every outcome, including requests that fail or wait.", "anchors": ["src/xdebugger_base.cpp: process_request_impl, forward_message"]}
{"id": "C65", "title": "Debugger lock step", "statement": "The debugger never sends a message or a header to the client before the previous message was answered, and every answer it takes belongs to a message sent before (REQ socket discipline).", "quantifier": "all histories of requests, events and exceptions, handlers of derived classes included", "why_tests_cant": "A violation needs an exception or an event at a particular point of some history.", "anchors": ["src/xdebugger_base.cpp: forward_message, process_request_impl"]}
{"id": "C66", "title": "Cell files do not collide", "statement": "Files of cells with different execution counts have different names; with hashed names two contents share a file exactly if their hashes agree; temporary directories of different processes of the same name differ.", "quantifier": "all prefixes, names, extensions, counts, process ids, contents and hash functions", "why_tests_cant": "a test tries a few names; the claim is injectivity", "anchors": ["src/xsystem.cpp: get_cell_tmp_file, get_tmp_prefix"]}
{"id": "C67", "title": "Default server is sequential", "statement": "At any point of any run of the default server's threads, the state of the kernel and everything it has emitted are those of handling the messages handed to the listeners one after the other, in that order; a message being handled has emitted an initial part of what its handling emits, and if the server has terminated, the last message's handling ended with an exception or undefined behaviour.", "quantifier": "all interleavings of the main, publisher and heartbeat threads, all arrivals, all interpreters, callbacks and debuggers", "why_tests_cant": "A test observes a few schedules; the claim is about every schedule and arrival order, including messages that arrive while a failing cell aborts the queue.", "anchors": ["src/xserver_zmq.cpp: start_impl, poll, abort_queue_impl", "src/xkernel_core.cpp: dispatch_shell, dispatch_control"]}
{"id": "C68", "title": "Event stream of the default server", "statement": "Everything the default server emits is a sequence of blocks, one for each message handled and in the order of handling: empty if the message was rejected, otherwise busy, output, at most one reply, one error reply for each aborted message, idle; the last block may be incomplete. What the publisher has sent is an initial part of the start message followed by the publications of these blocks.", "quantifier": "all interleavings, arrivals and user code that does not publish status messages itself", "why_tests_cant": "Stray or missing status messages would appear only in particular interleavings or after particular failures.", "anchors": ["src/xserver_zmq.cpp: start_impl, poll, publish_impl", "src/xkernel_core.cpp: dispatch, publish_status", "src/xpublisher.cpp: run"]}
{"id": "C69", "title": "Replies correspond to messages received", "statement": "The replies sent by the default server answer pairwise different messages it received, in the order in which they were received; each goes to the sender of that message on its channel, with its header as parent header and a type derived from its type.", "quantifier": "all interleavings, arrivals and user code", "why_tests_cant": "A duplicate or misdirected reply may need an abort or an exception at a particular point.", "anchors": ["src/xkernel_core.cpp: send_reply, abort_request, execute_request", "src/xserver_zmq.cpp: abort_queue_impl"]}
{"id": "C70", "title": "Identifiers are unique over a server run", "statement": "In every run of the default server, all messages emitted, from the start message on, have complete headers with pairwise different msg_id, provided the generator of identifiers does not repeat itself.", "quantifier": "all interleavings, arrivals and user code", "why_tests_cant": "Collisions would need a shared or reused header at one point of a long run.", "anchors": ["src/xkernel_core.cpp: publish_message, send_reply, abort_request", "src/xmessage.cpp: make_header", "src/xkernel_core.cpp: build_start_msg"]}
{"id": "C71", "title": "Event stream of each thread of the split servers", "statement": "In a split server, the events of the shell or control thread from one message given to it to the next are: nothing if the message was rejected, otherwise busy, events that are neither statuses nor replies, the reply, one error reply for each message it aborted, idle; incomplete only while the thread is still handling the message. Nothing is emitted before the first message, and no status or reply while the shell thread answers an internal request.", "quantifier": "both split variants, all interleavings, arrivals and user code that does not publish status messages itself", "why_tests_cant": "The two threads share the kernel; a misplaced status or reply depends on how their steps alternate.", "anchors": ["src/xshell.cpp: run", "src/xcontrol.cpp: run", "src/xkernel_core.cpp: dispatch, dispatch_internal, publish_status", "src/xserver_zmq_split.cpp: notify_internal_listener"]}
{"id": "C72", "title": "Replies correspond to messages received, per thread", "statement": "The replies sent by a thread of a split server answer pairwise different messages received by that same thread, in the order in which it received them; each goes to the sender of that message on its channel, with its header as parent header and a type derived from its type.", "quantifier": "both split variants, all interleavings, arrivals and user code", "why_tests_cant": "A reply built from the other thread's request would need a particular interleaving.", "anchors": ["src/xkernel_core.cpp: send_reply, abort_request, get_parent", "src/xserver_zmq_split.cpp: send_shell_impl, send_control_impl"]}
{"id": "C73", "title": "Identifiers are unique over a run of the split servers", "statement": "In every run of a split server, the messages emitted by both threads, from the start message on, have complete headers with pairwise different msg_id, provided the generator of identifiers does not repeat itself.", "quantifier": "both split variants, all interleavings, arrivals and user code", "why_tests_cant": "A header made by one thread may be used only after the other thread has made and sent several.", "anchors": ["src/xkernel_core.cpp: publish_message, send_reply, abort_request", "src/xmessage.cpp: make_header", "src/xguid.cpp"]}
{"id": "C74", "title": "The default server terminates once stopped", "statement": "In every execution of the default server in which no thread is kept from moving for ever and the main thread does not wait for standard input for ever, once stop has been requested the process exits with the publisher and heartbeat threads finished, or a listener throws out of the main thread.", "quantifier": "all infinite executions, interleavings, arrivals and user code", "why_tests_cant": "Termination for all schedules; a lost answer of the stop handshake would need a particular interleaving.", "anchors": ["src/xserver_zmq.cpp: start_impl, stop_channels", "src/xpublisher.cpp: run", "src/xheartbeat.cpp: run"]}
{"id": "C75", "title": "The default server takes every message that arrives", "statement": "In every execution of the default server in which the main thread is not kept from moving for ever and does not wait for standard input for ever, each message that arrived on the shell socket, and each that arrived on the control socket, is eventually taken from the socket, in order, unless stop is requested or the process ends.", "quantifier": "all infinite executions, interleavings, arrivals and user code", "why_tests_cant": "Starvation needs particular timings of arrivals and handlers.", "anchors": ["src/xserver_zmq.cpp: start_impl, poll_channels, abort_queue"]}
{"id": "C76", "title": "Publications and heartbeats are eventually forwarded", "statement": "In every execution of the default server, each message published is eventually sent by the publisher thread if that thread is not kept from moving for ever, and each heartbeat is eventually returned if the heartbeat thread is not, whatever the main thread does, unless the main thread stops these threads or the process ends.", "quantifier": "all infinite executions, interleavings, arrivals and listeners", "why_tests_cant": "Tests observe finitely many messages on some schedules.", "anchors": ["src/xpublisher.cpp: run", "src/xheartbeat.cpp: run"]}
{"id": "C77", "title": "Every well-formed shell request is eventually answered, in order", "statement": "In every execution of the default server in which the main thread is not kept from moving for ever and does not wait for standard input for ever, if the messages that arrive on the shell socket are requests that are well formed whatever came before them, each is eventually answered by exactly one reply on the shell socket, in the order of arrival, unless the process crashes while it handles a control message, is told to stop, or the execution counter overflows.", "quantifier": "all infinite executions, interleavings, arrivals and user code", "why_tests_cant": "The claim joins the kernel's handling of each message with the server's loop over unboundedly many messages and all timings.", "anchors": ["src/xserver_zmq.cpp: start_impl, poll_channels, abort_queue", "src/xkernel_core.cpp: dispatch, abort_request", "src/xkernel_core.cpp: execute_request"]}
{"id": "C78", "title": "The split servers take every message that arrives and answer every internal request", "statement": "In every execution of a split server in which the shell thread is not kept from moving for ever, does not call itself and does not wait for standard input for ever, each message that arrives on the shell socket is eventually taken from it, unless a listener throws out of its thread or the server is asked to stop. If the same holds of the control thread and it does not take messages from the shell socket, each message that arrives on the control socket is eventually taken and each request of the control thread to the shell thread is eventually answered.", "quantifier": "all infinite executions, interleavings, arrivals, user code, both split servers", "why_tests_cant": "A liveness claim over all infinite schedules of four threads that wait for each other.", "anchors": ["src/xshell.cpp: run", "src/xcontrol.cpp: run", "src/xzmq_messenger.cpp: send_to_shell_impl"]}
{"id": "C79", "title": "Publications and heartbeats of the split servers are eventually forwarded", "statement": "In every execution of a split server, each message published by the shell or control thread is eventually sent by the publisher thread if that thread is not kept from moving for ever, and each heartbeat is eventually returned if the heartbeat thread is not, whatever the other threads do, unless the control thread has told the forwarding thread to stop or a listener throws out of its thread.", "quantifier": "all infinite executions, interleavings, arrivals, user code, both split servers", "why_tests_cant": "Tests observe finitely many messages on some schedules.", "anchors": ["src/xpublisher.cpp: run", "src/xheartbeat.cpp: run", "src/xserver_zmq_split.cpp: publish_impl"]}
{"id": "C80", "title": "The split servers terminate once asked to stop", "statement": "In every fair execution of a split server in which the shell thread does not call itself, no thread waits for standard input for ever and the control thread does not take messages from the shell socket, once xserver::stop has been called the process exits with all threads finished, or a listener throws out of its thread. (When the shell thread calls it, this needs a further message on the control socket.)", "quantifier": "all fair infinite executions, interleavings, arrivals, user code, both split servers", "why_tests_cant": "A liveness claim over all infinite schedules.", "anchors": ["src/xcontrol.cpp: run", "src/xzmq_messenger.cpp: stop_channels", "src/xserver_zmq_split.cpp: stop_impl", "src/xserver_shell_main.cpp: start_impl", "src/xserver_control_main.cpp: start_impl"]}
{"id": "C81", "title": "The threads of the split servers run their listeners' programs", "statement": "In a split server, what the shell or control thread does between one call of its listener and the next thing it starts is a complete path of the listener's program: every event is announced once and in order, the program goes on with the frames it took from the shell socket and with the answer that came back to its internal request. The shell thread answers an internal request with exactly what the internal listener's program returned.", "quantifier": "all runs of both split servers, all interleavings with the other threads, all interpreters, messages and moments", "why_tests_cant": "Which answer a listener continues with depends on the interleaving of two threads over inter-thread sockets; a test runs a few schedules and cannot attribute each step of a run to a thread.", "anchors": ["src/xshell.cpp: run", "src/xcontrol.cpp: run", "src/xzmq_messenger.cpp: send_to_shell_impl", "src/xkernel_core.cpp: dispatch_shell, dispatch_control, dispatch_internal"]}
{"id": "C82", "title": "A client finds exactly one reply to each of its requests", "statement": "If clients that know the key send well-formed requests to the shell socket of the default server, each request is eventually answered by a multipart message that carries the client's identities, a signature the client finds valid, the client's own header as parent header and the header of a reply to the request's type, in the order of the requests, unless the process crashes while it handles a control message, is told to stop, or the execution counter overflows. If the requests have different identifiers, at no moment do two messages sent on the shell socket name the same request.", "quantifier": "all executions of the default server in which the main thread is not kept from moving for ever and does not wait for standard input for ever, all interpreters, all requests, keys and identities; uniqueness for all runs and all messages", "why_tests_cant": "It relates the bytes a client sends to the bytes it gets back through authentication, parsing, dispatch, the server loop and serialization for every history of the server; tests exercise a few sessions with one client.", "anchors": ["src/xmessage.cpp: deserialize, serialize", "src/xauthentication.cpp: sign, verify", "src/xkernel_core.cpp: dispatch, send_reply, abort_request", "src/xserver_zmq.cpp: start_impl, poll, send_shell_impl"]}
{"id": "C83", "title": "The split servers answer every well-formed request, whatever the other thread does", "statement": "In a split server, a thread that was given a well-formed request, which the interpreter (or the debugger) handles whatever the other thread does to the shared state meanwhile, publishes busy, sends the reply, then the error replies to the messages it aborted, and publishes idle. If the messages a thread is given are such requests or not authentic and those it aborts can be aborted, then whenever it is not handling a message its replies are the answers to the authentic messages it received, one each and in order. If all messages arriving on a socket are of this kind, each authentic one is eventually answered, in the order of arrival, unless the process crashes or the server is asked to stop.", "quantifier": "all runs of both split servers and all interleavings, all interpreters and debuggers, all messages; the eventual answer for all executions that are fair to the two threads, in which the shell thread does not call itself, the threads do not wait for standard input for ever and the control thread does not empty the shell socket", "why_tests_cant": "The shell and control threads share parent headers, the execution counter, the history and the interpreter without locks; whether a reply can be lost or refused depends on what one thread reads in the middle of the work of the other, over all interleavings.", "anchors": ["src/xshell.cpp: run", "src/xcontrol.cpp: run", "src/xserver_zmq_split.cpp: poll_channels, abort_queue", "src/xkernel_core.cpp: dispatch, execute_request, abort_request, send_reply"]}
{"id": "C84", "title": "Well-formed requests do not crash the split servers", "statement": "If every message given to a listener of a split server is not authentic or a well-formed request that the interpreter (or the debugger) handles whatever the other thread does, the messages aborted have types of the protocol's form, the interpreter handles the requests made to the shell thread, and fewer messages were handled than the execution counter can count, then no thread throws out of its listener or has undefined behaviour: the process does not crash. For a single thread the same follows from the message it is handling and those it aborts alone.", "quantifier": "all runs of both split servers, all interleavings of the threads, all interpreters, debuggers and messages", "why_tests_cant": "A crash needs one thread to read, in the middle of handling a message, a value another thread has just written; tests see a few interleavings and cannot exclude the others.", "anchors": ["src/xkernel_core.cpp: dispatch, dispatch_internal", "src/xshell.cpp: run", "src/xcontrol.cpp: run", "src/xzmq_messenger.cpp: send_to_shell_impl"]}
{"id": "C85", "title": "No data race between the threads of the split servers", "statement": "In the split servers, when control messages (interrupt, shutdown, debug and kernel information requests) arrive on the control channel and the others on the shell channel, and the interpreter's code run in the control thread produces no output, each of the two threads uses only its own sockets, parent records, counters and managers: there is no moment at which both threads use the same object of xeus and one of them changes it.", "quantifier": "all runs of both split servers, all interleavings, all messages on their channels, all interpreters, comm handlers and debuggers that keep to this rule", "why_tests_cant": "A data race shows only under particular timings and may go unnoticed even then; a sanitizer sees only the runs it watches. The rule has to hold for every message type and every user callback.", "anchors": ["src/xserver_zmq_split.cpp: publish_impl, send_shell_impl, abort_queue_impl, stop_impl, is_control_stopped", "src/xshell.cpp: run, publish, abort_queue", "src/xcontrol.cpp: run, stop, publish", "src/xkernel_core.cpp: set_parent, publish_message, send_reply, shutdown_request, interrupt_request", "src/xserver_shell_main.cpp: start_impl"]}
{"id": "C86", "title": "Signatures under concurrency", "statement": "When any number of threads sign and verify messages with one authentication object at the same time, every call returns what it returns alone: the signature of its own frames, the verdict on its own frames. A signature made by one thread is accepted by any other. At most one thread is in the object at a time, and no call is stuck for ever by the mutex.", "quantifier": "all interleavings of any number of threads and calls, all frames, schemes and keys, any initial state of the HMAC context", "why_tests_cant": "The HMAC context is shared and is fed in six steps; feeding it from two threads at a time shows only in particular interleavings of these steps, and gives a wrong signature only now and then.", "anchors": ["src/xauthentication.cpp: openssl_xauthentication::sign_impl, verify_impl"]}
{"id": "C87", "title": "Whole records in the log file", "statement": "When any number of threads log to one file logger at the same time, the file holds, whenever no thread is writing, the records of the calls that are over, whole and in the order of their returns, and while a thread is writing also the beginning of its own record. A call returns exactly if its record has a text (its strings are UTF-8); else it throws and leaves the file as it is. A reader of a new log file gets back the JSON values that were logged, one for each call that returned, and nothing else. On the console a message that cannot be written may leave its line behind.", "quantifier": "all interleavings of any number of threads, all messages, all ways in which the stream cuts the text into pieces", "why_tests_cant": "Records mix only if two threads write at the same time and their texts are cut in the middle, which depends on buffer sizes and timing; that every text reads back as the same value concerns all JSON values.", "anchors": ["src/xlogger_impl.cpp: xlogger_file::log_message_impl, xlogger_console::log_message_impl, xlogger_common::log_message_impl"]}
{"id": "C88", "title": "Loggers do not change the kernel", "statement": "With the default error handler, a kernel with a chain of console and file loggers does for every message what the same kernel without loggers does: it sends and publishes the same messages, calls the same user code, ends in the same state and in the same way, also when the loggers fail because a message is not UTF-8. This holds for one message, for the start, and for all runs of the default and of the split servers, which correspond label by label in both directions. Assumed: peers are named, headers of accepted messages have a type, and input is asked for only once a shell message came. Hence requests are answered by a kernel with loggers too.", "quantifier": "all chains of loggers and levels, all messages and states, all user code, all interleavings of the servers", "why_tests_cant": "A logger that throws, or that throws where the kernel would go on, shows only for particular contents; and a logger sits in front of every send of every path through the kernel.", "anchors": ["src/xkernel_core.cpp: dispatch, publish_message, send_reply, send_stdin, dispatch_stdin", "src/xlogger.cpp: log_received_message, log_sent_message, log_iopub_message"]}
{"id": "C89", "title": "Nothing the adapter sends is lost, doubled or reordered in a session", "statement": "In any session of the debug adapter client, however the adapter's byte stream is cut into chunks and in whatever order the sockets become readable: at the end of every round the messages of the stream up to some point have been read, each of them was dispatched exactly once and in order (events to the event handler, all others as the reply to the debugger), and nothing waits in the client's queues. During the attach handshake exactly three messages are taken out (the initialized event and the responses to configurationDone and attach), the reply to the attach request is the response to attach, and only events were read besides. Hence the replies to the debugger are the adapter's non-event messages in order, without the response to the client's own configurationDone request. Assumed: the messages conform to the protocol and each of the three messages of the handshake comes at most once.", "quantifier": "all streams and ways of cutting them, all orders of the sockets, all event handlers, all sessions", "why_tests_cant": "Losses depend on where the chunks are cut relative to the three waits of the handshake and to the rounds of the poll loop.", "anchors": ["src/xdap_tcp_client.cpp: start_debugger, handle_control_socket, handle_init_sequence, handle_tcp_socket, process_message_queue, wait_for_message"]}
{"id": "C90", "title": "The reply to a debug request answers this request", "statement": "When the debugger, the debug adapter client and an adapter work together, and the adapter answers only requests that it was sent, each at most once (in any order, with events in between), then the k-th reply of the client answers the k-th request forwarded, every message forwarded by the debugger gets the response to this message, and the reply of a started debugger to a debug request whose command has no handler of the derived class is a response with the command and the sequence number of this request; so are the replies to initialize and debugInfo at any time.", "quantifier": "all histories of the debugger, all streams of the adapter and orders of the sockets, all requests", "why_tests_cant": "A mismatch needs an event or an unexpected message at the wrong moment between two threads and a separate process.", "anchors": ["src/xdebugger_base.cpp: process_request_impl, forward_message", "src/xdap_tcp_client.cpp: start_debugger, handle_control_socket, process_message_queue"]}
{"id": "C91", "title": "What a subscriber of iopub sees", "statement": "What the publisher of the default server has sent is an initial part of the start message followed by one block for each message handled and accepted, in the order of handling, the last block possibly incomplete. A block is a sequence of multipart messages whose signatures a subscriber finds valid: a busy status whose parent header is the header of the message, publications that are not statuses, which for a shell message have the same parent header or announce a shutdown or an interrupt, and an idle status with the same parent header. For every message handed to a listener and accepted the whole block is eventually sent; so it is for every accepted message that arrived on the shell socket, unless it is aborted; in both cases unless the process crashes or is told to stop.", "quantifier": "all interleavings, arrivals and user code that does not publish status messages itself; liveness for all executions in which the main thread and the publisher are not kept from moving for ever and the main thread does not wait for standard input for ever", "why_tests_cant": "It relates the bytes that arrive to the bytes a subscriber reads, through two threads and every history of the server.", "anchors": ["src/xpublisher.cpp: run", "src/xserver_zmq.cpp: start_impl, poll, publish_impl", "src/xkernel_core.cpp: dispatch, publish_status, publish_message, abort_queue", "src/xmessage.cpp: serialize"]}
{"id": "C92", "title": "The start-up of the split servers", "statement": "While start_impl is still creating threads, publishing the start message and entering its loop, the threads already created behave as in a run in which all threads run from the beginning; the start message is published exactly once and is the first message on iopub; a shutdown request handled at any moment after the shell thread was created makes the control thread stop.", "quantifier": "both split servers, all interleavings of the start-up with the threads, all arrivals and listeners", "why_tests_cant": "The windows between the creation of the threads, the publication of the start message and the first statement of xcontrol::run are a few instructions wide.", "anchors": ["src/xserver_control_main.cpp: start_impl", "src/xserver_shell_main.cpp: start_impl", "src/xserver_zmq_split.cpp: start_shell_thread, start_control_thread, start_publisher_thread, start_heartbeat_thread", "src/xcontrol.cpp: run, stop, publish", "src/xshell.cpp: run, publish"]}
{"id": "C93", "title": "What a client of the split servers reads on the shell and control sockets", "statement": "If the authentic messages that arrive on a socket are requests of clients that know the key, well formed and handled by the interpreter whatever the other thread does, the multipart messages sent on this socket begin, eventually, with one for each of these requests in the order of arrival; the client reads in it a valid signature, its own identities, the header it sent as parent header and the header of a reply to its request. If all requests have different identifiers, no two messages sent on the two sockets together have the same identifier in their parent header, at any moment of any run.", "quantifier": "both split servers, all clients, requests, interleavings; the first part for all fair executions in which the shell thread does not call itself, standard input is answered, and the control thread does not abort shell messages, unless the process crashes or is told to stop", "why_tests_cant": "It relates the bytes a client sends to the bytes it reads through two threads, for every interleaving.", "anchors": ["src/xshell.cpp: run, send_shell", "src/xcontrol.cpp: run, send_control", "src/xserver_zmq_split.cpp", "src/xkernel_core.cpp: dispatch, send_reply, abort_queue", "src/xmessage.cpp: serialize, deserialize"]}
{"id": "C94", "title": "What a subscriber of the split servers reads on iopub", "statement": "What the publisher has sent is an initial part of the start message followed by an interleaving of what the two threads published. What a thread published is, turn by turn: nothing for a rejected message; for an accepted one a busy status whose parent header is the header of the message, publications that are not statuses (on the shell thread with this parent header or announcing a shutdown or interrupt), and an idle status with this parent header; no statuses for a request of the control thread to the shell thread; only the last turn may be incomplete. Every message given to a listener and accepted eventually has its whole block, in order, among what the publisher sent, unless the process crashes or is told to stop.", "quantifier": "both split servers, all interleavings, arrivals and user code that does not publish statuses itself; the liveness part for fair executions", "why_tests_cant": "The statuses of two threads interleave; only a proof over all runs shows that those of one thread stay in order and paired.", "anchors": ["src/xpublisher.cpp: run", "src/xshell.cpp: run, publish", "src/xcontrol.cpp: run, publish", "src/xserver_zmq_split.cpp: publish_impl", "src/xkernel_core.cpp: dispatch, publish_status, publish_message, dispatch_internal"]}
{"id": "C95", "title": "Dates made by several threads", "statement": "The date of a header is that of the instant at which the thread making it read the clock, also when other threads make headers at the same time, as in the split servers. In any case each part of it (year, month, day, hour, minute, second) is that of this instant or of the instant of a call in progress at the same time, and the fraction is its own; so it is right when the overlapping calls read the clock in the same second, and when only one thread makes headers.", "quantifier": "all numbers of threads, all interleavings of their calls at the granularity of the fields of the calendar object, all instants", "why_tests_cant": "Two threads have to be inside iso8601_now at the same moment and in different seconds; the wrong date is still a string in the right place.", "anchors": ["src/xmessage.cpp: iso8601_now, make_header", "src/xkernel_core.cpp: get_metadata", "src/xcomm.cpp: get_metadata"]}
{"id": "C96", "title": "Construction of a kernel", "statement": "After the constructor of xkernel the configuration describes the kernel: each of the five sockets is bound, and is reached with the transport, the address and the port in the configuration; ports that were asked for are taken, the others are new; no two channels share an end point. The key of the configuration is the one messages are signed and verified with, the given one or a new identifier. The debugger is given this configuration and the session of the core, after the server was made; the interpreter is configured last, when it knows the control messenger and the history. Messages are logged only if a logger was given and XEUS_LOG is set. With an unknown signature scheme nothing is bound. A kernel made without a configuration listens on the loopback address only and signs with hmac-sha256 and a new identifier.", "quantifier": "all machines (numbers drawn, identifiers, results of bind), configurations, builders and servers", "why_tests_cant": "Ports are random and the failures depend on what else runs on the machine.", "anchors": ["src/xkernel.cpp: xkernel, init", "src/xmiddleware.cpp: init_socket, find_free_port_impl, get_socket_port", "src/xserver_zmq.cpp: xserver_zmq, update_config_impl", "src/xserver_zmq_split.cpp: xserver_zmq_split, update_config_impl", "src/xcontrol.cpp: xcontrol", "src/xshell.cpp: xshell", "src/xpublisher.cpp: xpublisher", "src/xheartbeat.cpp: xheartbeat"]}
{"id": "C97", "title": "Publications while the default server starts", "statement": "What is published reaches the publisher thread from the beginning, the start message first. In any case: what the publisher thread has sent is an initial part of what was published since its subscription reached the server's socket, and all of it when the thread waits; if the subscription comes before the start message nothing is lost; the requests, replies and the rest of the process do not depend on it.", "quantifier": "all kernels and user code, all interleavings of the main thread, the publisher and heartbeat threads, arrivals and the subscription", "why_tests_cant": "Whether the start message is lost depends on which of two threads is faster.", "anchors": ["src/xserver_zmq.cpp: start_impl, publish_impl", "src/xpublisher.cpp: xpublisher, run"]}
{"id": "C98", "title": "Messages are logged before they leave and before they are acted upon", "statement": "Whatever the kernel publishes, sends on shell or control or sends to stdin was given to its logger before and was accepted by it; a chain of console and file loggers has then written one entry per logger, with the channel and the identity or topic. A message that came in on shell, control or stdin is acted upon only after the logger has accepted it. Exceptions of the code: the start message is not logged, and requests aborted after a failed execution are answered without being logged as received.", "quantifier": "all kernels, loggers, user code and messages, all runs of the default and of the split servers", "why_tests_cant": "A missing log call on one path of one handler is seen only by a test that takes this path and reads the log; the claim is about all paths and all user code.", "anchors": ["src/xkernel_core.cpp: dispatch, dispatch_stdin, publish_message, send_stdin, send_reply, abort_request, build_start_msg", "src/xlogger.cpp", "src/xlogger_impl.cpp"]}
{"id": "C99", "title": "A kernel can be destroyed, and a constructor that fails says so", "statement": "The destructor of a kernel returns if no socket was made with its context and its interpreter owns no comms; an exception thrown by the constructor before the server exists (unknown signature scheme, port that is taken) reaches the caller. Exceptions of the code: the context is destroyed before the server and the debugger, so that the destructor of a kernel with a server of the library waits for ever, and so does the constructor when the builder of the debugger or configure throws; the comm manager is destroyed before the comms of the interpreter. With the context declared before the server and the debugger and the core before the interpreter every kernel whose threads do not run can be destroyed.", "quantifier": "all kernels, servers, debuggers, interpreters with comms, orders of declaration, machines and configurations", "why_tests_cant": "No test destroys a kernel: the servers end the process with std::exit; the order of the members has an effect only in a destructor or in a constructor that fails.", "anchors": ["include/xeus/xkernel.hpp: the members of xkernel", "src/xkernel.cpp: xkernel::init, xkernel::~xkernel", "include/xeus/xcomm.hpp: xcomm::~xcomm"]}
{"id": "C100", "title": "No data race on the stopped threads of the debugger", "statement": "The thread that handles debug requests and the threads of the adapter's clients never use the set of stopped threads at once: never outside a disconnect request; never if stop() of the derived class waits for the client's thread; never if the adapter answers every request with its response and reports no thread after its response to disconnect, and then the set is empty while the debugger is not running. Exceptions of the code: disconnect clears the set without the mutex, so that an event that follows the response to disconnect races with it, or leaves its thread in the set for the next session.", "quantifier": "all sequences of debug requests, all adapters, all interleavings, any number of sessions", "why_tests_cant": "The window is the time between the response to disconnect and the end of the client's loop; a test with a real adapter hits it by chance only.", "anchors": ["src/xdebugger_base.cpp: debug_info_request, continued_event, stopped_event, process_request_impl", "src/xdap_tcp_client.cpp: start_debugger, process_message_queue"]}
{"id": "C101", "title": "The kernel does not run functions that are destroyed meanwhile", "statement": "The kernel calls comm handlers, target callbacks and input handlers in place. A kernel in which destroying, replacing or moving such a function while it runs is undefined behaviour behaves like the model of the other properties until user code does this, and is the same if handlers leave the functions of comms alone, callbacks do not register or unregister targets and input handlers do neither and do not register input handlers. Exceptions of the code: nothing keeps the function alive, so that a handler that destroys its comm (when it is closed, for instance), a callback that unregisters its target and an input handler that unregisters itself lose their captured variables while they run.", "quantifier": "all kernels, user code and sequences of messages", "why_tests_cant": "The destroyed function often keeps working, since its memory is not reused at once; whether user code does this at all depends on the path taken.", "anchors": ["include/xeus/xcomm.hpp: handle_message, handle_close, xtarget::operator()", "src/xcomm.cpp: comm_open, comm_close, comm_msg", "src/xinterpreter.cpp: input_reply"]}
{"id": "C102", "title": "A chain of loggers may be used by several threads", "statement": "Threads may call a chain of loggers at the same time. Every text reaches its sink: the sink's content is made of pieces of its loggers' texts, and the pieces of one logger are the texts of its finished calls in order. A sink with one logger, and every sink if the calls do not overlap (as those of one thread), consists of whole texts. A call returns or throws as the chain does for one thread; if it returns, each logger has written the message at its level. Threads never wait for each other in a circle. Exceptions of the code: the loggers of a chain do not share a mutex, so that two loggers of one file mix their records, which can then not be read, and two files of one chain may have the records in different orders.", "quantifier": "all chains, messages, numbers of threads and interleavings, all ways in which texts reach a sink in pieces", "why_tests_cant": "Records are mixed only if two threads write to one file within microseconds and the texts are larger than a buffer.", "anchors": ["src/xlogger_impl.cpp: xlogger_common::log_message_impl, xlogger_console::log_message_impl, xlogger_file::log_message_impl", "src/xlogger_impl.hpp: m_mutex"]}
{"id": "C103", "title": "The debug adapter client serves the debugger whatever order things happen in", "statement": "The debugger sends headers and requests through its REQ sockets, each time waiting for the answer; the adapter gets what the client forwards and answers each request once, between events; its bytes arrive in any chunks at any time. Then the client does not die, and whatever order the steps are taken in, after finitely many of them all requests have been forwarded, in order, and answered, or the client has been told to stop. Exceptions of the code: the notification of a connection is taken for the beginning of a message. A client (dap_tcp_type::client) whose adapter waits to be asked, and a server to which somebody else connects, may wait for a message of the adapter forever, with nothing forwarded.", "quantifier": "all adapters, headers, requests, event handlers that neither fail nor send requests, chunkings and interleavings", "why_tests_cant": "A test runs with one adapter; whether it speaks first and whether somebody else connects to the port are not part of it.", "anchors": ["src/xdap_tcp_client.cpp: xdap_tcp_client::start_debugger, init_tcp_socket, handle_tcp_socket, append_tcp_message, handle_header_socket, handle_control_socket", "src/xdebugger_base.cpp: xdebugger_base::forward_message"]}
{"id": "C104", "title": "What a subscriber of the default server reads when pipes have high-water marks", "statement": "Publications go through two pipes, from the main thread to the publisher thread and from it to each subscriber; a pipe that is full drops. Whatever is dropped, a subscriber reads publications as they were published, in their order, none twice, only with its topic and only what was sent since it was connected; with the kernel they are parts of the blocks from busy to idle of the messages handled, in order. If the publisher thread keeps up, everything is sent; if a subscriber keeps up, it misses nothing; if there are fewer publications than the marks, both hold whatever the threads do. The main thread never waits, and the other threads and the replies are as if nothing were dropped. Exception of the code: no mark is set, and for every one the last publications of a handler, the idle status of a cell among them, may be lost although all threads go on until they wait and the request is answered.", "quantifier": "all listeners and kernels, high-water marks, numbers and topics of subscribers, and interleavings", "why_tests_cant": "A test publishes a few messages and reads them at once; the marks are reached by thousands of publications and a slow thread or reader.", "anchors": ["src/xserver_zmq.cpp: xserver_zmq::publish_impl, constructor", "src/xpublisher.cpp: xpublisher::run, constructor", "src/xmiddleware.cpp: init_socket"]}
{"id": "C105", "title": "The order in which the publications of the split servers reach subscribers", "statement": "The shell and control threads' publications go through two PUB sockets, chosen by channel, to the publisher thread; a socket drops what comes before its subscription or does not fit. Whatever the interleaving, what the publisher thread sends is made of publications of the two channels since their subscriptions, those of each channel in order, none twice. While fewer messages than the high-water mark are under way nothing is lost, and when the publisher thread waits with empty pipes everything has been sent; its own steps empty the pipes unless it is told to stop. No thread ever waits because of a publication, and the other threads do what they do with a single pipe that takes everything. The start message of the control main server is sent. Exceptions of the code: what is published for a request before its idle status may be sent after it when it goes through the other socket (the output of a cell on the control channel, the shutdown message of a request on the shell channel), and the start message of the shell main server may be lost.", "quantifier": "all listeners and internal listeners, both split servers, high-water marks, and interleavings from the start of the server on", "why_tests_cant": "The order depends on which of two pipes the publisher thread reads first; tests see one schedule, nearly always the one in which the publisher keeps up with every single message.", "anchors": ["src/xserver_zmq_split.cpp: xserver_zmq_split::publish_impl, constructor", "src/xshell.cpp: xshell::publish", "src/xcontrol.cpp: xcontrol::publish", "src/xpublisher.cpp: xpublisher::run"]}
{"id": "C106", "title": "Each input request is answered by its own message", "statement": "In every run of a server, the n-th input request sent on the stdin socket is answered by the n-th message that arrives there: the values given to input handlers, and the value that blocking_input_request returns, are those of the message with the number of the last request; each is given once, after its message has arrived and before the next request is sent. As many messages are read as requests are sent, but for the request whose message is being waited for. If clients answer each request once, after receiving it, then every value comes from an answer to the last request (its sender, parent and type). In the split servers this holds when only code of the shell thread asks for input. Exceptions of the code: neither the sender, the parent header, the type nor the time of the message is checked, so that one early message shifts all answers and any client can answer for another; and a debugger that asks for input takes answers to the shell thread.", "quantifier": "all interpreters, input handlers, debuggers, initial states, messages on all sockets, and interleavings, for the three servers", "why_tests_cant": "Whether a value belongs to its request depends on the order in which messages of several clients arrive relative to the requests; tests have one client that answers when it is asked.", "anchors": ["src/xkernel_core.cpp: xkernel_core::send_stdin, dispatch_stdin", "src/xserver_zmq.cpp: xserver_zmq::send_stdin_impl", "src/xshell.cpp: xshell::send_stdin", "src/xinput.cpp: blocking_input_request", "src/xinterpreter.cpp: input_request, input_reply"]}
{"id": "C107", "title": "What the kernels that come with xeus say", "statement": "The example kernel (example/src/custom_interpreter.cpp) and the kernel of the tests (test/test_interpreter.cpp) publish the status starting when they start. From then on, for every sequence of messages that the kernel rejects, does not know, cannot read (content that is no object), or handles as requests with well-typed fields (execute with any code, complete, inspect, is_complete, history within its defined domain, comm_info, kernel_info, shutdown, interrupt, comm_open of an unregistered target, comm_close and comm_msg of an unknown comm), they say exactly: nothing for a rejected message; otherwise busy, the publications and the reply the interpreter's text prescribes for the code and the execution count, and idle, each with the header of the message as parent and the reply to its sender. The count grows by one for each cell that is not silent and the history by the stored cells. Under the default server this holds for every run: what is said is an initial part of it at any time and all of it between two messages, the server does not end with an exception, and no request is aborted; if the main thread is scheduled fairly, every message that arrives is eventually taken and everything said for it is said, unless the kernel is told to stop (these kernels never wait for input). Exceptions of the code: comm_open of the target of the test kernel destroys a comm whose flag was never initialised (undefined; or a dangling entry in the registry and a use of the destroyed comm), and a history request with a negative n is undefined in both.", "quantifier": "all sequences of messages covered, all configurations (key, identifiers, dates, regular expressions), and all interleavings of the default server", "why_tests_cant": "The tests of the repository send one fixed sequence to the test kernel and compare a few fields; the example kernel is not run at all.", "anchors": ["example/src/custom_interpreter.cpp: custom_interpreter", "test/test_interpreter.cpp: test_interpreter", "src/xkernel_core.cpp: xkernel_core::dispatch and the request handlers", "src/xinterpreter.cpp: execute_request, publish_execution_result, publish_execution_error, publish_stream"]}
{"id": "C108", "title": "The programs that come with xeus, from the command line to the wire", "statement": "On a connection file with a known scheme and a key, five tcp addresses that can be bound and are short, and a user name, identifiers and dates in UTF-8, each of the four programs (example/src/main.cpp, test/main.cpp, test/main_shell.cpp, test/main_control.cpp) reaches the loop of its server with its five sockets at the addresses of the file; its first frames tell the reader of the file, signed with the key of the file, the status starting in the name of the user; all messages bear the same user and session. The kernel accepts exactly as written what is signed with that key, and rejects another signature of that length. Under the default server, for every sequence of messages covered by C107, the frames published and the frames sent through the shell and control sockets are, in order, frames from which the reader of the file reads exactly what C107 says, and nothing else; with fair threads everything that arrives is eventually answered and reaches the publication socket, unless the kernel is told to stop. Without the file, or with an unknown scheme, an exception ends the process. Exceptions of the code: called with a single argument the programs read the argument behind it (undefined behaviour), and a user name that is not UTF-8 ends the process.", "quantifier": "all machines (files, users, clocks, cryptography, free ports), command lines and connection files of the protocol, the four programs, all messages and interleavings", "why_tests_cant": "The tests start one kernel with one file and one client; that every program gets from every such file to correctly signed frames at the right addresses, under every schedule, is beyond any number of starts.", "anchors": ["example/src/main.cpp: main", "test/main.cpp: main", "test/main_shell.cpp: main", "test/main_control.cpp: main", "src/xkernel.cpp: get_user_name, xkernel::xkernel, xkernel::init, xkernel::start", "src/xkernel_configuration.cpp: load_configuration", "src/xauthentication.cpp: make_xauthentication, sign, verify"]}
{"id": "C109", "title": "Under the split servers each thread answers like a kernel of its own", "statement": "Under xserver_shell_main and xserver_control_main with a shipped kernel (example/ and test/), however the shell and the control thread interleave: if each message keeps to its thread (on shell no shutdown or interrupt request; on control no execute, history, comm info, comm open, comm close or comm message), then each thread says exactly what C107 says of a kernel that receives the messages of this thread alone, in the same order, and nothing else; it takes no message from the shell socket to abort it; the count and history are those of the shell thread; and no exception ends the process. With fair threads everything that arrives is eventually handled and said, unless the server is asked to stop. A client who has read the connection file reads this from the frames of the programs test_kernel_shell and test_kernel_control. Without the condition it is false: an interrupt request on shell publishes under the parent header of the control thread, and cells on both sockets share the count.", "quantifier": "all messages that keep to their thread, all interleavings of the threads of both split servers, all connection files", "why_tests_cant": "The tests talk to one socket at a time; that two threads on the same kernel object never show in each other's answers is a statement about every interleaving of every two conversations.", "anchors": ["src/xserver_shell_main.cpp", "src/xserver_control_main.cpp", "src/xkernel_core.cpp: dispatch, publish_message, send_reply", "example/src/custom_interpreter.cpp", "test/test_interpreter.cpp", "test/main_shell.cpp", "test/main_control.cpp"]}
{"id": "C110", "title": "A shutdown request ends the shipped programs, and nothing else does", "statement": "For the four programs that come with xeus (example/ and test/), as they serve a connection file: the kernel calls the stop function of its server if and only if a message that it accepts is a shutdown request whose content is an object with a boolean \"restart\" or none. With fair threads, such a request, signed with the key of the connection file and sent to the shell or the control socket of a program with the default server, or to the control socket of one with a split server, is followed by the exit of the process with all its threads finished, every message taken until then having been answered on its socket; and no process terminates, and none exits without such a request. Sent to the shell socket of a split server the request is answered, but the process does not exit before a control message comes. The reply is sent before the exit, but what the publisher was to broadcast about the request may be lost.", "quantifier": "all messages covered by C107/C109, all interleavings and fair schedules, all connection files", "why_tests_cant": "That a program ends after a request, in every order of arrivals and thread switches, and never ends otherwise, is a liveness and a safety statement about infinite executions.", "anchors": ["src/xkernel_core.cpp: shutdown_request", "src/xserver_zmq.cpp: start_impl, stop_impl", "src/xserver_shell_main.cpp", "src/xserver_control_main.cpp", "example/src/main.cpp", "test/main.cpp", "test/main_shell.cpp", "test/main_control.cpp"]}
{"id": "C111", "title": "Metadata of outgoing messages", "statement": "The reply to an execute request carries the date at which the kernel started with it as \"started\" in its metadata, read before user code runs; the reply to a debug request carries a date read while the request was handled. Replies to all other requests, replies to aborted requests, input requests and publications have empty metadata, except publications about comms, which have the metadata user code gave.", "quantifier": "all messages, states, loggers, user code (interpreters, debuggers, handlers, callbacks)", "why_tests_cant": "all request types and all user code; a test sees only the current date", "anchors": ["src/xkernel_core.cpp: get_metadata, execute_request, debug_request, send_reply, publish_message, abort_request", "src/xinterpreter.cpp: publish functions, input_request", "include/xeus/xcomm.hpp: send_comm_message"]}
{"id": "C112", "title": "Comms are created on registered targets only", "statement": "A comm constructed on the target that the comm manager returns for a name is registered under its identifier exactly if the name has been registered and not been unregistered since; a comm_open request for a target that is not registered is refused without undefined behaviour.", "quantifier": "all sequences of comm operations, names, identifiers and comm_open requests", "why_tests_cant": "unbounded histories of registrations; tests only open comms on registered targets", "anchors": ["include/xeus/xcomm.hpp: xtarget::xtarget, register_comm, xcomm::xcomm, xcomm_manager::target", "src/xcomm.cpp: register_comm_target, unregister_comm_target, comm_open"]}
