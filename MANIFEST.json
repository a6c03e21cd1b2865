{
 "claims": [
  {
   "property": "C01",
   "status": "proved",
   "theorems": [
    "C01_frames",
    "C01_accepted",
    "C01_round_trip",
    "C01_layout",
    "C01_reserialize",
    "C01_delimiter_needed"
   ],
   "note": "Also proved: layout of the frames, reserialization of accepted messages, and necessity of the identity hypothesis."
  },
  {
   "property": "C02",
   "status": "proved",
   "theorems": [
    "C02_frames",
    "C02_round_trip"
   ],
   "note": "Proved as stated."
  },
  {
   "property": "C03",
   "status": "partial",
   "theorems": [
    "C03_undefined_iff",
    "C03_exception_std",
    "C03_refuted"
   ],
   "note": "Violated by the code: C03_refuted gives the witnesses, C03_undefined_iff the exact set of frame sequences; exceptions are always std."
  },
  {
   "property": "C04",
   "status": "partial",
   "theorems": [
    "C04_accept_iff",
    "C04_equality_refuted"
   ],
   "note": "Violated by the code: acceptance is exactly 'the digest is a prefix of the signature frame' (C04_accept_iff); equality refuted."
  },
  {
   "property": "C05",
   "status": "partial",
   "theorems": [
    "C05_signed_parts",
    "C05_unsigned_parts",
    "C05_refuted"
   ],
   "note": "Holds when the signed frames are JSON objects without NUL bytes and byte order mark (any whitespace allowed); refuted without these conditions."
  },
  {
   "property": "C06",
   "status": "proved",
   "theorems": [
    "C06_sign_verify",
    "C06_none",
    "C06_schemes",
    "C06_unknown_throws"
   ],
   "note": "Proved as stated."
  },
  {
   "property": "C07",
   "status": "proved",
   "theorems": [
    "C07_bracket",
    "C07_foreign_refuted"
   ],
   "note": "For return and std::exception as worded; for other exceptions no idle is published (C07_foreign_refuted). User code that publishes status messages itself is excluded."
  },
  {
   "property": "C08",
   "status": "proved",
   "theorems": [
    "C08_rejected"
   ],
   "note": "Stronger: the whole state is unchanged."
  },
  {
   "property": "C09",
   "status": "proved",
   "theorems": [
    "C09_routing"
   ],
   "note": "Proved as stated."
  },
  {
   "property": "C10",
   "status": "partial",
   "theorems": [
    "C10_exactly_one",
    "C10_utf8_refuted"
   ],
   "note": "At most one: C09_routing. Exactly one proved for UTF-8 answers; as worded refuted: an answer that is not UTF-8 gets no reply (C10_utf8_refuted)."
  },
  {
   "property": "C11",
   "status": "proved",
   "theorems": [
    "C11_unknown"
   ],
   "note": "Proved as stated."
  },
  {
   "property": "C12",
   "status": "proved",
   "theorems": [
    "C12_execution",
    "C12_count",
    "C12_tally_functional",
    "C12_overflow_refuted",
    "C12_started"
   ],
   "note": "The count overflows after 2^31-1 executions (C12_overflow_refuted, undefined)."
  },
  {
   "property": "C13",
   "status": "proved",
   "theorems": [
    "C13_silent"
   ],
   "note": "Proved as stated."
  },
  {
   "property": "C14",
   "status": "partial",
   "theorems": [
    "C14_history",
    "C14_line_refuted",
    "C14_started"
   ],
   "note": "The history is proved to be the stored executions; the line number claim is violated (C14_line_refuted)."
  },
  {
   "property": "C15",
   "status": "partial",
   "theorems": [
    "C15_stop_on_error",
    "C15_every_pending",
    "C15_no_underscore_refuted"
   ],
   "note": "Proved when every pending message is rejected or of type x_y; violated otherwise (C15_no_underscore_refuted)."
  },
  {
   "property": "C16",
   "status": "partial",
   "theorems": [
    "C16_no_std_escapes",
    "C16_stdin",
    "C16_untyped_refuted"
   ],
   "note": "Proved for messages with a readable msg_type; violated for all others (C16_untyped_refuted)."
  },
  {
   "property": "C17",
   "status": "proved",
   "theorems": [
    "C17_attribution",
    "C17_parent_header",
    "C17_parent_set"
   ],
   "note": "Proved as stated."
  },
  {
   "property": "C18",
   "status": "proved",
   "theorems": [
    "C18_headers",
    "C18_fresh"
   ],
   "note": "Proved as stated."
  },
  {
   "property": "C19",
   "status": "partial",
   "theorems": [
    "C19_comm_info",
    "C19_listable",
    "C19_unregister_refuted"
   ],
   "note": "Proved for every listable registry, which every kernel whose user code does not unregister targets has; violated after unregistering a target with open comms (C19_unregister_refuted)."
  },
  {
   "property": "C20",
   "status": "proved",
   "theorems": [
    "C20_shutdown",
    "C20_throw_refuted"
   ],
   "note": "Proved when the interpreter's shutdown returns; when it throws, the server is not stopped (C20_throw_refuted)."
  },
  {
   "property": "C21",
   "status": "proved",
   "theorems": [
    "C21_kernel_info"
   ],
   "note": "A null answer counts as an empty object."
  },
  {
   "property": "C22",
   "status": "partial",
   "theorems": [
    "C22_blocking_input",
    "C22_dangling_refuted"
   ],
   "note": "Proved for UTF-8 prompts; violated otherwise (C22_dangling_refuted)."
  },
  {
   "property": "C23",
   "status": "partial",
   "theorems": [
    "C23_registry",
    "C23_kernel",
    "C23_uninitialised_refuted",
    "C23_destroy_undefined",
    "C23_self_move_refuted"
   ],
   "note": "Proved when the uninitialised flag reads false and there is no self-move; violated otherwise (three refutations)."
  },
  {
   "property": "C24",
   "status": "proved",
   "theorems": [
    "C24_reachable",
    "C24_moved_from_refuted"
   ],
   "note": "Under the discipline of the statement; necessity of its second half: C24_moved_from_refuted."
  },
  {
   "property": "C25",
   "status": "partial",
   "theorems": [
    "C25_message",
    "C25_unknown",
    "C25_no_handler",
    "C25_close",
    "C25_open_unknown",
    "C25_open",
    "C25_handlers",
    "C25_unknown_refuted",
    "C25_close_throws_refuted"
   ],
   "note": "Proved for identifiers of at most 55 bytes; for an unknown comm, of at most 30 bytes unless the string library deals with longer ones. Violated by the code: a message for an unknown comm with an identifier of 32 bytes, as xeus makes them, builds an xguid of 57 bytes (C25_unknown_refuted); the close handler throwing leaves the comm registered (C25_close_throws_refuted)."
  },
  {
   "property": "C26",
   "status": "proved",
   "theorems": [
    "C26_outgoing",
    "C26_unregistered_refuted"
   ],
   "note": "For comms whose target is registered; otherwise undefined (C26_unregistered_refuted)."
  },
  {
   "property": "C27",
   "status": "partial",
   "theorems": [
    "C27_tail",
    "C27_lastn",
    "C27_negative_refuted"
   ],
   "note": "Proved for n >= 0; for n < 0 the code is undefined (C27_negative_refuted): violated."
  },
  {
   "property": "C28",
   "status": "proved",
   "theorems": [
    "C28_range",
    "C28_range_error",
    "C28_undefined_iff"
   ],
   "note": "Proved, with the exact set of undefined calls."
  },
  {
   "property": "C29",
   "status": "proved",
   "theorems": [
    "C29_search",
    "C29_spec_functional",
    "C29_trailing_backslash"
   ],
   "note": "Patterns without backslash; ECMAScript matching of the generated regular expressions is modelled, the library's behaviour on other patterns is a parameter. A trailing backslash throws."
  },
  {
   "property": "C30",
   "status": "proved",
   "theorems": [
    "C30_spec_functional",
    "C30_negative_refuted",
    "C30_unique_refuted",
    "C29_search",
    "C31_undefined_iff"
   ],
   "note": "Limit and run-collapsing proved (C29_search); full uniqueness refuted; negative n undefined."
  },
  {
   "property": "C31",
   "status": "proved",
   "theorems": [
    "C31_tail",
    "C31_range",
    "C31_search",
    "C31_other_type",
    "C31_wrong_type",
    "C31_not_object",
    "C31_exceptions_std",
    "C31_undefined_iff"
   ],
   "note": "Proved as stated."
  },
  {
   "property": "C32",
   "status": "proved",
   "theorems": [
    "C32_order",
    "C32_no_loss",
    "C32_priority",
    "C32_stop",
    "C32_blocked_refuted"
   ],
   "note": "As worded; additionally: when blocked in poll nothing is left. C32_blocked_refuted: a control listener that aborts the queue leaves the server waiting for a shell message."
  },
  {
   "property": "C33",
   "status": "partial",
   "theorems": [
    "C33_order",
    "C33_idle",
    "C33_before_stop",
    "C33_lost_refuted",
    "C33_split"
   ],
   "note": "Order and no duplication proved for all servers; everything is forwarded by an idle publisher and, before the stop command, by any publisher given time; forwarding of all messages published before stop is violated (C33_lost_refuted)."
  },
  {
   "property": "C34",
   "status": "proved",
   "theorems": [
    "C34_echo",
    "C34_split"
   ],
   "note": "For the default and split servers."
  },
  {
   "property": "C35",
   "status": "partial",
   "theorems": [
    "C35_stop_ends",
    "C35_theft_refuted",
    "C35_self_call_refuted",
    "C35_stdin_refuted",
    "C35_shell_shutdown_refuted"
   ],
   "note": "Proved, for every fair execution, when the control thread takes no message from the shell queue, the shell thread does not call itself and does not wait for input for ever; violated in each of these three cases (refutations for both servers), and a shell shutdown does not wake the control thread."
  },
  {
   "property": "C36",
   "status": "proved",
   "theorems": [
    "C36_attribution",
    "C36_complete",
    "C36_internal"
   ],
   "note": "Including output during internal requests, under every interleaving; data races on shared fields are taken as sequentially consistent."
  },
  {
   "property": "C37",
   "status": "proved",
   "theorems": [
    "C37_not_stop",
    "C37_calls",
    "C37_same_value",
    "C37_lock_step",
    "C37_answer",
    "C37_shell_runs",
    "C37_trivial"
   ],
   "note": "For JSON values nlohmann can represent; an exception thrown by internal_request ends the process (modelled as Crashed)."
  },
  {
   "property": "C38",
   "status": "proved",
   "theorems": [
    "C38_call",
    "C38_prefix",
    "C38_all",
    "C38_prompt_refuted"
   ],
   "note": "For streams in which every header field before Content-Length is free of the text 'Content-Length: ' and lengths are below 2^64. C38_prompt_refuted: a complete message is not processed before the end of a following one that has begun."
  },
  {
   "property": "C39",
   "status": "partial",
   "theorems": [
    "C39_wait",
    "C39_keeps",
    "C39_lost_refuted"
   ],
   "note": "Exact behaviour proved (C39_wait); nothing else is lost when no two messages to come meet the condition (C39_keeps); violated otherwise (C39_lost_refuted)."
  },
  {
   "property": "C40",
   "status": "partial",
   "theorems": [
    "C40_queue",
    "C40_ends",
    "C40_unsolicited_refuted"
   ],
   "note": "Proved whenever the processing ends (C40_queue), with conditions under which it ends (C40_ends); violated when a message that is not an event answers no request: the reply socket throws (C40_unsolicited_refuted)."
  },
  {
   "property": "C41",
   "status": "proved",
   "theorems": [
    "C41_request",
    "C41_decoded",
    "C41_forwarded"
   ],
   "note": "The client's own requests and the debugger's."
  },
  {
   "property": "C42",
   "status": "proved",
   "theorems": [
    "C42_breakpoints_reported",
    "C42_answered"
   ],
   "note": "When the derived class leaves setBreakpoints and debugInfo to the base class; requests must be values that can be dumped (they were received as messages)."
  },
  {
   "property": "C43",
   "status": "proved",
   "theorems": [
    "C43_stopped_threads"
   ],
   "note": "When the derived class leaves the stopped and continued events to the base class; the set is read and cleared without the lock in process_request_impl, accesses are taken as atomic."
  },
  {
   "property": "C44",
   "status": "proved",
   "theorems": [
    "C44_gated",
    "C44_started",
    "C44_ignored",
    "C44_start_fails",
    "C44_disconnect"
   ],
   "note": "Handlers which the derived class registers as not requiring a started debugger are excluded."
  },
  {
   "property": "C45",
   "status": "proved",
   "theorems": [
    "C45_window",
    "C45_range",
    "C45_empty_window_null"
   ],
   "note": "Windows whose end fits in an int (otherwise undefined). C45_empty_window_null: empty windows give null; paging a failed reply throws."
  },
  {
   "property": "C46",
   "status": "partial",
   "theorems": [
    "C46_first_string_frame_removed",
    "C46_covered",
    "C46_answered",
    "C46_other_frames_refuted"
   ],
   "note": "Proved when the frames up to the removed one have a source path; violated otherwise (C46_other_frames_refuted): missing members are added."
  },
  {
   "property": "C47",
   "status": "partial",
   "theorems": [
    "C47_dumped",
    "C47_answered",
    "C47_exists_refuted"
   ],
   "note": "Proved when the file is absent and can be created, or can be read; violated otherwise: success is reported without a file, and an existing file is trusted (C47_exists_refuted)."
  },
  {
   "property": "C48",
   "status": "proved",
   "theorems": [
    "C48_hex_length",
    "C48_hex_decodes",
    "C48_hex_injective",
    "C48_guid"
   ],
   "note": "Proved as stated."
  },
  {
   "property": "C49",
   "status": "proved",
   "theorems": [
    "C49_utf8",
    "C49_in_range"
   ],
   "note": "Proved as stated."
  },
  {
   "property": "C50",
   "status": "partial",
   "theorems": [
    "C50_loads",
    "C50_accepted",
    "C50_startable",
    "C50_accepted_starts_refuted",
    "C50_key_refuted",
    "C50_ports_refuted"
   ],
   "note": "violated in part: a well-formed file is loaded exactly (C50_loads), the accepted files are characterised (C50_accepted) and kernels start for known schemes (C50_startable), but an accepted file without signature_scheme does not start a kernel, an empty key is replaced by a random one, and ports outside 0..65535 are accepted and truncated"
  },
  {
   "property": "C51",
   "status": "partial",
   "theorems": [
    "C51_tcp",
    "C51_port",
    "C51_other",
    "C51_other_refuted",
    "C51_long_refuted",
    "C51_distinct"
   ],
   "note": "violated in part: proved for tcp end points of at most 31 bytes; refuted for other transports and for longer end points"
  },
  {
   "property": "C52",
   "status": "proved",
   "theorems": [
    "C52_search",
    "C52_free_port"
   ],
   "note": "Proved as stated."
  },
  {
   "property": "C53",
   "status": "partial",
   "theorems": [
    "C53_temp",
    "C53_defined_refuted",
    "C53_create",
    "C53_create_success",
    "C53_paths",
    "C53_directory_refuted"
   ],
   "note": "violated in part: an empty variable is undefined behaviour, and create_directory returns true for an existing plain file; the rest is proved"
  },
  {
   "property": "C54",
   "status": "partial",
   "theorems": [
    "C54_chain",
    "C54_channels",
    "C54_iopub",
    "C54_at_most_once",
    "C54_independent_refuted",
    "C54_default"
   ],
   "note": "violated in part: every logger logs exactly once when all texts can be written (C54_chain); otherwise an exception of one logger silences those behind it (C54_independent_refuted)"
  },
  {
   "property": "C55",
   "status": "proved",
   "theorems": [
    "C55_first_wins",
    "C55_exactly_first",
    "C55_registered_refuted",
    "C55_inert"
   ],
   "note": " a null registration before the first real one also returns true (C55_registered_refuted)"
  },
  {
   "property": "C56",
   "status": "partial",
   "theorems": [
    "C56_injective",
    "C56_denotes",
    "C56_second",
    "C56_denotes_refuted",
    "C56_order_refuted"
   ],
   "note": "violated in part: timestamps are injective (C56_injective), but denote the instant only for fractions that are 0 or at least 100000 microseconds (C56_denotes is an equivalence)"
  },
  {
   "property": "C57",
   "status": "partial",
   "theorems": [
    "C57_start",
    "C57_configure_refuted",
    "C57_state"
   ],
   "note": "Proved when configure() publishes nothing; otherwise refuted (C57_configure_refuted)."
  },
  {
   "property": "C58",
   "status": "proved",
   "theorems": [
    "C58_strict",
    "C58_lenient",
    "C58_same"
   ],
   "note": "Proved as stated."
  },
  {
   "property": "C59",
   "status": "proved",
   "theorems": [
    "C59_attach",
    "C59_waits"
   ],
   "note": "Proved as stated."
  },
  {
   "property": "C60",
   "status": "proved",
   "theorems": [
    "C60_lock_step",
    "C60_count"
   ],
   "note": "Proved as stated."
  },
  {
   "property": "C61",
   "status": "proved",
   "theorems": [
    "C61_published"
   ],
   "note": "Proved as stated."
  },
  {
   "property": "C62",
   "status": "partial",
   "theorems": [
    "C62_progress",
    "C62_blocks_refuted"
   ],
   "note": "A round that takes no attach request, or an attach request whose handshake messages are still to come, does not block (C62_progress); violated otherwise (C62_blocks_refuted)."
  },
  {
   "property": "C63",
   "status": "proved",
   "theorems": [
    "C63_round_trip",
    "C63_source",
    "C63_no_path"
   ],
   "note": "When no one else changes the file."
  },
  {
   "property": "C64",
   "status": "proved",
   "theorems": [
    "C64_header_first"
   ],
   "note": "Proved as stated."
  },
  {
   "property": "C65",
   "status": "proved",
   "theorems": [
    "C65_lock_step"
   ],
   "note": "Proved as stated."
  },
  {
   "property": "C66",
   "status": "proved",
   "theorems": [
    "C66_cell_files"
   ],
   "note": "Proved as stated."
  },
  {
   "property": "C67",
   "status": "proved",
   "theorems": [
    "C67_sequential"
   ],
   "note": "Proved as stated."
  },
  {
   "property": "C68",
   "status": "proved",
   "theorems": [
    "C68_stream"
   ],
   "note": "Proved as stated."
  },
  {
   "property": "C69",
   "status": "proved",
   "theorems": [
    "C69_replies"
   ],
   "note": "Proved as stated."
  },
  {
   "property": "C70",
   "status": "proved",
   "theorems": [
    "C70_identifiers"
   ],
   "note": "Proved as stated."
  },
  {
   "property": "C71",
   "status": "proved",
   "theorems": [
    "C71_segment",
    "C71_complete",
    "C71_outside"
   ],
   "note": "Proved as stated."
  },
  {
   "property": "C72",
   "status": "proved",
   "theorems": [
    "C72_replies"
   ],
   "note": "Proved as stated."
  },
  {
   "property": "C73",
   "status": "proved",
   "theorems": [
    "C73_identifiers"
   ],
   "note": "Proved as stated."
  },
  {
   "property": "C74",
   "status": "proved",
   "theorems": [
    "C74_stop",
    "C74_input_refuted"
   ],
   "note": "Also proved: the hypothesis on standard input is necessary (C74_input_refuted)."
  },
  {
   "property": "C75",
   "status": "partial",
   "theorems": [
    "C75_shell",
    "C75_control",
    "C75_control_refuted"
   ],
   "note": "Proved for the shell socket; for the control socket if handling a control message does not take messages from the shell socket, refuted otherwise (C75_control_refuted)."
  },
  {
   "property": "C76",
   "status": "proved",
   "theorems": [
    "C76_published",
    "C76_heartbeat"
   ],
   "note": "Proved as stated."
  },
  {
   "property": "C77",
   "status": "proved",
   "theorems": [
    "C77_each",
    "C77_answered"
   ],
   "note": "Proved as stated."
  },
  {
   "property": "C78",
   "status": "proved",
   "theorems": [
    "C78_shell",
    "C78_control",
    "C78_answered",
    "C78_self_call_refuted",
    "C78_input_refuted",
    "C78_control_refuted"
   ],
   "note": "The conditions are necessary: C78_self_call_refuted, C78_input_refuted, C78_control_refuted."
  },
  {
   "property": "C79",
   "status": "proved",
   "theorems": [
    "C79_published",
    "C79_beats"
   ],
   "note": "Proved as stated."
  },
  {
   "property": "C80",
   "status": "proved",
   "theorems": [
    "C80_stop",
    "C80_stop_shell",
    "C80_shell_refuted"
   ],
   "note": "Proved when the control thread asked; when the shell thread asked, proved given a further control message and refuted without (C80_shell_refuted)."
  },
  {
   "property": "C81",
   "status": "proved",
   "theorems": [
    "C81_handled",
    "C81_internal",
    "C81_meanwhile"
   ],
   "note": "Proved as stated."
  },
  {
   "property": "C82",
   "status": "proved",
   "theorems": [
    "C82_answered",
    "C82_once"
   ],
   "note": "Proved as stated."
  },
  {
   "property": "C83",
   "status": "proved",
   "theorems": [
    "C83_one",
    "C83_each",
    "C83_shell",
    "C83_control"
   ],
   "note": "Proved as stated."
  },
  {
   "property": "C84",
   "status": "proved",
   "theorems": [
    "C84_thread",
    "C84_no_crash"
   ],
   "note": "Proved as stated."
  },
  {
   "property": "C85",
   "status": "partial",
   "theorems": [
    "C85_owned",
    "C85_no_race",
    "C85_date_refuted",
    "C85_stopped_refuted",
    "C85_shell_shutdown_refuted",
    "C85_control_execute_refuted",
    "C85_output_refuted"
   ],
   "note": "Each thread uses only its own objects, with two exceptions: std::gmtime, called for the date of every header, writes one object for all threads (C85_date_refuted, C95), and in the shell main server m_control_stopped, a plain bool, is read by the main thread while the control thread writes it (C85_stopped_refuted). Without the rule on channels and output there are further races (C85_shell_shutdown_refuted, C85_control_execute_refuted, C85_output_refuted)."
  },
  {
   "property": "C86",
   "status": "proved",
   "theorems": [
    "C86_results",
    "C86_accepted",
    "C86_exclusive",
    "C86_no_deadlock"
   ],
   "note": "Proved as stated."
  },
  {
   "property": "C87",
   "status": "proved",
   "theorems": [
    "C87_file",
    "C87_within",
    "C87_result",
    "C87_read",
    "C87_good",
    "C87_same_failure",
    "C87_no_deadlock",
    "C87_console",
    "C87_console_whole_refuted"
   ],
   "note": "Proved for file loggers and console loggers. C87_console_whole_refuted: in C++17 a console logger leaves the line of a message that has no text."
  },
  {
   "property": "C88",
   "status": "proved",
   "theorems": [
    "C88_faithful",
    "C88_same",
    "C88_start",
    "C88_default",
    "C88_split",
    "C88_answered",
    "C88_split_answered",
    "C88_lenient_refuted",
    "C88_untyped_refuted",
    "C88_nameless_refuted",
    "C88_early_refuted"
   ],
   "note": "The conditions are needed: C88_lenient_refuted (error handler), C88_untyped_refuted (header without type), C88_nameless_refuted (no identity), C88_early_refuted (input before the first shell message)."
  },
  {
   "property": "C89",
   "status": "proved",
   "theorems": [
    "C89_session",
    "C89_answers",
    "C89_twice_refuted"
   ],
   "note": "Complete rounds of the poll loop. The condition on the handshake is needed: C89_twice_refuted (a second response to configurationDone read together with the first is dropped)."
  },
  {
   "property": "C90",
   "status": "proved",
   "theorems": [
    "C90_in_order",
    "C90_reply",
    "C90_forwarded",
    "C90_stopped_refuted"
   ],
   "note": "One client per start of the debugger; complete rounds of its poll loop. Before the start a request for the adapter is answered with an empty object: C90_stopped_refuted."
  },
  {
   "property": "C91",
   "status": "proved",
   "theorems": [
    "C91_heard",
    "C91_idle",
    "C91_shell",
    "C91_abort_refuted"
   ],
   "note": "The exception for aborted messages is needed: no status is ever published for them (C91_abort_refuted)."
  },
  {
   "property": "C92",
   "status": "partial",
   "theorems": [
    "C92_started",
    "C92_lost_only",
    "C92_first",
    "C92_first_refuted",
    "C92_stop_refuted"
   ],
   "note": "Proved: the steps are those of a run from the beginning unless the control thread begins after a stop request, which needs a shutdown handled by the shell thread before; the start message is published once, preceded only by publications of the thread created by start_impl. Violated by the code: publications may precede the start message (C92_first_refuted), and a shutdown handled before the control thread begins is lost (C92_stop_refuted)."
  },
  {
   "property": "C93",
   "status": "proved",
   "theorems": [
    "C93_shell",
    "C93_control",
    "C93_once"
   ],
   "note": "Proved as stated."
  },
  {
   "property": "C94",
   "status": "proved",
   "theorems": [
    "C94_heard",
    "C94_shell",
    "C94_control",
    "C94_whole_refuted"
   ],
   "note": "The blocks of the two threads may interleave: a block need not arrive without something in between (C94_whole_refuted)."
  },
  {
   "property": "C95",
   "status": "partial",
   "theorems": [
    "C95_mixture",
    "C95_same_second",
    "C95_one_thread",
    "C95_no_date_refuted",
    "C95_future_refuted"
   ],
   "note": "Proved: every date is a mixture of the dates of overlapping calls, and right if these are in the same second or if only one thread makes headers. Violated by the code: std::gmtime returns one object for all threads, so that a date may be no date at all (C95_no_date_refuted) or lie in the future (C95_future_refuted)."
  },
  {
   "property": "C96",
   "status": "partial",
   "theorems": [
    "C96_ports",
    "C96_distinct",
    "C96_key",
    "C96_order",
    "C96_logs",
    "C96_scheme",
    "C96_default",
    "C96_bound_refuted",
    "C96_transport_refuted"
   ],
   "note": "Proved: on tcp every bound socket is reached with the port of the configuration, ports asked for are taken, end points are distinct, the key is the one of the signatures, the order of the calls, nothing is bound for an unknown scheme. Violated by the code: without a free port the constructor succeeds with sockets that are not bound (C96_bound_refuted), and on another transport the configuration does not name the end points (C96_transport_refuted)."
  },
  {
   "property": "C97",
   "status": "partial",
   "theorems": [
    "C97_since",
    "C97_idle",
    "C97_in_time",
    "C97_same",
    "C97_start_refuted"
   ],
   "note": "Proved: everything published since the subscription is sent, in order; the start message first if the subscription comes before it; nothing else depends on the subscription. Violated by the code: start_impl does not wait for the subscription, so that the start message, and whatever is published before the publisher thread's first poll, may be lost (C97_start_refuted)."
  },
  {
   "property": "C98",
   "status": "partial",
   "theorems": [
    "C98_message",
    "C98_default",
    "C98_split",
    "C98_default_written",
    "C98_split_written",
    "C98_in",
    "C98_in_refused",
    "C98_in_written",
    "C98_abort_refuted",
    "C98_start_refuted"
   ],
   "note": "Proved: every message that leaves was accepted by the logger first, nothing is done about a message before it was accepted as received, and what a chain of loggers has then written. Violated by the code: requests taken from the queue after a failed execution are answered without being logged as received (C98_abort_refuted); the start message is not logged (C98_start_refuted)."
  },
  {
   "property": "C99",
   "status": "partial",
   "theorems": [
    "C99_order",
    "C99_waits",
    "C99_returns",
    "C99_library",
    "C99_started",
    "C99_throws",
    "C99_early",
    "C99_made",
    "C99_late",
    "C99_comms",
    "C99_destroy_refuted",
    "C99_throw_refuted"
   ],
   "note": "Proved: when the destructor returns, which exceptions leave the constructor, and an order of the members that works (C99_order). Violated by the code: the context is destroyed before the sockets made with it, so that destroying a kernel, or failing late in its constructor, never ends (C99_destroy_refuted, C99_throw_refuted); comms of the interpreter outlive their manager (C99_comms)."
  },
  {
   "property": "C100",
   "status": "partial",
   "theorems": [
    "C100_joined",
    "C100_honest",
    "C100_locked",
    "C100_released",
    "C100_race_refuted",
    "C100_stale_refuted",
    "C100_dishonest_refuted"
   ],
   "note": "Proved: no race outside disconnect (C100_locked), with a stop() that joins (C100_joined), with an adapter that is silent after disconnect (C100_honest). Violated by the code otherwise: m_stopped_threads.clear() without the mutex (C100_race_refuted, C100_stale_refuted, C100_dishonest_refuted)."
  },
  {
   "property": "C101",
   "status": "partial",
   "theorems": [
    "C101_exact",
    "C101_mild",
    "C101_close_refuted",
    "C101_input_refuted"
   ],
   "note": "Proved: the model of the other properties is exact until a running function is destroyed (C101_exact), and user code for which this does not happen (C101_mild). Violated by the code: it calls the stored function and not a copy (C101_close_refuted, C101_input_refuted)."
  },
  {
   "property": "C102",
   "status": "partial",
   "theorems": [
    "C102_pieces",
    "C102_own",
    "C102_turns",
    "C102_one_thread",
    "C102_results",
    "C102_no_deadlock",
    "C102_whole_refuted",
    "C102_readable_refuted",
    "C102_order_refuted"
   ],
   "note": "Proved: nothing is lost (C102_pieces), whole texts for sinks of one logger and for calls that do not overlap (C102_own, C102_turns, C102_one_thread), the results (C102_results), no deadlock (C102_no_deadlock). Violated by the code for sinks of several loggers, and for the order in several files (C102_whole_refuted, C102_readable_refuted, C102_order_refuted)."
  },
  {
   "property": "C103",
   "status": "partial",
   "theorems": [
    "C103_served",
    "C103_alive",
    "C103_silent",
    "C103_client_refuted",
    "C103_stranger_refuted",
    "C103_garbage_refuted"
   ],
   "note": "Proved for servers to which nobody else connects and for clients whose adapter speaks first, in the mode without attach sequence (C103_served, C103_alive). Violated by the code for clients whose adapter waits to be asked and for servers to which somebody else connects (C103_silent, C103_client_refuted, C103_stranger_refuted). An adapter that sends something that is no JSON text ends the client's thread (C103_garbage_refuted)."
  },
  {
   "property": "C104",
   "status": "partial",
   "theorems": [
    "C104_read",
    "C104_sent",
    "C104_received",
    "C104_few",
    "C104_same",
    "C104_goes_on",
    "C104_blocks",
    "C104_idle_refuted",
    "C104_lost_refuted"
   ],
   "note": "Order, topics and the absence of duplicates hold whatever is dropped; nothing is lost while threads and subscribers keep up (C104_read, C104_sent, C104_received, C104_few, C104_same, C104_goes_on, C104_blocks). Violated by the code for every high-water mark: publications, the idle status among them, may be lost (C104_lost_refuted, C104_idle_refuted)."
  },
  {
   "property": "C105",
   "status": "partial",
   "theorems": [
    "C105_order",
    "C105_kept",
    "C105_flush",
    "C105_same",
    "C105_goes_on",
    "C105_idle_refuted",
    "C105_start",
    "C105_start_refuted"
   ],
   "note": "Order per channel, completeness while the publisher keeps up, independence of the other threads and the start message of the control main server are proved (C105_order, C105_kept, C105_flush, C105_same, C105_goes_on, C105_start). Violated by the code: the idle status of a request may overtake what was published for it through the other socket (C105_idle_refuted), and the start message of the shell main server may be lost (C105_start_refuted)."
  },
  {
   "property": "C106",
   "status": "partial",
   "theorems": [
    "C106_turns",
    "C106_start",
    "C106_split",
    "C106_polite",
    "C106_polite_split",
    "C106_late_refuted",
    "C106_forged_refuted",
    "C106_crossed_refuted"
   ],
   "note": "Proved: requests and messages take turns (C106_turns, C106_split, C106_start), and with polite clients every value is that of an answer to the last request (C106_polite, C106_polite_split). Violated by the code otherwise: the sender, parent header, type and time of the message are not checked (C106_late_refuted, C106_forged_refuted), and code of the control thread of the split servers takes answers to the shell thread (C106_crossed_refuted)."
  },
  {
   "property": "C107",
   "status": "proved",
   "theorems": [
    "C107_start",
    "C107_kernel",
    "C107_session",
    "C107_eventually",
    "C107_comm_open_refuted",
    "C107_history_refuted"
   ],
   "note": "Proved for the messages covered by `session` (C107_start, C107_kernel, C107_session, and C107_eventually under a fair main thread). Outside, two requests are undefined: comm_open of the test kernel's target (C107_comm_open_refuted) and history with a negative n (C107_history_refuted)."
  },
  {
   "property": "C108",
   "status": "proved",
   "theorems": [
    "C108_serves",
    "C108_reads",
    "C108_client",
    "C108_eventually",
    "C108_arguments_refuted",
    "C108_ends",
    "C108_user_refuted"
   ],
   "note": "Proved: C108_serves, C108_reads, C108_client, C108_eventually, C108_ends. The statement names two exceptions of the code: a single argument is undefined behaviour (C108_arguments_refuted), and a user name that is not UTF-8 ends the process (C108_user_refuted). The frames of the two split programs are covered by C108_serves and C108_reads only."
  },
  {
   "property": "C109",
   "status": "proved",
   "theorems": [
    "C109_thread",
    "C109_no_crash",
    "C109_eventually",
    "C109_client",
    "C109_parent_refuted",
    "C109_count_refuted"
   ],
   "note": "Proved: C109_thread, C109_no_crash, C109_eventually, C109_client. That the condition is needed: C109_parent_refuted, C109_count_refuted."
  },
  {
   "property": "C110",
   "status": "proved",
   "theorems": [
    "C110_asked",
    "C110_asked_split",
    "C110_ends",
    "C110_only",
    "C110_ends_split",
    "C110_only_split",
    "C110_shell_refuted",
    "C110_broadcast_refuted"
   ],
   "note": "Proved: C110_asked, C110_asked_split, C110_ends, C110_only, C110_ends_split, C110_only_split. The exceptions: C110_shell_refuted (shell socket of a split server), C110_broadcast_refuted (the broadcasts about the request may be lost)."
  },
  {
   "property": "C111",
   "status": "proved",
   "theorems": [
    "C111_execute",
    "C111_debug",
    "C111_plain",
    "C111_debug_started_refuted"
   ],
   "note": "Proved: C111_execute, C111_debug, C111_plain. That the date of a debug reply is, as its name says, the one of the start of its handling is false: C111_debug_started_refuted."
  },
  {
   "property": "C112",
   "status": "partial",
   "theorems": [
    "C112_create",
    "C112_open_null",
    "C112_open_refuted"
   ],
   "note": "Violated by the code: creation is settled exactly (C112_create), but asking for a target makes an entry with a null manager, and comm_open for it is undefined (C112_open_null for all histories, C112_open_refuted for a kernel); for names without an entry see C25_open_unknown."
  }
 ]
}
