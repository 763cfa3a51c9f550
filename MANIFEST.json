{
 "claims": [
  {
   "property": "C01",
   "status": "proved",
   "theorems": [
    "C01_outgoing_conserved"
   ],
   "note": ""
  },
  {
   "property": "C02",
   "status": "proved",
   "theorems": [
    "C02_length_counts_bytes"
   ],
   "note": ""
  },
  {
   "property": "C03",
   "status": "proved",
   "theorems": [
    "C03_segmentation_independent",
    "C03_any_client"
   ],
   "note": ""
  },
  {
   "property": "C04",
   "status": "proved",
   "theorems": [
    "C04_outgoing_numbers",
    "C04_incoming_numbers",
    "C04_wrong_number_refused",
    "C04_every_body_checked"
   ],
   "note": "A queue_msg whose message cannot be serialised still uses up a number."
  },
  {
   "property": "C05",
   "status": "proved",
   "theorems": [
    "C05_json_exact",
    "C05_writes_json",
    "C05_json_roundtrip"
   ],
   "note": "Floats, NaN and CPython's integer-digit and recursion limits are not modelled."
  },
  {
   "property": "C06",
   "status": "partial",
   "theorems": [
    "C06_none_leaves_buffer",
    "C06_incomplete_is_none",
    "C06_bad_header_leaves_buffer",
    "C06_waits",
    "C06_frame_removed_partial",
    "C06_negative_length_refuted"
   ],
   "note": "Refuted for a negative Content-Length (raises, but rewinds the buffer into the header); proved for every other buffer."
  },
  {
   "property": "C07",
   "status": "proved",
   "theorems": [
    "C07_message_roundtrip"
   ],
   "note": "All registered classes; an attribute that is not in the class's wire mapping (StepInRequest.target_id, see C10) must hold its default."
  },
  {
   "property": "C08",
   "status": "proved",
   "theorems": [
    "C08_dispatch_exact",
    "C08_selected_is_used",
    "C08_unknown_type",
    "C08_unknown_name"
   ],
   "note": ""
  },
  {
   "property": "C09",
   "status": "partial",
   "theorems": [
    "C09_noise_ignored_partial",
    "C09_launch_attach",
    "C09_types_key_refuted"
   ],
   "note": "Full statement refuted for a top-level member named __types; proved for all other added members."
  },
  {
   "property": "C10",
   "status": "partial",
   "theorems": [
    "C10_stepin_target_refuted",
    "C10_stepin_thread_partial"
   ],
   "note": "Full statement refuted: targetId overwrites thread_id. Proved when targetId is absent or null."
  },
  {
   "property": "C11",
   "status": "proved",
   "theorems": [
    "C11_attach_arguments",
    "C11_launch_arguments",
    "C11_roundtrip"
   ],
   "note": ""
  },
  {
   "property": "C12",
   "status": "proved",
   "theorems": [
    "C12_setbreakpoints_response"
   ],
   "note": "Requested lines are non-negative (DAP lines are); with a negative line the handler may raise and is answered with one error response (C20)."
  },
  {
   "property": "C13",
   "status": "proved",
   "theorems": [
    "C13_setbreakpoints_replaces_source"
   ],
   "note": ""
  },
  {
   "property": "C14",
   "status": "proved",
   "theorems": [
    "C14_location_is_enclosing_region",
    "C14_location_is_determined"
   ],
   "note": ""
  },
  {
   "property": "C15",
   "status": "proved",
   "theorems": [
    "C15_client_view_current"
   ],
   "note": ""
  },
  {
   "property": "C16",
   "status": "proved",
   "theorems": [
    "C16_match_iff_set_in_region"
   ],
   "note": ""
  },
  {
   "property": "C17",
   "status": "proved",
   "theorems": [
    "C17_order_does_not_matter"
   ],
   "note": ""
  },
  {
   "property": "C18",
   "status": "partial",
   "theorems": [
    "C18_mapping_partial",
    "C18_roundtrip_partial",
    "C18_capture_partial",
    "C18_root_captures_sibling_refuted"
   ],
   "note": "Refuted: a root without trailing separator also captures siblings such as /src/app2. First match, remainder, unmatched paths and round trip proved."
  },
  {
   "property": "C19",
   "status": "proved",
   "theorems": [
    "C19_exception_filters"
   ],
   "note": ""
  },
  {
   "property": "C20",
   "status": "proved",
   "theorems": [
    "C20_one_response_per_request",
    "C20_waiting_request_is_answered"
   ],
   "note": ""
  },
  {
   "property": "C21",
   "status": "proved",
   "theorems": [
    "C21_ids_never_reused"
   ],
   "note": ""
  },
  {
   "property": "C22",
   "status": "partial",
   "theorems": [
    "C22_after_disconnect",
    "C22_after_shutdown_partial",
    "C22_nothing_stops_partial",
    "C22_exception_filter_refuted",
    "C22_terminated_thread_waits_refuted"
   ],
   "note": "proved: after a disconnect nothing matches, no thread waits; after the connection closed (no terminate before, exception filters off) nothing ever stops. Refuted for the code: exception filters survive the end of the session, and after terminate a failing in-flight task waits for ever."
  },
  {
   "property": "C23",
   "status": "partial",
   "theorems": [
    "C23_step_over_partial",
    "C23_step_over_imports_refuted",
    "C23_step_over_after_exception_refuted"
   ],
   "note": "Refuted when the current task was reached through a static import, and after an exception stop; proved otherwise."
  },
  {
   "property": "C24",
   "status": "proved",
   "theorems": [
    "C24_step_in"
   ],
   "note": ""
  },
  {
   "property": "C25",
   "status": "partial",
   "theorems": [
    "C25_step_out_partial",
    "C25_step_out_nested_refuted",
    "C25_step_out_at_top_never_stops_refuted"
   ],
   "note": "Refuted: stops inside an include nested in the next task region, and never stops when stepping out of the top level."
  },
  {
   "property": "C26",
   "status": "partial",
   "theorems": [
    "C26_breakpoint_stop_partial",
    "C26_step_out_ignores_breakpoints",
    "C26_shadowed_breakpoint_refuted"
   ],
   "note": "Proved: a stop happens iff the first matching breakpoint's condition holds. Refuted: a conditional breakpoint shadows a second one in the same region."
  },
  {
   "property": "C27",
   "status": "partial",
   "theorems": [
    "C27_exception_stop_partial",
    "C27_exception_stop_exact",
    "C27_filters_partial",
    "C27_failure_in_rescue_refuted"
   ],
   "note": "C27_exception_stop_exact says what decides for every task; the user-level reading (rescued failures only) holds in main sections, and is refuted in rescue sections."
  },
  {
   "property": "C28",
   "status": "proved",
   "theorems": [
    "C28_only_after_resume",
    "C28_resumed_goes_on",
    "C28_requests_served",
    "C28_request_reaches_thread"
   ],
   "note": "small-step interleaving model of strategy and receive threads around the condition variable: no progress without a resume, a request reaches the stopped thread, and the thread then goes on, under every scheduler; plays have separate debug states so one play is modelled"
  },
  {
   "property": "C29",
   "status": "proved",
   "theorems": [
    "C29_named_thread_only",
    "C29_all_threads"
   ],
   "note": ""
  },
  {
   "property": "C30",
   "status": "partial",
   "theorems": [
    "C30_terminate_ends_partial",
    "C30_disconnect_terminate_refuted",
    "C30_new_host_refuted"
   ],
   "note": "proved with exception filters off: the next result of any host that had a thread ends the strategy, and so does waking a stopped thread. Refuted for the code: disconnect(terminateDebuggee) followed by the connection closing goes on; hosts that start later, and later plays, are not ended; with an exception filter the playbook can hang."
  },
  {
   "property": "C31",
   "status": "proved",
   "theorems": [
    "C31_references_resolve",
    "C31_start_and_end_do_not_fail",
    "C31_progress"
   ],
   "note": ""
  },
  {
   "property": "C32",
   "status": "partial",
   "theorems": [
    "C32_stack_trace_exact",
    "C32_below_are_includes",
    "C32_stack_trace_partial",
    "C32_nested_block_refuted",
    "C32_two_levels_refuted"
   ],
   "note": "C32_stack_trace_exact says what the stack is in every session; C32_below_are_includes; the include nesting of the playbook itself is shown for regular sessions and refuted for nested blocks and for two levels left at once."
  },
  {
   "property": "C33",
   "status": "proved",
   "theorems": [
    "C33_references_resolve_while_frame_lives"
   ],
   "note": ""
  },
  {
   "property": "C34",
   "status": "partial",
   "theorems": [
    "C34_setvariable_takes_effect",
    "C34_failed_setvariable_changes_nothing",
    "C34_setvariable_succeeds_or_fails",
    "C34_non_string_key_refuted"
   ],
   "note": "Success, replication, visibility and failure are proved for all heaps and references; refuted for dict entries whose key is not a string: the assignment adds a second entry."
  },
  {
   "property": "C35",
   "status": "proved",
   "theorems": [
    "C35_scopes",
    "C35_exception_stop_gives_result",
    "C35_result_only_from_exception_stop"
   ],
   "note": ""
  },
  {
   "property": "C36",
   "status": "proved",
   "theorems": [
    "C36_threads_named_after_hosts",
    "C36_thread_events",
    "C36_threads_lists_the_live_ones"
   ],
   "note": ""
  },
  {
   "property": "C37",
   "status": "proved",
   "theorems": [
    "C37_lossless",
    "C37_client_lossless"
   ],
   "note": "pickle is abstract: loads(dumps m) = m, truncated and empty pickles raise; the protocol callback does not raise."
  },
  {
   "property": "C38",
   "status": "proved",
   "theorems": [
    "C38_cut",
    "C38_closed_once"
   ],
   "note": ""
  },
  {
   "property": "C39",
   "status": "proved",
   "theorems": [
    "C39_framing"
   ],
   "note": ""
  },
  {
   "property": "C40",
   "status": "partial",
   "theorems": [
    "C40_cancel_partial",
    "C40_callback_raises_refuted"
   ],
   "note": "proved for all interleavings if no abort callback raises; refuted if one does (cancel() then ends without aborting the rest)."
  },
  {
   "property": "C41",
   "status": "partial",
   "theorems": [
    "C41_first_accepting_partial",
    "C41_all_fail_partial",
    "C41_other_exception",
    "C41_unsupported_family_refuted"
   ],
   "note": "proved when a socket can be created for each address tried; refuted otherwise: socket.socket() is outside the try, so an unsupported address family ends the attempt."
  },
  {
   "property": "C42",
   "status": "proved",
   "theorems": [
    "C42_tls_retry",
    "C42_waits",
    "C42_plain"
   ],
   "note": "TLS handshake outcomes are abstract; only ssl.SSLError is retried, as the property says."
  },
  {
   "property": "C43",
   "status": "partial",
   "theorems": [
    "C43_disconnect_first_refuted",
    "C43_one_terminated",
    "C43_disconnect_first_partial",
    "C43_disconnect_answered"
   ],
   "note": "exactly one terminated event: proved for every history and every interleaving of the two threads; a disconnect request is always answered by the end and before the terminated event if it was received before the stop() call began (partial); refuted for a disconnect that arrives while the receive thread is already in stop()"
  },
  {
   "property": "C44",
   "status": "partial",
   "theorems": [
    "C44_once_refuted",
    "C44_attach_twice_refuted",
    "C44_once_per_thread",
    "C44_once_partial",
    "C44_exactly_once_partial",
    "C44_all_answered",
    "C44_recv_answered",
    "C44_failed_request_answered"
   ],
   "note": "every outstanding request is answered when the adapter dies of an exception (all schedules); per thread at most once (all schedules); exactly once overall in schedules whose answers do not overlap; refuted for racing schedules"
  },
  {
   "property": "C45",
   "status": "partial",
   "theorems": [
    "C45_eof_refuted",
    "C45_after_disconnect_partial"
   ],
   "note": "refuted: on end of file the adapter spins for ever; partial: it ends by itself after a disconnect"
  },
  {
   "property": "C46",
   "status": "partial",
   "theorems": [
    "C46_no_overlap_partial",
    "C46_sent_twice_refuted",
    "C46_lost_refuted",
    "C46_same_seq_refuted",
    "C46_refuted"
   ],
   "note": "Refuted: two threads may interleave send_to_client, duplicating or losing a message or a seq number; proved when the calls do not overlap."
  },
  {
   "property": "C47",
   "status": "proved",
   "theorems": [
    "C47_launch",
    "C47_launch_rejects",
    "C47_attach",
    "C47_target"
   ],
   "note": "JSON floats are not modelled; float() is a parameter."
  },
  {
   "property": "C48",
   "status": "proved",
   "theorems": [
    "C48_launch_script"
   ],
   "note": "The interpreter is an absolute path and no string has a NUL; the POSIX shell fragment the script uses is modelled, signals are not."
  },
  {
   "property": "C49",
   "status": "partial",
   "theorems": [
    "C49_uds_partial",
    "C49_tcp4",
    "C49_tcp6",
    "C49_only_value_error",
    "C49_bad_scheme",
    "C49_tcp_text",
    "C49_uds_text",
    "C49_refuted"
   ],
   "note": "Refuted for a Unix socket path relative to the working directory, a temporary directory whose name has # or ?, and 'tcp:host:port' (accepted as any interface and port); all other bound addresses round-trip."
  },
  {
   "property": "C50",
   "status": "partial",
   "theorems": [
    "C50_environment_partial",
    "C50_empty_entry_refuted"
   ],
   "note": "Refuted: empty PYTHONPATH entries (the working directory) are dropped. Partial: everything else holds, for configured callbacks without commas and collection paths without colons."
  },
  {
   "property": "C51",
   "status": "proved",
   "theorems": [
    "C51_client",
    "C51_server",
    "C51_server_missing_ca"
   ],
   "note": ""
  },
  {
   "property": "C52",
   "status": "partial",
   "theorems": [
    "C52_configuration_wait_partial",
    "C52_shutdown_returns_partial",
    "C52_waiting_request_wakes",
    "C52_disconnect_ends_connection_partial",
    "C52_connect_failure_refuted",
    "C52_late_request_refuted",
    "C52_early_disconnect_refuted"
   ],
   "note": "small-step model of main, send and receive threads; the waits end under every scheduler if no strategy-needing request is outstanding (sends assumed to finish); refuted: failed connection, request after the last play, disconnect before configurationDone"
  },
  {
   "property": "C53",
   "status": "partial",
   "theorems": [
    "C53_aliases",
    "C53_failure",
    "C53_help_refuted",
    "C53_quotes_refuted",
    "C53_option_refuted",
    "C53_words",
    "C53_template_partial",
    "C53_template_simple_partial",
    "C53_set_partial",
    "C53_remove_partial",
    "C53_help",
    "C53_console_template_partial"
   ],
   "note": "Refuted: a word -h (or --help) in an expression shows the help; text whose quoting is incomplete for shlex (e.g. 'it\\'s') fails the request; an option-like word before the name or a quoted command gives a wrong expression. Partial: for every other text the expression is verbatim, names and aliases as documented."
  },
  {
   "property": "C54",
   "status": "proved",
   "theorems": [
    "C54_evaluates_in_the_frame",
    "C54_other_requests_not_implemented",
    "C54_repl_set_option",
    "C54_repl_set_hostvar",
    "C54_repl_remove_option"
   ],
   "note": ""
  },
  {
   "property": "C55",
   "status": "proved",
   "theorems": [
    "C55_pid_file",
    "C55_idempotent",
    "C55_connect_never"
   ],
   "note": "Whether shutdown() is reached and returns is C52; text must be encodable (no lone surrogates)."
  },
  {
   "property": "C56",
   "status": "proved",
   "theorems": [
    "C56_blocks",
    "C56_plays",
    "C56_places"
   ],
   "note": ""
  },
  {
   "property": "C57",
   "status": "proved",
   "theorems": [
    "C57_stop_text"
   ],
   "note": ""
  },
  {
   "property": "C58",
   "status": "partial",
   "theorems": [
    "C58_answer_is_a_snapshot",
    "C58_no_insertion_meanwhile_partial",
    "C58_lookup_refuted",
    "C58_register_refuted"
   ],
   "note": "Small-step model of the two threads on the unlocked table. Proved: a lookup that returns answers for the table as it was when it began; nothing raises unless a breakpoint is inserted during a lookup or registration (replacement is harmless). Refuted in general: an insertion meanwhile raises RuntimeError in the strategy thread."
  },
  {
   "property": "C59",
   "status": "proved",
   "theorems": [
    "C59_body_exact",
    "C59_utf8",
    "C59_encodable",
    "C59_body"
   ],
   "note": ""
  },
  {
   "property": "C60",
   "status": "proved",
   "theorems": [
    "C60_settings_any_environment",
    "C60_settings_reach_debugger",
    "C60_tls_not_dropped"
   ],
   "note": ""
  },
  {
   "property": "C61",
   "status": "partial",
   "theorems": [
    "C61_taking_turns_partial",
    "C61_as_one_sequence",
    "C61_overlap_refuted"
   ],
   "note": "Proved when the two threads take turns (the small-step model then refines the sequential one, so C12-C17 apply). Refuted for overlapping calls: a breakpoint whose file is loaded between reading the line table and inserting it stays unverified and matches every later line."
  },
  {
   "property": "C62",
   "status": "partial",
   "theorems": [
    "C62_level_partial",
    "C62_ascii_partial",
    "C62_first_bad_chunk",
    "C62_output",
    "C62_refuted"
   ],
   "note": "False of the code: at level debug a read that cuts a multi-byte character ends the adapter (C62_refuted, with the 4096-byte reads of the code); holds when every chunk is text by itself, in particular for ASCII; exact behaviour in C62_first_bad_chunk; the sending side never differs (C62_output)."
  },
  {
   "property": "C63",
   "status": "partial",
   "theorems": [
    "C63_any_stream_partial",
    "C63_negative_length_refuted"
   ],
   "note": "Holds unless a header announces a negative length (C63_negative_length_refuted)."
  },
  {
   "property": "C64",
   "status": "proved",
   "theorems": [
    "C64_command_line",
    "C64_dap",
    "C64_one_meaning",
    "C64_launch_end_to_end"
   ],
   "note": "Model of argparse restricted to the features used; negative-number test and path resolution are parameters."
  },
  {
   "property": "C65",
   "status": "proved",
   "theorems": [
    "C65_request_accepted",
    "C65_bytes",
    "C65_resumes_named_thread",
    "C65_continue_default_refuted",
    "C65_request_meaning"
   ],
   "note": "hypotheses: no member of the text uses the few reserved attribute names, extra members are not structured; the DAP default for a missing singleThread (all threads) is shown not to be what happens (C65_continue_default_refuted)"
  },
  {
   "property": "C66",
   "status": "proved",
   "theorems": [
    "C66_message_tells",
    "C66_bytes",
    "C66_session",
    "C66_source_path"
   ],
   "note": ""
  },
  {
   "property": "C67",
   "status": "proved",
   "theorems": [
    "C67_bytes",
    "C67_filters_effective",
    "C67_launch_terminal"
   ],
   "note": ""
  },
  {
   "property": "C68",
   "status": "proved",
   "theorems": [
    "C68_session_is_history",
    "C68_breakpoint_stops",
    "C68_stepping_stops"
   ],
   "note": "for tasks whose conditions do not raise (one that raises other than through Ansible's condition errors aborts the strategy, C26); a first breakpoint with a false condition hides later ones of the same region (refutation in C26)"
  },
  {
   "property": "C69",
   "status": "partial",
   "theorems": [
    "C69_exception_stops_partial",
    "C69_exception_stops_exact",
    "C69_rescue_refuted"
   ],
   "note": "Exact for every task with in_rescue_block; the user-level reading (a failure that nothing rescues stops) holds in main sections and is refuted for tasks of rescue sections."
  },
  {
   "property": "C70",
   "status": "proved",
   "theorems": [
    "C70_stepping"
   ],
   "note": "stopped at a task's start; stepping from an exception stop uses a stale task (C23_step_over_after_exception_refuted), and step out stops inside a nested include (C25_step_out_nested_refuted): stop_wanted states what the code does there"
  },
  {
   "property": "C71",
   "status": "proved",
   "theorems": [
    "C71_session",
    "C71_answered",
    "C71_progress"
   ],
   "note": "Begins when the adapter is connected and follows the session until the client disconnects or a process ends. Texts are assumed to be writable (no lone surrogates, sources as the client sent them), commands to be known. The connection between the processes is a pair of queues (C37)."
  },
  {
   "property": "C72",
   "status": "partial",
   "theorems": [
    "C72_process_file_refuted",
    "C72_failed_listen_refuted",
    "C72_socket_private",
    "C72_umask_restored",
    "C72_script_private",
    "C72_session_partial"
   ],
   "note": "Socket file and launch script private at every moment, umask restored, socket file removed at the normal end: proved for every failure point and for acts of other processes. Refuted: the process file follows the umask (0644 by default); listen() failing leaves the socket file."
  },
  {
   "property": "C73",
   "status": "partial",
   "theorems": [
    "C73_server_closes",
    "C73_listening_partial",
    "C73_client_partial",
    "C73_server_refuted",
    "C73_client_refuted",
    "C73_stop_refuted"
   ],
   "note": "All sockets closed after a successful start and stop (server). At most one left open otherwise. Refuted: peer gone before the first byte, the client's blank socket, stop() when unlink raises. Finalisation of unreferenced socket objects by CPython is not modelled."
  },
  {
   "property": "C74",
   "status": "proved",
   "theorems": [
    "C74_transparent",
    "C74_session",
    "C74_every_task_is_shown",
    "C74_ends_only_if_asked",
    "C74_the_call_raises",
    "C74_progress"
   ],
   "note": "EndStrategy and the exceptions named in the statement are the only ways the debugger ends a play; the effect of variables the user changes is part of the base class's (arbitrary) answers"
  },
  {
   "property": "C75",
   "status": "partial",
   "theorems": [
    "C75_type_name",
    "C75_children_partial",
    "C75_children_refuted"
   ],
   "note": "the type name is proved for every class; the agreement of type and children is refuted for dataclass instances (class name, but named children; none after setVariable) and proved for all others (numbers and tuples not registered as mappings, classes not named dict, list or tuple)"
  },
  {
   "property": "C76",
   "status": "partial",
   "theorems": [
    "C76_same_partial",
    "C76_calls",
    "C76_raise",
    "C76_same_refuted"
   ],
   "note": "refuted for racing first calls; proved when no call begins before the first one has stored its object (failed constructors allowed); progress, no KeyError and no trace of a failed constructor are proved for all interleavings"
  },
  {
   "property": "C77",
   "status": "proved",
   "theorems": [
    "C77_variables",
    "C77_references_stay",
    "C77_set"
   ],
   "note": "tmpl, repr and type names are parameters (type names: C75); values hold no dangling references."
  },
  {
   "property": "C78",
   "status": "proved",
   "theorems": [
    "C78_resume",
    "C78_continue_all",
    "C78_stack_trace",
    "C78_end",
    "C78_without_play",
    "C78_set_variable",
    "C78_unknown",
    "C78_set_option",
    "C78_set_hostvar",
    "C78_refused_harmless"
   ],
   "note": "evaluation, templating and int() are parameters."
  },
  {
   "property": "C79",
   "status": "proved",
   "theorems": [
    "C79_one_event_per_stop",
    "C79_stop_leads_to_task"
   ],
   "note": "sessions as in C68; a task without a place in a file makes stackTrace fail (C78)."
  },
  {
   "property": "C80",
   "status": "partial",
   "theorems": [
    "C80_configure",
    "C80_append_only",
    "C80_no_log",
    "C80_log_file_partial",
    "C80_each_record",
    "C80_adapter_result",
    "C80_adapter_crash",
    "C80_default_format",
    "C80_one_line_per_record_refuted"
   ],
   "note": "refuted when one run has several playbooks: the callback configures the log again for each, and every record is then written several times. Proved for one configuration per process (the adapter, a run of one playbook). Formatting, abspath and whether a file opens are parameters; root handlers are outside."
  },
  {
   "property": "C81",
   "status": "partial",
   "theorems": [
    "C81_every_playbook_debuggable_refuted",
    "C81_first_playbook_partial",
    "C81_later_playbooks_run"
   ],
   "note": "refuted for every playbook after the first (the cancellation token is never renewed, so accept and connect are refused); proved for the first; the later ones run to their end. Assumes Ansible calls v2_playbook_on_start/on_stats once per playbook on one callback object."
  },
  {
   "property": "C82",
   "status": "proved",
   "theorems": [
    "C82_looking_changes_nothing",
    "C82_stop_shows_what_runs",
    "C82_stop_shows_the_result",
    "C82_change_reaches_the_task",
    "C82_host_change_is_handed_over",
    "C82_resumed_task_runs"
   ],
   "note": "For every session: the frames at a stop are those of the host's last started task and open includes; their scopes stand for the objects passed to the task (templated options backed by the raw ones, task, host and global variables, the result at an exception stop); no label but setVariable, a console command or Ansible's own changes an existing object; an entry set in Module Options / Task Variables is in the task's object in every later state; and the resumed task goes on with these objects. The templar is an arbitrary function that may allocate but not change objects (as everywhere in StratModel)."
  },
  {
   "property": "C83",
   "status": "partial",
   "theorems": [
    "C83_newest_change_else_answer",
    "C83_view_is_current_partial",
    "C83_view_refuted"
   ],
   "note": "refuted: the change event of a file loaded between storing a breakpoint and queueing its response comes first, so the client is left with 'not loaded' while the breakpoint is in force; proved in all interleavings: the newest change event, else the response, is what is in force, and the last message is whenever the response precedes the changes"
  },
  {
   "property": "C84",
   "status": "partial",
   "theorems": [
    "C84_one_answer_each",
    "C84_answer_means_done",
    "C84_one_stop_at_a_time",
    "C84_stopped_client_can_tell_partial",
    "C84_response_first_refuted",
    "C84_early_request_ambiguous_refuted"
   ],
   "note": "Refuted: a stopped event can come before the response of the step that led to it, and after a request sent while the client did not know of a stop the messages leave it open whether the thread is stopped. Proved: every request is answered once, after the states were set; no stopped event while a thread is stopped; a client that sends one request to a stopped thread can tell."
  },
  {
   "property": "C85",
   "status": "partial",
   "theorems": [
    "C85_playbook_goes_on_partial",
    "C85_references_distinct_partial",
    "C85_valid_while_frame_partial",
    "C85_dead_after_frame_partial",
    "C85_late_reference_stays_partial",
    "C85_no_exception_stop_partial",
    "C85_playbook_breaks_refuted",
    "C85_stale_reference_refuted"
   ],
   "note": "Refuted in general: with two threads inside next_variable_id the same reference is given out twice and the deletion raises KeyError in the strategy thread; a reference given out while its frame is being removed is never freed. Proved for every schedule in which the threads are not both choosing an id, in particular for every schedule without an exception stop: no failure, distinct non-zero references, valid while the frame exists, those given before the deletion dead afterwards, later ones answered for ever."
  },
  {
   "property": "C86",
   "status": "partial",
   "theorems": [
    "C86_threads_existed",
    "C86_threads_moment_partial",
    "C86_stack_existed",
    "C86_stack_complete_partial",
    "C86_exact_while_stopped",
    "C86_client_list_partial",
    "C86_threads_moment_refuted",
    "C86_threads_answer_refuted",
    "C86_stack_complete_refuted",
    "C86_stack_distinct_refuted",
    "C86_client_list_refuted"
   ],
   "note": "Proved for all schedules: only threads and frames that existed since the request, threads once each, errors only for a change meanwhile, exact while the playbook is stopped. Refuted while it runs: a list of threads that never existed together (inventory refreshed during the reading), a stack trace that misses a running include or shows a frame twice, a client's list with a thread that has exited. Partial: without an exit meanwhile the list is that of one moment; without a frame left no frame is missing; the client's list is right if no thread event is queued between a listing's request and its answer."
  },
  {
   "property": "C87",
   "status": "partial",
   "theorems": [
    "C87_settled_exact",
    "C87_no_spurious_stop",
    "C87_old_or_new_partial",
    "C87_filter_kept_refuted"
   ],
   "note": "The lost-stop clause is refuted on the model (C87_filter_kept_refuted: the dict is emptied before it is filled); the exact and no-spurious-stop clauses hold for every schedule. A dict is its list of keys; what follows a judgement is in LockModel and SysModel."
  },
  {
   "property": "C88",
   "status": "partial",
   "theorems": [
    "C88_settled_exact",
    "C88_settled_prefix",
    "C88_other_files_kept",
    "C88_no_stale_hit",
    "C88_kept_refuted"
   ],
   "note": "The kept-breakpoint clause is refuted on the model (C88_kept_refuted); the other clauses hold for every schedule. no_error: no setBreakpoints request was answered with an error (one that is leaves the breakpoints handled before it in the table)."
  }
 ]
}