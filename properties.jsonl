{"id": "C01", "title": "Outgoing byte stream is conserved", "statement": "Whatever sequence of queue_msg and data_to_send(n) calls is made on a DAP connection (any n, including -1, oversized and other negative values), the concatenation of every chunk handed out followed by what is still buffered is exactly the concatenation of the frames of the queued messages in queue order: no byte is lost, duplicated or reordered.", "quantifier": "all histories of queue_msg / data_to_send calls, all n, all messages", "why_tests_cant": "the set of call sequences and chunk sizes is infinite; unit tests try one or two", "anchors": ["src/ansibug/dap/_adapter.py:DebugAdapterConnection.data_to_send", "src/ansibug/dap/_adapter.py:DebugAdapterConnection.queue_msg"]}
{"id": "C02", "title": "Content-Length counts payload bytes", "statement": "For every message (any text content, including non-ASCII and control characters) the frame produced is 'Content-Length: N\\r\\n\\r\\n' followed by a payload of exactly N bytes, although N is computed from the character count of the JSON text; the payload is pure ASCII and never contains CR or LF.", "quantifier": "all messages and all unicode text in them", "why_tests_cant": "needs all unicode strings; a single multi-byte character would desynchronise the peer", "anchors": ["src/ansibug/dap/_adapter.py:DebugAdapterConnection.queue_msg"]}
{"id": "C03", "title": "Framing is independent of how the stream is cut", "statement": "If the bytes one connection produced for a list of messages reach another connection cut into chunks in any way, the receiver (calling next_message until None after each chunk, as DAServer.start does) obtains exactly those messages, in order, each once, and ends with an empty buffer.", "quantifier": "all message lists, all segmentations of the byte stream", "why_tests_cant": "exponentially many segmentations, unbounded streams", "anchors": ["src/ansibug/dap/_adapter.py:DebugAdapterConnection.next_message", "src/ansibug/dap/_adapter.py:DebugAdapterConnection.receive_data", "src/ansibug/_debug_adapter.py:DAServer.start"]}
{"id": "C04", "title": "Sequence numbers are gapless and checked", "statement": "queue_msg numbers outgoing messages 1,2,3,... without gap or repeat; on the receiving side the k-th body that is a message is accepted only if its seq is k, any other number raises ValueError, and accepted messages therefore carry strictly increasing consecutive numbers.", "quantifier": "all histories of queue_msg and next_message calls and all received numbers", "why_tests_cant": "histories are unbounded", "anchors": ["src/ansibug/dap/_adapter.py:DebugAdapterConnection._seq_no_out", "src/ansibug/dap/_adapter.py:DebugAdapterConnection._seq_no_in", "src/ansibug/dap/_adapter.py:DebugAdapterConnection.next_message"]}
{"id": "C05", "title": "JSON wire text round-trips", "statement": "Every JSON value (null, booleans, integers of any size, strings of arbitrary unicode scalar values, arrays and objects nested to any depth) written by the encoder is read back by the decoder as the same value.", "quantifier": "all JSON values without floats", "why_tests_cant": "unbounded nesting and all code points, including surrogate-pair escapes", "anchors": ["src/ansibug/dap/_adapter.py:DebugAdapterConnection.queue_msg", "src/ansibug/dap/_adapter.py:DebugAdapterConnection.next_message", "src/ansibug/dap/_messages.py:DAPEncoder"]}
{"id": "C06", "title": "Partial or malformed input is never half-consumed", "statement": "next_message on an incomplete frame returns None and leaves the buffer untouched; a header block that is malformed or lacks Content-Length raises and leaves the buffer untouched (so the same error recurs); a complete frame whose body is rejected is removed exactly, so the next frame is still read from its boundary.", "quantifier": "all buffer contents", "why_tests_cant": "all byte strings", "anchors": ["src/ansibug/dap/_adapter.py:DebugAdapterConnection.next_message"]}
{"id": "C07", "title": "Messages survive the wire", "statement": "For every request, response and event class registered by the library and every well-typed instance of it (required and optional fields, nested types, lists), unpacking the JSON of the packed message yields an equal object of the same class.", "quantifier": "all registered message classes and all instances (StepInRequest target_id excepted, see C10)", "why_tests_cant": "all field combinations and nested structures of ~45 classes", "anchors": ["src/ansibug/dap/_messages.py:DAPObjectMeta.default_pack", "src/ansibug/dap/_messages.py:DAPObjectMeta.default_unpack", "src/ansibug/dap/_messages.py:ProtocolMessage.unpack", "src/ansibug/dap/_requests.py", "src/ansibug/dap/_responses.py", "src/ansibug/dap/_events.py", "src/ansibug/dap/_types.py"]}
{"id": "C08", "title": "Dispatch by type and command is exact", "statement": "unpack yields a request/response/event object of exactly the class registered for the given type and command/event; unknown types, commands and events raise ValueError; a response with success=false is always an ErrorResponse whatever its command.", "quantifier": "all decoded JSON objects", "why_tests_cant": "all JSON objects", "anchors": ["src/ansibug/dap/_messages.py:ProtocolMessage.unpack", "src/ansibug/dap/_messages.py:DAPObjectMeta.REGISTRY"]}
{"id": "C09", "title": "Unknown and null members are ignored", "statement": "Adding members that the protocol table does not know to a message (at top level or inside arguments/body), or members whose value is null, does not change the object that is unpacked.", "quantifier": "all messages and all added members", "why_tests_cant": "all possible extra data", "anchors": ["src/ansibug/dap/_messages.py:DAPObjectMeta.default_unpack"]}
{"id": "C10", "title": "StepIn acts on the thread the client named", "statement": "A stepIn request steps the thread given as threadId, whatever other members (such as targetId) it carries.", "quantifier": "all stepIn requests", "why_tests_cant": "all combinations and member orders", "anchors": ["src/ansibug/dap/_requests.py:StepInRequest", "src/ansibug/ansible_collections/ansibug/dap/plugins/strategy/debug.py:AnsibleDebugState.step_in"]}
{"id": "C11", "title": "Launch and attach arguments are passed through verbatim", "statement": "Unpacking launch/attach removes only the protocol members noDebug and __restart from the arguments and keeps every client-defined member with its value; packing then unpacking gives the request back.", "quantifier": "all argument dictionaries", "why_tests_cant": "arbitrary client-defined dictionaries", "anchors": ["src/ansibug/dap/_requests.py:AttachRequest", "src/ansibug/dap/_requests.py:LaunchRequest"]}
{"id": "C12", "title": "setBreakpoints answers every breakpoint in order with a fresh id", "statement": "The response to setBreakpoints has exactly one entry per requested breakpoint, in request order, each with an id never used before in the process, and with the same source.", "quantifier": "all histories of setBreakpoints, file loads, disconnects", "why_tests_cant": "unbounded histories", "anchors": ["src/ansibug/_debuggee.py:AnsibleDebugger.process_message(SetBreakpointsRequest)"]}
{"id": "C13", "title": "setBreakpoints replaces exactly that source", "statement": "After a setBreakpoints request for a source, the active breakpoints of that source are exactly those of this request (none if empty or the source is modified) and those of all other sources are unchanged.", "quantifier": "all histories and requests", "why_tests_cant": "unbounded histories of requests over any set of sources", "anchors": ["src/ansibug/_debuggee.py:AnsibleDebugger.process_message(SetBreakpointsRequest)"]}
{"id": "C14", "title": "Breakpoint location is the enclosing task region", "statement": "For every loaded file and every non-negative line the computation terminates without error and reports the region that contains the line (the last region for lines past the end): it starts at the nearest registered line at or before it, ends just before the next registered line, and is verified iff that start is a place one can stop.", "quantifier": "all registration sequences and all lines", "why_tests_cant": "all file shapes and lines; termination of the scan", "anchors": ["src/ansibug/_debuggee.py:AnsibleDebugger._calculate_breakpoint", "src/ansibug/_debuggee.py:AnsibleDebugger.register_path_breakpoint"]}
{"id": "C15", "title": "The client's view of each breakpoint is current", "statement": "At every moment, for every active breakpoint, the last thing sent to the client about its id (setBreakpoints response or breakpoint changed event) has the same verified flag and line range the debugger uses for stopping, and this is the location computed from everything registered so far for the file.", "quantifier": "all interleaved histories of file loads and client requests", "why_tests_cant": "unbounded histories of registrations and requests", "anchors": ["src/ansibug/_debuggee.py:AnsibleDebugger.register_path_breakpoint", "src/ansibug/_debuggee.py:AnsibleDebugger.process_message(SetBreakpointsRequest)"]}
{"id": "C16", "title": "A breakpoint matches a task iff it was set in the task's region", "statement": "For a task at a registered line L of a loaded file, a breakpoint is found iff some active breakpoint of that file was requested on a line from L up to just before the next registered line (to infinity when L is the last).", "quantifier": "all histories, files, lines", "why_tests_cant": "all files/lines/histories", "anchors": ["src/ansibug/_debuggee.py:AnsibleDebugger.get_breakpoint"]}
{"id": "C17", "title": "Order of loading and setting breakpoints does not matter", "statement": "Setting a breakpoint before the file is loaded or after it gives the same final verified flag and line range.", "quantifier": "all files, lines and splits of the registration sequence", "why_tests_cant": "all interleavings", "anchors": ["src/ansibug/_debuggee.py:AnsibleDebugger.register_path_breakpoint"]}
{"id": "C18", "title": "Path mappings", "statement": "Paths are rewritten by the first mapping whose root is a prefix and keep the remainder; unmatched paths are unchanged; a client path rewritten to an Ansible path is rewritten back to itself when the mapping used is the only one that applies; a root only captures paths below it.", "quantifier": "all mapping lists and paths", "why_tests_cant": "all strings", "anchors": ["src/ansibug/_debuggee.py:AnsibleDebugger.convert_to_client_path", "src/ansibug/_debuggee.py:AnsibleDebugger.process_message(SetBreakpointsRequest)"]}
{"id": "C19", "title": "Exception filters are exactly those last set", "statement": "After setExceptionBreakpoints each of the three stop switches is on iff its filter id is in the most recent request.", "quantifier": "all histories", "why_tests_cant": "unbounded histories", "anchors": ["src/ansibug/_debuggee.py:AnsibleDebugger.should_stop_on_error", "src/ansibug/_debuggee.py:AnsibleDebugger.process_message(SetExceptionBreakpointsRequest)"]}
{"id": "C20", "title": "Every request the debuggee processes gets exactly one response", "statement": "For any request other than disconnect and whatever the outcome of its handler (including exceptions), exactly one response carrying the request's seq and command is queued; disconnect queues none (the adapter answers it) and ends the outgoing stream.", "quantifier": "all requests, all handler outcomes, all histories", "why_tests_cant": "every handler failure point", "anchors": ["src/ansibug/_debuggee.py:DAProtocol.on_msg_received", "src/ansibug/_debuggee.py:AnsibleDebugger.process_message"]}
{"id": "C21", "title": "Ids are never reused", "statement": "Thread, stack-frame, variable and breakpoint ids handed out over the life of the process are pairwise distinct within their kind, also across plays; host thread ids never equal the main thread's 1 and variable ids are never 0 (which means 'no children').", "quantifier": "all histories over all plays", "why_tests_cant": "unbounded histories", "anchors": ["src/ansibug/_debuggee.py:AnsibleDebugger.next_thread_id", "src/ansibug/_debuggee.py:AnsibleDebugger.next_stackframe_id", "src/ansibug/_debuggee.py:AnsibleDebugger.next_variable_id"]}
{"id": "C22", "title": "Nothing stops after disconnect", "statement": "After a disconnect or shutdown no line breakpoint matches, path mappings are empty, the playbook start gate is open and no thread known to the strategy is left waiting.", "quantifier": "all states", "why_tests_cant": "all states", "anchors": ["src/ansibug/_debuggee.py:AnsibleDebugger.shutdown", "src/ansibug/_debuggee.py:AnsibleDebugger._disconnect", "src/ansibug/ansible_collections/ansibug/dap/plugins/strategy/debug.py:AnsibleDebugState.disconnect"]}
{"id": "C23", "title": "Step over", "statement": "After a step over from a task, the thread stops at the next task that has the same enclosing include (or lack of one) and, if no breakpoint is hit, at no task before it; tasks inside an include entered meanwhile are passed.", "quantifier": "all task trees, all task sequences of a host", "why_tests_cant": "all playbook shapes", "anchors": ["src/ansibug/ansible_collections/ansibug/dap/plugins/strategy/debug.py:AnsibleThread.set_state", "src/ansibug/ansible_collections/ansibug/dap/plugins/strategy/debug.py:AnsibleThread._break_step_over", "src/ansibug/ansible_collections/ansibug/dap/plugins/strategy/debug.py:AnsibleThread.should_break"]}
{"id": "C24", "title": "Step in", "statement": "After a step in from an include the thread stops at the very next task; from any other task step in behaves exactly like step over.", "quantifier": "all task trees and sequences", "why_tests_cant": "all playbook shapes", "anchors": ["src/ansibug/ansible_collections/ansibug/dap/plugins/strategy/debug.py:AnsibleThread.set_state", "src/ansibug/ansible_collections/ansibug/dap/plugins/strategy/debug.py:AnsibleThread._break_step_in"]}
{"id": "C25", "title": "Step out", "statement": "After a step out from a task inside an include the thread stops at the next task outside of that include (and not at one nested deeper inside it).", "quantifier": "all task trees and sequences", "why_tests_cant": "all playbook shapes", "anchors": ["src/ansibug/ansible_collections/ansibug/dap/plugins/strategy/debug.py:AnsibleThread.set_state", "src/ansibug/ansible_collections/ansibug/dap/plugins/strategy/debug.py:AnsibleThread._break_step_out"]}
{"id": "C26", "title": "Breakpoint stops", "statement": "A running thread (continue) stops at a task iff a breakpoint matches its path and line and its condition, if any, evaluates true; the stopped event names that breakpoint and thread; a thread stepping out ignores breakpoints; conditions that fail to evaluate do not stop.", "quantifier": "all tasks, breakpoints, condition outcomes, thread states", "why_tests_cant": "all states and inputs", "anchors": ["src/ansibug/ansible_collections/ansibug/dap/plugins/strategy/debug.py:AnsibleThread.should_break", "src/ansibug/ansible_collections/ansibug/dap/plugins/strategy/debug.py:AnsibleDebugState.start_task"]}
{"id": "C27", "title": "Exception stops", "statement": "With the filters set, a thread stops at the end of a task iff the task failed without being ignored or rescued (on_error), was unreachable and not ignored (on_unreachable), or was skipped (on_skipped).", "quantifier": "all results, filters and block structures", "why_tests_cant": "all block nestings and flag combinations", "anchors": ["src/ansibug/ansible_collections/ansibug/dap/plugins/strategy/debug.py:AnsibleThread.should_stop_on_exception"]}
{"id": "C28", "title": "A stopped thread runs only after the client resumes it, and is never forgotten", "statement": "In every interleaving of the strategy thread and the request thread: once a stopped event for a thread is sent, its task does not proceed before a resume/disconnect for that thread is processed; and once one has been processed the strategy thread is able to proceed (no lost wake-up).", "quantifier": "all interleavings of strategy and receive threads", "why_tests_cant": "schedules cannot be enumerated by tests", "anchors": ["src/ansibug/ansible_collections/ansibug/dap/plugins/strategy/debug.py:AnsibleDebugState.start_task", "src/ansibug/ansible_collections/ansibug/dap/plugins/strategy/debug.py:AnsibleDebugState._resume_threads"]}
{"id": "C29", "title": "Resume requests touch only the named threads", "statement": "continue with singleThread, next, stepIn and stepOut change the state of the named thread only; continue without singleThread and disconnect change all; an unknown thread id changes nothing and yields an error.", "quantifier": "all states and requests", "why_tests_cant": "all states", "anchors": ["src/ansibug/ansible_collections/ansibug/dap/plugins/strategy/debug.py:AnsibleDebugState.continue_request", "src/ansibug/ansible_collections/ansibug/dap/plugins/strategy/debug.py:AnsibleDebugState._resume_threads"]}
{"id": "C30", "title": "Terminate ends the playbook", "statement": "After a terminate request (or disconnect with terminateDebuggee) has been processed, the strategy ends at the latest when the next task result is processed; it does not go on running tasks.", "quantifier": "all interleavings of client requests, shutdown and strategy progress", "why_tests_cant": "race between threads", "anchors": ["src/ansibug/_debuggee.py:AnsibleDebugger.process_message(TerminateRequest)", "src/ansibug/_debuggee.py:AnsibleDebugger.shutdown", "src/ansibug/ansible_collections/ansibug/dap/plugins/strategy/debug.py:AnsibleDebugState.disconnect", "src/ansibug/ansible_collections/ansibug/dap/plugins/strategy/debug.py:AnsibleDebugState.end_task"]}
{"id": "C31", "title": "Stack and variable bookkeeping never breaks", "statement": "For every history of task starts/ends, inventory refreshes and client requests, every frame id in a thread's stack resolves, every variable id of a live frame resolves, no variable belongs to two frames, and starting or ending a task never fails on a missing frame or variable.", "quantifier": "all histories in which a task is ended only after being started", "why_tests_cant": "unbounded histories", "anchors": ["src/ansibug/ansible_collections/ansibug/dap/plugins/strategy/debug.py:AnsibleDebugState.start_task", "src/ansibug/ansible_collections/ansibug/dap/plugins/strategy/debug.py:AnsibleDebugState.end_task", "src/ansibug/ansible_collections/ansibug/dap/plugins/strategy/debug.py:AnsibleDebugState.exit_threads", "src/ansibug/ansible_collections/ansibug/dap/plugins/strategy/debug.py:AnsibleDebugState._add_variable"]}
{"id": "C32", "title": "The stack trace is the chain of enclosing includes", "statement": "When a host's task is stopped, the stack trace lists that task followed by exactly the include tasks that enclose it, innermost first.", "quantifier": "all playbook shapes and task sequences of a host", "why_tests_cant": "all include nestings", "anchors": ["src/ansibug/ansible_collections/ansibug/dap/plugins/strategy/debug.py:AnsibleDebugState.start_task", "src/ansibug/ansible_collections/ansibug/dap/plugins/strategy/debug.py:AnsibleDebugState.end_task", "src/ansibug/ansible_collections/ansibug/dap/plugins/strategy/debug.py:AnsibleDebugState.get_stacktrace"]}
{"id": "C33", "title": "Variable references resolve while their frame lives", "statement": "Every non-zero variablesReference sent to the client can be expanded until the task frame it belongs to is gone, and if the value was not modified in between the expansion has exactly the advertised number of named and indexed children; after that the reference is rejected.", "quantifier": "all histories", "why_tests_cant": "unbounded histories of expansions and task progress", "anchors": ["src/ansibug/ansible_collections/ansibug/dap/plugins/strategy/debug.py:AnsibleDebugState.get_variables", "src/ansibug/ansible_collections/ansibug/dap/plugins/strategy/debug.py:AnsibleDebugState._add_variable", "src/ansibug/ansible_collections/ansibug/dap/plugins/strategy/debug.py:AnsibleDebugState.end_task"]}
{"id": "C34", "title": "setVariable takes effect and only there", "statement": "A successful setVariable is visible through every reference to the same object, leaves all other entries and objects unchanged, and replicates to the task's raw options for module options and to the host's persistent variables for host variables; a failing one changes nothing.", "quantifier": "all object graphs, references, names and values", "why_tests_cant": "aliasing over arbitrary object graphs", "anchors": ["src/ansibug/ansible_collections/ansibug/dap/plugins/strategy/debug.py:AnsibleDebugState.set_variable", "src/ansibug/ansible_collections/ansibug/dap/plugins/strategy/debug.py:AnsibleListVariable", "src/ansibug/ansible_collections/ansibug/dap/plugins/strategy/debug.py:AnsibleDictVariable", "src/ansibug/ansible_collections/ansibug/dap/plugins/strategy/debug.py:AnsibleDictWithRawStoreVariable", "src/ansibug/ansible_collections/ansibug/dap/plugins/strategy/debug.py:AnsibleHostVarsVariable"]}
{"id": "C35", "title": "Scopes", "statement": "A scopes request for a live frame returns Module Options, Task Variables, Host Variables, Global Variables in this order (preceded by Module Result when stopped on an exception), all with distinct fresh references that resolve and belong to the frame.", "quantifier": "all states and live frames", "why_tests_cant": "all states", "anchors": ["src/ansibug/ansible_collections/ansibug/dap/plugins/strategy/debug.py:AnsibleDebugState.get_scopes"]}
{"id": "C36", "title": "Thread events match the thread list", "statement": "threads lists main plus exactly the hosts for which a started event has been sent without a later exited event, each thread under the name of the host at whose task it was announced; each host thread gets one started and at most one exited event, in this order; at the end of a play all host threads have exited.", "quantifier": "all histories", "why_tests_cant": "unbounded histories", "anchors": ["src/ansibug/ansible_collections/ansibug/dap/plugins/strategy/debug.py:AnsibleDebugState._add_thread", "src/ansibug/ansible_collections/ansibug/dap/plugins/strategy/debug.py:AnsibleDebugState.exit_threads", "src/ansibug/ansible_collections/ansibug/dap/plugins/strategy/debug.py:AnsibleDebugState.get_threads"]}
{"id": "C37", "title": "Adapter/debuggee transport is lossless", "statement": "Messages sent on one end of the queue are delivered to the other end's handler in order, each once, for every way the socket fragments the bytes, and the closed callback runs exactly once, after the last of them.", "quantifier": "all message lists, all fragmentations", "why_tests_cant": "all segmentations", "anchors": ["src/ansibug/_mp_queue.py:MPQueue.send", "src/ansibug/_mp_queue.py:MPQueue._recv_handler", "src/ansibug/_socket_helper.py:SocketHelper.recv"]}
{"id": "C38", "title": "A cut connection never delivers a bogus message", "statement": "If the connection is lost at any byte, only messages that arrived completely are delivered, and the closed callback runs exactly once (with an exception iff the cut is inside a message).", "quantifier": "all crash points in all streams", "why_tests_cant": "all byte positions", "anchors": ["src/ansibug/_mp_queue.py:MPQueue._recv_handler", "src/ansibug/_socket_helper.py:SocketHelper.recv"]}
{"id": "C39", "title": "Oversized messages are refused, not corrupted", "statement": "A message whose pickle does not fit the 4-byte length is refused before any byte is sent; every other message is framed with its exact length.", "quantifier": "all message sizes", "why_tests_cant": "4 GiB boundary", "anchors": ["src/ansibug/_mp_queue.py:MPQueue.send"]}
{"id": "C40", "title": "Cancellation is complete and exact", "statement": "After cancel() returns, every operation that was in flight has had its abort callback run exactly once and no operation starts any more; operations that finished before are not called; ids never collide.", "quantifier": "all interleavings of operations and cancel on any number of threads", "why_tests_cant": "all interleavings", "anchors": ["src/ansibug/_socket_helper.py:SocketCancellationToken"]}
{"id": "C41", "title": "Client connection tries every address", "statement": "start() connects to the first address that accepts, in resolver order, closes every socket that failed, and fails with the last error only if all fail.", "quantifier": "all resolver results and outcomes", "why_tests_cant": "all outcome sequences", "anchors": ["src/ansibug/_mp_queue.py:ClientMPQueue.start"]}
{"id": "C42", "title": "A TLS server survives failed handshakes", "statement": "The listening debuggee returns from start with the first peer whose handshake (and first byte) succeeds; earlier failing peers are closed and do not end the wait; other errors do.", "quantifier": "all sequences of peers", "why_tests_cant": "all outcome sequences", "anchors": ["src/ansibug/_mp_queue.py:ServerMPQueue.start"]}
{"id": "C43", "title": "The session ends with exactly one terminated event", "statement": "Whatever mix of disconnects, debuggee exits, errors and repeated stop calls occurs, exactly one terminated event is sent by the end, and the response to an outstanding disconnect request precedes it.", "quantifier": "all histories of adapter events", "why_tests_cant": "all orders of shutdown causes", "anchors": ["src/ansibug/_debug_adapter.py:DAServer.stop"]}
{"id": "C44", "title": "Fatal adapter errors answer every outstanding request", "statement": "If the adapter stops because of an exception, every request received and not yet answered gets exactly one response naming its seq, and no request is answered twice by the adapter over its life.", "quantifier": "all histories", "why_tests_cant": "all crash points", "anchors": ["src/ansibug/_debug_adapter.py:DAServer.stop", "src/ansibug/_debug_adapter.py:DAServer.send_to_client", "src/ansibug/_debug_adapter.py:DAServer.start"]}
{"id": "C45", "title": "The adapter exits when the client goes away", "statement": "When stdin reaches end of file the adapter process ends.", "quantifier": "all histories", "why_tests_cant": "infinite executions", "anchors": ["src/ansibug/_debug_adapter.py:DAServer.start"]}
{"id": "C46", "title": "Messages to the client are not corrupted by concurrency", "statement": "send_to_client from the main thread and from the debuggee receive thread produce, in every interleaving, a stream in which every message appears exactly once with distinct consecutive sequence numbers.", "quantifier": "all interleavings of two senders", "why_tests_cant": "schedules", "anchors": ["src/ansibug/_debug_adapter.py:DAServer.send_to_client", "src/ansibug/dap/_adapter.py:DebugAdapterConnection.queue_msg", "src/ansibug/dap/_adapter.py:DebugAdapterConnection.data_to_send"]}
{"id": "C47", "title": "Launch and attach settings", "statement": "from_json applies the documented defaults, keeps every given value, rejects a launch without playbook and unknown consoles, keeps path mappings in order; an attach by process id wins over an address and neither is an error.", "quantifier": "all argument dictionaries", "why_tests_cant": "all dictionaries", "anchors": ["src/ansibug/_debug_adapter.py:LaunchArguments.from_json", "src/ansibug/_debug_adapter.py:AttachArguments.from_json", "src/ansibug/_debug_adapter.py:AttachArguments.get_connection_tuple"]}
{"id": "C48", "title": "The launch script runs exactly the intended command", "statement": "For every interpreter path, address and log file (any characters), the shell parses the generated command line into exactly the intended argument vector; nothing is expanded or executed; the embedded socket name is restored exactly.", "quantifier": "all strings", "why_tests_cant": "all strings incl. quotes, $, spaces, newlines", "anchors": ["src/ansibug/_debug_adapter.py:DAServer._process_msg(LaunchRequest)"]}
{"id": "C49", "title": "Addresses round-trip", "statement": "The address string a listener reports is parsed by the other side to the address the socket is bound to; malformed addresses are rejected with ValueError.", "quantifier": "all bound addresses / all strings", "why_tests_cant": "all path strings", "anchors": ["src/ansibug/_socket_helper.py:parse_addr_string", "src/ansibug/_mp_queue.py:MPQueue.address"]}
{"id": "C50", "title": "Launching preserves the user's Ansible configuration", "statement": "The environment for ansible-playbook has ansibug's callback and collection path first, followed by all of the user's configured entries in order; PYTHONPATH likewise; all other inherited variables are unchanged.", "quantifier": "all configurations and environments", "why_tests_cant": "all configurations", "anchors": ["src/ansibug/_exec_playbook.py:_configure_ansible_env", "src/ansibug/_exec_playbook.py:_exec_playbook"]}
{"id": "C51", "title": "TLS verification is off only on request", "statement": "A client context skips verification iff tlsVerification is 'ignore'; any other value verifies, using the given CA path or failing if it does not exist; a server context demands client certificates iff a client CA is given.", "quantifier": "all settings", "why_tests_cant": "all strings", "anchors": ["src/ansibug/_tls.py:create_client_tls_context", "src/ansibug/_tls.py:create_server_tls_context"]}
{"id": "C52", "title": "Shutdown and start-up waits end", "statement": "The playbook process does not hang: waiting for configuration ends when the connection fails or is closed, and shutdown() returns.", "quantifier": "all interleavings of main, send and receive threads", "why_tests_cant": "liveness over schedules", "anchors": ["src/ansibug/_debuggee.py:AnsibleDebugger.shutdown", "src/ansibug/_debuggee.py:AnsibleDebugger._send_task", "src/ansibug/_debuggee.py:AnsibleDebugger.wait_for_config_done", "src/ansibug/_debuggee.py:AnsibleDebugger._get_strategy"]}
{"id": "C53", "title": "Debug console commands", "statement": "'!template expr' evaluates the text after the command verbatim; '!set_option name expr' and '!set_hostvar name expr' bind name to the text after it; aliases behave as the full names.", "quantifier": "all expressions and plain names", "why_tests_cant": "all strings", "anchors": ["src/ansibug/ansible_collections/ansibug/dap/plugins/plugin_utils/_repl_util.py:parse_repl_args"]}
{"id": "C54", "title": "Evaluate routing", "statement": "evaluate with a frame in repl/watch/clipboard/variables contexts evaluates in that frame and reports errors as text, never as a failure, and changes no variable; repl '!' commands change exactly the addressed variable containers; other contexts or missing frames answer 'not implemented'.", "quantifier": "all states and requests", "why_tests_cant": "all states", "anchors": ["src/ansibug/ansible_collections/ansibug/dap/plugins/strategy/debug.py:AnsibleDebugState.evaluate", "src/ansibug/ansible_collections/ansibug/dap/plugins/strategy/debug.py:AnsibleDebugState._safe_evaluate_expression"]}
{"id": "C55", "title": "Process discovery file", "statement": "In listen mode the pid file exists with an address/TLS record that reads back exactly from start until shutdown and is gone afterwards; shutdown is idempotent; connect mode never creates it.", "quantifier": "all histories of start/shutdown", "why_tests_cant": "histories", "anchors": ["src/ansibug/_debuggee.py:PlaybookProcessInfo", "src/ansibug/_debuggee.py:AnsibleDebugger.start", "src/ansibug/_debuggee.py:AnsibleDebugger.shutdown"]}
{"id": "C56", "title": "Breakpoint registration covers every task of the play", "statement": "Loading a play or block list registers every task of every nested block, rescue and always section that has a path as a stop place and every explicit block as a non-stop place, and nothing else.", "quantifier": "all block trees", "why_tests_cant": "all tree shapes", "anchors": ["src/ansibug/ansible_collections/ansibug/dap/plugins/plugin_utils/_breakpoints.py:register_block_breakpoints", "src/ansibug/ansible_collections/ansibug/dap/plugins/plugin_utils/_breakpoints.py:register_play_breakpoints"]}
{"id": "C57", "title": "Stop details text", "statement": "The text of an exception stop is msg, else stdout, else 'Unknown error', followed by the exception if present; a skip gives the reason and false condition.", "quantifier": "all result dictionaries", "why_tests_cant": "all dictionaries", "anchors": ["src/ansibug/ansible_collections/ansibug/dap/plugins/plugin_utils/_breakpoints.py:get_on_failed_details", "src/ansibug/ansible_collections/ansibug/dap/plugins/plugin_utils/_breakpoints.py:get_on_skipped_details"]}
{"id": "C58", "title": "Breakpoint table is safe under concurrency", "statement": "The strategy thread can look up and register breakpoints while the client changes them without failing.", "quantifier": "all interleavings of lookup and setBreakpoints", "why_tests_cant": "schedules", "anchors": ["src/ansibug/_debuggee.py:AnsibleDebugger.get_breakpoint", "src/ansibug/_debuggee.py:AnsibleDebugger.process_message(SetBreakpointsRequest)"]}
{"id": "C59", "title": "Only valid UTF-8 is accepted", "statement": "The body of a message from the client is accepted only if its bytes are the UTF-8 encoding of some text, and then that text is what is parsed; overlong, truncated, surrogate and out-of-range sequences are rejected.", "quantifier": "all byte strings", "why_tests_cant": "all byte sequences", "anchors": ["src/ansibug/dap/_adapter.py:DebugAdapterConnection.next_message"]}
{"id": "C60", "title": "What the user asks for reaches the debugger", "statement": "The mode, address, wait, TLS certificate/key/password, client CA and log settings given on the command line are exactly those the debugger inside ansible-playbook starts with, whatever the inherited environment; ansibug's TLS and log variables in it count only for settings not given; TLS asked for is never dropped.", "quantifier": "all settings and inherited environments", "why_tests_cant": "all combinations", "anchors": ["src/ansibug/_exec_playbook.py:_exec_playbook", "plugins/callback/debug.py:CallbackModule.v2_playbook_on_start"]}
{"id": "C61", "title": "Breakpoints set while files are loading end up placed", "statement": "Whatever the order in which Ansible registers the lines of a file and the client sets breakpoints in it, once both are done every stored breakpoint is at the region the registrations give it and the client was last told so.", "quantifier": "all interleavings of registrations and setBreakpoints requests", "why_tests_cant": "schedules", "anchors": ["src/ansibug/_debuggee.py:AnsibleDebugger.register_path_breakpoint", "src/ansibug/_debuggee.py:AnsibleDebugger.process_message(SetBreakpointsRequest)"]}
{"id": "C62", "title": "Debug logging does not change what the adapter does", "statement": "With the log level debug the adapter handles the same client messages, in the same way, and writes the same bytes as with any other level.", "quantifier": "all client byte streams, all ways stdin.read cuts them, all messages sent", "why_tests_cant": "streams and read boundaries", "anchors": ["src/ansibug/_debug_adapter.py:DAServer.start", "src/ansibug/_debug_adapter.py:DAServer.send_to_client"]}
{"id": "C63", "title": "Any client stream is read the same however it arrives", "statement": "For every byte stream a client writes, well formed or not, the messages handled and the exception that ends the session (or none) depend on the bytes only, not on how reads cut them.", "quantifier": "all byte streams, all segmentations", "why_tests_cant": "all byte strings times exponentially many segmentations", "anchors": ["src/ansibug/_debug_adapter.py:DAServer.start", "src/ansibug/dap/_adapter.py:DebugAdapterConnection.next_message"]}
{"id": "C64", "title": "The command line means what it says and playbook arguments pass through", "statement": "ansibug starts a playbook exactly for the command lines 'connect' (with an address) and 'listen', and the adapter exactly for 'dap': options before the playbook, in full or unambiguously abbreviated, with values separate or after '=', set what they name, the last one counts, defaults apply otherwise, and everything from the first non-option on is passed to ansible-playbook unchanged and unread (except that Python versions that classify arguments first refuse one that abbreviates two of ansibug's options). The command the launch script runs is such a line, so a launch starts ansible-playbook with exactly the requested playbook and arguments, connected to the adapter's address, waiting for the client and logging as asked.", "quantifier": "all command lines, and all launch requests whose playbook, address and log file do not begin with a dash", "why_tests_cant": "all argument vectors", "anchors": ["src/ansibug/__main__.py:parse_args,main", "src/ansibug/_exec_playbook.py:exec_playbook_connect,exec_playbook_listen"]}
{"id": "C65", "title": "A request on the wire acts as its members say", "statement": "Whenever a client's bytes are JSON text of a DAP request, the debuggee performs exactly the action that the JSON members named by the protocol describe: the thread, frame, breakpoint lines and conditions, expression and flags are those given under their DAP member names, and absent optional members take fixed defaults (continue affects only the named thread unless singleThread is false); unknown extra members change nothing.", "quantifier": "all JSON texts of requests", "why_tests_cant": "all JSON documents and member orders", "anchors": ["src/ansibug/dap/_requests.py:*Request", "src/ansibug/_debuggee.py:AnsibleDebugger.process_message", "src/ansibug/dap/_messages.py:unpack_message", "src/ansibug/ansible_collections/ansibug/dap/plugins/strategy/debug.py:AnsibleDebugState.continue_request"]}
{"id": "C66", "title": "Every message to the client says what happened", "statement": "Every message the debuggee queues in any session can be written to the client, as one frame of JSON text whose members, under the names of the Debug Adapter Protocol, carry exactly what happened: the answered request and whether it succeeded, and every breakpoint, stop reason, thread, frame, scope, variable, evaluation result or error text of it; the source of a breakpoint is reported with the path the client gave.", "quantifier": "all sessions of the debuggee and all messages it queues", "why_tests_cant": "all message values, list lengths, texts", "anchors": ["src/ansibug/dap/_responses.py:*Response", "src/ansibug/dap/_events.py:*Event", "src/ansibug/dap/_types.py:Breakpoint,Scope,StackFrame,Thread,Variable,Source", "src/ansibug/ansible_collections/ansibug/dap/plugins/strategy/debug.py:AnsibleDebugState", "src/ansibug/_debuggee.py:AnsibleDebugger"]}
{"id": "C67", "title": "The adapter's own messages say what it does", "statement": "The adapter's own messages can always be written and carry under DAP names what the adapter did: the acknowledgement of initialize lists exactly the supported capabilities and three exception filters, each of which switches its own kind of stop in the debuggee; attach, launch, disconnect and error responses name the request they answer; and the runInTerminal request asks for the launch script followed by the playbook and arguments of the launch request, in the directory, environment and terminal of the launch request.", "quantifier": "all launch requests, requests, filter selections and connection states", "why_tests_cant": "all launch documents and arguments", "anchors": ["src/ansibug/_debug_adapter.py:DAServer._process_msg,stop", "src/ansibug/dap/_requests.py:RunInTerminalRequest", "src/ansibug/dap/_responses.py:InitializeResponse", "src/ansibug/dap/_types.py:Capabilities,ExceptionBreakpointsFilter"]}
{"id": "C68", "title": "The client's breakpoints stop the playbook, in any session", "statement": "In every session, whatever requests, plays, includes, roles and connections came before: when a task of a loaded file starts on a freely running host, the playbook stops there iff the oldest of the client's current breakpoints set in the task's region (after path mapping; a setBreakpoints request replaces those of its source, the end of a session removes all) has no condition or a true one. The playbook then waits, and the client gets exactly one stopped event, naming a breakpoint last reported to it at this task and in the source it was set in. A stepping host stops there as well unless it steps out.", "quantifier": "all interleavings of client requests and playbook execution, all files, lines, mappings and conditions", "why_tests_cant": "all histories of requests, registrations and strategy steps", "anchors": ["src/ansibug/_debuggee.py:AnsibleDebugger.get_breakpoint", "src/ansibug/_debuggee.py:AnsibleDebugger.register_path_breakpoint", "src/ansibug/ansible_collections/ansibug/dap/plugins/strategy/debug.py:AnsibleDebugState.start_task", "src/ansibug/ansible_collections/ansibug/dap/plugins/callback/debug.py:CallbackModule.v2_playbook_on_start"]}
{"id": "C69", "title": "The client's exception filters stop the playbook, in any session", "statement": "In every session, when the result of a task comes back the playbook stops (one stopped event with reason exception, and it waits) iff the filters of the client's most recent setExceptionBreakpoints request ask for it: an unignored failure no enclosing block rescues, an unignored unreachable host, or a skipped task.", "quantifier": "all interleavings of client requests and playbook execution, all results and block structures", "why_tests_cant": "all histories and results", "anchors": ["src/ansibug/ansible_collections/ansibug/dap/plugins/strategy/debug.py:AnsibleDebugState.end_task", "src/ansibug/ansible_collections/ansibug/dap/plugins/strategy/debug.py:AnsibleThread.should_stop_on_exception", "src/ansibug/_debuggee.py:AnsibleDebugger.process_message"]}
{"id": "C70", "title": "Stepping over a whole session", "statement": "In every session: after a host stopped at a task and the client sent continue, next, stepIn or stepOut for its thread, a later task of that host stops the playbook iff the command asks for it, no matter which other hosts run, which other requests are made and which tasks of the host start and end in between. continue: only at a breakpoint. next: at a task that comes from the same include or import statement (or both directly from the play), or at a breakpoint. stepIn: at the very next task if stopped at an include, else like next. stepOut: at a task that does not come directly from the enclosing include (never if there is none), ignoring breakpoints. The client gets exactly one stopped event on that thread, with reason step when the step asks for the stop and breakpoint otherwise.", "quantifier": "all interleavings of client requests, other hosts and playbook execution, all include and import structures", "why_tests_cant": "all histories and schedules", "anchors": ["src/ansibug/ansible_collections/ansibug/dap/plugins/strategy/debug.py:AnsibleThread.set_state", "src/ansibug/ansible_collections/ansibug/dap/plugins/strategy/debug.py:AnsibleThread.should_break", "src/ansibug/ansible_collections/ansibug/dap/plugins/strategy/debug.py:AnsibleDebugState.start_task", "src/ansibug/ansible_collections/ansibug/dap/plugins/strategy/debug.py:AnsibleDebugState.continue_request"]}
{"id": "C71", "title": "A connected session, from the client's bytes to the client's bytes", "statement": "Once a client is connected, whatever the pieces its bytes arrive in and however the two processes and the playbook interleave, the bytes the client gets are framed messages numbered consecutively which tell, in order, the messages the debugger queued while it acted on the client's requests, one by one, in the order sent, and on nothing else (C71_session); when nothing is on its way and no terminate was sent, every request has exactly one response, in the order of the requests (C71_answered); and as long as something is on its way a step is possible, unless a request waits for a play to start or the debuggee was told to terminate (C71_progress).", "quantifier": "all sequences of requests other than disconnect, all splits of their bytes, all interleavings of reading, forwarding, receiving, sending and writing with all playbook executions, all earlier histories of the debuggee", "why_tests_cant": "all interleavings and histories", "anchors": ["src/ansibug/_debug_adapter.py:DAServer.start", "src/ansibug/_debug_adapter.py:DAServer.send_to_client", "src/ansibug/_debuggee.py:AnsibleDebugger._send_task", "src/ansibug/_debuggee.py:DAProtocol.on_msg_received", "src/ansibug/_debuggee.py:AnsibleDebugger.process_message", "src/ansibug/dap/_adapter.py:DebugAdapterConnection.next_message"]}
{"id": "C72", "title": "Only the user can reach ansibug's sockets and scripts", "statement": "At every moment of opening a listening unix socket, whatever the umask, the platform and the failures of the calls, nobody but the owner has any permission on the socket file, and it is the only file made; the umask of the process is as before when the attempt ends; the launch script is at every moment inaccessible to others and executable by the owner when complete; when a listening debuggee has ended normally its socket file is gone. (The full claim, that every file left is private and removed, fails: the process file follows the umask and a failing listen() leaves the socket file.)", "quantifier": "all addresses, umasks, answers of the operating system to every call, and acts of other processes between the calls", "why_tests_cant": "all failure points and interleavings with other processes", "anchors": ["src/ansibug/_socket_helper.py:create_uds_with_mask", "src/ansibug/_mp_queue.py:ServerMPQueue.__init__", "src/ansibug/_mp_queue.py:ServerMPQueue.stop", "src/ansibug/_debug_adapter.py:DAServer._process_msg(LaunchRequest)", "src/ansibug/_debuggee.py:AnsibleDebugger.start"]}
{"id": "C73", "title": "Stopping a queue closes its sockets", "statement": "Once a server queue was constructed, connected and stopped, every socket it opened is closed: the listening one, the accepted one and those of refused TLS handshakes. If the start may fail, or on the connecting side, at most one socket is left open. (The full claim, that none is, fails: a peer that leaves before the first byte, the client's unused first socket, and a stop() whose unlink fails leave a socket open.)", "quantifier": "all numbers of refused handshakes, addresses of the resolver, and failures of every call", "why_tests_cant": "all failure points", "anchors": ["src/ansibug/_mp_queue.py:ServerMPQueue", "src/ansibug/_mp_queue.py:ClientMPQueue", "src/ansibug/_mp_queue.py:MPQueue.stop", "src/ansibug/_socket_helper.py:SocketHelper", "src/ansibug/_debuggee.py:AnsibleDebugger._send_task"]}
{"id": "C74", "title": "The debugger does not change what the playbook does", "statement": "Whatever Ansible does and whatever the client does, in whatever interleaving: the calls of the linear strategy's own methods and the answers Ansible gets are ones it would make and get without the debug strategy, and a playbook that ends, ends with the same code or exception; every task is shown to the debugger before it runs, once and in order, every result after it came, included blocks and refreshed hosts registered; while stopped, Ansible does nothing; the debugger never gets the playbook stuck except at a stop; it ends the play only if the client asked for it (terminate, disconnect with terminateDebuggee) or a breakpoint's condition or a task without role raised, and then the exception comes out of the method Ansible had called.", "quantifier": "all programs of calls Ansible may be, all answers of the base class, all client requests and interleavings", "why_tests_cant": "all programs and schedules", "anchors": ["src/ansibug/ansible_collections/ansibug/dap/plugins/strategy/debug.py:StrategyModule._execute_meta", "src/ansibug/ansible_collections/ansibug/dap/plugins/strategy/debug.py:StrategyModule._load_included_file", "src/ansibug/ansible_collections/ansibug/dap/plugins/strategy/debug.py:StrategyModule._queue_task", "src/ansibug/ansible_collections/ansibug/dap/plugins/strategy/debug.py:StrategyModule._process_pending_results", "src/ansibug/ansible_collections/ansibug/dap/plugins/strategy/debug.py:StrategyModule.run"]}
{"id": "C75", "title": "A variable's type name follows its builtin base, and expandability agrees with it", "statement": "For every value, the type shown by variables, setVariable and evaluate is the name of the builtin it derives from (str, bool before int, float, tuple; dict for any mapping, list for any other sequence), and the class name otherwise; and a value is reported with named children exactly if its type is dict, with indexed children exactly if it is list or tuple, the same in a variables response and in a setVariable response.", "quantifier": "every class a value can have, given by what isinstance says of it, including virtual subclasses", "why_tests_cant": "classes come from Ansible, its collections and any filter plugin; a test sees only the classes its author thought of", "anchors": ["src/ansibug/ansible_collections/ansibug/dap/plugins/plugin_utils/_variables.py:get_canonicalized_variable_type", "src/ansibug/ansible_collections/ansibug/dap/plugins/strategy/debug.py:AnsibleDebugState.get_variables", "src/ansibug/ansible_collections/ansibug/dap/plugins/strategy/debug.py:AnsibleDebugState.set_variable", "src/ansibug/ansible_collections/ansibug/dap/plugins/strategy/debug.py:AnsibleDebugState._add_variable"]}
{"id": "C76", "title": "The callback and the strategy use one debugger", "statement": "All calls of AnsibleDebugger() in the Ansible process return the same object and no second one is made; a constructor that raises leaves nothing behind, and the next call makes the object. (The full claim fails: two racing first calls make two. It holds if no call begins between the check and the store of the first one, as in Ansible, where the callback plugin is loaded before any play runs.)", "quantifier": "all numbers of threads and calls, all interleavings of their steps, all failures of the constructor", "why_tests_cant": "all interleavings", "anchors": ["src/ansibug/_singleton.py:Singleton.__call__", "src/ansibug/ansible_collections/ansibug/dap/plugins/callback/debug.py:CallbackModule.__init__", "src/ansibug/ansible_collections/ansibug/dap/plugins/strategy/debug.py:StrategyModule.run"]}
{"id": "C77", "title": "The variables view shows the playbook's data", "statement": "A variables request for a reference answers with exactly the entries the mapping or sequence it stands for has at that moment, in order: names, text and type, plain values without a reference, mappings and sequences with a reference to that very object and their sizes, dataclass instances as a dict of their attributes; nothing existing is changed. A reference keeps standing for the same object while its frame lives. A setVariable response shows the stored value in the same way.", "quantifier": "all sessions, objects, nestings and references", "why_tests_cant": "all histories and object graphs", "anchors": ["src/ansibug/ansible_collections/ansibug/dap/plugins/strategy/debug.py:AnsibleDebugState.get_variables", "src/ansibug/ansible_collections/ansibug/dap/plugins/strategy/debug.py:AnsibleDebugState.set_variable", "src/ansibug/ansible_collections/ansibug/dap/plugins/strategy/debug.py:AnsibleListVariable", "src/ansibug/ansible_collections/ansibug/dap/plugins/strategy/debug.py:AnsibleDictVariable"]}
{"id": "C78", "title": "Requests are refused exactly when they cannot be carried out, and then change nothing", "statement": "With a play running: continue, next, stepIn, stepOut and stackTrace for a thread are accepted iff the thread exists (stackTrace also needs every task on the stack to come from a file); continue for all, disconnect and terminate are never refused; setVariable and the console's set-option and set-hostvar are accepted iff the reference (for the console: fetched scopes) exists, the value evaluates and Python's item assignment accepts the object; requests about unknown frames and references are refused. configurationDone and setExceptionBreakpoints are accepted, and unknown requests refused, with or without a play. A refused request changes no breakpoint, filter, path mapping, thread, stack or flag.", "quantifier": "all sessions and requests", "why_tests_cant": "all histories and request arguments", "anchors": ["src/ansibug/_debuggee.py:AnsibleDebugger.process_message", "src/ansibug/_debuggee.py:DAProtocol.on_msg_received", "src/ansibug/ansible_collections/ansibug/dap/plugins/strategy/debug.py:AnsibleDebugState"]}
{"id": "C79", "title": "A stopped event leads the client to the stopped task", "statement": "A stopped event is sent exactly when a starting or ending task makes the playbook wait: one event per stop, naming the thread that waits. Until the playbook goes on, a threads request lists this thread once, under the name of the host whose task was started or ended last, and a stackTrace request for it shows that host's current task on top, followed by the includes still open.", "quantifier": "all sessions, all stops, all requests made in between", "why_tests_cant": "needs the thread table, the frames, the events and the playbook's history to agree at every stop of every session", "anchors": ["src/ansibug/ansible_collections/ansibug/dap/plugins/strategy/debug.py:AnsibleDebugState.start_task", "src/ansibug/ansible_collections/ansibug/dap/plugins/strategy/debug.py:AnsibleDebugState.end_task", "src/ansibug/ansible_collections/ansibug/dap/plugins/strategy/debug.py:AnsibleDebugState.get_threads", "src/ansibug/ansible_collections/ansibug/dap/plugins/strategy/debug.py:AnsibleDebugState.get_stacktrace"]}
{"id": "C80", "title": "A log file gets exactly the records asked for", "statement": "Once logging to a file with a severity is switched on, that file receives every record of ansibug's own loggers of at least that severity, each exactly once, in order, in the format asked for (or the default), after whatever was in the file and interleaved with what other processes append; no other file receives any, and nothing is written when no log was asked for. An unknown severity is refused before anything is touched. A crash of the adapter ends the log, whatever the severity, and logging never changes the adapter's result.", "quantifier": "all histories of configurations, records and foreign writes; all files, severities and formats", "why_tests_cant": "all interleavings of records and other writers, all severities and file contents", "anchors": ["src/ansibug/_logging.py:configure_file_logging", "src/ansibug/_debug_adapter.py:start_dap", "src/ansibug/ansible_collections/ansibug/dap/plugins/callback/debug.py:CallbackModule.v2_playbook_on_start"]}
{"id": "C81", "title": "Every playbook of one run can be debugged", "statement": "When ansible-playbook is given several playbooks, the debugger of each one waits for a client and its configuration, a client can connect to it and its requests are read.", "quantifier": "all runs of any number of playbooks, all modes, all schedules of the three threads and all client behaviour", "why_tests_cant": "ranges over histories of whole playbooks in one process, whose debugger state is carried over", "anchors": ["src/ansibug/_debuggee.py:AnsibleDebugger.start", "src/ansibug/_debuggee.py:AnsibleDebugger.shutdown", "src/ansibug/_socket_helper.py:SocketCancellationToken.with_cancel", "src/ansibug/ansible_collections/ansibug/dap/plugins/callback/debug.py:CallbackModule.v2_playbook_on_start"]}
{"id": "C82", "title": "What the client sees and changes at a stop is what the task runs with", "statement": "At a stop, the frames of the stopped thread are those of the task started last on its host and of the includes around it; the scopes of a frame stand for the very objects Ansible runs that task with (its templated options backed by its own options, its variables, its host's, the global ones; at a stop on a result, this result), and the variables requests show their entries. Nothing but setVariable and console commands changes any object of the playbook, however long the session. An entry of Module Options, Task Variables or Global Variables set by the client is in the object the task runs with, with the value of the expression in the task's variables, when the client resumes the thread and after it; an entry of Host Variables is handed, as it is and for this host only, to the variable manager.", "quantifier": "all sessions, stops, requests in between, objects and expressions", "why_tests_cant": "all histories; needs the stack, the frames, the variable table and Ansible's objects to agree at every stop", "anchors": ["src/ansibug/ansible_collections/ansibug/dap/plugins/strategy/debug.py:AnsibleDebugState.get_scopes", "src/ansibug/ansible_collections/ansibug/dap/plugins/strategy/debug.py:AnsibleDebugState.set_variable", "src/ansibug/ansible_collections/ansibug/dap/plugins/strategy/debug.py:AnsibleDebugState.get_variables", "src/ansibug/ansible_collections/ansibug/dap/plugins/strategy/debug.py:AnsibleDebugState.get_stacktrace", "src/ansibug/ansible_collections/ansibug/dap/plugins/strategy/debug.py:StrategyModule._queue_task"]}
{"id": "C83", "title": "The client's last word on a breakpoint is what is in force", "statement": "However setting breakpoints and loading files overlap, once both are done the last thing the client was told about each breakpoint in force (in the response that announced it or in a change event) is what the debugger matches tasks against.", "quantifier": "all interleavings, action by action, of registrations, look-ups, setBreakpoints requests and resets", "why_tests_cant": "two threads share the breakpoint table without a lock; the messages they queue can cross in any order", "anchors": ["src/ansibug/_debuggee.py:AnsibleDebugger.register_path_breakpoint", "src/ansibug/_debuggee.py:AnsibleDebugger.process_message(SetBreakpointsRequest)", "src/ansibug/_debuggee.py:AnsibleDebugger.queue_msg"]}
{"id": "C84", "title": "A step is answered before the next stop, and the client can tell where it stands", "statement": "continue, next, stepIn and stepOut are answered exactly once, after the states of the threads were set; the stopped event at the end of a step comes after the step's response; and from the responses and stopped events it received a client can tell, at any quiet moment, which threads are stopped.", "quantifier": "all interleavings of the strategy thread and the receive thread, all sequences of such requests, including requests sent while nothing is stopped", "why_tests_cant": "the response is queued after the lock is released, so whether the resumed thread reaches its next stop first depends on the scheduler", "anchors": ["src/ansibug/_debuggee.py:AnsibleDebugger.process_message(ContinueRequest, NextRequest, StepInRequest, StepOutRequest)", "src/ansibug/_debuggee.py:DAProtocol.on_msg_received", "src/ansibug/ansible_collections/ansibug/dap/plugins/strategy/debug.py:AnsibleDebugState.continue_request", "src/ansibug/ansible_collections/ansibug/dap/plugins/strategy/debug.py:AnsibleDebugState._resume_threads", "src/ansibug/ansible_collections/ansibug/dap/plugins/strategy/debug.py:AnsibleDebugState.start_task"]}
{"id": "C85", "title": "Inspecting variables never disturbs the playbook", "statement": "Whatever scopes, variables and setVariable requests arrive while the playbook goes on: removing a stack frame with its variables never fails, every variable reference is given out once, a reference is answered as long as its frame exists, and never again once the frame's variables were deleted.", "quantifier": "all interleavings, access by access, of tasks starting, stopping with a result and ending, and of requests that add variables", "why_tests_cant": "the request thread adds variables without a lock, and the counter for references is read and written in separate steps", "anchors": ["src/ansibug/ansible_collections/ansibug/dap/plugins/strategy/debug.py:AnsibleDebugState._add_variable", "src/ansibug/ansible_collections/ansibug/dap/plugins/strategy/debug.py:AnsibleDebugState.start_task", "src/ansibug/ansible_collections/ansibug/dap/plugins/strategy/debug.py:AnsibleDebugState.end_task", "src/ansibug/ansible_collections/ansibug/dap/plugins/strategy/debug.py:AnsibleDebugState.get_scopes", "src/ansibug/ansible_collections/ansibug/dap/plugins/strategy/debug.py:AnsibleDebugState.get_variables", "src/ansibug/ansible_collections/ansibug/dap/plugins/strategy/debug.py:AnsibleDebugState.set_variable", "src/ansibug/_debuggee.py:AnsibleDebugger.next_variable_id"]}
{"id": "C86", "title": "The thread list and the stack trace describe the playbook", "statement": "A threads answer lists each thread at most once and only threads that existed at some moment since the request; it is an error only if a thread came or went meanwhile. Likewise a stackTrace answer has only frames that were on the thread's stack at some moment since the request, and is an error only if the thread did not exist or a frame of it was left meanwhile. While the playbook is stopped both are exact: the threads that exist, and the thread's frames, innermost first. Also while it runs the thread list is that of one moment, the stack trace misses no frame that is there and shows none twice, and a client that follows the listings and the thread events shows the threads that exist.", "quantifier": "every schedule of the strategy thread (new threads, exits, frames entered and left, stops) and the receive thread (any threads and stackTrace requests), one access to a shared object at a time", "why_tests_cant": "The strategy thread changes the dicts and lists while the receive thread iterates over them without a lock; the outcome depends on where the thread switch falls and on CPython's iterators.", "anchors": ["src/ansibug/ansible_collections/ansibug/dap/plugins/strategy/debug.py:AnsibleDebugState.get_threads", "src/ansibug/ansible_collections/ansibug/dap/plugins/strategy/debug.py:AnsibleDebugState.get_stacktrace", "src/ansibug/ansible_collections/ansibug/dap/plugins/strategy/debug.py:AnsibleDebugState.start_task", "src/ansibug/ansible_collections/ansibug/dap/plugins/strategy/debug.py:AnsibleDebugState.end_task", "src/ansibug/ansible_collections/ansibug/dap/plugins/strategy/debug.py:AnsibleDebugState._add_thread", "src/ansibug/ansible_collections/ansibug/dap/plugins/strategy/debug.py:AnsibleDebugState.exit_threads"]}
{"id": "C87", "title": "An exception-filter change takes effect without losing stops", "statement": "When a task's result is judged with no setExceptionBreakpoints under way it stops exactly if the filters of the last answered request say so, with the event they say. If a request falls into the judgement, the result stops only as filters the client had asked for just before, or has asked for since, say. A filter that both the old and the new request name stays in force throughout.", "quantifier": "every schedule of the strategy thread (any tasks and results, one flag lookup at a time) and the receive thread (any setExceptionBreakpoints requests, one dict operation at a time)", "why_tests_cant": "The receive thread replaces the filter dict by an empty one and then fills it without a lock while the strategy thread reads it; the window is a few bytecodes wide.", "anchors": ["src/ansibug/_debuggee.py:AnsibleDebugger.should_stop_on_error", "src/ansibug/_debuggee.py:AnsibleDebugger.should_stop_on_unreachable", "src/ansibug/_debuggee.py:AnsibleDebugger.should_stop_on_skipped", "src/ansibug/_debuggee.py:AnsibleDebugger.process_message (SetExceptionBreakpointsRequest)", "src/ansibug/ansible_collections/ansibug/dap/plugins/strategy/debug.py:AnsibleDebugState.end_task", "src/ansibug/ansible_collections/ansibug/dap/plugins/strategy/debug.py:AnsibleThread.should_stop_on_exception"]}
{"id": "C88", "title": "Breakpoints stay in force while the client changes them", "statement": "Once every setBreakpoints request is answered without an error the debuggee holds for each file exactly the breakpoints the last request for it asked for, in order, whatever tasks ran and files were loaded meanwhile; while a request is being handled that is so for every other file. No task stops at a breakpoint that the last request for its file had dropped before the one being handled. A breakpoint that both the old and the new request name is in force throughout.", "quantifier": "every schedule of the strategy thread (any lookups and registrations) and the receive thread (any setBreakpoints requests, disconnects), one action at a time", "why_tests_cant": "The receive thread drops a file's breakpoints and adds them back one by one, without a lock, while tasks look them up; whether a task falls into that window depends on the schedule.", "anchors": ["src/ansibug/_debuggee.py:AnsibleDebugger.get_breakpoint", "src/ansibug/_debuggee.py:AnsibleDebugger.register_path_breakpoint", "src/ansibug/_debuggee.py:AnsibleDebugger.process_message(SetBreakpointsRequest)"]}
