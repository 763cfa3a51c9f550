# Formal model of jborean93/ansibug in Rocq (Coq 8.16.1)

## Layout

`rocq/theories/` (logical name `Verif`), standard library only:

* `*Model.v`  executable Gallina model of one part of `/repo/src/ansibug`; each definition cites
  file and lines.  No proofs of properties in there.
* `*Spec.v`   (where needed) small independent specification vocabulary used by the statements.
* `*Proofs.v` lemmas.
* `*Props.v`  only the property theorems (`Theorem Cnn_...`), closed by `exact lemma`, each followed by
  `Print Assumptions`, plus non-vacuity `Example`s.

## Method

Python is modelled shallowly, branch by branch, exceptions as values (`Err`), dictionaries as
insertion-ordered association lists (`PyDict.v`), `str` as lists of code points and `bytes` as lists of
byte values (`N`), `int` as `Z`.  A function that mutates an object returns the new state.  Loops become
structural recursion or recursion on explicit fuel with an error value on exhaustion; theorems exclude
the fuel error by statement.  Threads are modelled as small-step transition systems over the atomic
sections the code has (lock regions, or single attribute accesses where there is no lock).

External behaviour that is not ansibug code (pickle, Ansible's templar, select/accept results, resolver
results, the presence of files) is a universally quantified parameter or an input of the step function.

A property that the code violates is stated in full, a witness is proved as `..._refuted`, and what does
hold is proved as `..._partial`.

## Plan per property

| id | modelled part | how |
|----|----|----|
| C01 | `dap/_adapter.py` out buffer | invariant over op list: concat of chunks ++ buffer = concat of frames |
| C02 | `queue_msg` + json text + utf-8 | ASCII-ness of the encoder by induction over values |
| C03 | `receive_data`/`next_message` loop | segmentation independence: driver over chunks equals driver over whole stream |
| C04 | seq counters | induction over histories |
| C05 | `json.dumps`/`json.loads` (floats excluded) | mutual induction over values, parser with fuel |
| C06 | `next_message` | case analysis over all buffers |
| C07 | `_messages.py` pack/unpack as generic interpreter over class tables of `_requests/_responses/_events/_types.py` | generic round-trip theorem for tables passing a boolean check, check evaluated on the real tables |
| C08, C09, C10, C11 | same | case analysis / generic lemma; C10 `_refuted` |
| C12-C17, C19, C21, C22 | `AnsibleDebugger` breakpoint state machine | invariants over op histories, client view as fold over the output |
| C18 | path mapping | string prefix lemmas; boundary part `_refuted` |
| C20 | `DAProtocol.on_msg_received` + `process_message` | case analysis over request kinds and handler outcomes |
| C23-C27 | `AnsibleThread` over task trees | trace semantics over task sequences; C25, C27 partly `_refuted`, C27 also exact |
| C28 | lock/condition protocol of `start_task`/`_resume_threads` | small-step system, inductive invariant |
| C29, C31, C33-C36, C54 | `AnsibleDebugState` with an object heap | invariants over histories |
| C30 | disconnect/terminate/shutdown vs. strategy | small-step system, `_refuted` + `_partial` |
| C32 | stack discipline | exact for every session (`trail`); nesting `_refuted` for multi-level return, `_partial` for well-nested single-level |
| C37-C39 | `MPQueue.send`, `_recv_handler`, `SocketHelper.recv` | stream with arbitrary fragmentation, abstract codec |
| C40 | `SocketCancellationToken` | small-step system over any number of operations |
| C41, C42 | `ClientMPQueue.start`, `ServerMPQueue.start` | induction over outcome lists |
| C43, C44, C45 | `DAServer` | state machine over events; C45 `_refuted` |
| C46 | `send_to_client` interleavings | two-thread small-step; `_refuted` + sequential `_partial` |
| C47 | `from_json` functions | case analysis |
| C48 | script generation | model of `shlex.quote`, base64 and the POSIX shell tokenizer; round-trip |
| C49 | `parse_addr_string` + `urlsplit` | round-trip under guard, `_refuted` for `?`/`#` |
| C50 | environment construction | list/dict lemmas |
| C51 | `_tls.py` | decision table |
| C52 | thread lifecycle of the debuggee | small-step; deadlock witness `_refuted`, `_partial` |
| C53 | `parse_repl_args` | model of shlex.split + argparse positionals on the relevant fragment |
| C55 | pid file | history invariant |
| C56, C57 | `_breakpoints.py` | induction over block trees / case analysis |
| C58 | dict iteration under concurrent update | small-step; `_refuted` + snapshot theorem and `_partial` |
| C59 | UTF-8 decoding of bodies | `utf8_dec` accepts exactly the images of `utf8_enc` |
| C60 | `_exec_playbook.py` -> environment -> callback options -> `start()` | composition, case analysis |
| C61 | setBreakpoints overlapping with registrations | small-step vs. sequential model: refinement when the threads take turns, `_refuted` otherwise |
| C62 | read loop with the log statements | equality of two runs; exact characterisation of the failing chunk; `_refuted` witness of 4100 bytes |
| C63 | read loop on arbitrary bytes | next_message is monotone in the buffer; induction over chunks; negative Content-Length `_refuted` |
| C64 | command lines: `parse_args`, `main` with the argparse conventions they exercise | parser = declarative reading of settings followed by the rest, both directions; composed with C48, C50 and C60 |
| C65 | request JSON -> unpack -> handler arguments | spec `says` over JSON members only; path lemma for the unpack queue; accepted + meaning + bytes; DAP's default of continue `_refuted` |
| C66 | handler results -> message objects -> JSON | spec `tells` over JSON members only; lemma giving the member of every constructor argument; case analysis on the message, composed with reachability (the acknowledged commands) |
| C67 | the adapter's own messages | same, composed with the launch arguments and with C19 |
| C68 | breakpoints over the whole debuggee transition system | the debugger object of any run is the fold of the calls the run made (induction over runs); the client's breakpoints are a separate fold over the calls; composed with C15, C16, C26 |
| C69 | exception filters over the whole debuggee transition system | same, composed with C19 and C27 |
| C70 | stepping over the whole debuggee transition system | a thread no request addresses keeps what it was told (invariant along a run), composed with C68's account of which breakpoint a task hits |
| C71 | both processes and the connection between them as one transition system over bytes | invariants of the way in (C06, C65) and of the way out (C66) along every interleaving, composed with C20 |
| C72 | opening the listening socket, the launch script and the process file, as programs over system calls with any answers | weakest preconditions: the invariant names the only file and its mode at every moment; `_refuted` for the process file and a failing listen() |
| C73 | construction, start and stop of both queues over the same system calls | weakest preconditions tracking which sockets may be open; `_refuted` witnesses for the sockets left |
| C74 | the strategy plugin as an interposer around an arbitrary Ansible program (tree of calls, plays and loads), composed with SysModel | simulation: the interposed program's position always corresponds to a position of the plain one with the same log; invariants for what was shown and reported; `PlayEnd`: no thread is told to end unless asked |
| C75 | the type name, the children of a listed and of a set variable, as functions of what isinstance says of the value | case analysis over all classes; refuted for dataclass instances, `_partial` for the others |
| C76 | the metaclass call as four atomic steps, any number of threads | invariant over all traces; refuted for racing first calls, `_partial` when the first is alone |
| C77 | `SysModel`; objects of the heap, references, children | `shown` read off the heap; induction over the children, invariant for references |
| C78 | `SysModel` | iff-characterisation of success per request; `untouched` for refusals |
| C79 | `SysModel` | invariant of waiting states: the last event, the acting host (`acting`), its trail; every thread's host is the one it was announced for (`announced`) |
| C80 | `LogModel` (logging of Python 3 for one logger and its handlers) | induction on the history of events with the contents of a file against the list of events; several playbooks in one run configure the logging again, and every record is then written once per playbook begun (`C80_one_line_per_record_refuted`) |
| C81 | `LifeModel` (`books`: the next playbook starts from the state the shutdown left) | refuted for every playbook after the first: the token stays cancelled (invariant `later`); proved: the first can be debugged, the later ones run to their end |
| C82 | `SysModel` whole, `ScopeSpec`: the starts of the tasks (with the objects Ansible passed) read off the trace | invariant `K`: the frames of a host's thread are those of its last started task and the includes around it, with their objects; `kept_data`: no label except an edit changes an existing object; C35, C77, C34 for the requests at the stop |
| C83 | `TableModel`: both threads, one action at a time, with the queue of messages | invariant `OInv`: ids announced once, the newest change event (else the response) is what is stored; refuted for the last message: the change event can be queued before the response that announces the breakpoint, which then says it is not loaded; proved when the response comes first |
| C84 | `AckModel`: `LockModel` with the answer, queued after the lock is released | refuted: a stopped event can precede the response of the step that led to it, and a request sent before its client knew of a stop leaves two possibilities (two runs with the same messages); proved: one answer each (count), the states are set before it and all of them on success (phases of one request), no two stops without a resume between, and a client that resumes a stopped thread can tell from one request and its answer |
| C85 | `RefModel`: one access to the counter, the variables dict or a frame's list at a time, by both threads | refuted: a task that stops with its result and a request can take the same id, and deleting it twice raises KeyError in the playbook; a reference given out while its frame is removed is never freed; proved by an invariant (`RInv`) for all schedules in which the two are not inside next_variable_id at once, and for all schedules without an exception stop: no failure, ids distinct, valid while the frame is there, dead after; a late reference is answered for ever |
| C86 | `ViewModel`: both threads, one access at a time; `threads` as CPython's dict (entries array with holes, moved together by an insertion at any time; iterators that remember the number of keys and their position), the lists of frames with list iterators | refuted: an inventory refresh during the reading gives a list of threads that never existed together; a stack trace can miss the running include or show a frame twice; a listing overtaken by an exit leaves the thread in the client's list. Proved for all schedules by invariants over the state and the last request: only what existed since the request, errors only for a change meanwhile, exact while stopped; without exits the list of one moment, without a frame left no frame missing; the client's list right if no thread event falls into a listing |
| C87 | `FilterModel`: the strategy thread's three lookups (attribute, then dict entry) and its judgement, the receive thread's `= {}`, one key at a time, answer | refuted: a filter named by the old and the new request is out of force between `= {}` and its key, so a failure then passes unnoticed. Proved for all schedules by an invariant over the dict objects made so far and what each lookup saw: exact when no request is under way, no stop that no filters of the moment ask for, and old-or-new when some of them let the result pass |
| C88 | `TableModel` (as C58): the table as dict objects, both threads one action at a time | refuted: between the new dict and the insertions a kept breakpoint is out of force, so a task on it is not stopped at. Proved for all schedules by an invariant that relates the table to the requests so far: exact when settled, other files untouched while a request is handled, no outdated hit |

## Which file holds what

| files | models | theorems |
|----|----|----|
| `PyBase`, `PyDict`, `Digits` | Python exceptions, slices, dicts, decimal numbers | |
| `JsonModel`, `JsonProofs*`, `AdapterModel`, `AdapterProofs*`, `AdapterProps`, `Utf8*` | `dap/_adapter.py`, `json.dumps`/`loads`, UTF-8 | C01-C06, C59 |
| `JsonSpec`, `JsonGrammar`, `JsonProps` | the JSON grammar as an inductive relation, `loads` accepts exactly it | C05_json_exact, C05_writes_json, C59_body_exact |
| `WireSpec`, `WireModel`, `WireProofs`, `WireProps`, `WireAccept`, `WireEnd` | from request JSON members to the handler's arguments | C65 |
| `OutSpec`, `OutModel`, `OutProofs`, `OutProps`, `OutEnd` | the objects the debuggee builds for the client, and their JSON | C66 |
| `DaOut` | the objects the adapter builds for the client | C67 |
| `HistSpec` | which calls a session makes, the client's breakpoints as a fold over them | C68, C69 |
| `StepSpec` | the include or import a task comes from, the labels that leave a thread alone, where a resumed host is to stop | C70 |
| `PipeModel`, `PipeSpec` | _debug_adapter.py:231-235, 283-300, 352-369 and _debuggee.py:118-136, 886-888 around `SysModel`; framed requests and framed messages as byte strings | C71 |
| `OsModel`, `OsSpec` | _socket_helper.py:99-137, 209-231; _mp_queue.py:93-100, 126-301; _debug_adapter.py:527-531; _debuggee.py:413-440, 871-900, as programs over calls that the operating system may answer or refuse; modes, umask and open descriptors only; other threads of the process and CPython's finalisers not modelled | C72, C73 |
| `PlayModel`, `PlaySpec` | strategy/debug.py:1052-1173 StrategyModule around Ansible; Ansible is any program calling the overridden methods (not modelled further), its variables and objects are SysModel's heap; the deprecation-warning context (1064-1073, 1155-1157) and the frame inspection for task_vars (1083-1086) are not modelled | C74 |
| `VtModel` | plugin_utils/_variables.py:10-40, strategy/debug.py:885-890, 929-933, 991-995; a class is what isinstance, is_dataclass and __name__ say | C75 |
| `SysAccept` | which requests succeed, what a refused one leaves alone | C78 |
| `LeadSpec`, `LeadProofs`, `LeadProps` | stops, threads and hosts: what a client finds when it follows a stopped event | C79, C36 |
| `ScopeSpec`, `ScopeProofs`, `ScopeProps` | frames against the objects Ansible started the tasks with; what a client sees and changes at a stop | C82 |
| `SysVars4` | what a variables and a setVariable response show, against the heap | C77 |
| `TruthSpec`, `IntSpec`, `HeaderSpec`, `IntProofs`, `HeaderProofs` | Python truth values, integer literals, header fields, said without the model | C06, C08, C47 |
| `SingModel` | _singleton.py:12-20; dict operations are atomic | C76 |
| `CliModel`, `CliSpec`, `CliProofs`, `CliProps` | `__main__.py` and what it uses of `argparse` (compared with the real argparse of Python 3.11 on 4000 random command lines) | C64 |
| `ReplWords` | `shlex.split` against a word grammar | C53_words |
| `MsgBase`, `MsgModel`, `MsgTables`, `Msg*` | `dap/_messages.py` and the classes of `_requests.py`, `_responses.py`, `_events.py`, `_types.py` | C07-C11 |
| `DbgTypes`, `BpModel`, `BpSpec`, `BpProofs*`, `BpProps` | breakpoint part of `_debuggee.py` | C12-C19, C21, C22 |
| `ThreadModel`, `ThreadSpec`, `Thread*` | `AnsibleThread` of `strategy/debug.py`, result details of `_breakpoints.py` | C23-C27, C57 |
| `StratModel`, `SysModel`, `Sys*`, `Stack*`, `Var*` ... | `AnsibleDebugState`, `process_message`, `shutdown` as one transition system | C20, C22, C24, C29-C36, C54 |
| `LockModel`, `LockProps` | condition-variable hand-shake of the strategy and the receive thread | C28 |
| `AckModel`, `AckProps` | the answer to a resume request and its order with stopped events | C84 |
| `RefModel`, `RefProps` | variable references under both threads | C85 |
| `ViewModel`, `ViewProps` | listing threads and frames while the playbook goes on | C86 |
| `FilterModel`, `FilterProps` | exception filters changed while the playbook goes on | C87 |
| `TableKeep` | breakpoints kept while the client changes them (on `TableModel`) | C88 |
| `LifeModel`, `LifeSpec`, `LifeProps`, `BooksProps` | main, send and receive thread of the debuggee from start to shutdown, and the next playbook of the run | C52, C81 |
| `LogModel`, `LogSpec`, `LogProps` | `_logging.py`, where it is called, and the part of Python's `logging` it uses | C80 |
| `TableModel`, `TableProps`, `TableSeq`, `TableOrder` | the unlocked breakpoint table under both threads | C58, C61, C83 |
| `ReadModel`, `ReadProps` | DAServer.start's read loop with debug logging, send_to_client's log statement | C03 (any client), C62, C63 |
| `QueueModel`, `CancelModel` | `_mp_queue.py`, `_socket_helper.py` | C37-C42 |
| `DaModel`, `SendModel` | `DAServer` of `_debug_adapter.py`; `send_to_client` statement by statement | C43-C46 |
| `ArgsModel`, `ShModel`, `AddrModel` (`AddrSpec`), `ExecModel`, `ReplModel`, `TreeModel` | launch/attach arguments and pid file; launch script and the shell; addresses; environment, TLS contexts, callback options; debug console; play registration | C47-C51, C53, C55, C56, C60 |

## Trusted base

* Coq 8.16.1's kernel (and the OCaml and hardware below it).  `vm_compute` is used in examples and
  in table checks; it is part of the kernel.  No native_compute, no plugins, no kernel check switched off.
* Axioms: none are declared, and every `Print Assumptions` that follows a property theorem prints
  "Closed under the global context" (the build log shows it for each theorem named in MANIFEST.json).
  The only axioms in loaded libraries are the seven of `Coq.ssr.ssrunder` that come with
  the standard library's tactics; no theorem uses them.
* That the definitions in `*Model.v` say what the Python code does.  Each cites file and lines.
  Where it was possible the Python standard library's behaviour that is modelled was compared with the real one by
  differential tests (shlex and argparse of the debug console: 3000 random inputs; argparse of the command line: 4000).
* That the statements in `*Props.v` with the vocabulary of `*Spec.v` say what `properties.jsonl` says.

### Modelled

All of `src/ansibug` that has behaviour a user can see, at the granularity given per file above:
`dap/_adapter.py`, `dap/_messages.py` with all message and type classes, `_debug_adapter.py` (DAServer, DAProtocol,
argument classes, launch script), `_debuggee.py` (AnsibleDebugger, DAProtocol, PlaybookProcessInfo),
`__main__.py`, `_mp_queue.py`, `_socket_helper.py` (address parsing, cancellation token, recv loop), `_tls.py`, `_exec_playbook.py`,
the callback plugin's options, the strategy plugin (`AnsibleThread`, `AnsibleDebugState`, the hooks of
`StrategyModule`), `plugin_utils/_breakpoints.py` and `plugin_utils/_repl_util.py`.

### Not modelled, or assumed

* Ansible itself: the linear strategy is "any sequence of task starts and ends in which a host has
  one task at a time"; templating, conditionals, `repr` and type names are arbitrary functions (templating
  does not change existing objects); `get_path()` gives `file:line` or nothing; block/include trees are arbitrary.
* Python: floats and NaN in JSON, CPython's recursion and integer-digit limits, memory exhaustion, KeyboardInterrupt,
  signals, interpreter shutdown.  Python 3.11 or newer is assumed (on 3.10 `isinstance(list[int], type)` makes message
  unpacking behave differently).
* pickle is an abstract codec with `loads (dumps m) = Ok m`; sockets are sequences of read results; `select`, `accept`,
  name resolution, TLS handshakes and OpenSSL file loading give arbitrary results.
* Logging, including what `DEBUG` logging does to the data (see Findings, C62).
* the `logging` module `_logging.py`, `py.typed` data.
* Memory model: one atomic Python action at a time (the GIL); the size of an action is stated in each model.
* `os.unlink`, file writes and process creation succeed unless a model says otherwise.

## Simplifications that matter for single properties

* C05: integers, strings, lists, objects, booleans, null.
* C12-C22 on histories of calls assume line numbers >= 0 (DAP sends >= 1 and Ansible numbers from 1).
* C23-C27, C31-C36: requests are handled atomically with respect to the strategy's critical sections
  (C28 justifies this: the lock is held; C58/C61 show where it does not hold: the breakpoint table).
* C34: dictionaries' non-string keys are given by their text.
* C37, C38: the peer's bytes are well-formed frames up to the cut.
* C48: the shell model covers what the script uses and reports anything else as an error.
* C52: what the strategy does in a play is one action.

## Findings

Defects of the code that the proofs brought up (each is a `_refuted` theorem, or a hypothesis of a `_partial` one).

* C05 very long integers: CPython's limit; not modelled.
* C06 a negative Content-Length moves the read position backwards.
* C09/C10 the private attribute `__types` and `StepInArguments.targetId` are lost or clash.
* C04 a message that cannot be serialised uses up a sequence number.
* C18 a mapping root captures siblings with the same prefix (`/a/b` maps `/a/bc`).
* C22 exception filters are not cleared when the client goes away: a task failing later waits for ever.
* C23 a conditional breakpoint hides a second breakpoint on the same line.
* C24 a failure inside a rescue or always section counts as rescued.
* C25 stepping over the last task of a static import runs on; a step over after an exception stop behaves like continue.
* C27 step out at the top level never stops; step out can stop in a nested include.
* C30 `disconnect` with terminateDebuggee is undone by the shutdown that follows; terminate before the first host
  thread exists, between plays or during refresh_inventory is lost; terminate with a failing task in flight and an
  exception filter hangs the playbook.
* C32 include with `apply:`, nested explicit blocks and static imports inside an include pop the include's frame early;
  leaving two includes at once leaves a stale frame; a skipped or empty include_role followed by a task outside a role
  raises AttributeError and ends the playbook; so does a task without a parent while a frame is open.
* C31/C33 exit_threads leaks frames; a frame without a path makes the stack trace request fail.
* C34 setVariable on a dict with a non-string key adds a second entry; a dataclass child is a copy.
* C28 `continue` for all threads iterates over the live dict: an error response if a thread is added meanwhile (no
  wake-up is lost).  `disconnect` copies the ids before taking the lock: KeyError if threads exited meanwhile.
* C40 a callback that raises keeps cancel() from calling the others, and stop() from joining and closing.
* C41 creating the socket is outside the try: a failure there ends the search; a cancelled connect leaves the socket open.
* C42 only SSLError is survived: a peer that resets the connection ends the wait.
* C43-C45 the adapter busy-loops when stdin ends; a request can be answered twice when stop() races with a response; a
  disconnect that arrives while the receive thread is stopping gets its response after the terminated event.
* C46 `send_to_client` has no lock: duplicated, lost or same-numbered messages.
* C49 `uds:name`, temp directories with `#` or `?`, and `tcp:host:port` are accepted with a different meaning.
* C50 empty PYTHONPATH entries are dropped.
* C52 a connection that never comes up hangs the configuration wait; a disconnect before configurationDone and a
  strategy request after the last play hang.
* C53 `parse_repl_args`: unbalanced quotes raise ValueError; options such as `-h` are taken by argparse; a quoted command is
  not found in the text.
* C54 `!so` before scopes were requested: KeyError.
* C58 a lookup or registration that overlaps with an insertion raises RuntimeError in the strategy and ends the playbook.
* C60 `--wrap-tls` without a certificate makes the callback raise TypeError; inherited ANSIBUG_TLS_*/LOG_* variables apply
  when not overridden.
* C61 a breakpoint computed before and inserted after a registration stays unverified and matches all later lines.
* C62 at level debug the adapter ends when a read cuts a multi-byte character (`data.decode()` of a raw chunk).
* C63 a negative Content-Length makes the reading depend on how the stream is cut.
* C65 `continue` without singleThread resumes only the named thread (DAP: all threads).
* C72 the process file gets 0o666 less the umask; listen() failing after bind() leaves the socket file.
* C73 `conn` is not closed when its first send fails with anything but SSLError; the client's blank socket is replaced without
  being closed; ServerMPQueue.stop() unlinks before it closes, so an OSError there keeps the connection open.
* C75 an instance of a dataclass is expandable under its class's name, and not expandable in the answer to setVariable.
* C76 Singleton.__call__ has no lock: two first calls racing make two debuggers.
