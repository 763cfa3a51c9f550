(** Class tables of the DAP message library: one row per dataclass of
    src/ansibug/dap/_requests.py, _responses.py, _events.py and _types.py, with the
    inherited rows of ProtocolMessage/Request/Response/Event (src/ansibug/dap/_messages.py:263-364).
    GENERATED from the syntax trees of those files (the class statement's dap= mapping merged along
    the bases as DAPObjectMeta.__new__ does, _messages.py:115-129, and the dataclass fields with
    default and init flag; the unpacker column is _parse_field_type, _messages.py:74-103, evaluated on
    the annotation for Python >= 3.11); each row cites its source lines. *)
From Verif Require Import PyBase PyDict JsonModel MsgBase.
Local Open Scope Z_scope.

(** enum members: MessageType (_messages.py:14-17), Command (_messages.py:20-40), EventType (_messages.py:43-60), StoppedReason (_events.py:14-23) *)
Definition members (e : eid) : list pystr :=
  match e with
  | E_MessageType => [s "request"; s "response"; s "event"]
  | E_Command => [s "attach"; s "cancel"; s "configurationDone"; s "continue"; s "disconnect"; s "evaluate"; s "initialize"; s "launch"; s "next"; s "runInTerminal"; s "setBreakpoints"; s "setExceptionBreakpoints"; s "setVariable"; s "stackTrace"; s "stepIn"; s "stepOut"; s "terminate"; s "threads"; s "scopes"; s "variables"]
  | E_EventType => [s "initialized"; s "stopped"; s "continued"; s "exited"; s "terminated"; s "thread"; s "output"; s "breakpoint"; s "module"; s "loadedSource"; s "process"; s "capabilities"; s "progressStart"; s "progressUpdate"; s "progressEnd"; s "invalidated"; s "memory"]
  | E_StoppedReason => [s "step"; s "breakpoint"; s "exception"; s "pause"; s "entry"; s "goto"; s "function breakpoint"; s "data breakpoint"; s "instruction breakpoint"]
  end.

Definition fields (c : cid) : list field :=
  match c with
  | C_AttachRequest => (* dap/_requests.py:21-54 *)
    [fld "seq" false (FDef (PInt 0)) (UId);
     fld "message_type" false (FDef (PEnum E_MessageType (s "request"))) (UEnum E_MessageType);
     fld "command" false (FDef (PEnum E_Command (s "attach"))) (UEnum E_Command);
     fld "arguments" true (FReq) (UId);
     fld "restart" true (FDef PNull) (UId)]
  | C_CancelRequest => (* dap/_requests.py:58-73 *)
    [fld "seq" false (FDef (PInt 0)) (UId);
     fld "message_type" false (FDef (PEnum E_MessageType (s "request"))) (UEnum E_MessageType);
     fld "command" false (FDef (PEnum E_Command (s "cancel"))) (UEnum E_Command);
     fld "request_id" true (FDef PNull) (UId);
     fld "progress_id" true (FDef PNull) (UId)]
  | C_ConfigurationDoneRequest => (* dap/_requests.py:77-84 *)
    [fld "seq" false (FDef (PInt 0)) (UId);
     fld "message_type" false (FDef (PEnum E_MessageType (s "request"))) (UEnum E_MessageType);
     fld "command" false (FDef (PEnum E_Command (s "configurationDone"))) (UEnum E_Command)]
  | C_ContinueRequest => (* dap/_requests.py:88-102 *)
    [fld "seq" false (FDef (PInt 0)) (UId);
     fld "message_type" false (FDef (PEnum E_MessageType (s "request"))) (UEnum E_MessageType);
     fld "command" false (FDef (PEnum E_Command (s "continue"))) (UEnum E_Command);
     fld "thread_id" true (FReq) (UId);
     fld "single_thread" true (FDef (PBool true)) (UId)]
  | C_DisconnectRequest => (* dap/_requests.py:106-134 *)
    [fld "seq" false (FDef (PInt 0)) (UId);
     fld "message_type" false (FDef (PEnum E_MessageType (s "request"))) (UEnum E_MessageType);
     fld "command" false (FDef (PEnum E_Command (s "disconnect"))) (UEnum E_Command);
     fld "restart" true (FDef (PBool false)) (UId);
     fld "terminate_debuggee" true (FDef PNull) (UId);
     fld "suspend_debuggee" true (FDef (PBool false)) (UId)]
  | C_EvaluateRequest => (* dap/_requests.py:138-166 *)
    [fld "seq" false (FDef (PInt 0)) (UId);
     fld "message_type" false (FDef (PEnum E_MessageType (s "request"))) (UEnum E_MessageType);
     fld "command" false (FDef (PEnum E_Command (s "evaluate"))) (UEnum E_Command);
     fld "expression" true (FReq) (UId);
     fld "frame_id" true (FDef PNull) (UId);
     fld "context" true (FDef PNull) (UId);
     fld "format" true (FDef PNull) (UObj C_ValueFormat)]
  | C_InitializeRequest => (* dap/_requests.py:170-231 *)
    [fld "seq" false (FDef (PInt 0)) (UId);
     fld "message_type" false (FDef (PEnum E_MessageType (s "request"))) (UEnum E_MessageType);
     fld "command" false (FDef (PEnum E_Command (s "initialize"))) (UEnum E_Command);
     fld "adapter_id" true (FReq) (UId);
     fld "client_id" true (FDef PNull) (UId);
     fld "client_name" true (FDef PNull) (UId);
     fld "locale" true (FDef PNull) (UId);
     fld "lines_start_at_1" true (FDef (PBool true)) (UId);
     fld "columns_start_at_1" true (FDef (PBool true)) (UId);
     fld "path_format" true (FDef (PStr (s "path"))) (UId);
     fld "supports_variable_type" true (FDef (PBool false)) (UId);
     fld "supports_variable_paging" true (FDef (PBool false)) (UId);
     fld "supports_run_in_terminal_request" true (FDef (PBool false)) (UId);
     fld "supports_memory_references" true (FDef (PBool false)) (UId);
     fld "supports_progress_reporting" true (FDef (PBool false)) (UId);
     fld "supports_invalidated_event" true (FDef (PBool false)) (UId);
     fld "supports_memory_event" true (FDef (PBool false)) (UId)]
  | C_LaunchRequest => (* dap/_requests.py:235-272 *)
    [fld "seq" false (FDef (PInt 0)) (UId);
     fld "message_type" false (FDef (PEnum E_MessageType (s "request"))) (UEnum E_MessageType);
     fld "command" false (FDef (PEnum E_Command (s "launch"))) (UEnum E_Command);
     fld "arguments" true (FReq) (UId);
     fld "no_debug" true (FDef (PBool false)) (UId);
     fld "restart" true (FDef PNull) (UId)]
  | C_NextRequest => (* dap/_requests.py:276-301 *)
    [fld "seq" false (FDef (PInt 0)) (UId);
     fld "message_type" false (FDef (PEnum E_MessageType (s "request"))) (UEnum E_MessageType);
     fld "command" false (FDef (PEnum E_Command (s "next"))) (UEnum E_Command);
     fld "thread_id" true (FReq) (UId);
     fld "single_thread" true (FDef (PBool false)) (UId);
     fld "granularity" true (FDef (PStr (s "statement"))) (UId)]
  | C_RunInTerminalRequest => (* dap/_requests.py:305-339 *)
    [fld "seq" false (FDef (PInt 0)) (UId);
     fld "message_type" false (FDef (PEnum E_MessageType (s "request"))) (UEnum E_MessageType);
     fld "command" false (FDef (PEnum E_Command (s "runInTerminal"))) (UEnum E_Command);
     fld "kind" true (FDef (PStr (s "integrated"))) (UId);
     fld "title" true (FDef PNull) (UId);
     fld "cwd" true (FDef (PStr (s ""))) (UId);
     fld "args" true (FDef (PList [])) (UId);
     fld "env" true (FDef (PDict [])) (UId)]
  | C_ScopesRequest => (* dap/_requests.py:343-354 *)
    [fld "seq" false (FDef (PInt 0)) (UId);
     fld "message_type" false (FDef (PEnum E_MessageType (s "request"))) (UEnum E_MessageType);
     fld "command" false (FDef (PEnum E_Command (s "scopes"))) (UEnum E_Command);
     fld "frame_id" true (FReq) (UId)]
  | C_SetBreakpointsRequest => (* dap/_requests.py:358-387 *)
    [fld "seq" false (FDef (PInt 0)) (UId);
     fld "message_type" false (FDef (PEnum E_MessageType (s "request"))) (UEnum E_MessageType);
     fld "command" false (FDef (PEnum E_Command (s "setBreakpoints"))) (UEnum E_Command);
     fld "source" true (FReq) (UObj C_Source);
     fld "breakpoints" true (FDef (PList [])) (UObj C_SourceBreakpoint);
     fld "lines" true (FDef (PList [])) (UId);
     fld "source_modified" true (FDef (PBool false)) (UId)]
  | C_SetExceptionBreakpointsRequest => (* dap/_requests.py:391-418 *)
    [fld "seq" false (FDef (PInt 0)) (UId);
     fld "message_type" false (FDef (PEnum E_MessageType (s "request"))) (UEnum E_MessageType);
     fld "command" false (FDef (PEnum E_Command (s "setExceptionBreakpoints"))) (UEnum E_Command);
     fld "filters" true (FDef (PList [])) (UId);
     fld "filter_options" true (FDef (PList [])) (UObj C_ExceptionFilterOptions);
     fld "exception_options" true (FDef (PList [])) (UObj C_ExceptionOptions)]
  | C_SetVariableRequest => (* dap/_requests.py:422-449 *)
    [fld "seq" false (FDef (PInt 0)) (UId);
     fld "message_type" false (FDef (PEnum E_MessageType (s "request"))) (UEnum E_MessageType);
     fld "command" false (FDef (PEnum E_Command (s "setVariable"))) (UEnum E_Command);
     fld "variables_reference" true (FReq) (UId);
     fld "name" true (FReq) (UId);
     fld "value" true (FReq) (UId);
     fld "format" true (FDef PNull) (UObj C_ValueFormat)]
  | C_StackTraceRequest => (* dap/_requests.py:453-481 *)
    [fld "seq" false (FDef (PInt 0)) (UId);
     fld "message_type" false (FDef (PEnum E_MessageType (s "request"))) (UEnum E_MessageType);
     fld "command" false (FDef (PEnum E_Command (s "stackTrace"))) (UEnum E_Command);
     fld "thread_id" true (FReq) (UId);
     fld "start_frame" true (FDef PNull) (UId);
     fld "levels" true (FDef PNull) (UId);
     fld "format" true (FDef PNull) (UObj C_StackFrameFormat)]
  | C_StepInRequest => (* dap/_requests.py:485-513 *)
    [fld "seq" false (FDef (PInt 0)) (UId);
     fld "message_type" false (FDef (PEnum E_MessageType (s "request"))) (UEnum E_MessageType);
     fld "command" false (FDef (PEnum E_Command (s "stepIn"))) (UEnum E_Command);
     fld "thread_id" true (FReq) (UId);
     fld "single_thread" true (FDef (PBool false)) (UId);
     fld "target_id" true (FDef PNull) (UId);
     fld "granularity" true (FDef (PStr (s "statement"))) (UId)]
  | C_StepOutRequest => (* dap/_requests.py:517-542 *)
    [fld "seq" false (FDef (PInt 0)) (UId);
     fld "message_type" false (FDef (PEnum E_MessageType (s "request"))) (UEnum E_MessageType);
     fld "command" false (FDef (PEnum E_Command (s "stepOut"))) (UEnum E_Command);
     fld "thread_id" true (FReq) (UId);
     fld "single_thread" true (FDef (PBool false)) (UId);
     fld "granularity" true (FDef (PStr (s "statement"))) (UId)]
  | C_TerminateRequest => (* dap/_requests.py:546-559 *)
    [fld "seq" false (FDef (PInt 0)) (UId);
     fld "message_type" false (FDef (PEnum E_MessageType (s "request"))) (UEnum E_MessageType);
     fld "command" false (FDef (PEnum E_Command (s "terminate"))) (UEnum E_Command);
     fld "restart" true (FDef (PBool false)) (UId)]
  | C_ThreadsRequest => (* dap/_requests.py:563-569 *)
    [fld "seq" false (FDef (PInt 0)) (UId);
     fld "message_type" false (FDef (PEnum E_MessageType (s "request"))) (UEnum E_MessageType);
     fld "command" false (FDef (PEnum E_Command (s "threads"))) (UEnum E_Command)]
  | C_VariablesRequest => (* dap/_requests.py:573-605 *)
    [fld "seq" false (FDef (PInt 0)) (UId);
     fld "message_type" false (FDef (PEnum E_MessageType (s "request"))) (UEnum E_MessageType);
     fld "command" false (FDef (PEnum E_Command (s "variables"))) (UEnum E_Command);
     fld "variables_reference" true (FReq) (UId);
     fld "filter" true (FDef PNull) (UId);
     fld "start" true (FDef PNull) (UId);
     fld "count" true (FDef PNull) (UId);
     fld "format" true (FDef PNull) (UObj C_ValueFormat)]
  | C_AttachResponse => (* dap/_responses.py:23-26 *)
    [fld "seq" false (FDef (PInt 0)) (UId);
     fld "message_type" false (FDef (PEnum E_MessageType (s "response"))) (UEnum E_MessageType);
     fld "success" false (FDef (PBool true)) (UId);
     fld "command" false (FDef (PEnum E_Command (s "attach"))) (UEnum E_Command);
     fld "request_seq" true (FReq) (UId)]
  | C_CancelResponse => (* dap/_responses.py:30-33 *)
    [fld "seq" false (FDef (PInt 0)) (UId);
     fld "message_type" false (FDef (PEnum E_MessageType (s "response"))) (UEnum E_MessageType);
     fld "success" false (FDef (PBool true)) (UId);
     fld "command" false (FDef (PEnum E_Command (s "cancel"))) (UEnum E_Command);
     fld "request_seq" true (FReq) (UId)]
  | C_ConfigurationDoneResponse => (* dap/_responses.py:37-40 *)
    [fld "seq" false (FDef (PInt 0)) (UId);
     fld "message_type" false (FDef (PEnum E_MessageType (s "response"))) (UEnum E_MessageType);
     fld "success" false (FDef (PBool true)) (UId);
     fld "command" false (FDef (PEnum E_Command (s "configurationDone"))) (UEnum E_Command);
     fld "request_seq" true (FReq) (UId)]
  | C_ContinueResponse => (* dap/_responses.py:44-49 *)
    [fld "seq" false (FDef (PInt 0)) (UId);
     fld "message_type" false (FDef (PEnum E_MessageType (s "response"))) (UEnum E_MessageType);
     fld "success" false (FDef (PBool true)) (UId);
     fld "command" false (FDef (PEnum E_Command (s "continue"))) (UEnum E_Command);
     fld "request_seq" true (FReq) (UId);
     fld "all_threads_continued" true (FDef (PBool true)) (UId)]
  | C_DisconnectResponse => (* dap/_responses.py:53-56 *)
    [fld "seq" false (FDef (PInt 0)) (UId);
     fld "message_type" false (FDef (PEnum E_MessageType (s "response"))) (UEnum E_MessageType);
     fld "success" false (FDef (PBool true)) (UId);
     fld "command" false (FDef (PEnum E_Command (s "disconnect"))) (UEnum E_Command);
     fld "request_seq" true (FReq) (UId)]
  | C_EvaluateResponse => (* dap/_responses.py:60-84 *)
    [fld "seq" false (FDef (PInt 0)) (UId);
     fld "message_type" false (FDef (PEnum E_MessageType (s "response"))) (UEnum E_MessageType);
     fld "success" false (FDef (PBool true)) (UId);
     fld "command" false (FDef (PEnum E_Command (s "evaluate"))) (UEnum E_Command);
     fld "request_seq" true (FReq) (UId);
     fld "result" true (FReq) (UId);
     fld "type" true (FDef PNull) (UId);
     fld "presentation_hint" true (FDef PNull) (UObj C_VariablePresentationHint);
     fld "variables_reference" true (FDef (PInt 0)) (UId);
     fld "named_variables" true (FDef PNull) (UId);
     fld "indexed_variables" true (FDef PNull) (UId);
     fld "memory_reference" true (FDef PNull) (UId)]
  | C_InitializeResponse => (* dap/_responses.py:88-99 *)
    [fld "seq" false (FDef (PInt 0)) (UId);
     fld "message_type" false (FDef (PEnum E_MessageType (s "response"))) (UEnum E_MessageType);
     fld "success" false (FDef (PBool true)) (UId);
     fld "command" false (FDef (PEnum E_Command (s "initialize"))) (UEnum E_Command);
     fld "request_seq" true (FReq) (UId);
     fld "capabilities" true (FReq) (UObj C_Capabilities)]
  | C_LaunchResponse => (* dap/_responses.py:103-106 *)
    [fld "seq" false (FDef (PInt 0)) (UId);
     fld "message_type" false (FDef (PEnum E_MessageType (s "response"))) (UEnum E_MessageType);
     fld "success" false (FDef (PBool true)) (UId);
     fld "command" false (FDef (PEnum E_Command (s "launch"))) (UEnum E_Command);
     fld "request_seq" true (FReq) (UId)]
  | C_NextResponse => (* dap/_responses.py:110-113 *)
    [fld "seq" false (FDef (PInt 0)) (UId);
     fld "message_type" false (FDef (PEnum E_MessageType (s "response"))) (UEnum E_MessageType);
     fld "success" false (FDef (PBool true)) (UId);
     fld "command" false (FDef (PEnum E_Command (s "next"))) (UEnum E_Command);
     fld "request_seq" true (FReq) (UId)]
  | C_RunInTerminalResponse => (* dap/_responses.py:117-131 *)
    [fld "seq" false (FDef (PInt 0)) (UId);
     fld "message_type" false (FDef (PEnum E_MessageType (s "response"))) (UEnum E_MessageType);
     fld "success" false (FDef (PBool true)) (UId);
     fld "command" false (FDef (PEnum E_Command (s "runInTerminal"))) (UEnum E_Command);
     fld "request_seq" true (FReq) (UId);
     fld "process_id" true (FDef PNull) (UId);
     fld "shell_process_id" true (FDef PNull) (UId)]
  | C_ScopesResponse => (* dap/_responses.py:135-147 *)
    [fld "seq" false (FDef (PInt 0)) (UId);
     fld "message_type" false (FDef (PEnum E_MessageType (s "response"))) (UEnum E_MessageType);
     fld "success" false (FDef (PBool true)) (UId);
     fld "command" false (FDef (PEnum E_Command (s "scopes"))) (UEnum E_Command);
     fld "request_seq" true (FReq) (UId);
     fld "scopes" true (FDef (PList [])) (UObj C_Scope)]
  | C_SetBreakpointsResponse => (* dap/_responses.py:151-164 *)
    [fld "seq" false (FDef (PInt 0)) (UId);
     fld "message_type" false (FDef (PEnum E_MessageType (s "response"))) (UEnum E_MessageType);
     fld "success" false (FDef (PBool true)) (UId);
     fld "command" false (FDef (PEnum E_Command (s "setBreakpoints"))) (UEnum E_Command);
     fld "request_seq" true (FReq) (UId);
     fld "breakpoints" true (FDef (PList [])) (UObj C_Breakpoint)]
  | C_SetExceptionBreakpointsResponse => (* dap/_responses.py:168-181 *)
    [fld "seq" false (FDef (PInt 0)) (UId);
     fld "message_type" false (FDef (PEnum E_MessageType (s "response"))) (UEnum E_MessageType);
     fld "success" false (FDef (PBool true)) (UId);
     fld "command" false (FDef (PEnum E_Command (s "setExceptionBreakpoints"))) (UEnum E_Command);
     fld "request_seq" true (FReq) (UId);
     fld "breakpoints" true (FDef (PList [])) (UObj C_Breakpoint)]
  | C_SetVariableResponse => (* dap/_responses.py:185-205 *)
    [fld "seq" false (FDef (PInt 0)) (UId);
     fld "message_type" false (FDef (PEnum E_MessageType (s "response"))) (UEnum E_MessageType);
     fld "success" false (FDef (PBool true)) (UId);
     fld "command" false (FDef (PEnum E_Command (s "setVariable"))) (UEnum E_Command);
     fld "request_seq" true (FReq) (UId);
     fld "value" true (FReq) (UId);
     fld "type" true (FDef PNull) (UId);
     fld "variables_reference" true (FDef PNull) (UId);
     fld "named_variables" true (FDef PNull) (UId);
     fld "indexed_variables" true (FDef PNull) (UId)]
  | C_StackTraceResponse => (* dap/_responses.py:209-223 *)
    [fld "seq" false (FDef (PInt 0)) (UId);
     fld "message_type" false (FDef (PEnum E_MessageType (s "response"))) (UEnum E_MessageType);
     fld "success" false (FDef (PBool true)) (UId);
     fld "command" false (FDef (PEnum E_Command (s "stackTrace"))) (UEnum E_Command);
     fld "request_seq" true (FReq) (UId);
     fld "stack_frames" true (FDef (PList [])) (UObj C_StackFrame);
     fld "total_frames" true (FDef PNull) (UId)]
  | C_StepInResponse => (* dap/_responses.py:227-230 *)
    [fld "seq" false (FDef (PInt 0)) (UId);
     fld "message_type" false (FDef (PEnum E_MessageType (s "response"))) (UEnum E_MessageType);
     fld "success" false (FDef (PBool true)) (UId);
     fld "command" false (FDef (PEnum E_Command (s "stepIn"))) (UEnum E_Command);
     fld "request_seq" true (FReq) (UId)]
  | C_StepOutResponse => (* dap/_responses.py:234-237 *)
    [fld "seq" false (FDef (PInt 0)) (UId);
     fld "message_type" false (FDef (PEnum E_MessageType (s "response"))) (UEnum E_MessageType);
     fld "success" false (FDef (PBool true)) (UId);
     fld "command" false (FDef (PEnum E_Command (s "stepOut"))) (UEnum E_Command);
     fld "request_seq" true (FReq) (UId)]
  | C_TerminateResponse => (* dap/_responses.py:241-244 *)
    [fld "seq" false (FDef (PInt 0)) (UId);
     fld "message_type" false (FDef (PEnum E_MessageType (s "response"))) (UEnum E_MessageType);
     fld "success" false (FDef (PBool true)) (UId);
     fld "command" false (FDef (PEnum E_Command (s "terminate"))) (UEnum E_Command);
     fld "request_seq" true (FReq) (UId)]
  | C_ThreadsResponse => (* dap/_responses.py:248-259 *)
    [fld "seq" false (FDef (PInt 0)) (UId);
     fld "message_type" false (FDef (PEnum E_MessageType (s "response"))) (UEnum E_MessageType);
     fld "success" false (FDef (PBool true)) (UId);
     fld "command" false (FDef (PEnum E_Command (s "threads"))) (UEnum E_Command);
     fld "request_seq" true (FReq) (UId);
     fld "threads" true (FDef (PList [])) (UObj C_Thread)]
  | C_VariablesResponse => (* dap/_responses.py:263-274 *)
    [fld "seq" false (FDef (PInt 0)) (UId);
     fld "message_type" false (FDef (PEnum E_MessageType (s "response"))) (UEnum E_MessageType);
     fld "success" false (FDef (PBool true)) (UId);
     fld "command" false (FDef (PEnum E_Command (s "variables"))) (UEnum E_Command);
     fld "request_seq" true (FReq) (UId);
     fld "variables" true (FDef (PList [])) (UObj C_Variable)]
  | C_ErrorResponse => (* dap/_responses.py:278-293 *)
    [fld "seq" false (FDef (PInt 0)) (UId);
     fld "message_type" false (FDef (PEnum E_MessageType (s "response"))) (UEnum E_MessageType);
     fld "success" false (FDef (PBool false)) (UId);
     fld "command" true (FReq) (UEnum E_Command);
     fld "request_seq" true (FReq) (UId);
     fld "message" true (FDef PNull) (UId);
     fld "error" true (FDef PNull) (UObj C_Message)]
  | C_BreakpointEvent => (* dap/_events.py:27-42 *)
    [fld "seq" false (FDef (PInt 0)) (UId);
     fld "message_type" false (FDef (PEnum E_MessageType (s "event"))) (UEnum E_MessageType);
     fld "event" false (FDef (PEnum E_EventType (s "breakpoint"))) (UEnum E_EventType);
     fld "reason" true (FReq) (UId);
     fld "breakpoint" true (FReq) (UObj C_Breakpoint)]
  | C_ExitedEvent => (* dap/_events.py:46-58 *)
    [fld "seq" false (FDef (PInt 0)) (UId);
     fld "message_type" false (FDef (PEnum E_MessageType (s "event"))) (UEnum E_MessageType);
     fld "event" false (FDef (PEnum E_EventType (s "exited"))) (UEnum E_EventType);
     fld "exit_code" true (FReq) (UId)]
  | C_InitializedEvent => (* dap/_events.py:62-69 *)
    [fld "seq" false (FDef (PInt 0)) (UId);
     fld "message_type" false (FDef (PEnum E_MessageType (s "event"))) (UEnum E_MessageType);
     fld "event" false (FDef (PEnum E_EventType (s "initialized"))) (UEnum E_EventType)]
  | C_OutputEvent => (* dap/_events.py:73-113 *)
    [fld "seq" false (FDef (PInt 0)) (UId);
     fld "message_type" false (FDef (PEnum E_MessageType (s "event"))) (UEnum E_MessageType);
     fld "event" false (FDef (PEnum E_EventType (s "output"))) (UEnum E_EventType);
     fld "category" true (FReq) (UId);
     fld "output" true (FReq) (UId);
     fld "group" true (FDef PNull) (UId);
     fld "variables_reference" true (FDef PNull) (UId);
     fld "source" true (FDef PNull) (UObj C_Source);
     fld "line" true (FDef PNull) (UId);
     fld "column" true (FDef PNull) (UId);
     fld "data" true (FDef PNull) (UId)]
  | C_StoppedEvent => (* dap/_events.py:117-154 *)
    [fld "seq" false (FDef (PInt 0)) (UId);
     fld "message_type" false (FDef (PEnum E_MessageType (s "event"))) (UEnum E_MessageType);
     fld "event" false (FDef (PEnum E_EventType (s "stopped"))) (UEnum E_EventType);
     fld "reason" true (FReq) (UEnum E_StoppedReason);
     fld "description" true (FDef PNull) (UId);
     fld "thread_id" true (FDef PNull) (UId);
     fld "preserve_focus_hint" true (FDef (PBool false)) (UId);
     fld "text" true (FDef PNull) (UId);
     fld "all_threads_stopped" true (FDef (PBool false)) (UId);
     fld "hit_breakpoint_ids" true (FDef (PList [])) (UId)]
  | C_TerminatedEvent => (* dap/_events.py:158-171 *)
    [fld "seq" false (FDef (PInt 0)) (UId);
     fld "message_type" false (FDef (PEnum E_MessageType (s "event"))) (UEnum E_MessageType);
     fld "event" false (FDef (PEnum E_EventType (s "terminated"))) (UEnum E_EventType);
     fld "restart" true (FDef PNull) (UId)]
  | C_ThreadEvent => (* dap/_events.py:175-188 *)
    [fld "seq" false (FDef (PInt 0)) (UId);
     fld "message_type" false (FDef (PEnum E_MessageType (s "event"))) (UEnum E_MessageType);
     fld "event" false (FDef (PEnum E_EventType (s "thread"))) (UEnum E_EventType);
     fld "reason" true (FReq) (UId);
     fld "thread_id" true (FReq) (UId)]
  | C_Breakpoint => (* dap/_types.py:13-59 *)
    [fld "id" true (FDef PNull) (UId);
     fld "verified" true (FDef (PBool false)) (UId);
     fld "message" true (FDef PNull) (UId);
     fld "source" true (FDef PNull) (UObj C_Source);
     fld "line" true (FDef PNull) (UId);
     fld "column" true (FDef PNull) (UId);
     fld "end_line" true (FDef PNull) (UId);
     fld "end_column" true (FDef PNull) (UId);
     fld "instruction_reference" true (FDef PNull) (UId);
     fld "offset" true (FDef PNull) (UId)]
  | C_Capabilities => (* dap/_types.py:63-156 *)
    [fld "supports_configuration_done_request" true (FDef (PBool false)) (UId);
     fld "supports_function_breakpoints" true (FDef (PBool false)) (UId);
     fld "supports_conditional_breakpoints" true (FDef (PBool false)) (UId);
     fld "supports_hit_conditional_breakpoints" true (FDef (PBool false)) (UId);
     fld "supports_evaluate_for_hovers" true (FDef (PBool false)) (UId);
     fld "exception_breakpoints_filters" true (FDef (PList [])) (UObj C_ExceptionBreakpointsFilter);
     fld "supports_step_back" true (FDef (PBool false)) (UId);
     fld "supports_set_variable" true (FDef (PBool false)) (UId);
     fld "supports_restart_frame" true (FDef (PBool false)) (UId);
     fld "supports_goto_targets_request" true (FDef (PBool false)) (UId);
     fld "supports_step_in_targets_request" true (FDef (PBool false)) (UId);
     fld "supports_completions_request" true (FDef (PBool false)) (UId);
     fld "supports_terminate_debuggee" true (FDef (PBool false)) (UId);
     fld "supports_suspend_debuggee" true (FDef (PBool false)) (UId);
     fld "supports_terminate_request" true (FDef (PBool false)) (UId);
     fld "supports_clipboard_context" true (FDef (PBool false)) (UId)]
  | C_Checksum => (* dap/_types.py:164-176 *)
    [fld "algorithm" true (FReq) (UId);
     fld "checksum" true (FReq) (UId)]
  | C_ExceptionBreakpointsFilter => (* dap/_types.py:180-213 *)
    [fld "filter" true (FReq) (UId);
     fld "label" true (FReq) (UId);
     fld "description" true (FDef PNull) (UId);
     fld "default" true (FDef (PBool false)) (UId);
     fld "supports_condition" true (FDef (PBool false)) (UId);
     fld "condition_description" true (FDef PNull) (UId)]
  | C_ExceptionFilterOptions => (* dap/_types.py:217-229 *)
    [fld "filter_id" true (FReq) (UId);
     fld "condition" true (FDef PNull) (UId)]
  | C_ExceptionOptions => (* dap/_types.py:233-246 *)
    [fld "path" true (FReq) (UObj C_ExceptionPathSegment);
     fld "break_mode" true (FReq) (UId)]
  | C_ExceptionPathSegment => (* dap/_types.py:250-262 *)
    [fld "negate" true (FDef (PBool false)) (UId);
     fld "names" true (FDef (PList [])) (UId)]
  | C_Message => (* dap/_types.py:266-289 *)
    [fld "id" true (FReq) (UId);
     fld "format" true (FReq) (UId);
     fld "variables" true (FDef (PDict [])) (UId);
     fld "send_telemetry" true (FDef (PBool false)) (UId);
     fld "show_user" true (FDef (PBool false)) (UId);
     fld "url" true (FDef PNull) (UId);
     fld "url_label" true (FDef PNull) (UId)]
  | C_Scope => (* dap/_types.py:293-338 *)
    [fld "name" true (FReq) (UId);
     fld "variables_reference" true (FReq) (UId);
     fld "presentation_hint" true (FDef PNull) (UId);
     fld "named_variables" true (FDef PNull) (UId);
     fld "indexed_variables" true (FDef PNull) (UId);
     fld "expensive" true (FDef (PBool false)) (UId);
     fld "source" true (FDef PNull) (UObj C_Source);
     fld "line" true (FDef PNull) (UId);
     fld "column" true (FDef PNull) (UId);
     fld "end_line" true (FDef PNull) (UId);
     fld "end_column" true (FDef PNull) (UId)]
  | C_Source => (* dap/_types.py:342-385 *)
    [fld "name" true (FDef PNull) (UId);
     fld "path" true (FDef PNull) (UId);
     fld "source_reference" true (FDef (PInt 0)) (UId);
     fld "presentation_hint" true (FDef (PStr (s "normal"))) (UId);
     fld "origin" true (FDef PNull) (UId);
     fld "sources" true (FDef (PList [])) (UObj C_Source);
     fld "adapter_data" true (FDef PNull) (UId);
     fld "checksums" true (FDef (PList [])) (UObj C_Checksum)]
  | C_SourceBreakpoint => (* dap/_types.py:389-417 *)
    [fld "line" true (FReq) (UId);
     fld "column" true (FDef PNull) (UId);
     fld "condition" true (FDef PNull) (UId);
     fld "hit_condition" true (FDef PNull) (UId);
     fld "log_message" true (FDef PNull) (UId)]
  | C_StackFrame => (* dap/_types.py:421-468 *)
    [fld "id" true (FReq) (UId);
     fld "name" true (FReq) (UId);
     fld "source" true (FDef PNull) (UObj C_Source);
     fld "line" true (FDef (PInt 0)) (UId);
     fld "column" true (FDef (PInt 0)) (UId);
     fld "end_line" true (FDef PNull) (UId);
     fld "end_column" true (FDef PNull) (UId);
     fld "can_restart" true (FDef (PBool false)) (UId);
     fld "instruction_pointer_reference" true (FDef PNull) (UId);
     fld "module_id" true (FDef PNull) (UId);
     fld "presentation_hint" true (FDef (PStr (s "normal"))) (UId)]
  | C_StackFrameFormat => (* dap/_types.py:472-505 *)
    [fld "parameters" true (FDef (PBool false)) (UId);
     fld "parameter_types" true (FDef (PBool false)) (UId);
     fld "parameter_names" true (FDef (PBool false)) (UId);
     fld "parameter_values" true (FDef (PBool false)) (UId);
     fld "line" true (FDef (PBool false)) (UId);
     fld "module" true (FDef (PBool false)) (UId);
     fld "include_all" true (FDef (PBool false)) (UId)]
  | C_Thread => (* dap/_types.py:509-520 *)
    [fld "id" true (FReq) (UId);
     fld "name" true (FReq) (UId)]
  | C_ValueFormat => (* dap/_types.py:524-531 *)
    [fld "hex" true (FDef (PBool false)) (UId)]
  | C_Variable => (* dap/_types.py:535-578 *)
    [fld "name" true (FReq) (UId);
     fld "value" true (FReq) (UId);
     fld "type" true (FDef PNull) (UId);
     fld "presentation_hint" true (FDef PNull) (UObj C_VariablePresentationHint);
     fld "evaluate_name" true (FDef PNull) (UId);
     fld "variables_reference" true (FDef (PInt 0)) (UId);
     fld "named_variables" true (FDef PNull) (UId);
     fld "indexed_variables" true (FDef PNull) (UId);
     fld "memory_reference" true (FDef PNull) (UId)]
  | C_VariablePresentationHint => (* dap/_types.py:582-637 *)
    [fld "kind" true (FDef PNull) (UId);
     fld "attributes" true (FDef (PList [])) (UId);
     fld "visibility" true (FDef PNull) (UId);
     fld "lazy" true (FDef (PBool false)) (UId)]
  end.

Definition dapmap (c : cid) : list (pystr * mentry) :=
  match c with
  | C_AttachRequest => (* dap/_requests.py:21-54 *)
    [(s "seq", MF (s "seq")); (s "type", MF (s "message_type")); (s "command", MF (s "command")); (s "arguments", MN [(s "__restart", MF (s "restart"))])]
  | C_CancelRequest => (* dap/_requests.py:58-73 *)
    [(s "seq", MF (s "seq")); (s "type", MF (s "message_type")); (s "command", MF (s "command")); (s "arguments", MN [(s "requestId", MF (s "request_id")); (s "progressId", MF (s "progress_id"))])]
  | C_ConfigurationDoneRequest => (* dap/_requests.py:77-84 *)
    [(s "seq", MF (s "seq")); (s "type", MF (s "message_type")); (s "command", MF (s "command"))]
  | C_ContinueRequest => (* dap/_requests.py:88-102 *)
    [(s "seq", MF (s "seq")); (s "type", MF (s "message_type")); (s "command", MF (s "command")); (s "arguments", MN [(s "threadId", MF (s "thread_id")); (s "singleThread", MF (s "single_thread"))])]
  | C_DisconnectRequest => (* dap/_requests.py:106-134 *)
    [(s "seq", MF (s "seq")); (s "type", MF (s "message_type")); (s "command", MF (s "command")); (s "arguments", MN [(s "restart", MF (s "restart")); (s "terminateDebuggee", MF (s "terminate_debuggee")); (s "suspendDebuggee", MF (s "suspend_debuggee"))])]
  | C_EvaluateRequest => (* dap/_requests.py:138-166 *)
    [(s "seq", MF (s "seq")); (s "type", MF (s "message_type")); (s "command", MF (s "command")); (s "arguments", MN [(s "expression", MF (s "expression")); (s "frameId", MF (s "frame_id")); (s "context", MF (s "context")); (s "format", MF (s "format"))])]
  | C_InitializeRequest => (* dap/_requests.py:170-231 *)
    [(s "seq", MF (s "seq")); (s "type", MF (s "message_type")); (s "command", MF (s "command")); (s "arguments", MN [(s "clientID", MF (s "client_id")); (s "clientName", MF (s "client_name")); (s "adapterID", MF (s "adapter_id")); (s "locale", MF (s "locale")); (s "linesStartAt1", MF (s "lines_start_at_1")); (s "columnsStartAt1", MF (s "columns_start_at_1")); (s "pathFormat", MF (s "path_format")); (s "supportsVariableType", MF (s "supports_variable_type")); (s "supportsVariablePaging", MF (s "supports_variable_paging")); (s "supportsRunInTerminalRequest", MF (s "supports_run_in_terminal_request")); (s "supportsMemoryReferences", MF (s "supports_memory_references")); (s "supportsProgressReporting", MF (s "supports_progress_reporting")); (s "supportsInvalidatedEvent", MF (s "supports_invalidated_event")); (s "supportsMemoryEvent", MF (s "supports_memory_event"))])]
  | C_LaunchRequest => (* dap/_requests.py:235-272 *)
    [(s "seq", MF (s "seq")); (s "type", MF (s "message_type")); (s "command", MF (s "command")); (s "arguments", MN [(s "noDebug", MF (s "no_debug")); (s "__restart", MF (s "restart"))])]
  | C_NextRequest => (* dap/_requests.py:276-301 *)
    [(s "seq", MF (s "seq")); (s "type", MF (s "message_type")); (s "command", MF (s "command")); (s "arguments", MN [(s "threadId", MF (s "thread_id")); (s "singleThread", MF (s "single_thread")); (s "granularity", MF (s "granularity"))])]
  | C_RunInTerminalRequest => (* dap/_requests.py:305-339 *)
    [(s "seq", MF (s "seq")); (s "type", MF (s "message_type")); (s "command", MF (s "command")); (s "arguments", MN [(s "kind", MF (s "kind")); (s "title", MF (s "title")); (s "cwd", MF (s "cwd")); (s "args", MF (s "args")); (s "env", MF (s "env"))])]
  | C_ScopesRequest => (* dap/_requests.py:343-354 *)
    [(s "seq", MF (s "seq")); (s "type", MF (s "message_type")); (s "command", MF (s "command")); (s "arguments", MN [(s "frameId", MF (s "frame_id"))])]
  | C_SetBreakpointsRequest => (* dap/_requests.py:358-387 *)
    [(s "seq", MF (s "seq")); (s "type", MF (s "message_type")); (s "command", MF (s "command")); (s "arguments", MN [(s "source", MF (s "source")); (s "breakpoints", MF (s "breakpoints")); (s "lines", MF (s "lines")); (s "sourceModified", MF (s "source_modified"))])]
  | C_SetExceptionBreakpointsRequest => (* dap/_requests.py:391-418 *)
    [(s "seq", MF (s "seq")); (s "type", MF (s "message_type")); (s "command", MF (s "command")); (s "arguments", MN [(s "filters", MF (s "filters")); (s "filterOptions", MF (s "filter_options")); (s "exceptionOptions", MF (s "exception_options"))])]
  | C_SetVariableRequest => (* dap/_requests.py:422-449 *)
    [(s "seq", MF (s "seq")); (s "type", MF (s "message_type")); (s "command", MF (s "command")); (s "arguments", MN [(s "variablesReference", MF (s "variables_reference")); (s "name", MF (s "name")); (s "value", MF (s "value")); (s "format", MF (s "format"))])]
  | C_StackTraceRequest => (* dap/_requests.py:453-481 *)
    [(s "seq", MF (s "seq")); (s "type", MF (s "message_type")); (s "command", MF (s "command")); (s "arguments", MN [(s "threadId", MF (s "thread_id")); (s "startFrame", MF (s "start_frame")); (s "levels", MF (s "levels")); (s "format", MF (s "format"))])]
  | C_StepInRequest => (* dap/_requests.py:485-513 *)
    [(s "seq", MF (s "seq")); (s "type", MF (s "message_type")); (s "command", MF (s "command")); (s "arguments", MN [(s "threadId", MF (s "thread_id")); (s "singleThread", MF (s "single_thread")); (s "targetId", MF (s "thread_id")); (s "granularity", MF (s "granularity"))])]
  | C_StepOutRequest => (* dap/_requests.py:517-542 *)
    [(s "seq", MF (s "seq")); (s "type", MF (s "message_type")); (s "command", MF (s "command")); (s "arguments", MN [(s "threadId", MF (s "thread_id")); (s "singleThread", MF (s "single_thread")); (s "granularity", MF (s "granularity"))])]
  | C_TerminateRequest => (* dap/_requests.py:546-559 *)
    [(s "seq", MF (s "seq")); (s "type", MF (s "message_type")); (s "command", MF (s "command")); (s "arguments", MN [(s "restart", MF (s "restart"))])]
  | C_ThreadsRequest => (* dap/_requests.py:563-569 *)
    [(s "seq", MF (s "seq")); (s "type", MF (s "message_type")); (s "command", MF (s "command"))]
  | C_VariablesRequest => (* dap/_requests.py:573-605 *)
    [(s "seq", MF (s "seq")); (s "type", MF (s "message_type")); (s "command", MF (s "command")); (s "arguments", MN [(s "variablesReference", MF (s "variables_reference")); (s "filter", MF (s "filter")); (s "start", MF (s "start")); (s "count", MF (s "count")); (s "format", MF (s "format"))])]
  | C_AttachResponse => (* dap/_responses.py:23-26 *)
    [(s "seq", MF (s "seq")); (s "type", MF (s "message_type")); (s "request_seq", MF (s "request_seq")); (s "success", MF (s "success")); (s "command", MF (s "command"))]
  | C_CancelResponse => (* dap/_responses.py:30-33 *)
    [(s "seq", MF (s "seq")); (s "type", MF (s "message_type")); (s "request_seq", MF (s "request_seq")); (s "success", MF (s "success")); (s "command", MF (s "command"))]
  | C_ConfigurationDoneResponse => (* dap/_responses.py:37-40 *)
    [(s "seq", MF (s "seq")); (s "type", MF (s "message_type")); (s "request_seq", MF (s "request_seq")); (s "success", MF (s "success")); (s "command", MF (s "command"))]
  | C_ContinueResponse => (* dap/_responses.py:44-49 *)
    [(s "seq", MF (s "seq")); (s "type", MF (s "message_type")); (s "request_seq", MF (s "request_seq")); (s "success", MF (s "success")); (s "command", MF (s "command")); (s "body", MN [(s "allThreadsContinued", MF (s "all_threads_continued"))])]
  | C_DisconnectResponse => (* dap/_responses.py:53-56 *)
    [(s "seq", MF (s "seq")); (s "type", MF (s "message_type")); (s "request_seq", MF (s "request_seq")); (s "success", MF (s "success")); (s "command", MF (s "command"))]
  | C_EvaluateResponse => (* dap/_responses.py:60-84 *)
    [(s "seq", MF (s "seq")); (s "type", MF (s "message_type")); (s "request_seq", MF (s "request_seq")); (s "success", MF (s "success")); (s "command", MF (s "command")); (s "body", MN [(s "result", MF (s "result")); (s "type", MF (s "type")); (s "presentationHint", MF (s "presentation_hint")); (s "variablesReference", MF (s "variables_reference")); (s "namedVariables", MF (s "named_variables")); (s "indexedVariables", MF (s "indexed_variables")); (s "memoryReference", MF (s "memory_reference"))])]
  | C_InitializeResponse => (* dap/_responses.py:88-99 *)
    [(s "seq", MF (s "seq")); (s "type", MF (s "message_type")); (s "request_seq", MF (s "request_seq")); (s "success", MF (s "success")); (s "command", MF (s "command")); (s "body", MF (s "capabilities"))]
  | C_LaunchResponse => (* dap/_responses.py:103-106 *)
    [(s "seq", MF (s "seq")); (s "type", MF (s "message_type")); (s "request_seq", MF (s "request_seq")); (s "success", MF (s "success")); (s "command", MF (s "command"))]
  | C_NextResponse => (* dap/_responses.py:110-113 *)
    [(s "seq", MF (s "seq")); (s "type", MF (s "message_type")); (s "request_seq", MF (s "request_seq")); (s "success", MF (s "success")); (s "command", MF (s "command"))]
  | C_RunInTerminalResponse => (* dap/_responses.py:117-131 *)
    [(s "seq", MF (s "seq")); (s "type", MF (s "message_type")); (s "request_seq", MF (s "request_seq")); (s "success", MF (s "success")); (s "command", MF (s "command")); (s "body", MN [(s "processId", MF (s "process_id")); (s "shellProcessId", MF (s "shell_process_id"))])]
  | C_ScopesResponse => (* dap/_responses.py:135-147 *)
    [(s "seq", MF (s "seq")); (s "type", MF (s "message_type")); (s "request_seq", MF (s "request_seq")); (s "success", MF (s "success")); (s "command", MF (s "command")); (s "body", MN [(s "scopes", MF (s "scopes"))])]
  | C_SetBreakpointsResponse => (* dap/_responses.py:151-164 *)
    [(s "seq", MF (s "seq")); (s "type", MF (s "message_type")); (s "request_seq", MF (s "request_seq")); (s "success", MF (s "success")); (s "command", MF (s "command")); (s "body", MN [(s "breakpoints", MF (s "breakpoints"))])]
  | C_SetExceptionBreakpointsResponse => (* dap/_responses.py:168-181 *)
    [(s "seq", MF (s "seq")); (s "type", MF (s "message_type")); (s "request_seq", MF (s "request_seq")); (s "success", MF (s "success")); (s "command", MF (s "command")); (s "body", MN [(s "breakpoints", MF (s "breakpoints"))])]
  | C_SetVariableResponse => (* dap/_responses.py:185-205 *)
    [(s "seq", MF (s "seq")); (s "type", MF (s "message_type")); (s "request_seq", MF (s "request_seq")); (s "success", MF (s "success")); (s "command", MF (s "command")); (s "body", MN [(s "value", MF (s "value")); (s "type", MF (s "type")); (s "variablesReference", MF (s "variables_reference")); (s "namedVariables", MF (s "named_variables")); (s "indexedVariables", MF (s "indexed_variables"))])]
  | C_StackTraceResponse => (* dap/_responses.py:209-223 *)
    [(s "seq", MF (s "seq")); (s "type", MF (s "message_type")); (s "request_seq", MF (s "request_seq")); (s "success", MF (s "success")); (s "command", MF (s "command")); (s "body", MN [(s "stackFrames", MF (s "stack_frames")); (s "totalFrames", MF (s "total_frames"))])]
  | C_StepInResponse => (* dap/_responses.py:227-230 *)
    [(s "seq", MF (s "seq")); (s "type", MF (s "message_type")); (s "request_seq", MF (s "request_seq")); (s "success", MF (s "success")); (s "command", MF (s "command"))]
  | C_StepOutResponse => (* dap/_responses.py:234-237 *)
    [(s "seq", MF (s "seq")); (s "type", MF (s "message_type")); (s "request_seq", MF (s "request_seq")); (s "success", MF (s "success")); (s "command", MF (s "command"))]
  | C_TerminateResponse => (* dap/_responses.py:241-244 *)
    [(s "seq", MF (s "seq")); (s "type", MF (s "message_type")); (s "request_seq", MF (s "request_seq")); (s "success", MF (s "success")); (s "command", MF (s "command"))]
  | C_ThreadsResponse => (* dap/_responses.py:248-259 *)
    [(s "seq", MF (s "seq")); (s "type", MF (s "message_type")); (s "request_seq", MF (s "request_seq")); (s "success", MF (s "success")); (s "command", MF (s "command")); (s "body", MN [(s "threads", MF (s "threads"))])]
  | C_VariablesResponse => (* dap/_responses.py:263-274 *)
    [(s "seq", MF (s "seq")); (s "type", MF (s "message_type")); (s "request_seq", MF (s "request_seq")); (s "success", MF (s "success")); (s "command", MF (s "command")); (s "body", MN [(s "variables", MF (s "variables"))])]
  | C_ErrorResponse => (* dap/_responses.py:278-293 *)
    [(s "seq", MF (s "seq")); (s "type", MF (s "message_type")); (s "request_seq", MF (s "request_seq")); (s "success", MF (s "success")); (s "command", MF (s "command")); (s "message", MF (s "message")); (s "body", MN [(s "error", MF (s "error"))])]
  | C_BreakpointEvent => (* dap/_events.py:27-42 *)
    [(s "seq", MF (s "seq")); (s "type", MF (s "message_type")); (s "event", MF (s "event")); (s "body", MN [(s "reason", MF (s "reason")); (s "breakpoint", MF (s "breakpoint"))])]
  | C_ExitedEvent => (* dap/_events.py:46-58 *)
    [(s "seq", MF (s "seq")); (s "type", MF (s "message_type")); (s "event", MF (s "event")); (s "body", MN [(s "exitCode", MF (s "exit_code"))])]
  | C_InitializedEvent => (* dap/_events.py:62-69 *)
    [(s "seq", MF (s "seq")); (s "type", MF (s "message_type")); (s "event", MF (s "event"))]
  | C_OutputEvent => (* dap/_events.py:73-113 *)
    [(s "seq", MF (s "seq")); (s "type", MF (s "message_type")); (s "event", MF (s "event")); (s "body", MN [(s "category", MF (s "category")); (s "output", MF (s "output")); (s "group", MF (s "group")); (s "variablesReference", MF (s "variables_reference")); (s "source", MF (s "source")); (s "line", MF (s "line")); (s "column", MF (s "column")); (s "data", MF (s "data"))])]
  | C_StoppedEvent => (* dap/_events.py:117-154 *)
    [(s "seq", MF (s "seq")); (s "type", MF (s "message_type")); (s "event", MF (s "event")); (s "body", MN [(s "reason", MF (s "reason")); (s "description", MF (s "description")); (s "threadId", MF (s "thread_id")); (s "preserveFocusHint", MF (s "preserve_focus_hint")); (s "text", MF (s "text")); (s "allThreadsStopped", MF (s "all_threads_stopped")); (s "hitBreakpointIds", MF (s "hit_breakpoint_ids"))])]
  | C_TerminatedEvent => (* dap/_events.py:158-171 *)
    [(s "seq", MF (s "seq")); (s "type", MF (s "message_type")); (s "event", MF (s "event")); (s "body", MN [(s "restart", MF (s "restart"))])]
  | C_ThreadEvent => (* dap/_events.py:175-188 *)
    [(s "seq", MF (s "seq")); (s "type", MF (s "message_type")); (s "event", MF (s "event")); (s "body", MN [(s "reason", MF (s "reason")); (s "threadId", MF (s "thread_id"))])]
  | C_Breakpoint => (* dap/_types.py:13-59 *)
    [(s "id", MF (s "id")); (s "verified", MF (s "verified")); (s "message", MF (s "message")); (s "source", MF (s "source")); (s "line", MF (s "line")); (s "column", MF (s "column")); (s "endLine", MF (s "end_line")); (s "endColumn", MF (s "end_column")); (s "instructionReference", MF (s "instruction_reference")); (s "offset", MF (s "offset"))]
  | C_Capabilities => (* dap/_types.py:63-156 *)
    [(s "supportsConfigurationDoneRequest", MF (s "supports_configuration_done_request")); (s "supportsFunctionBreakpoints", MF (s "supports_function_breakpoints")); (s "supportsConditionalBreakpoints", MF (s "supports_conditional_breakpoints")); (s "supportsHitConditionalBreakpoints", MF (s "supports_hit_conditional_breakpoints")); (s "supportsEvaluateForHovers", MF (s "supports_evaluate_for_hovers")); (s "exceptionBreakpointFilters", MF (s "exception_breakpoints_filters")); (s "supportsStepBack", MF (s "supports_step_back")); (s "supportsSetVariable", MF (s "supports_set_variable")); (s "supportsRestartFrame", MF (s "supports_restart_frame")); (s "supportsGotoTargetsRequest", MF (s "supports_goto_targets_request")); (s "supportsStepInTargetsRequest", MF (s "supports_step_in_targets_request")); (s "supportsCompletionsRequest", MF (s "supports_completions_request")); (s "supportTerminateDebuggee", MF (s "supports_terminate_debuggee")); (s "supportSuspendDebuggee", MF (s "supports_suspend_debuggee")); (s "supportsTerminateRequest", MF (s "supports_terminate_request")); (s "supportsClipboardContext", MF (s "supports_clipboard_context"))]
  | C_Checksum => (* dap/_types.py:164-176 *)
    [(s "algorithm", MF (s "algorithm")); (s "checksum", MF (s "checksum"))]
  | C_ExceptionBreakpointsFilter => (* dap/_types.py:180-213 *)
    [(s "filter", MF (s "filter")); (s "label", MF (s "label")); (s "description", MF (s "description")); (s "default", MF (s "default")); (s "supportsCondition", MF (s "supports_condition")); (s "conditionDescription", MF (s "condition_description"))]
  | C_ExceptionFilterOptions => (* dap/_types.py:217-229 *)
    [(s "filterId", MF (s "filter_id")); (s "condition", MF (s "condition"))]
  | C_ExceptionOptions => (* dap/_types.py:233-246 *)
    [(s "path", MF (s "path")); (s "breakMode", MF (s "break_mode"))]
  | C_ExceptionPathSegment => (* dap/_types.py:250-262 *)
    [(s "negate", MF (s "negate")); (s "names", MF (s "names"))]
  | C_Message => (* dap/_types.py:266-289 *)
    [(s "id", MF (s "id")); (s "format", MF (s "format")); (s "variables", MF (s "variables")); (s "sendTelemetry", MF (s "send_telemetry")); (s "showUser", MF (s "show_user")); (s "url", MF (s "url")); (s "urlLabel", MF (s "url_label"))]
  | C_Scope => (* dap/_types.py:293-338 *)
    [(s "name", MF (s "name")); (s "presentationHint", MF (s "presentation_hint")); (s "variablesReference", MF (s "variables_reference")); (s "namedVariables", MF (s "named_variables")); (s "indexedVariables", MF (s "indexed_variables")); (s "expensive", MF (s "expensive")); (s "source", MF (s "source")); (s "line", MF (s "line")); (s "column", MF (s "column")); (s "endLine", MF (s "end_line")); (s "endColumn", MF (s "end_column"))]
  | C_Source => (* dap/_types.py:342-385 *)
    [(s "name", MF (s "name")); (s "path", MF (s "path")); (s "sourceReference", MF (s "source_reference")); (s "presentationHint", MF (s "presentation_hint")); (s "origin", MF (s "origin")); (s "sources", MF (s "sources")); (s "adapterData", MF (s "adapter_data")); (s "checksums", MF (s "checksums"))]
  | C_SourceBreakpoint => (* dap/_types.py:389-417 *)
    [(s "line", MF (s "line")); (s "column", MF (s "column")); (s "condition", MF (s "condition")); (s "hitCondition", MF (s "hit_condition")); (s "logMessage", MF (s "log_message"))]
  | C_StackFrame => (* dap/_types.py:421-468 *)
    [(s "id", MF (s "id")); (s "name", MF (s "name")); (s "source", MF (s "source")); (s "line", MF (s "line")); (s "column", MF (s "column")); (s "endLine", MF (s "end_line")); (s "endColumn", MF (s "end_column")); (s "canRestart", MF (s "can_restart")); (s "instructionPointerReference", MF (s "instruction_pointer_reference")); (s "moduleId", MF (s "module_id")); (s "presentationHint", MF (s "presentation_hint"))]
  | C_StackFrameFormat => (* dap/_types.py:472-505 *)
    [(s "parameters", MF (s "parameters")); (s "parameterTypes", MF (s "parameter_types")); (s "parameterNames", MF (s "parameter_names")); (s "parameterValues", MF (s "parameter_values")); (s "line", MF (s "line")); (s "module", MF (s "module")); (s "includeAll", MF (s "include_all"))]
  | C_Thread => (* dap/_types.py:509-520 *)
    [(s "id", MF (s "id")); (s "name", MF (s "name"))]
  | C_ValueFormat => (* dap/_types.py:524-531 *)
    [(s "hex", MF (s "hex"))]
  | C_Variable => (* dap/_types.py:535-578 *)
    [(s "name", MF (s "name")); (s "value", MF (s "value")); (s "type", MF (s "type")); (s "presentationHint", MF (s "presentation_hint")); (s "evaluateName", MF (s "evaluate_name")); (s "variablesReference", MF (s "variables_reference")); (s "namedVariables", MF (s "named_variables")); (s "indexedVariables", MF (s "indexed_variables")); (s "memoryReference", MF (s "memory_reference"))]
  | C_VariablePresentationHint => (* dap/_types.py:582-637 *)
    [(s "kind", MF (s "kind")); (s "attributes", MF (s "attributes")); (s "visibility", MF (s "visibility")); (s "lazy", MF (s "lazy"))]
  end.

(** classes whose unpack is hand written: AttachRequest, LaunchRequest *)
Definition custom (c : cid) : bool :=
  match c with C_AttachRequest | C_LaunchRequest => true | _ => false end.

(** DAPObjectMeta.REGISTRY as filled by DAPObjectMeta.__new__ (_messages.py:158-187) *)
Definition reg_request : list (pystr * cid) := [(s "attach", C_AttachRequest); (s "cancel", C_CancelRequest); (s "configurationDone", C_ConfigurationDoneRequest); (s "continue", C_ContinueRequest); (s "disconnect", C_DisconnectRequest); (s "evaluate", C_EvaluateRequest); (s "initialize", C_InitializeRequest); (s "launch", C_LaunchRequest); (s "next", C_NextRequest); (s "runInTerminal", C_RunInTerminalRequest); (s "scopes", C_ScopesRequest); (s "setBreakpoints", C_SetBreakpointsRequest); (s "setExceptionBreakpoints", C_SetExceptionBreakpointsRequest); (s "setVariable", C_SetVariableRequest); (s "stackTrace", C_StackTraceRequest); (s "stepIn", C_StepInRequest); (s "stepOut", C_StepOutRequest); (s "terminate", C_TerminateRequest); (s "threads", C_ThreadsRequest); (s "variables", C_VariablesRequest)].
Definition reg_response : list (pystr * cid) := [(s "attach", C_AttachResponse); (s "cancel", C_CancelResponse); (s "configurationDone", C_ConfigurationDoneResponse); (s "continue", C_ContinueResponse); (s "disconnect", C_DisconnectResponse); (s "evaluate", C_EvaluateResponse); (s "initialize", C_InitializeResponse); (s "launch", C_LaunchResponse); (s "next", C_NextResponse); (s "runInTerminal", C_RunInTerminalResponse); (s "scopes", C_ScopesResponse); (s "setBreakpoints", C_SetBreakpointsResponse); (s "setExceptionBreakpoints", C_SetExceptionBreakpointsResponse); (s "setVariable", C_SetVariableResponse); (s "stackTrace", C_StackTraceResponse); (s "stepIn", C_StepInResponse); (s "stepOut", C_StepOutResponse); (s "terminate", C_TerminateResponse); (s "threads", C_ThreadsResponse); (s "variables", C_VariablesResponse); (s "error", C_ErrorResponse)].
Definition reg_event : list (pystr * cid) := [(s "breakpoint", C_BreakpointEvent); (s "exited", C_ExitedEvent); (s "initialized", C_InitializedEvent); (s "output", C_OutputEvent); (s "stopped", C_StoppedEvent); (s "terminated", C_TerminatedEvent); (s "thread", C_ThreadEvent)].
