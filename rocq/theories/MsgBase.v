(** Value and table vocabulary of the DAP message library model. *)
From Verif Require Import PyBase PyDict JsonModel.

(** enumeration classes of dap/_messages.py:15-59 and dap/_events.py:14-23 *)
Inductive eid := E_MessageType | E_Command | E_EventType | E_StoppedReason.
(** dataclasses of dap/_requests.py, _responses.py, _events.py, _types.py *)
Inductive cid :=
| C_AttachRequest
| C_CancelRequest
| C_ConfigurationDoneRequest
| C_ContinueRequest
| C_DisconnectRequest
| C_EvaluateRequest
| C_InitializeRequest
| C_LaunchRequest
| C_NextRequest
| C_RunInTerminalRequest
| C_ScopesRequest
| C_SetBreakpointsRequest
| C_SetExceptionBreakpointsRequest
| C_SetVariableRequest
| C_StackTraceRequest
| C_StepInRequest
| C_StepOutRequest
| C_TerminateRequest
| C_ThreadsRequest
| C_VariablesRequest
| C_AttachResponse
| C_CancelResponse
| C_ConfigurationDoneResponse
| C_ContinueResponse
| C_DisconnectResponse
| C_EvaluateResponse
| C_InitializeResponse
| C_LaunchResponse
| C_NextResponse
| C_RunInTerminalResponse
| C_ScopesResponse
| C_SetBreakpointsResponse
| C_SetExceptionBreakpointsResponse
| C_SetVariableResponse
| C_StackTraceResponse
| C_StepInResponse
| C_StepOutResponse
| C_TerminateResponse
| C_ThreadsResponse
| C_VariablesResponse
| C_ErrorResponse
| C_BreakpointEvent
| C_ExitedEvent
| C_InitializedEvent
| C_OutputEvent
| C_StoppedEvent
| C_TerminatedEvent
| C_ThreadEvent
| C_Breakpoint
| C_Capabilities
| C_Checksum
| C_ExceptionBreakpointsFilter
| C_ExceptionFilterOptions
| C_ExceptionOptions
| C_ExceptionPathSegment
| C_Message
| C_Scope
| C_Source
| C_SourceBreakpoint
| C_StackFrame
| C_StackFrameFormat
| C_Thread
| C_ValueFormat
| C_Variable
| C_VariablePresentationHint.

Definition all_cids : list cid := [C_AttachRequest; C_CancelRequest; C_ConfigurationDoneRequest; C_ContinueRequest; C_DisconnectRequest; C_EvaluateRequest; C_InitializeRequest; C_LaunchRequest; C_NextRequest; C_RunInTerminalRequest; C_ScopesRequest; C_SetBreakpointsRequest; C_SetExceptionBreakpointsRequest; C_SetVariableRequest; C_StackTraceRequest; C_StepInRequest; C_StepOutRequest; C_TerminateRequest; C_ThreadsRequest; C_VariablesRequest; C_AttachResponse; C_CancelResponse; C_ConfigurationDoneResponse; C_ContinueResponse; C_DisconnectResponse; C_EvaluateResponse; C_InitializeResponse; C_LaunchResponse; C_NextResponse; C_RunInTerminalResponse; C_ScopesResponse; C_SetBreakpointsResponse; C_SetExceptionBreakpointsResponse; C_SetVariableResponse; C_StackTraceResponse; C_StepInResponse; C_StepOutResponse; C_TerminateResponse; C_ThreadsResponse; C_VariablesResponse; C_ErrorResponse; C_BreakpointEvent; C_ExitedEvent; C_InitializedEvent; C_OutputEvent; C_StoppedEvent; C_TerminatedEvent; C_ThreadEvent; C_Breakpoint; C_Capabilities; C_Checksum; C_ExceptionBreakpointsFilter; C_ExceptionFilterOptions; C_ExceptionOptions; C_ExceptionPathSegment; C_Message; C_Scope; C_Source; C_SourceBreakpoint; C_StackFrame; C_StackFrameFormat; C_Thread; C_ValueFormat; C_Variable; C_VariablePresentationHint].

(** Python values that occur as attributes of the message objects. *)
Inductive pval :=
| PNull | PBool (b : bool) | PInt (z : Z) | PStr (t : pystr)
| PList (l : list pval)
| PDict (d : list (pystr * pval))
| PEnum (e : eid) (value : pystr)
| PObj (c : cid) (attrs : list (pystr * pval)).

(** result of _parse_field_type (dap/_messages.py:74-103): None, an Enum class, or cls.unpack *)
Inductive unpacker := UId | UEnum (e : eid) | UObj (c : cid).
(** dataclass default: required, a default value (or class attribute for init=False fields), or unset *)
Inductive fdefault := FReq | FDef (v : pval) | FUnset.
Record field := { fname : pystr; finit : bool; fdef : fdefault; funp : unpacker }.
Definition fld (n : String.string) (i : bool) (d : fdefault) (u : unpacker) : field :=
  {| fname := s n; finit := i; fdef := d; funp := u |}.
Arguments fld n%string_scope i d u.
(** value of a dap= mapping: attribute name or nested mapping *)
Inductive mentry := MF (f : pystr) | MN (m : list (pystr * mentry)).
