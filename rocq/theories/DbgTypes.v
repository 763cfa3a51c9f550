(** DAP objects the debuggee exchanges with the adapter, as typed records.
    The generic, table-driven message layer is in MsgModel; here only the
    members that [_debuggee.py] and [strategy/debug.py] read or write appear. *)
From Verif Require Import PyBase PyDict.
Set Implicit Arguments.

(** dap/_types.py:342-386 [Source].  [src_rest] stands for all other members
    (name, sourceReference, ...), which are only copied. *)
Record Source := mkSource { src_path : option pystr; src_rest : N }.

(** dap/_types.py:389-417 [SourceBreakpoint].  [sb_rest] stands for column,
    hitCondition and logMessage, which the debuggee never reads. *)
Record SourceBreakpoint := mkSB { sb_line : Z; sb_cond : option pystr; sb_rest : N }.

(** dap/_types.py:12-59 [Breakpoint]; column, endColumn, instructionReference and
    offset are never set by the debuggee. *)
Record Breakpoint := mkBP {
  bp_id : N; bp_verified : bool; bp_message : option pystr; bp_source : Source;
  bp_line : option Z; bp_end : option Z }.

(** _debuggee.py:218-225 [AnsibleLineBreakpoint]. *)
Record LineBp := mkLB {
  lb_id : N; lb_source : Source; lb_sb : SourceBreakpoint; lb_bp : Breakpoint;
  lb_actual : pystr; lb_srcpath : pystr }.

(** _debuggee.py:45-49 [PathMapping]. *)
Record Mapping := mkMap { m_local : pystr; m_remote : pystr }.

(** dap/_types.py Thread, StackFrame, Scope, Variable: the members that are set. *)
Record ThreadInfo := mkTI { ti_id : N; ti_name : pystr }.
Record FrameInfo := mkFI { fi_id : N; fi_name : pystr; fi_path : pystr; fi_line : Z }.
Record ScopeInfo := mkSI { si_name : pystr; si_ref : N; si_named : N; si_indexed : N }.
Record VarInfo := mkVI { vi_name : pystr; vi_value : pystr; vi_type : pystr;
                         vi_named : N; vi_indexed : N; vi_ref : N }.

(** dap/_events.py:117-154 [StoppedEvent]. *)
Inductive StopReason := StStep | StBreakpoint | StException.
Record Stopped := mkStopped {
  st_reason : StopReason; st_desc : pystr; st_thread : N;
  st_text : option pystr; st_hit : list N }.

(** DAP commands the debuggee can receive; dap/_messages.py Command. *)
Inductive Cmd := CConfigurationDone | CContinue | CDisconnect | CEvaluate | CNext | CScopes
 | CSetExceptionBreakpoints | CSetBreakpoints | CSetVariable | CStackTrace | CStepIn | CStepOut
 | CTerminate | CThreads | CVariables | COther (n : N).

(** Messages put on the send queue (a [None] entry ends the stream and is
    represented by [option Out] in the queue). *)
Inductive Out :=
| OBps (seq : Z) (l : list Breakpoint)                  (* SetBreakpointsResponse *)
| OBpEvent (b : Breakpoint)                             (* BreakpointEvent "changed" *)
| OThread (started : bool) (tid : N)                    (* ThreadEvent started / exited *)
| OStopped (e : Stopped)
| OInitialized
| OAck (c : Cmd) (seq : Z)                              (* response without a body *)
| OContinue (seq : Z) (all : bool)
| OEvaluate (seq : Z) (value : pystr) (ty : option pystr)
| OScopes (seq : Z) (l : list ScopeInfo)
| OFrames (seq : Z) (l : list FrameInfo) (total : N)
| OThreads (seq : Z) (l : list ThreadInfo)
| OVars (seq : Z) (l : list VarInfo)
| OSetVar (seq : Z) (v : VarInfo)
| OError (c : Cmd) (seq : Z).                           (* ErrorResponse *)

(** Requests the debuggee reads from the adapter, with the members it uses. *)
Inductive Req :=
| RConfigurationDone
| RContinue (tid : N) (single : bool)
| RDisconnect (terminate : option bool)
| REvaluate (expr : pystr) (frame : option N) (ctx : option pystr)
| RNext (tid : N)
| RScopes (frame : N)
| RSetException (filters : list pystr)
| RSetBreakpoints (src : Source) (bps : list SourceBreakpoint) (modified : bool)
| RSetVariable (ref : N) (name value : pystr)
| RStackTrace (tid : N)
| RStepIn (tid : N)
| RStepOut (tid : N)
| RTerminate
| RThreads
| RVariables (ref : N)
| ROther (n : N).                                       (* any other request class *)
