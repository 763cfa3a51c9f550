(** Model of how the debuggee builds the message objects it queues for the client.
    The values themselves are computed by the models of the handlers (DbgTypes.Out); here they are put into
    the objects of dap/_responses.py and dap/_events.py. *)
From Verif Require Import PyBase PyDict JsonModel MsgBase MsgTables MsgModel DbgTypes.
Set Implicit Arguments.

(** a dataclass constructor call c( **kvs): every field gets its argument, or else its default *)
Definition fval (kvs : list (pystr * pval)) (f : field) : pval :=
  match dget kvs (fname f) with
  | Some v => v
  | None => match fdef f with FDef v => v | _ => PNull end
  end.
Definition mk (c : cid) (kvs : list (pystr * pval)) : pval :=
  PObj c (map (fun f => (fname f, fval kvs f)) (fields c)).

Definition pn (n : N) : pval := PInt (Z.of_N n).
Definition popt {A} (f : A -> pval) (o : option A) : pval := match o with Some x => f x | None => PNull end.

(** os.path.basename (posixpath): the part after the last slash *)
Fixpoint basename_from (cur p : pystr) : pystr :=
  match p with [] => cur | c :: r => basename_from (if N.eqb c 47 then [] else cur ++ [c]) r end.
Definition basename (p : pystr) : pystr := basename_from [] p.

Section Objs.
  (** the Source object of a setBreakpoints request (kept and echoed), command names outside the model's
      list, and the traceback text *)
  Variable src_obj : Source -> pval.
  Variable other : N -> pystr.
  Variable tb : Cmd -> Z -> pystr.

  (** _debuggee.py:696-700, 707-713, 847-855 *)
  Definition bp_obj (b : Breakpoint) : pval :=
    mk C_Breakpoint [(s "id", pn (bp_id b)); (s "verified", PBool (bp_verified b)); (s "message", popt PStr (bp_message b));
                     (s "source", src_obj (bp_source b)); (s "line", popt PInt (bp_line b)); (s "end_line", popt PInt (bp_end b))].
  (** strategy/debug.py:735-776; the two scopes marked expensive *)
  Definition expensive (name : pystr) : bool := mem name [s "Host Variables"; s "Global Variables"].
  Definition scope_obj (x : ScopeInfo) : pval :=
    mk C_Scope [(s "name", PStr (si_name x)); (s "variables_reference", pn (si_ref x)); (s "named_variables", pn (si_named x));
                (s "indexed_variables", pn (si_indexed x)); (s "expensive", PBool (expensive (si_name x)))].
  (** strategy/debug.py:304-318 AnsibleStackFrame.to_dap *)
  Definition frame_obj (f : FrameInfo) : pval :=
    mk C_StackFrame [(s "id", pn (fi_id f)); (s "name", PStr (fi_name f));
                     (s "source", mk C_Source [(s "name", PStr (basename (fi_path f))); (s "path", PStr (fi_path f))]);
                     (s "line", PInt (fi_line f))].
  (** strategy/debug.py:116-120 AnsibleThread.to_dap *)
  Definition thread_obj (t : ThreadInfo) : pval := mk C_Thread [(s "id", pn (ti_id t)); (s "name", PStr (ti_name t))].
  (** strategy/debug.py:903-912 *)
  Definition var_obj (v : VarInfo) : pval :=
    mk C_Variable [(s "name", PStr (vi_name v)); (s "value", PStr (vi_value v)); (s "type", PStr (vi_type v));
                   (s "named_variables", pn (vi_named v)); (s "indexed_variables", pn (vi_indexed v)); (s "variables_reference", pn (vi_ref v))].
  (** dap/_messages.py:20-40 Command values *)
  Definition command_value (c : Cmd) : pystr :=
    match c with
    | CConfigurationDone => s "configurationDone" | CContinue => s "continue" | CDisconnect => s "disconnect"
    | CEvaluate => s "evaluate" | CNext => s "next" | CScopes => s "scopes"
    | CSetExceptionBreakpoints => s "setExceptionBreakpoints" | CSetBreakpoints => s "setBreakpoints"
    | CSetVariable => s "setVariable" | CStackTrace => s "stackTrace" | CStepIn => s "stepIn" | CStepOut => s "stepOut"
    | CTerminate => s "terminate" | CThreads => s "threads" | CVariables => s "variables" | COther n => other n
    end.
  (** classes of the responses without a body: _debuggee.py:605, 643, 661, 765, 774, 784 *)
  Definition ack_class (c : Cmd) : cid :=
    match c with
    | CNext => C_NextResponse | CSetExceptionBreakpoints => C_SetExceptionBreakpointsResponse | CStepIn => C_StepInResponse
    | CStepOut => C_StepOutResponse | CTerminate => C_TerminateResponse | _ => C_ConfigurationDoneResponse
    end.
  Definition reason_value (r : StopReason) : pval :=
    PEnum E_StoppedReason (match r with StStep => s "step" | StBreakpoint => s "breakpoint" | StException => s "exception" end).

  Definition out_obj (o : Out) : pval :=
    let rs q := (s "request_seq", PInt q) in
    match o with
    | OBps q l => mk C_SetBreakpointsResponse [rs q; (s "breakpoints", PList (map bp_obj l))] (* _debuggee.py:731-735 *)
    | OBpEvent b => mk C_BreakpointEvent [(s "reason", PStr (s "changed")); (s "breakpoint", bp_obj b)] (* _debuggee.py:573-577 *)
    | OThread started t => (* strategy/debug.py:661-666, 972-976 *)
        mk C_ThreadEvent [(s "reason", PStr (if started then s "started" else s "exited")); (s "thread_id", pn t)]
    | OStopped e => (* strategy/debug.py:153-191, 226-236; preserve_focus_hint and all_threads_stopped keep or are given their default *)
        mk C_StoppedEvent [(s "reason", reason_value (st_reason e)); (s "description", PStr (st_desc e)); (s "thread_id", pn (st_thread e));
                           (s "text", popt PStr (st_text e)); (s "hit_breakpoint_ids", PList (map pn (st_hit e)))]
    | OInitialized => mk C_InitializedEvent [] (* _debuggee.py:819 *)
    | OAck c q => mk (ack_class c) [rs q]
    | OContinue q all => mk C_ContinueResponse [rs q; (s "all_threads_continued", PBool all)] (* strategy/debug.py:679-682 *)
    | OEvaluate q v ty => mk C_EvaluateResponse [rs q; (s "result", PStr v); (s "type", popt PStr ty)] (* strategy/debug.py:847-851 *)
    | OScopes q l => mk C_ScopesResponse [rs q; (s "scopes", PList (map scope_obj l))] (* strategy/debug.py:778-781 *)
    | OFrames q l t => mk C_StackTraceResponse [rs q; (s "stack_frames", PList (map frame_obj l)); (s "total_frames", pn t)] (* strategy/debug.py:863-867 *)
    | OThreads q l => mk C_ThreadsResponse [rs q; (s "threads", PList (map thread_obj l))] (* strategy/debug.py:873-876 *)
    | OVars q l => mk C_VariablesResponse [rs q; (s "variables", PList (map var_obj l))] (* strategy/debug.py:914-917 *)
    | OSetVar q v => (* strategy/debug.py:934-941 *)
        mk C_SetVariableResponse [rs q; (s "value", PStr (vi_value v)); (s "type", PStr (vi_type v)); (s "variables_reference", pn (vi_ref v));
                                  (s "named_variables", pn (vi_named v)); (s "indexed_variables", pn (vi_indexed v))]
    | OError c q => (* _debuggee.py:131-135 *)
        mk C_ErrorResponse [(s "command", PEnum E_Command (command_value c)); rs q;
                            (s "message", PStr (s "Critical Debuggee exception received" ++ 10%N :: tb c q))]
    end.
End Objs.
