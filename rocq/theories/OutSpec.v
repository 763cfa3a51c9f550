(** What a message sent to the client says, read off its JSON members; written from the protocol
    description (DAP), without the message library.  Used by C66. *)
From Coq Require String.
From Verif Require Import PyBase PyDict JsonModel DbgTypes WireSpec.
Set Implicit Arguments.

Definition body (j : json) (k : String.string) : json := at_ j [s "body"; s k].
Arguments body j k%string_scope.

(** response to request [q], of command [cmd] *)
Definition response (j : json) (cmd : pystr) (q : Z) (ok : bool) : Prop :=
  member j "type" = JStr (s "response") /\ member j "command" = JStr cmd /\
  member j "request_seq" = JInt q /\ member j "success" = JBool ok.
Definition event (j : json) (name : String.string) : Prop :=
  member j "type" = JStr (s "event") /\ member j "event" = JStr (s name).
Arguments event j name%string_scope.

Definition int_opt (j : json) (o : option Z) : Prop :=
  match o with Some z => j = JInt z | None => j = JNull end.
Definition str_opt (j : json) (o : option pystr) : Prop :=
  match o with Some t => j = JStr t | None => j = JNull end.
Definition items {A} (P : json -> A -> Prop) (j : json) (l : list A) : Prop :=
  exists js, j = JArr js /\ Forall2 P js l.

(** the last component of a path *)
Definition last_part (path name : pystr) : Prop :=
  exists dir, path = dir ++ name /\ ~ In 47%N name /\ (dir = [] \/ exists d, dir = d ++ [47%N]).

Definition cmd_name (other : N -> pystr) (c : Cmd) : pystr :=
  match c with
  | CConfigurationDone => s "configurationDone" | CContinue => s "continue" | CDisconnect => s "disconnect"
  | CEvaluate => s "evaluate" | CNext => s "next" | CScopes => s "scopes"
  | CSetExceptionBreakpoints => s "setExceptionBreakpoints" | CSetBreakpoints => s "setBreakpoints"
  | CSetVariable => s "setVariable" | CStackTrace => s "stackTrace" | CStepIn => s "stepIn" | CStepOut => s "stepOut"
  | CTerminate => s "terminate" | CThreads => s "threads" | CVariables => s "variables" | COther n => other n
  end.
Definition reason_name (r : StopReason) : pystr :=
  match r with StStep => s "step" | StBreakpoint => s "breakpoint" | StException => s "exception" end.

Section Tells.
  (** the JSON of a source the client itself sent; the names of commands the debuggee does not know *)
  Variable srcj : Source -> json.
  Variable other : N -> pystr.

  (** DAP Breakpoint, Scope, StackFrame, Thread, Variable *)
  Definition bp_tells (j : json) (b : Breakpoint) : Prop :=
    num (member j "id") (bp_id b) /\ member j "verified" = JBool (bp_verified b) /\
    str_opt (member j "message") (bp_message b) /\ member j "source" = srcj (bp_source b) /\
    int_opt (member j "line") (bp_line b) /\ int_opt (member j "endLine") (bp_end b).
  Definition scope_tells (j : json) (x : ScopeInfo) : Prop :=
    text (member j "name") (si_name x) /\ num (member j "variablesReference") (si_ref x) /\
    num (member j "namedVariables") (si_named x) /\ num (member j "indexedVariables") (si_indexed x) /\
    (exists b, member j "expensive" = JBool b /\ (b = true <-> si_name x = s "Host Variables" \/ si_name x = s "Global Variables")).
  Definition frame_tells (j : json) (f : FrameInfo) : Prop :=
    num (member j "id") (fi_id f) /\ text (member j "name") (fi_name f) /\ member j "line" = JInt (fi_line f) /\
    text (at_ j [s "source"; s "path"]) (fi_path f) /\
    exists n, at_ j [s "source"; s "name"] = JStr n /\ last_part (fi_path f) n.
  Definition thread_tells (j : json) (t : ThreadInfo) : Prop :=
    num (member j "id") (ti_id t) /\ text (member j "name") (ti_name t).
  Definition var_tells (j : json) (v : VarInfo) : Prop :=
    text (member j "name") (vi_name v) /\ text (member j "value") (vi_value v) /\ text (member j "type") (vi_type v) /\
    num (member j "variablesReference") (vi_ref v) /\ num (member j "namedVariables") (vi_named v) /\
    num (member j "indexedVariables") (vi_indexed v).

  Definition tells (j : json) (n : Z) (o : Out) : Prop :=
    member j "seq" = JInt n /\
    match o with
    | OBps q l => response j (s "setBreakpoints") q true /\ items bp_tells (body j "breakpoints") l
    | OBpEvent b => event j "breakpoint" /\ text (body j "reason") (s "changed") /\ bp_tells (body j "breakpoint") b
    | OThread started t => event j "thread" /\ text (body j "reason") (if started then s "started" else s "exited") /\ num (body j "threadId") t
    | OStopped e => event j "stopped" /\ text (body j "reason") (reason_name (st_reason e)) /\
        text (body j "description") (st_desc e) /\ num (body j "threadId") (st_thread e) /\
        str_opt (body j "text") (st_text e) /\ items num (body j "hitBreakpointIds") (st_hit e) /\
        body j "allThreadsStopped" = JBool false
    | OInitialized => event j "initialized"
    | OAck c q => response j (cmd_name other c) q true
    | OContinue q all => response j (s "continue") q true /\ body j "allThreadsContinued" = JBool all
    | OEvaluate q v ty => response j (s "evaluate") q true /\ text (body j "result") v /\ str_opt (body j "type") ty /\
        num (body j "variablesReference") 0
    | OScopes q l => response j (s "scopes") q true /\ items scope_tells (body j "scopes") l
    | OFrames q l t => response j (s "stackTrace") q true /\ items frame_tells (body j "stackFrames") l /\ num (body j "totalFrames") t
    | OThreads q l => response j (s "threads") q true /\ items thread_tells (body j "threads") l
    | OVars q l => response j (s "variables") q true /\ items var_tells (body j "variables") l
    | OSetVar q v => response j (s "setVariable") q true /\ text (body j "value") (vi_value v) /\ text (body j "type") (vi_type v) /\
        num (body j "variablesReference") (vi_ref v) /\ num (body j "namedVariables") (vi_named v) /\
        num (body j "indexedVariables") (vi_indexed v)
    | OError c q => response j (cmd_name other c) q false /\ exists t, text (member j "message") (s "Critical Debuggee exception received" ++ 10%N :: t)
    end.
End Tells.

(** the commands the debuggee acknowledges without a body *)
Definition ack_ok (o : Out) : Prop :=
  match o with
  | OAck c _ => In c [CConfigurationDone; CNext; CSetExceptionBreakpoints; CStepIn; CStepOut; CTerminate]
  | _ => True
  end.
(** the texts and sources of a message *)
Definition otext (o : option pystr) : list pystr := match o with Some t => [t] | None => [] end.
Definition out_bps (o : Out) : list Breakpoint :=
  match o with OBps _ l => l | OBpEvent b => [b] | _ => [] end.
Definition out_texts (o : Out) : list pystr :=
  match o with
  | OStopped e => st_desc e :: otext (st_text e)
  | OEvaluate _ v ty => v :: otext ty
  | OScopes _ l => map si_name l
  | OFrames _ l _ => map fi_name l ++ map fi_path l
  | OThreads _ l => map ti_name l
  | OVars _ l => flat_map (fun v => [vi_name v; vi_value v; vi_type v]) l
  | OSetVar _ v => [vi_value v; vi_type v]
  | _ => flat_map (fun b => otext (bp_message b)) (out_bps o)
  end.
