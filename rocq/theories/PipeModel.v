(** A connected session from the client's bytes to the client's bytes: the adapter
    process (_debug_adapter.py), the debuggee process (SysModel) and the two directions
    of the connection between them.  Begins when the adapter has connected
    (_debug_adapter.py:448-461, 570-582: the response is sent and the configuration is on
    its way) and follows the session while neither side closes it; the ends of sessions
    are in DaModel and LifeModel.
    Simplified: the connection between the two processes is a pair of queues of message
    objects (QueueModel, C37, shows that it is one); the debug level of the log is off
    (C62); one call of send_to_client is one step (C46 is about overlapping calls, which
    needs a second sender). *)
From Verif Require Import PyBase PyDict JsonModel MsgBase MsgTables MsgModel AdapterModel DbgTypes BpModel ThreadModel StratModel SysModel ReadModel WireModel OutModel.
Set Implicit Arguments.

(** What the adapter sends to the debuggee: the configuration event, or a request. *)
Inductive up := UConfig (maps : list Mapping) | UMsg (v : pval).

Record Pipe := mkPipe {
  p_conn : conn;            (* the adapter's DebugAdapterConnection *)
  p_up : list up;           (* sent by the adapter, not yet received by the debuggee *)
  p_sys : Sys;              (* the debuggee *)
  p_sent : nat;             (* how many of the messages queued in the debuggee the send thread took *)
  p_down : list Out;        (* sent by the debuggee, not yet received by the adapter *)
  p_written : bytes }.      (* what the adapter wrote to stdout *)

Inductive plabel :=
| QRead (data : bytes)      (* stdin.read returns, receive_data: _debug_adapter.py:283-287 *)
| QForward                  (* next_message returns a request, sent to the debuggee: 289-300 *)
| QReceive                  (* the debuggee receives: _debuggee.py:118-136 *)
| QPlaybook (l : label)     (* the playbook goes on, or the waiting handler does *)
| QSend                     (* the debuggee's send thread: _debuggee.py:886-888 *)
| QDeliver.                 (* the adapter receives and writes: _debug_adapter.py:231-235, 352-369 *)

(** Not a message of the adapter, and not the end of the connection. *)
Definition is_playbook (l : label) : bool := match l with LReq _ _ | LConfig _ | LClosed => false | _ => true end.

Section P.
Variable code : pval -> N.
Variable src_obj : Source -> pval.
Variable other : N -> pystr.
Variable tb : Cmd -> Z -> pystr.
Variable py_int : pystr -> option Z.
Variable py_repr : heap -> val -> pystr.
Variable type_name : heap -> val -> pystr.
Variable tmpl : pystr -> nat -> heap -> res (list obj * val).
Variable tmpl_args : nat -> nat -> heap -> res (list obj * val).
Variable err_text : exn -> pystr.
Variable parse_repl : pystr -> res ReplCmd.
Notation step := (step py_int py_repr type_name tmpl tmpl_args err_text parse_repl).

(** _debug_adapter.py:299-300: a request is sent to the debuggee.  A disconnect request
    (296-298) and messages that are no requests (302-303) are not followed here. *)
Definition forwards (v : pval) : bool :=
  match v with
  | PObj (C_AttachRequest | C_CancelRequest | C_ConfigurationDoneRequest | C_ContinueRequest | C_EvaluateRequest | C_InitializeRequest | C_LaunchRequest
         | C_NextRequest | C_RunInTerminalRequest | C_ScopesRequest | C_SetBreakpointsRequest | C_SetExceptionBreakpointsRequest | C_SetVariableRequest
         | C_StackTraceRequest | C_StepInRequest | C_StepOutRequest | C_TerminateRequest | C_ThreadsRequest | C_VariablesRequest) _ => true
  | _ => false
  end.

Definition pstep (p : Pipe) (l : plabel) : option Pipe :=
  match l with
  | QRead data => Some (mkPipe (receive_data (p_conn p) data) (p_up p) (p_sys p) (p_sent p) (p_down p) (p_written p))
  | QForward =>
    match next_message (p_conn p) with
    | (Ok (Some m), c) => if forwards m then Some (mkPipe c (p_up p ++ [UMsg m]) (p_sys p) (p_sent p) (p_down p) (p_written p)) else None
    | _ => None            (* nothing to forward, or the adapter ends: DaModel *)
    end
  | QReceive =>
    match p_up p with
    | UConfig maps :: rest =>
      match step (p_sys p) (LConfig maps) with
      | Some y => Some (mkPipe (p_conn p) rest y (p_sent p) (p_down p) (p_written p)) | None => None end
    | UMsg m :: rest =>
      match req_of code m with
      | Some (q, r) =>
        match step (p_sys p) (LReq q r) with
        | Some y => Some (mkPipe (p_conn p) rest y (p_sent p) (p_down p) (p_written p)) | None => None end
      | None => None end
    | [] => None
    end
  | QPlaybook l =>
    if is_playbook l then match step (p_sys p) l with
      | Some y => Some (mkPipe (p_conn p) (p_up p) y (p_sent p) (p_down p) (p_written p)) | None => None end
    else None
  | QSend =>
    match nth_error (d_out (w_dbg (y_w (p_sys p)))) (p_sent p) with
    | Some (Some o) => Some (mkPipe (p_conn p) (p_up p) (p_sys p) (S (p_sent p)) (p_down p ++ [o]) (p_written p))
    | _ => None            (* nothing is queued, or the end: the thread stops *)
    end
  | QDeliver =>
    match p_down p with
    | o :: rest =>
      match send_out false (p_conn p) (out_obj src_obj other tb o) with
      | (Ok data, c) => Some (mkPipe c (p_up p) (p_sys p) (p_sent p) rest (p_written p ++ data))
      | (Err _, _) => None end
    | [] => None
    end
  end.
Inductive prun : Pipe -> list plabel -> Pipe -> Prop :=
| prun_nil p : prun p [] p
| prun_snoc p ls p1 l p2 : prun p ls p1 -> pstep p1 l = Some p2 -> prun p (ls ++ [l]) p2.
End P.
