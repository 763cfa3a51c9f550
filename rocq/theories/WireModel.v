(** Model of how the debuggee reads the attributes of a request object:
    src/ansibug/_debuggee.py:594-802 (process_message overloads) and the strategy methods they call
    (ansible_collections/.../strategy/debug.py:668-959). *)
From Verif Require Import PyBase PyDict JsonModel MsgBase MsgTables MsgModel MsgSpec DbgTypes.
Set Implicit Arguments.

(** Python truth value *)
Definition truth (v : pval) : bool :=
  match v with
  | PNull => false | PBool b => b | PInt z => negb (Z.eqb z 0)
  | PStr t => match t with [] => false | _ => true end
  | PList l => match l with [] => false | _ => true end
  | PDict d => match d with [] => false | _ => true end
  | PEnum _ _ | PObj _ _ => true
  end.

(** attribute reads; [None] when the attribute does not hold a value of the type its annotation
    declares (dap/_requests.py), which the rest of the model does not follow *)
Definition rd_int (o : option pval) : option Z := match o with Some (PInt z) => Some z | _ => None end.
Definition rd_id (o : option pval) : option N :=
  match o with Some (PInt z) => if (0 <=? z)%Z then Some (Z.to_N z) else None | _ => None end.
Definition rd_id_opt (o : option pval) : option (option N) :=
  match o with Some PNull => Some None | _ => match rd_id o with Some n => Some (Some n) | None => None end end.
Definition rd_str (o : option pval) : option pystr := match o with Some (PStr t) => Some t | _ => None end.
Definition rd_str_opt (o : option pval) : option (option pystr) :=
  match o with Some PNull => Some None | Some (PStr t) => Some (Some t) | _ => None end.
Definition rd_flag (o : option pval) : option bool := match o with Some v => Some (truth v) | None => None end.
(** terminate_debuggee: None is kept apart (debug.py:684-689 only tests the truth value) *)
Definition rd_flag_opt (o : option pval) : option (option bool) :=
  match o with Some PNull => Some None | Some v => Some (Some (truth v)) | None => None end.
Fixpoint all_some {A B} (f : A -> option B) (l : list A) : option (list B) :=
  match l with
  | [] => Some []
  | x :: r => match f x, all_some f r with Some y, Some ys => Some (y :: ys) | _, _ => None end
  end.
Definition rd_list {B} (f : pval -> option B) (o : option pval) : option (list B) :=
  match o with Some (PList l) => all_some f l | _ => None end.

Section Req.
  (** stands for the members of a Source / SourceBreakpoint that are only copied *)
  Variable code : pval -> N.
  Definition rd_source (v : pval) : option Source :=
    match v with
    | PObj C_Source _ => match rd_str_opt (attr v "path") with Some p => Some (mkSource p (code v)) | None => None end
    | _ => None
    end.
  Definition rd_bp (v : pval) : option SourceBreakpoint :=
    match v with
    | PObj C_SourceBreakpoint _ =>
      match rd_int (attr v "line"), rd_str_opt (attr v "condition") with
      | Some l, Some c => Some (mkSB l c (code v)) | _, _ => None end
    | _ => None
    end.

  Definition omap {A B} (f : A -> B) (o : option A) : option B := match o with Some x => Some (f x) | None => None end.

  (** _debuggee.py:594-802 and strategy/debug.py: which attributes each handler reads *)
  Definition act_of (c : cid) (v : pval) : option Req :=
    match c with
    | C_ConfigurationDoneRequest => Some RConfigurationDone
    | C_ContinueRequest => (* debug.py:668-682 *)
      match rd_id (attr v "thread_id"), rd_flag (attr v "single_thread") with
      | Some t, Some b => Some (RContinue t b) | _, _ => None end
    | C_DisconnectRequest => (* _debuggee.py:859-867, debug.py:684-689 *)
      omap RDisconnect (rd_flag_opt (attr v "terminate_debuggee"))
    | C_EvaluateRequest => (* debug.py:783-851 *)
      match rd_str (attr v "expression"), rd_id_opt (attr v "frame_id"), rd_str_opt (attr v "context") with
      | Some e, Some f, Some x => Some (REvaluate e f x) | _, _, _ => None end
    | C_NextRequest => omap RNext (rd_id (attr v "thread_id")) (* debug.py:955-959 *)
    | C_ScopesRequest => omap RScopes (rd_id (attr v "frame_id")) (* debug.py:691-695 *)
    | C_SetExceptionBreakpointsRequest => (* _debuggee.py:653-663 *)
      omap RSetException (rd_list (fun x => rd_str (Some x)) (attr v "filters"))
    | C_SetBreakpointsRequest => (* _debuggee.py:665-735 *)
      match attr v "source" with
      | Some sv =>
        match rd_source sv, rd_list rd_bp (attr v "breakpoints"), rd_flag (attr v "source_modified") with
        | Some x, Some l, Some m => Some (RSetBreakpoints x l m) | _, _, _ => None end
      | None => None end
    | C_SetVariableRequest => (* debug.py:919-926 *)
      match rd_id (attr v "variables_reference"), rd_str (attr v "name"), rd_str (attr v "value") with
      | Some r, Some n, Some x => Some (RSetVariable r n x) | _, _, _ => None end
    | C_StackTraceRequest => omap RStackTrace (rd_id (attr v "thread_id")) (* debug.py:853-867; startFrame, levels are not read *)
    | C_StepInRequest => omap RStepIn (rd_id (attr v "thread_id")) (* debug.py:943-947 *)
    | C_StepOutRequest => omap RStepOut (rd_id (attr v "thread_id")) (* debug.py:949-953 *)
    | C_TerminateRequest => Some RTerminate
    | C_ThreadsRequest => Some RThreads
    | C_VariablesRequest => omap RVariables (rd_id (attr v "variables_reference")) (* debug.py:878-882; filter, start, count are not read *)
    | C_AttachRequest | C_CancelRequest | C_InitializeRequest | C_LaunchRequest | C_RunInTerminalRequest =>
      Some (ROther (code v)) (* _debuggee.py:594-599: NotImplementedError *)
    | _ => None
    end.
  Definition req_of (v : pval) : option (Z * Req) :=
    match v with
    | PObj c _ => match rd_int (attr v "seq"), act_of c v with Some q, Some r => Some (q, r) | _, _ => None end
    | _ => None
    end.
End Req.
