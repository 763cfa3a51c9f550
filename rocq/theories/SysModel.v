(** The debuggee as a transition system: requests from the adapter
    (src/ansibug/_debuggee.py), the strategy's progress (strategy/debug.py), and the
    connection.  Each label is one critical section of the Python code; what can
    happen between two of them is another label.  Finer interleavings (inside a
    handler) are in the concurrency files. *)
From Verif Require Import PyBase PyDict DbgTypes BpModel ThreadModel StratModel.
Set Implicit Arguments.
Local Open Scope N_scope.

(** Where the thread that runs the playbook is.  [PIdle]: between plays, no strategy is
    registered; [PRun]: inside the linear strategy's loop; [PWaitStart], [PWaitEnd]:
    inside [wait_for] of start_task / end_task; [PDone e]: [run] was left with the
    exception [e] (EndStrategy makes run() return RUN_FAILED_BREAK_PLAY and ends the
    playbook; any other one propagates), strategy/debug.py:1171-1173. *)
Inductive phase := PIdle | PRun | PWaitStart (tid : N) | PWaitEnd (tid : N) (task : Node) | PDone (e : exn).

(** [y_open]: the (host, task) pairs that were started and whose result has not come
    back; this is the state of Ansible's linear strategy, not of ansibug: a host has
    one task at a time.  [y_recv]: the request whose handler is waiting in
    [_get_strategy] (_debuggee.py:588-591). *)
Record Sys := mkSys {
  y_w : World; y_phase : phase; y_open : list (Host * Node); y_recv : option (Z * Req) }.
Definition sys_init : Sys := mkSys (mkW dbg_init ss_init [] []) PIdle [] None.

Definition has_strategy (y : Sys) : bool :=
  match y_phase y with PIdle | PDone _ => false | _ => true end.

(** The command of a request. *)
Definition cmd_of (r : Req) : Cmd :=
  match r with
  | RConfigurationDone => CConfigurationDone | RContinue _ _ => CContinue
  | RDisconnect _ => CDisconnect | REvaluate _ _ _ => CEvaluate | RNext _ => CNext
  | RScopes _ => CScopes | RSetException _ => CSetExceptionBreakpoints
  | RSetBreakpoints _ _ _ => CSetBreakpoints | RSetVariable _ _ _ => CSetVariable
  | RStackTrace _ => CStackTrace | RStepIn _ => CStepIn | RStepOut _ => CStepOut
  | RTerminate => CTerminate | RThreads => CThreads | RVariables _ => CVariables
  | ROther n => COther n
  end.

(** Which handlers call [_get_strategy]. *)
Definition needs_strategy (r : Req) : bool :=
  match r with
  | RConfigurationDone | RSetException _ | RSetBreakpoints _ _ _ | ROther _ => false
  | _ => true
  end.

(** What happens before the handler asks for the strategy: _debuggee.py:776-781
    (terminate), 859-865 ([_disconnect]). *)
Definition before_strategy (r : Req) (d : Dbg) : Dbg :=
  match r with
  | RDisconnect _ => clear_config d
  | RTerminate => clear_config (set_term true d)
  | _ => d
  end.

Section Sys.
Variable py_int : pystr -> option Z.
Variable py_repr : heap -> val -> pystr.
Variable type_name : heap -> val -> pystr.
Variable tmpl : pystr -> nat -> heap -> res (list obj * val).
Variable tmpl_args : nat -> nat -> heap -> res (list obj * val).
Variable err_text : exn -> pystr.
Variable parse_repl : pystr -> res ReplCmd.

Definition reply (x : World * res Out) : World * res unit :=
  match x with (w, Ok o) => (emit o w, Ok tt) | (w, Err e) => (w, Err e) end.
Definition ack (c : Cmd) (seq : Z) (x : World * res unit) : World * res unit :=
  match x with (w, Ok _) => (emit (OAck c seq) w, Ok tt) | (w, Err e) => (w, Err e) end.
Definition queue_none (w : World) : World := wd (queue_opt None (w_dbg w)) w.

(** _debuggee.py:593-802 [process_message], with the strategy at hand. *)
Definition process (seq : Z) (r : Req) (w : World) : World * res unit :=
  match r with
  | RConfigurationDone =>
    (wd (set_confdone true (queue_msg (OAck CConfigurationDone seq) (w_dbg w))) w, Ok tt)
  | RContinue tid single => reply (continue_request seq tid single w)
  | RDisconnect term =>
    match disconnect (match term with Some true => true | _ => false end) w with
    | (w', Ok _) => (queue_none w', Ok tt)
    | (w', Err e) => (w', Err e)
    end
  | REvaluate e f c => reply (evaluate py_int py_repr type_name tmpl err_text parse_repl seq e f c w)
  | RNext tid => ack CNext seq (step_over tid w)
  | RScopes f => reply (get_scopes tmpl_args seq f w)
  | RSetException fs => (wd (set_exception_breakpoints seq fs (w_dbg w)) w, Ok tt)
  | RSetBreakpoints src l md =>
    match set_breakpoints seq src l md (w_dbg w) with (d, x) => (wd d w, x) end
  | RSetVariable ref name value => reply (set_variable py_int py_repr type_name tmpl seq ref name value w)
  | RStackTrace tid => reply (get_stacktrace seq tid w)
  | RStepIn tid => ack CStepIn seq (step_in tid w)
  | RStepOut tid => ack CStepOut seq (step_out tid w)
  | RTerminate =>
    match ack CTerminate seq (disconnect true w) with
    | (w', Ok _) => (queue_none w', Ok tt)
    | (w', Err e) => (w', Err e)
    end
  | RThreads => reply (get_threads seq w)
  | RVariables ref => reply (get_variables py_repr type_name seq ref w)
  | ROther _ => (w, Err NotImplementedError)
  end.

(** _debuggee.py:118-136 [on_msg_received]: any exception becomes an ErrorResponse. *)
Definition handle (seq : Z) (r : Req) (w : World) : World :=
  match process seq r w with
  | (w', Ok _) => w'
  | (w', Err _) => emit (OError (cmd_of r) seq) w'
  end.

(** _debuggee.py:442-490 [shutdown], the part that acts on the session state; joining
    the send thread and the pid file are in LifeModel. *)
Definition shutdown (strategy : bool) (w : World) : World :=
  let w1 := wd (set_confdone true (clear_config (w_dbg w))) w in
  if strategy && negb (d_term (w_dbg w1)) then fst (disconnect false w1) else w1.

Inductive label :=
| LPlay                                                  (* strategy/debug.py:1143-1166, a play begins *)
| LStart (a : TaskStart)                                 (* _queue_task, _execute_meta -> start_task *)
| LEnd (h : Host) (r : Result) (addr : nat)             (* _process_pending_results, _execute_meta -> end_task *)
| LWake                                                  (* wait_for returns *)
| LRefresh                                               (* _execute_meta, refresh_inventory: 1091-1096 *)
| LInclude (l : list (pystr * Z * Z))                    (* _load_included_file: 1106-1116 *)
| LPlayEnd                                               (* run() returns: 1167-1169 *)
| LReq (seq : Z) (r : Req)                               (* on_msg_received, up to _get_strategy *)
| LUnblock                                               (* _get_strategy returns: 588-591, 306-308 *)
| LConfig (maps : list Mapping)                          (* the adapter's configuration event: 804-820 *)
| LClosed                                                (* connection_closed: 138-147 *)
| LHeap (h : heap)                                       (* Ansible changes or creates objects *)
| LLoad (l : list (pystr * Z * Z)).                      (* v2_playbook_on_start, callback/debug.py:162-166: the plays of a playbook *)

Definition host_eqb (a b : Host) : bool := N.eqb (h_uuid a) (h_uuid b).
Definition host_open (h : Host) (l : list (Host * Node)) : bool := existsb (fun p => host_eqb (fst p) h) l.
Definition close_host (h : Host) (l : list (Host * Node)) : list (Host * Node) :=
  filter (fun p => negb (host_eqb (fst p) h)) l.

Definition abort (e : exn) (w : World) (y : Sys) : Sys := mkSys (exit_threads w) (PDone e) [] (y_recv y).

Definition waiting (tid : N) (w : World) : bool :=
  match dget (w_threads w) tid with Some t => tstate_eqb (t_state t) TWait | None => false end.

(** One step; [None]: the label is not possible in this state. *)
Definition step (y : Sys) (l : label) : option Sys :=
  let w := y_w y in
  match l with
  | LPlay => match y_phase y with
             | PIdle => Some (mkSys (wss ss_init w) PRun [] (y_recv y))
             | _ => None end
  | LStart a =>
    match y_phase y with
    | PRun =>
      if host_open (ts_host a) (y_open y) then None else
      match start_task a w with
      | (w', Returns, _) => Some (mkSys w' PRun ((ts_host a, ts_task a) :: y_open y) (y_recv y))
      | (w', Blocks, Some tid) => Some (mkSys w' (PWaitStart tid) ((ts_host a, ts_task a) :: y_open y) (y_recv y))
      | (w', Blocks, None) => None
      | (w', Raises e, _) => Some (abort e w' y)
      end
    | _ => None end
  | LEnd h r addr =>
    match y_phase y, find (fun p => host_eqb (fst p) h) (y_open y) with
    | PRun, Some (_, task) =>
        let open' := close_host h (y_open y) in
        match end_task h task r addr w with
        | (w', Returns, Some tid) =>
          match end_finish tid task w' with
          | (w'', Returns) => Some (mkSys w'' PRun open' (y_recv y))
          | (w'', Raises e) => Some (abort e w'' y)
          | (_, Blocks) => None end
        | (w', Blocks, Some tid) => Some (mkSys w' (PWaitEnd tid task) open' (y_recv y))
        | (w', Raises e, _) => Some (abort e w' y)
        | _ => None
        end
    | _, _ => None end
  | LWake =>
    match y_phase y with
    | PWaitStart tid =>
      if waiting tid w then None else
      match start_resume tid w with
      | Returns => Some (mkSys w PRun (y_open y) (y_recv y))
      | Raises e => Some (abort e w y)
      | Blocks => None end
    | PWaitEnd tid task =>
      if waiting tid w then None else
      match end_finish tid task w with
      | (w', Returns) => Some (mkSys w' PRun (y_open y) (y_recv y))
      | (w', Raises e) => Some (abort e w' y)
      | (_, Blocks) => None end
    | _ => None end
  | LRefresh =>
    match y_phase y, y_open y with
    | PRun, [_] => Some (mkSys (exit_threads w) PRun [] (y_recv y))
    | _, _ => None end
  | LInclude l =>
    match y_phase y with
    | PRun => match register_all l (w_dbg w) with
              | (d, Ok _) => Some (mkSys (wd d w) PRun (y_open y) (y_recv y))
              | (d, Err e) => Some (abort e (wd d w) y) end
    | _ => None end
  | LPlayEnd =>
    match y_phase y with
    | PRun => Some (mkSys (exit_threads w) PIdle [] (y_recv y))
    | _ => None end
  | LReq seq r =>
    match y_recv y with
    | Some _ => None
    | None =>
      let w1 := wd (before_strategy r (w_dbg w)) w in
      if needs_strategy r && negb (has_strategy y)
      then Some (mkSys w1 (y_phase y) (y_open y) (Some (seq, r)))
      else Some (mkSys (handle seq r w1) (y_phase y) (y_open y) None)
    end
  | LUnblock =>
    match y_recv y with
    | Some (seq, r) => if has_strategy y then Some (mkSys (handle seq r w) (y_phase y) (y_open y) None) else None
    | None => None
    end
  | LConfig maps =>
    match y_recv y with
    | None => Some (mkSys (wd (set_config maps (w_dbg w)) w) (y_phase y) (y_open y) None)
    | Some _ => None end
  | LClosed =>
    match y_recv y with
    | None => Some (mkSys (shutdown (has_strategy y) w) (y_phase y) (y_open y) None)
    | Some _ => None end
  | LHeap h => Some (mkSys (wh h w) (y_phase y) (y_open y) (y_recv y))
  | LLoad l => (* an exception here only makes Ansible warn about the callback *)
    match y_phase y with
    | PIdle => Some (mkSys (wd (fst (register_all l (w_dbg w))) w) PIdle (y_open y) (y_recv y))
    | _ => None end
  end.

Inductive run : Sys -> list label -> Sys -> Prop :=
| run_nil y : run y [] y
| run_cons y l y1 ls y2 : step y l = Some y1 -> run y1 ls y2 -> run y (l :: ls) y2.
Definition reachable (y : Sys) : Prop := exists ls, run sys_init ls y.
End Sys.
