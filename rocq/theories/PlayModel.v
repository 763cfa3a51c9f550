(** The strategy plugin around Ansible: strategy/debug.py:1052-1173 [StrategyModule].
    Ansible itself (playbook executor and linear strategy) is any program that calls the
    four methods ansibug overrides, runs plays and gets arbitrary answers from the methods
    of the base class.  [interpose] is what the overriding methods make of it. *)
From Verif Require Import PyBase PyDict DbgTypes BpModel ThreadModel StratModel SysModel.
Set Implicit Arguments.
Local Open Scope N_scope.

(** A result of a task: host, outcome, and the object holding the result dict.  The task of
    a result is the one the host was given (see [y_open]). *)
Record TRes := mkTRes { tr_host : Host; tr_result : Result; tr_addr : nat }.

(** The calls of the overridden methods, with their arguments.  [BMeta a refresh addr]: a
    meta task; [refresh]: its action is refresh_inventory; [addr]: the object made for its
    empty result.  [BInclude n]: the arguments of _load_included_file, opaque. *)
Inductive bcall := BQueue (a : TaskStart) | BMeta (a : TaskStart) (refresh : bool) (addr : nat) | BInclude (n : nat) | BResults.
(** What the base class method gives back: nothing, a value the plugin does not look at,
    the loaded blocks (opaque, with the places their tasks register, TreeModel), the list
    of results, or an exception. *)
Inductive banswer := BUnit | BVal (n : nat) | BBlocks (l : list (pystr * Z * Z)) (n : nat) | BRes (l : list TRes) | BExn (e : exn).

(** Ansible: [ARun body k]: StrategyModule.run is called; [body]: what the base class's
    run does; [k]: the playbook executor goes on with the return code or the exception.
    [ALoad l A]: a playbook is loaded and the callbacks' v2_playbook_on_start are called;
    [l]: the places of its tasks. *)
Inductive ansible :=
| ARet (code : Z)
| ARaise (e : exn)
| ACall (b : bcall) (k : banswer -> ansible)
| ARun (body : ansible) (k : res Z -> ansible)
| ALoad (l : list (pystr * Z * Z)) (rest : ansible).

(** Ansible with the plugin: [DStart], [DEnd], [DExit], [DReg]: calls of
    AnsibleDebugState.start_task, end_task, exit_threads and of
    register_block_breakpoints; [DBase]: a call of the base class's method; [DRun]: run()
    is called; [DIn]: inside it. *)
Inductive dprog :=
| DRet (code : Z)
| DRaise (e : exn)
| DStart (a : TaskStart) (k : res unit -> dprog)
| DEnd (h : Host) (r : Result) (addr : nat) (k : res unit -> dprog)
| DExit (k : res unit -> dprog)
| DReg (l : list (pystr * Z * Z)) (k : res unit -> dprog)
| DBase (b : bcall) (k : banswer -> dprog)
| DRun (body : dprog) (k : res Z -> dprog)
| DIn (body : dprog) (k : res Z -> dprog)
| DLoad (l : list (pystr * Z * Z)) (rest : dprog).

(** TaskResult(target_host, task, {}): strategy/debug.py:1100-1102. *)
Definition empty_result : Result := mkResult false false false false false None None None None None.

(** strategy/debug.py:1137-1139: end_task for every result in order; an exception leaves. *)
Fixpoint ends (l : list TRes) (k : res unit -> dprog) : dprog :=
  match l with
  | [] => k (Ok tt)
  | x :: r => DEnd (tr_host x) (tr_result x) (tr_addr x) (fun o => match o with Ok _ => ends r k | Err e => k (Err e) end)
  end.

Fixpoint interpose (A : ansible) : dprog :=
  match A with
  | ARet c => DRet c
  | ARaise e => DRaise e
  | ACall b k =>
    match b with
    | BQueue a => (* 1118-1128 _queue_task *)
      DStart a (fun o => match o with
        | Ok _ => DBase b (fun r => interpose (k r))
        | Err e => interpose (k (BExn e)) end)
    | BMeta a refresh addr => (* 1075-1104 _execute_meta *)
      DStart a (fun o => match o with
        | Ok _ => DBase b (fun r => match r with
            | BExn e => interpose (k (BExn e))
            | _ => if refresh
                   then DExit (fun o => match o with Ok _ => interpose (k r) | Err e => interpose (k (BExn e)) end)
                   else DEnd (ts_host a) empty_result addr (fun o => match o with Ok _ => interpose (k r) | Err e => interpose (k (BExn e)) end)
            end)
        | Err e => interpose (k (BExn e)) end)
    | BInclude _ => (* 1106-1116 _load_included_file *)
      DBase b (fun r => match r with
        | BBlocks l _ => DReg l (fun o => match o with Ok _ => interpose (k r) | Err e => interpose (k (BExn e)) end)
        | _ => interpose (k r) end)
    | BResults => (* 1130-1141 _process_pending_results *)
      DBase b (fun r => match r with
        | BRes l => ends l (fun o => match o with Ok _ => interpose (k r) | Err e => interpose (k (BExn e)) end)
        | _ => interpose (k r) end)
    end
  | ARun body k => DRun (interpose body) (fun r => interpose (k r))
  | ALoad l rest => DLoad l (interpose rest)
  end.

(** TaskQueueManager.RUN_FAILED_BREAK_PLAY *)
Definition run_failed_break_play : Z := 8%Z.
(** strategy/debug.py:1162-1173: what run() gives back for the way its body ended. *)
Definition run_result (r : res Z) : res Z :=
  match r with Err EndStrategy => Ok run_failed_break_play | _ => r end.

(** The state: the debugger (SysModel), where Ansible is, the calls of base class methods
    made so far with their answers, and (for the statements) the steps the debugger made. *)
Record DS := mkDS { d_y : Sys; d_p : dprog; d_log : list (bcall * banswer); d_ls : list label }.

(** The steps of the rest of the world: the client, the connection, and Ansible's objects
    changing. *)
Definition outside (l : label) : bool :=
  match l with LReq _ _ | LUnblock | LConfig _ | LClosed | LHeap _ => true | _ => false end.

(** What the playbook's thread does next in the debugger. *)
Fixpoint next_label (p : dprog) (ph : phase) : option label :=
  match p, ph with
  | DStart a _, PRun => Some (LStart a)
  | DStart _ _, PWaitStart _ => Some LWake
  | DEnd h r addr _, PRun => Some (LEnd h r addr)
  | DEnd _ _ _ _, PWaitEnd _ _ => Some LWake
  | DExit _, PRun => Some LRefresh
  | DReg l _, PRun => Some (LInclude l)
  | DRun _ _, PIdle => Some LPlay
  | DIn (DRet _) _, PRun => Some LPlayEnd
  | DIn (DRaise _) _, PRun => Some LPlayEnd
  | DIn p' _, _ => next_label p' ph
  | DLoad l _, PIdle => Some (LLoad l)
  | _, _ => None
  end.
(** ... and where it is afterwards, by the phase the debugger is in then: still waiting,
    returned, or raised. *)
Definition hook_result (ph : phase) : option (res unit) :=
  match ph with PWaitStart _ | PWaitEnd _ _ => None | PDone e => Some (Err e) | _ => Some (Ok tt) end.
Fixpoint after_label (p : dprog) (ph : phase) : dprog :=
  match p with
  | DStart _ k | DEnd _ _ _ k | DExit k | DReg _ k => match hook_result ph with Some o => k o | None => p end
  | DRun body k => DIn body k
  | DIn (DRet c) k => k (run_result (Ok c))
  | DIn (DRaise e) k => k (run_result (Err e))
  | DIn p' k => DIn (after_label p' ph) k
  | DLoad _ rest => rest
  | _ => p
  end.
(** A base class method is called and answers. *)
Fixpoint base_step (p : dprog) (r : banswer) : option (bcall * dprog) :=
  match p with
  | DBase b k => Some (b, k r)
  | DIn p' k => match base_step p' r with Some (b, q) => Some (b, DIn q k) | None => None end
  | _ => None
  end.
(** The play has ended by the debugger's own exception: its threads are gone already
    ([PDone]), only the way out of run() remains. *)
Definition leaves (p : dprog) (ph : phase) : option dprog :=
  match p, ph with DIn (DRaise e) k, PDone _ => Some (k (run_result (Err e))) | _, _ => None end.

Inductive dlabel := Env (l : label) | Hook | Leave | Base (r : banswer).
Section P.
Variable py_int : pystr -> option Z.
Variable py_repr : heap -> val -> pystr.
Variable type_name : heap -> val -> pystr.
Variable tmpl : pystr -> nat -> heap -> res (list obj * val).
Variable tmpl_args : nat -> nat -> heap -> res (list obj * val).
Variable err_text : exn -> pystr.
Variable parse_repl : pystr -> res ReplCmd.
Notation step := (step py_int py_repr type_name tmpl tmpl_args err_text parse_repl).

Definition dstep (d : DS) (x : dlabel) : option DS :=
  match x with
  | Env l =>
    if outside l then
      match step (d_y d) l with Some y => Some (mkDS y (d_p d) (d_log d) (d_ls d ++ [l])) | None => None end
    else None
  | Hook =>
    match next_label (d_p d) (y_phase (d_y d)) with
    | Some l => match step (d_y d) l with
                | Some y => Some (mkDS y (after_label (d_p d) (y_phase y)) (d_log d) (d_ls d ++ [l]))
                | None => None end
    | None => None
    end
  | Leave =>
    match leaves (d_p d) (y_phase (d_y d)) with
    | Some p => Some (mkDS (d_y d) p (d_log d) (d_ls d))
    | None => None end
  | Base r =>
    match base_step (d_p d) r with
    | Some (b, p) => Some (mkDS (d_y d) p (d_log d ++ [(b, r)]) (d_ls d))
    | None => None end
  end.
Inductive druns : DS -> list dlabel -> DS -> Prop :=
| druns_nil d : druns d [] d
| druns_snoc d xs d1 x d2 : druns d xs d1 -> dstep d1 x = Some d2 -> druns d (xs ++ [x]) d2.
End P.
(** ansible-playbook with ansibug, from the beginning. *)
Definition begin (A : ansible) : DS := mkDS sys_init (interpose A) [] [].
