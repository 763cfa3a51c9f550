(** The hand-shake between the strategy thread and the receive thread around a stop:
    strategy/debug.py start_task, end_task, exit_threads, _add_thread and
    _resume_threads with its callers, one atomic action of Python at a time.  The two
    threads share [threads] and [_waiting_condition], a threading.Condition.

    Simplifications: one play (each play has its own AnsibleDebugState); frames and
    variables are left out (SysModel has them); the requests to come are given in
    advance as a list, the receive thread may pick up the next one at any time. *)
From Verif Require Import PyBase PyDict DbgTypes ThreadModel.
Set Implicit Arguments.
Local Open Scope N_scope.

(** Why the strategy thread enters the critical section: start_task with the task and
    the breakpoint found for it (strategy/debug.py:585-596), end_task with the result
    and the exception filters (617-630). *)
Inductive visit := VStart (task : Node) (bp : option N) | VEnd (task : Node) (r : Result) (e u sk : bool).
Definition decide (v : visit) (t : Thread) : Thread * option Stopped :=
  match v with
  | VStart task bp => should_break task bp t
  | VEnd task r e u sk => should_stop_on_exception task r e u sk t
  end.

(** Where the strategy thread is.  [SIdle]: outside start_task/end_task;
    [SExit ks]: in the loop of exit_threads, 656-666; [SAcq]: at "with
    self._waiting_condition" (585, 617); [SDecide]: the stop decision; [SEmit]: before
    queue_msg(stopped_event) (599, 634); [SCheck]: evaluating the predicate of wait_for
    (600, 635); [SWait]: in Condition.wait, about to register and release the lock;
    [SBlocked]: waiting for the notification; [SReacq]: notified, needs the lock;
    [SFin]: after wait_for or without a stop, still in the "with" (602-604, 637-638);
    [SDone]: EndStrategy was raised. *)
Inductive spc :=
| SIdle | SExit (ks : list N)
| SAcq (v : visit) (tid : N) | SDecide (v : visit) (tid : N) | SEmit (v : visit) (tid : N)
| SCheck (v : visit) (tid : N) | SWait (v : visit) (tid : N) | SBlocked (v : visit) (tid : N) | SReacq (v : visit) (tid : N)
| SFin (v : visit) (tid : N) (stopped : bool) | SDone.

(** Which threads a request resumes: one (668-673, 943-959), all by the live view
    [threads.keys()] (675), or all by a list made before the lock is taken (684-689). *)
Inductive scope := One (tid : N) | Live | Copy.
(** Where the receive thread is: [RIdle] with requests to come; [RAcq] at the "with" of
    1007; [RIter]: in the loop of 1008-1009, with the keys the iteration began with;
    [RNotify] at 1011; [RRel] leaving the "with", in the second case with an exception. *)
Inductive rpc :=
| RIdle | RAcq (sc : scope) (keys : list N) (st : TState)
| RIter (live : bool) (keys rest : list N) (st : TState) | RNotify | RRel (ok : bool).

Inductive owner := OStrategy | OReceive.
Record LS := mkLS {
  l_threads : dict N Thread; l_next : N;
  l_lock : option owner; l_notified : bool;
  l_s : spc; l_r : rpc; l_todo : list (scope * TState) }.
Definition l_init (todo : list (scope * TState)) : LS :=
  mkLS [(1, mkThread 1 None [] TContinue None)] 2 None false SIdle RIdle todo.

(** What can be seen: a stopped event was queued, a thread's state was set by a request,
    the task of a thread goes on, or its run is ended. *)
Inductive lev := EStop (tid : N) | ESet (tid : N) (st : TState) | EGo (tid : N) | EEnd (tid : N).

(** [LNew h], [LExit], [LVisit]: the linear strategy has the next task for a new host,
    ends the play or refreshes the inventory, or starts or ends a task; [LStep]: the
    strategy thread's next action; [LRecv fail]: the receive thread's next action,
    where [fail] says that iterating over the live view notices a changed dict. *)
Inductive llabel := LNew (h : Host) | LExit | LVisit (v : visit) (tid : N) | LStep | LRecv (fail : bool).

Definition with_s x s := mkLS (l_threads s) (l_next s) (l_lock s) (l_notified s) x (l_r s) (l_todo s).
Definition with_r x s := mkLS (l_threads s) (l_next s) (l_lock s) (l_notified s) (l_s s) x (l_todo s).
Definition with_lock x s := mkLS (l_threads s) (l_next s) x (l_notified s) (l_s s) (l_r s) (l_todo s).
Definition with_threads x s := mkLS x (l_next s) (l_lock s) (l_notified s) (l_s s) (l_r s) (l_todo s).
Definition with_notified x s := mkLS (l_threads s) (l_next s) (l_lock s) x (l_s s) (l_r s) (l_todo s).

Definition is_wait (t : Thread) : bool := tstate_eqb (t_state t) TWait.

Definition strategy_step (s : LS) : option (LS * list lev) :=
  match l_s s with
  | SIdle | SDone => None
  | SExit [] => Some (with_s SIdle s, [])
  | SExit (k :: ks) =>
    if N.eqb k 1 then Some (with_s (SExit ks) s, [])
    else Some (with_s (SExit ks) (with_threads (ddel (l_threads s) k) s), [])
  | SAcq v tid => match l_lock s with
                  | None => Some (with_s (SDecide v tid) (with_lock (Some OStrategy) s), [])
                  | Some _ => None end
  | SDecide v tid =>
    match dget (l_threads s) tid with
    | None => None
    | Some t => match decide v t with
                | (t', Some _) => Some (with_s (SEmit v tid) (with_threads (dset (l_threads s) tid t') s), [])
                | (t', None) => Some (with_s (SFin v tid false) (with_threads (dset (l_threads s) tid t') s), [])
                end
    end
  | SEmit v tid => Some (with_s (SCheck v tid) s, [EStop tid])
  | SCheck v tid =>
    match dget (l_threads s) tid with
    | None => None
    | Some t => Some (with_s (if is_wait t then SWait v tid else SFin v tid true) s, [])
    end
  (* Condition.wait: the waiter is registered while the lock is held, then the lock is released *)
  | SWait v tid => Some (with_s (SBlocked v tid) (with_lock None (with_notified false s)), [])
  | SBlocked v tid => if l_notified s then Some (with_s (SReacq v tid) s, []) else None
  | SReacq v tid => match l_lock s with
                    | None => Some (with_s (SCheck v tid) (with_lock (Some OStrategy) s), [])
                    | Some _ => None end
  | SFin v tid stopped =>
    match dget (l_threads s) tid with
    | None => None
    | Some t =>
      let ends := match v with VStart _ _ => stopped | VEnd _ _ _ _ _ => true end && tstate_eqb (t_state t) TEnd in
      Some (with_s (if ends then SDone else SIdle) (with_lock None s), [if ends then EEnd tid else EGo tid])
    end
  end.

Definition receive_step (fail : bool) (s : LS) : option (LS * list lev) :=
  match l_r s with
  | RIdle =>
    match l_todo s with
    | [] => None
    | (sc, st) :: r =>
      let keys := match sc with One tid => [tid] | Live => [] | Copy => dkeys (l_threads s) end in
      Some (mkLS (l_threads s) (l_next s) (l_lock s) (l_notified s) (l_s s) (RAcq sc keys st) r, [])
    end
  | RAcq sc keys st =>
    match l_lock s with
    | Some _ => None
    | None =>
      let keys := match sc with Live => dkeys (l_threads s) | _ => keys end in
      Some (with_r (RIter (match sc with Live => true | _ => false end) keys keys st) (with_lock (Some OReceive) s), [])
    end
  | RIter live keys rest st =>
    if fail then
      (* RuntimeError: dictionary changed size during iteration *)
      if live && negb (eqb keys (dkeys (l_threads s))) then Some (with_r (RRel false) s, []) else None
    else
      match rest with
      | [] => Some (with_r RNotify s, [])
      | k :: rest' =>
        match dget (l_threads s) k with
        | None => Some (with_r (RRel false) s, [])                      (* KeyError *)
        | Some t => Some (with_r (RIter live keys rest' st) (with_threads (dset (l_threads s) k (set_state st t)) s), [ESet k st])
        end
      end
  | RNotify => Some (with_r (RRel true) (with_notified true s), [])
  | RRel _ => Some (with_r RIdle (with_lock None s), [])
  end.

Definition lstep (s : LS) (l : llabel) : option (LS * list lev) :=
  match l with
  | LNew h => match l_s s with
              | SIdle => Some (mkLS (dset (l_threads s) (l_next s) (mkThread (l_next s) (Some h) [] TContinue None)) (l_next s + 1)
                                    (l_lock s) (l_notified s) SIdle (l_r s) (l_todo s), [])
              | _ => None end
  | LExit => match l_s s with SIdle => Some (with_s (SExit (dkeys (l_threads s))) s, []) | _ => None end
  | LVisit v tid => match l_s s with
                    | SIdle => if dhas (l_threads s) tid && negb (N.eqb tid 1) then Some (with_s (SAcq v tid) s, []) else None
                    | _ => None end
  | LStep => strategy_step s
  | LRecv fail => receive_step fail s
  end.

(** [lrun s h s']: some schedule leads from [s] to [s'], showing the events [h]. *)
Inductive lrun : LS -> list lev -> LS -> Prop :=
| lrun_nil s : lrun s [] s
| lrun_step s h s1 l s2 es : lrun s h s1 -> lstep s1 l = Some (s2, es) -> lrun s (h ++ es) s2.
