(** Starting, configuring and shutting down the debuggee: src/ansibug/_debuggee.py, with
    the three threads of a playbook process.  The main thread runs the callback plugin
    (plugins/callback/debug.py:162-209) and the plays; the send thread runs
    [_send_task]; the receive thread runs MPQueue._recv_handler (_mp_queue.py:102-123),
    [process_message] and, at its end, [shutdown(from_send_thread=True)].  One action of
    a thread at a time.

    Simplifications: what a play does is one action (SysModel has it) and so is the
    strategy's part in a request or in disconnect (LockModel has its lock; it is held
    only for a moment or released in wait_for); contents of messages are left out (the
    queue holds messages and the end marker None); a send ends, with or without an error;
    file removal and logging do not fail; one adapter connects (the socket is replaced
    after accept, _mp_queue.py:290-293). *)
From Verif Require Import PyBase.
Set Implicit Arguments.

(** Requests by what they do in [process_message]: 601-608 configurationDone; 655-738
    setExceptionBreakpoints and setBreakpoints, 804-821 the configuration event; 610-617,
    628-653, 740-774, 786-802 requests that need the strategy; 619-626 disconnect;
    776-784 terminate (859-867 [_disconnect]). *)
Inductive rq := QConf | QPlain | QStrat | QDisc | QTerm.

(** The main thread.  [MConf]: wait_for_config_done (333-346); [MBetween]: no play is
    running; [MEnter]/[MEnter2]: with_strategy, 303-305; [MPlay n]: in a play that will
    queue [n] more events; [MLeave]/[MLeave2]: 311-313; [MS1]..[MS6]: shutdown, 457-488; [MDone]: shutdown has returned. *)
Inductive mpc := MConf | MBetween | MEnter (n : nat) | MEnter2 (n : nat) | MPlay (n : nat) | MLeave | MLeave2
| MS1 | MS2 | MS3 | MS4 | MS5 | MS5b | MS6 | MDone.
(** The send thread, 869-902.  [SBegin]: mp_queue.start() up to the first
    accept or connect, whose with_cancel refuses a cancelled token (_socket_helper.py:351-353);
    [SStart]: waiting there; [SFlag]: 886; [SGet], [SSend]:
    888-890; [SStop1]..[SStop3]: mp_queue.stop(), _mp_queue.py:93-100; [SUnflag]: 900. *)
Inductive sdpc := SBegin | SStart | SFlag | SGet | SSend | SStop1 | SStop2 | SStop3 | SUnflag | SDead.
(** The receive thread.  [RNone]: not started; [RRead]: in _socket.recv; [RHandle]: a
    message was read; [RGet*]: _get_strategy, 589-592; [RAct]: in the strategy; [RPut]:
    queue_msg of the response; [RPutNone]: 625, 784; [RConfSet]: 608; [RS4]..[RS6]:
    shutdown(from_send_thread=True), 471-488. *)
Inductive rcpc := RNone | RRead | RHandle (r : rq) | RGetAcq (r : rq) | RGetCheck (r : rq) | RGetWait (r : rq)
| RAct (r : rq) | RPut (r : rq) | RPutNone | RConfSet | RS4 | RS5 | RS5b | RS6 | RDead.

Inductive who := ByMain | ByRecv.
Record Life := mkLife {
  f_m : mpc; f_s : sdpc; f_r : rcpc;
  f_plays : list nat;             (* plays to come, each with the number of events it queues *)
  f_inp : list rq;                (* what the adapter will still send *)
  f_closed : bool;                (* the connection was closed or lost *)
  f_cancel : bool;                (* the cancellation token *)
  f_flag : bool;                  (* _adapter_connected *)
  f_conf : bool;                  (* _configuration_done *)
  f_term : bool;                  (* _terminated *)
  f_strat : bool;                 (* _strategy is not None *)
  f_lock : option who;            (* _strategy_connected *)
  f_notified : bool;              (* the waiting receive thread was notified *)
  f_queue : list bool;            (* _send_queue; false is None *)
  f_pid : bool }.                 (* the pid file exists *)

Definition w_m x (y : Life) := mkLife x (f_s y) (f_r y) (f_plays y) (f_inp y) (f_closed y) (f_cancel y) (f_flag y) (f_conf y) (f_term y) (f_strat y) (f_lock y) (f_notified y) (f_queue y) (f_pid y).
Definition w_s x (y : Life) := mkLife (f_m y) x (f_r y) (f_plays y) (f_inp y) (f_closed y) (f_cancel y) (f_flag y) (f_conf y) (f_term y) (f_strat y) (f_lock y) (f_notified y) (f_queue y) (f_pid y).
Definition w_r x (y : Life) := mkLife (f_m y) (f_s y) x (f_plays y) (f_inp y) (f_closed y) (f_cancel y) (f_flag y) (f_conf y) (f_term y) (f_strat y) (f_lock y) (f_notified y) (f_queue y) (f_pid y).
Definition w_plays x (y : Life) := mkLife (f_m y) (f_s y) (f_r y) x (f_inp y) (f_closed y) (f_cancel y) (f_flag y) (f_conf y) (f_term y) (f_strat y) (f_lock y) (f_notified y) (f_queue y) (f_pid y).
Definition w_inp x (y : Life) := mkLife (f_m y) (f_s y) (f_r y) (f_plays y) x (f_closed y) (f_cancel y) (f_flag y) (f_conf y) (f_term y) (f_strat y) (f_lock y) (f_notified y) (f_queue y) (f_pid y).
Definition w_closed x (y : Life) := mkLife (f_m y) (f_s y) (f_r y) (f_plays y) (f_inp y) x (f_cancel y) (f_flag y) (f_conf y) (f_term y) (f_strat y) (f_lock y) (f_notified y) (f_queue y) (f_pid y).
Definition w_cancel x (y : Life) := mkLife (f_m y) (f_s y) (f_r y) (f_plays y) (f_inp y) (f_closed y) x (f_flag y) (f_conf y) (f_term y) (f_strat y) (f_lock y) (f_notified y) (f_queue y) (f_pid y).
Definition w_flag x (y : Life) := mkLife (f_m y) (f_s y) (f_r y) (f_plays y) (f_inp y) (f_closed y) (f_cancel y) x (f_conf y) (f_term y) (f_strat y) (f_lock y) (f_notified y) (f_queue y) (f_pid y).
Definition w_conf x (y : Life) := mkLife (f_m y) (f_s y) (f_r y) (f_plays y) (f_inp y) (f_closed y) (f_cancel y) (f_flag y) x (f_term y) (f_strat y) (f_lock y) (f_notified y) (f_queue y) (f_pid y).
Definition w_term x (y : Life) := mkLife (f_m y) (f_s y) (f_r y) (f_plays y) (f_inp y) (f_closed y) (f_cancel y) (f_flag y) (f_conf y) x (f_strat y) (f_lock y) (f_notified y) (f_queue y) (f_pid y).
Definition w_strat x (y : Life) := mkLife (f_m y) (f_s y) (f_r y) (f_plays y) (f_inp y) (f_closed y) (f_cancel y) (f_flag y) (f_conf y) (f_term y) x (f_lock y) (f_notified y) (f_queue y) (f_pid y).
Definition w_lock x (y : Life) := mkLife (f_m y) (f_s y) (f_r y) (f_plays y) (f_inp y) (f_closed y) (f_cancel y) (f_flag y) (f_conf y) (f_term y) (f_strat y) x (f_notified y) (f_queue y) (f_pid y).
Definition w_notified x (y : Life) := mkLife (f_m y) (f_s y) (f_r y) (f_plays y) (f_inp y) (f_closed y) (f_cancel y) (f_flag y) (f_conf y) (f_term y) (f_strat y) (f_lock y) x (f_queue y) (f_pid y).
Definition w_queue x (y : Life) := mkLife (f_m y) (f_s y) (f_r y) (f_plays y) (f_inp y) (f_closed y) (f_cancel y) (f_flag y) (f_conf y) (f_term y) (f_strat y) (f_lock y) (f_notified y) x (f_pid y).
Definition w_pid x (y : Life) := mkLife (f_m y) (f_s y) (f_r y) (f_plays y) (f_inp y) (f_closed y) (f_cancel y) (f_flag y) (f_conf y) (f_term y) (f_strat y) (f_lock y) (f_notified y) (f_queue y) x.

(** [start] has just run (377-440); [listen]: the mode, in which the pid file is written;
    [nowait]: the option no_wait_for_config_done (callback/debug.py:199-202). *)
Definition life_init (listen nowait : bool) (plays : list nat) (inp : list rq) : Life :=
  mkLife (if nowait then MBetween else MConf) SBegin RNone plays inp false false false false false false None false [] listen.

Definition put (m : bool) (y : Life) : Life := w_queue (f_queue y ++ [m]) y.
Definition free (y : Life) : bool := match f_lock y with None => true | Some _ => false end.
Definition sdead (y : Life) : bool := match f_s y with SDead => true | _ => false end.
Definition rdead (y : Life) : bool := match f_r y with RDead => true | _ => false end.

(** What the world does: [LAccept ok]: mp_queue.start() ends; [LData]: the next message
    arrives; [LLost]: the connection is closed or lost.  What the threads do: [LMain],
    [LSendT ok] ([ok]: the send, or the socket's shutdown in stop, raises no exception), [LRecvT ok] ([ok]: the strategy raises no
    exception; otherwise on_msg_received, 118-136, answers with an error). *)
Inductive flabel := LAccept (ok : bool) | LData | LLost | LMain | LSendT (ok : bool) | LRecvT (ok : bool).
Definition main_step (y : Life) : option Life :=
  match f_m y with
  | MConf => if f_conf y then Some (w_m MBetween y) else None
  | MBetween => match f_plays y with [] => Some (w_m MS1 y) | n :: ps => Some (w_plays ps (w_m (MEnter n) y)) end
  | MEnter n => if free y then Some (w_lock (Some ByMain) (w_m (MEnter2 n) y)) else None
  | MEnter2 n => Some (w_lock None (w_strat true (w_notified true (w_m (MPlay n) y))))
  | MPlay (S n) => Some (put true (w_m (MPlay n) y))
  | MPlay O => Some (w_m MLeave y)
  | MLeave => if free y then Some (w_lock (Some ByMain) (w_m MLeave2 y)) else None
  | MLeave2 => Some (w_lock None (w_strat false (w_notified true (w_m MBetween y))))
  | MS1 => Some (w_m MS2 (if f_flag y then y else w_cancel true y))
  | MS2 => Some (put false (w_m MS3 y))
  | MS3 => if sdead y then Some (w_m MS4 y) else None
  | MS4 => Some (w_conf true (w_m MS5 y))
  | MS5 => if free y then Some (w_lock (Some ByMain) (w_m MS5b y)) else None
  | MS5b => Some (w_lock None (w_m MS6 y))
  | MS6 => Some (w_pid false (w_m MDone y))
  | MDone => None
  end.

Definition send_step (ok : bool) (y : Life) : option Life :=
  match f_s y with
  | SBegin => Some (w_s (if f_cancel y then SStop1 else SStart) y)
  | SStart => None
  | SFlag => Some (w_flag true (w_s SGet y))
  | SGet => match f_queue y with
            | [] => None
            | true :: q => Some (w_queue q (w_s SSend y))
            | false :: q => Some (w_queue q (w_s SStop1 y))
            end
  | SSend => Some (w_s (if ok then SGet else SStop1) y)
  | SStop1 => Some (w_cancel true (w_s SStop2 y))
  | SStop2 => match f_r y with RNone | RDead => Some (w_s SStop3 y) | _ => None end
  | SStop3 => Some (w_s (if ok then SUnflag else SDead) y)
  | SUnflag => Some (w_flag false (w_s SDead y))
  | SDead => None
  end.

Definition recv_step (ok : bool) (y : Life) : option Life :=
  match f_r y with
  | RNone | RDead => None
  | RRead => if f_closed y || f_cancel y then Some (w_r RS4 y) else None
  | RHandle r =>
    match r with
    | QConf | QPlain => Some (w_r (RPut r) y)
    | QStrat | QDisc => Some (w_r (RGetAcq r) y)
    | QTerm => Some (w_term true (w_r (RGetAcq r) y))
    end
  | RGetAcq r => if free y then Some (w_lock (Some ByRecv) (w_r (RGetCheck r) y)) else None
  | RGetCheck r => if f_strat y then Some (w_lock None (w_r (RAct r) y))
                   else Some (w_lock None (w_notified false (w_r (RGetWait r) y)))
  | RGetWait r => if f_notified y then Some (w_r (RGetAcq r) y) else None
  | RAct r => if negb ok then Some (w_r (RPut QPlain) y) else match r with QDisc => Some (w_r RPutNone y) | _ => Some (w_r (RPut r) y) end
  | RPut r => match r with
              | QConf => Some (put true (w_r RConfSet y))
              | QTerm => Some (put true (w_r RPutNone y))
              | _ => Some (put true (w_r RRead y))
              end
  | RPutNone => Some (put false (w_r RRead y))
  | RConfSet => Some (w_conf true (w_r RRead y))
  | RS4 => Some (w_conf true (w_r RS5 y))
  | RS5 => if free y then Some (w_lock (Some ByRecv) (w_r RS5b y)) else None
  | RS5b => Some (w_lock None (w_r RS6 y))
  | RS6 => Some (w_pid false (w_r RDead y))
  end.

Definition fstep (y : Life) (l : flabel) : option Life :=
  match l with
  | LAccept ok => match f_s y with
                  | SStart => Some (if ok then w_r RRead (w_s SFlag y) else w_s SStop1 y)
                  | _ => None end
  | LData => match f_r y, f_inp y with RRead, r :: i => Some (w_inp i (w_r (RHandle r) y)) | _, _ => None end
  | LLost => if f_closed y then None else Some (w_closed true y)
  | LMain => main_step y
  | LSendT ok => send_step ok y
  | LRecvT ok => recv_step ok y
  end.
Inductive frun : Life -> Life -> Prop :=
| frun_nil y : frun y y
| frun_step y y1 l y2 : frun y y1 -> fstep y1 l = Some y2 -> frun y y2.

(** The next playbook of the same ansible-playbook run.  Ansible calls v2_playbook_on_start
    and v2_playbook_on_stats once for every playbook named on its command line, with the
    same callback object, and the debugger is a singleton: [start] (377-440) makes a new
    queue and a new send thread, and all the rest is as the shutdown before left it. *)
Definition next_life (listen nowait : bool) (plays : list nat) (inp : list rq) (y : Life) : Life :=
  mkLife (if nowait then MBetween else MConf) SBegin RNone plays inp false (f_cancel y) (f_flag y) (f_conf y) (f_term y) (f_strat y) (f_lock y)
         (f_notified y) (f_queue y) (f_pid y || listen).
(** A playbook of the run: the mode, the option, its plays, and what an adapter that connects
    would send. *)
Record Book := mkBook { b_listen : bool; b_nowait : bool; b_plays : list nat; b_inp : list rq }.
(** [books bs y]: the playbooks [bs] were begun, in this order; [y] is a state of the last. *)
Inductive books : list Book -> Life -> Prop :=
| books_first b : books [b] (life_init (b_listen b) (b_nowait b) (b_plays b) (b_inp b))
| books_step bs y l y' : books bs y -> fstep y l = Some y' -> books bs y'
| books_next bs y b : books bs y -> f_m y = MDone -> books (bs ++ [b]) (next_life (b_listen b) (b_nowait b) (b_plays b) (b_inp b) y).
