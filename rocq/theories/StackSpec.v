(** Specification vocabulary for the stack trace. *)
From Verif Require Import PyBase PyDict DbgTypes BpModel BpSpec ThreadModel ThreadSpec StratModel SysModel SysSpec.
Set Implicit Arguments.
Local Open Scope N_scope.

(** The task a host started last in the current play; refreshing the inventory forgets
    the hosts' threads. *)
Definition last_step (h : N) (g : option Node) (l : label) : option Node :=
  match l with
  | LPlay | LPlayEnd | LRefresh => None
  | LStart a => if N.eqb (h_uuid (ts_host a)) h then Some (ts_task a) else g
  | _ => g
  end.
Definition last_task (h : N) (ls : list label) : option Node := fold_left (last_step h) ls None.

(** The includes a host is inside after a task: the ones around the task, and the task
    itself if it is an include. *)
Definition open_includes (g : option Node) : list Node :=
  match g with
  | None => []
  | Some n => if an_include n then n :: includes_of n else includes_of n
  end.
(** The task whose block the task is listed in directly. *)
Definition directly_in (n : Node) : option Node :=
  match n_parent n with Some blk => n_parent blk | None => None end.

(** What the debugger keeps, for any order of tasks: the tasks shown below a host's last
    task.  An include stays open when it has ended; the next task leaves the topmost open
    include, and only that one, unless it is listed directly in what that include loaded. *)
Definition unfinished (g : option (Node * list Node)) : list Node :=
  match g with
  | None => []
  | Some (n, below) => if an_include n then n :: below else below
  end.
Definition still_open (g : option (Node * list Node)) (n : Node) : list Node :=
  match unfinished g with
  | [] => []
  | top :: rest => match directly_in n with
                   | Some p => if N.eqb (n_uuid p) (n_uuid top) then top :: rest else rest
                   | None => rest end
  end.
Definition trail_step (h : N) (g : option (Node * list Node)) (l : label) : option (Node * list Node) :=
  match l with
  | LPlay | LPlayEnd | LRefresh => None
  | LStart a => if N.eqb (h_uuid (ts_host a)) h then Some (ts_task a, still_open g (ts_task a)) else g
  | _ => g
  end.
Definition trail (h : N) (ls : list label) : option (Node * list Node) := fold_left (trail_step h) ls None.

(** From one task to the next, a host stays at the same level or enters the include it
    just ran, each task being listed directly in the file or role included; or it leaves
    one include. *)
Definition moves_one (g : option Node) (n : Node) : Prop :=
  (open_includes g = includes_of n /\
   (includes_of n = [] \/ exists i p, hd_error (includes_of n) = Some i /\ directly_in n = Some p /\ n_uuid p = n_uuid i)) \/
  (exists left, open_includes g = left :: includes_of n /\ forall p, directly_in n = Some p -> n_uuid p <> n_uuid left).
Definition regular (h : N) (ls : list label) : Prop :=
  forall pre a post, ls = pre ++ LStart a :: post -> h_uuid (ts_host a) = h -> moves_one (last_task h pre) (ts_task a).

(** The path mappings of the session: those of the last configuration, none after the
    session has ended. *)
Definition map_step (maps : list Mapping) (l : label) : list Mapping :=
  match l with
  | LConfig m => m
  | LReq _ (RDisconnect _) | LReq _ RTerminate | LClosed => []
  | _ => maps
  end.
Definition mappings (ls : list label) : list Mapping := fold_left map_step ls [].
(** The client's name for the controller's file [p]: the first mapping whose remote side
    is a prefix of [p] applies. *)
Definition client_name (maps : list Mapping) (p q : pystr) : Prop :=
  (exists m r, first_match m_remote maps p m /\ p = m_remote m ++ r /\ q = m_local m ++ r) \/
  ((forall m, In m maps -> ~ exists r, p = m_remote m ++ r) /\ q = p).
(** A stack frame of the response shows this task. *)
Definition shows (maps : list Mapping) (fi : FrameInfo) (n : Node) : Prop :=
  fi_name fi = n_name n /\ exists p, n_path n = Some (p, fi_line fi) /\ client_name maps p (fi_path fi).
(** The host [h] is busy with [task]: it was started and its result is not in yet, or
    the debugger has stopped it because of the result. *)
Definition in_task (h : N) (task : Node) (tid : N) (y : Sys) : Prop :=
  (exists t h', dget (w_threads (y_w y)) tid = Some t /\ t_host t = Some h' /\ h_uuid h' = h) /\
  ((exists h', In (h', task) (y_open y) /\ h_uuid h' = h) \/ y_phase y = PWaitEnd tid task).
