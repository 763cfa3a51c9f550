(** Specification vocabulary for stepping through a whole session. *)
From Verif Require Import PyBase PyDict DbgTypes BpModel BpSpec ThreadModel ThreadSpec StratModel SysModel SysSpec HistSpec.
Set Implicit Arguments.
Local Open Scope N_scope.

(** The include or import statement a task comes from: the innermost task around it
    ([None]: it is written in the play itself). *)
Definition level (n : Node) : option N :=
  match filter a_task (ancestors n) with [] => None | t :: _ => Some (n_uuid t) end.

(** The request tells thread [tid] to go on. *)
Definition addresses (tid : N) (r : Req) : Prop :=
  match r with
  | RContinue t single => single = false \/ t = tid
  | RNext t | RStepIn t | RStepOut t => t = tid
  | RDisconnect _ | RTerminate => True
  | _ => False
  end.
(** Nothing here tells the thread to go on or ends its play.  Other hosts, other
    requests, and the thread's own tasks may come and go. *)
Definition leaves_alone (tid : N) (l : label) : Prop :=
  match l with
  | LReq _ r => ~ addresses tid r
  | LClosed | LPlayEnd | LRefresh => False
  | _ => True
  end.
(** No request that waits for a play to start is for this thread. *)
Definition none_waiting (tid : N) (y : Sys) : Prop := forall q r, y_recv y = Some (q, r) -> ~ addresses tid r.

(** The client has a breakpoint for this task, whose condition holds. *)
Definition at_breakpoint (h : list bop) (a : TaskStart) (path : pystr) (line : Z) : Prop :=
  exists b, first_hit h path line b /\ holds a (sb_cond (ac_req b)).

(** Where a host, stopped at [T0] and told to go on by [r], is to stop next: is it
    [T]? [bp]: the client has a breakpoint there. *)
Definition stop_wanted (r : Req) (T0 T : Node) (bp : Prop) : Prop :=
  match r with
  | RNext _ => level T = level T0 \/ bp
  | RStepIn _ => an_include T0 = true \/ level T = level T0 \/ bp
  | RStepOut _ => exists i, enclosing T0 = Some i /\ level T <> Some i
  | _ => bp
  end.
(** The kind of the request: one of the four that name the thread. *)
Definition resumes (tid : N) (r : Req) : Prop :=
  match r with RContinue t single => single = false \/ t = tid | RNext t | RStepIn t | RStepOut t => t = tid | _ => False end.
