(** Specification vocabulary for what a client sees and changes at a stop: the task a host
    has started last together with the objects Ansible runs it with, and the includes
    around it with theirs. *)
From Verif Require Import PyBase PyDict DbgTypes BpModel BpSpec ThreadModel ThreadSpec StratModel SysModel SysSpec StackSpec.
Set Implicit Arguments.
Local Open Scope N_scope.

(** As [trail] of StackSpec, but with the starts of the tasks (host, task, the dict of its
    variables, the dict of its options) instead of the tasks. *)
Definition unfin (g : option (TaskStart * list TaskStart)) : list TaskStart :=
  match g with
  | None => []
  | Some (a, below) => if an_include (ts_task a) then a :: below else below
  end.
Definition left_open (g : option (TaskStart * list TaskStart)) (n : Node) : list TaskStart :=
  match unfin g with
  | [] => []
  | top :: rest => match directly_in n with
                   | Some p => if N.eqb (n_uuid p) (n_uuid (ts_task top)) then top :: rest else rest
                   | None => rest end
  end.
Definition starts_step (h : N) (g : option (TaskStart * list TaskStart)) (l : label) : option (TaskStart * list TaskStart) :=
  match l with
  | LPlay | LPlayEnd | LRefresh => None
  | LStart a => if N.eqb (h_uuid (ts_host a)) h then Some (a, left_open g (ts_task a)) else g
  | _ => g
  end.
Definition starts (h : N) (ls : list label) : option (TaskStart * list TaskStart) := fold_left (starts_step h) ls None.

(** What Ansible runs a task with: [ta] the templated options, [tv] the task's variables,
    among them the host's name, the variables of the hosts ([mine] are this host's) and
    the global ones at [ga]. *)
Definition ran_with (tmpl_args : nat -> nat -> heap -> res (list obj * val)) (h : heap) (a : TaskStart)
    (ta : nat) (tv : dict key val) (name : pystr) (mine : dict key val) (ga : nat) : Prop :=
  (exists objs, tmpl_args (ts_args a) (ts_tv a) h = Ok (objs, VRef ta)) /\
  (exists m, nth_error h (ts_tv a) = Some (ODict tv m)) /\
  (exists hva hvs m1, dget tv (kstr (s "hostvars")) = Some (VRef hva) /\ nth_error h hva = Some (ODict hvs m1) /\
     (exists ty, dget tv (kstr (s "inventory_hostname")) = Some (VPrim name ty)) /\
     (exists ma m2, dget hvs (kstr name) = Some (VRef ma) /\ nth_error h ma = Some (ODict mine m2))) /\
  dget tv (kstr (s "vars")) = Some (VRef ga).

(** Requests that may change the playbook's data: setVariable, and the commands of the
    debug console (text that begins with "!"). *)
Definition edits (r : Req) : Prop :=
  match r with
  | RSetVariable _ _ _ => True
  | REvaluate e _ c => is_command e c
  | _ => False
  end.
(** Neither Ansible nor the client changes data with this label. *)
Definition hands_off (l : label) : Prop :=
  match l with
  | LHeap _ => False
  | LReq _ r => ~ edits r
  | _ => True
  end.

(** The result of the task that ended, if the last start or end of a task was an end. *)
Definition ended_step (g : option nat) (l : label) : option nat :=
  match l with LStart _ => None | LEnd _ _ addr => Some addr | _ => g end.
Definition ended (ls : list label) : option nat := fold_left ended_step ls None.

Section A.
Variable step : Sys -> label -> option Sys.
(** The request [r] is answered with [o], at once and with nothing else. *)
Definition answered (y : Sys) (seq : Z) (r : Req) (y' : Sys) (o : Out) : Prop :=
  step y (LReq seq r) = Some y' /\ d_out (w_dbg (y_w y')) = d_out (w_dbg (y_w y)) ++ [Some o].
End A.
