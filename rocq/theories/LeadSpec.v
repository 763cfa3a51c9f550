(** Specification vocabulary for what a client sees at a stop: which thread belongs to
    which host, and which task the playbook has stopped at. *)
From Verif Require Import PyBase PyDict DbgTypes BpModel BpSpec ThreadModel StratModel SysModel SysSpec StackSpec.
Set Implicit Arguments.
Local Open Scope N_scope.

(** The host of the task that was started or ended last. *)
Definition acting_step (g : option N) (l : label) : option N :=
  match l with
  | LStart a => Some (h_uuid (ts_host a))
  | LEnd h _ _ => Some (h_uuid h)
  | _ => g
  end.
Definition acting (ls : list label) : option N := fold_left acting_step ls None.

(** The playbook waits for the client, with thread [tid] stopped. *)
Definition stopped_on (tid : N) (y : Sys) : Prop :=
  y_phase y = PWaitStart tid \/ exists task, y_phase y = PWaitEnd tid task.
Definition is_stopped (y : Sys) : Prop := exists tid, stopped_on tid y.

Section L.
Variable run : Sys -> list label -> Sys -> Prop.
Variable step : Sys -> label -> option Sys.
(** At some point of the session [ls] a task was started on [h], and the client was told
    then that thread [tid] has started. *)
Definition announced (ls : list label) (tid : N) (h : Host) : Prop :=
  exists pre a post y1 y2 new, ls = pre ++ LStart a :: post /\ run sys_init pre y1 /\ step y1 (LStart a) = Some y2 /\
    ts_host a = h /\ thread_events (d_out (w_dbg (y_w y2))) = thread_events (d_out (w_dbg (y_w y1))) ++ new /\ In (true, tid) new.
End L.
