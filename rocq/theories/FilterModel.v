(** Changing the exception filters while the playbook goes on: the receive thread handles
    setExceptionBreakpoints (src/ansibug/_debuggee.py:655-665) while the strategy (main)
    thread asks whether a result stops (strategy/debug.py:617-630, _debuggee.py:277-287).
    No lock protects the filters, so the model has one access of either thread to the
    attribute _breakpoint_exceptions, or to the dict it names, at a time.

    Simplifications: a dict is the list of its keys (every value is True); what follows a
    judgement (waiting, going on) is left out: LockModel and SysModel have it. *)
From Verif Require Import PyBase DbgTypes ThreadModel.
Set Implicit Arguments.

(** _debuggee.py:36-41. *)
Definition names : list pystr := [s "on_error"; s "on_unreachable"; s "on_skipped"].
(** A finished task: the task, its result, its thread. *)
Record Fin := mkFin { fi_task : Node; fi_res : Result; fi_thread : Thread }.
(** The strategy thread in end_task: [MLoad w flags]: the flags read so far, about to read
    the attribute for the next (279, 283, 287); [MGet w flags ob]: about to look the name up
    in the dict object number [ob]; [MJudge]: about to call should_stop_on_exception. *)
Inductive fmpc := MIdle | MLoad (w : Fin) (flags : list bool) | MGet (w : Fin) (flags : list bool) (ob : nat) | MJudge (w : Fin) (flags : list bool).
(** The receive thread: before 660; in the loop of 661-662; before 664-665. *)
Inductive fqpc := QIdle | QClear (fs : list pystr) | QAdd (fs : list pystr) | QAnswer.
(** [f_dicts]: the dict objects made so far; the attribute names the last (247: the first). *)
Record FS := mkFS { f_dicts : list (list pystr); f_m : fmpc; f_q : fqpc }.
Definition f_init : FS := mkFS [[]] MIdle QIdle.

(** What happens: a task's result is taken up, and found to stop (with the event) or not; a
    request is taken up, its response is queued. *)
Inductive fev := EBegin (w : Fin) | EJudged (w : Fin) (o : option Stopped) | EAsk (fs : list pystr) | EAnswer.
Inductive flabel := LEnd (w : Fin) | LMain | LSet (fs : list pystr) | LReq.

Definition flag (n : nat) (l : list bool) : bool := nth n l false.
Definition fstep (x : FS) (l : flabel) : option (FS * list fev) :=
  match l with
  | LEnd w => match f_m x with MIdle => Some (mkFS (f_dicts x) (MLoad w []) (f_q x), [EBegin w]) | _ => None end
  | LMain =>
    match f_m x with
    | MIdle => None
    | MLoad w fl => Some (mkFS (f_dicts x) (MGet w fl (length (f_dicts x) - 1)) (f_q x), [])
    | MGet w fl ob =>
      let fl' := fl ++ [mem (nth (length fl) names []) (nth ob (f_dicts x) [])] in
      Some (mkFS (f_dicts x) (if Nat.ltb (length fl') 3 then MLoad w fl' else MJudge w fl') (f_q x), [])
    | MJudge w fl =>
      Some (mkFS (f_dicts x) MIdle (f_q x), [EJudged w (snd (should_stop_on_exception (fi_task w) (fi_res w) (flag 0 fl) (flag 1 fl) (flag 2 fl) (fi_thread w)))])
    end
  | LSet fs => match f_q x with QIdle => Some (mkFS (f_dicts x) (f_m x) (QClear fs), [EAsk fs]) | _ => None end
  | LReq =>
    match f_q x with
    | QIdle => None
    | QClear fs => Some (mkFS (f_dicts x ++ [[]]) (f_m x) (QAdd fs), [])
    | QAdd [] => Some (mkFS (f_dicts x) (f_m x) QAnswer, [])
    | QAdd (f :: fs) => Some (mkFS (removelast (f_dicts x) ++ [last (f_dicts x) [] ++ [f]]) (f_m x) (QAdd fs), [])
    | QAnswer => Some (mkFS (f_dicts x) (f_m x) QIdle, [EAnswer])
    end
  end.

(** [frun h x]: some schedule leads to [x], with the happenings [h]. *)
Inductive frun : list fev -> FS -> Prop :=
| frun_nil : frun [] f_init
| frun_step h x l x' es : frun h x -> fstep x l = Some (x', es) -> frun (h ++ es) x'.
