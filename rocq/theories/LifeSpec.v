(** Specification vocabulary for start-up and shutdown: which steps are the program's own,
    what is bound to happen, what stays. *)
From Verif Require Import PyBase LifeModel.
Set Implicit Arguments.

(** Is it for the program to make this step?  Starting the connection is, once the token
    is cancelled: accept, connect and recv then raise CancelledError (CancelModel,
    QueueModel). *)
Definition ours (y : Life) (l : flabel) : bool :=
  match l with LMain | LSendT _ | LRecvT _ => true | LAccept ok => negb ok && f_cancel y | _ => false end.

(** Whatever the scheduler, the adapter and the network do, the program can always make a
    step until [Q] holds, and [Q] holds after finitely many steps. *)
Inductive will (Q : Life -> Prop) : Life -> Prop :=
| will_now y : Q y -> will Q y
| will_later y : (exists l y', ours y l = true /\ fstep y l = Some y') -> (forall l y', fstep y l = Some y' -> will Q y') -> will Q y.
(** Nothing that can still happen changes it. *)
Definition forever (Q : Life -> Prop) (y : Life) : Prop := forall y', frun y y' -> Q y'.

(** The requests the debuggee answers only while a play is running: those that ask for its
    state (threads, stack traces, scopes, variables, evaluate), disconnect and terminate. *)
Definition for_a_play (r : rq) : bool := match r with QStrat | QDisc | QTerm => true | QConf | QPlain => false end.
(** No such request is being waited for or still to come. *)
Definition calm (y : Life) : Prop :=
  Forall (fun r => for_a_play r = false) (f_inp y) /\
  match f_r y with RHandle r => for_a_play r = false | RGetAcq _ | RGetCheck _ | RGetWait _ => False | _ => True end.

