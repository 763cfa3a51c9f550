(** Variable references under concurrency: the strategy (main) thread removes stack frames
    with their variables and adds the result of a task it stops at, while the receive
    thread answers scopes, variables and setVariable requests, which add variables to a
    frame.  No lock is held by the receive thread, so the model takes one access of
    either thread to a shared object at a time (strategy/debug.py, _debuggee.py).

    Simplifications: a dict of references is its lookup function (only get, set and del
    are used); frames are numbered by a counter that only the strategy thread uses; what
    the variables contain, and the threads' own lists of frames (only the strategy
    thread reads them here), are left out; a request adds some number of variables. *)
From Verif Require Import PyBase.
Set Implicit Arguments.
Local Open Scope N_scope.

(** Inside _add_variable (strategy/debug.py:980-1000) and next_variable_id
    (_debuggee.py:327-331): [VRead]: about to read the counter for the id; [VLoad]: about to
    read it again for "+= 1"; [VStore]: about to write it; [VIns]: before 997, the dict
    entry; [VApp]: before 998, the entry in the frame's list. *)
Inductive vpc := VRead | VLoad (vid : N) | VStore (vid c : N) | VIns (vid : N) | VApp (vid : N).
(** The strategy thread: between the actions below; in _add_variable for the result of a
    task (634); in the loop over the variables of a removed frame (525-526, 646-647),
    with the position of Python's list iterator; after a KeyError. *)
Inductive mpc := MIdle | MAdd (f : N) (v : vpc) | MDel (f : N) (i : nat) | MRaised.
(** The receive thread: idle, or in _add_variable for a frame with [n] more to add. *)
Inductive qpc := QIdle | QAdd (f : N) (n : nat) (v : vpc).

(** [r_vars]: the variables dict, each with the frame it refers to; [r_list]: the list
    [variables] of every frame object, also of those removed; [r_live]: the keys of
    [stackframes]; [r_next], [r_ctr]: the counters. *)
Record RS := mkRS { r_vars : N -> option N; r_list : N -> list N; r_live : list N; r_next : N; r_ctr : N; r_m : mpc; r_q : qpc }.
Definition r_init : RS := mkRS (fun _ => None) (fun _ => []) [] 1 1 MIdle QIdle.
Definition upd {A} (m : N -> A) (k : N) (a : A) : N -> A := fun j => if N.eqb j k then a else m j.
Definition with_vars v x := mkRS v (r_list x) (r_live x) (r_next x) (r_ctr x) (r_m x) (r_q x).
Definition with_list v x := mkRS (r_vars x) v (r_live x) (r_next x) (r_ctr x) (r_m x) (r_q x).
Definition with_live v x := mkRS (r_vars x) (r_list x) v (r_next x) (r_ctr x) (r_m x) (r_q x).
Definition with_ctr v x := mkRS (r_vars x) (r_list x) (r_live x) (r_next x) v (r_m x) (r_q x).
Definition with_m v x := mkRS (r_vars x) (r_list x) (r_live x) (r_next x) (r_ctr x) v (r_q x).
Definition with_q v x := mkRS (r_vars x) (r_list x) (r_live x) (r_next x) (r_ctr x) (r_m x) v.

(** What happens: a frame is made, a task stops with its result, a frame is removed, all
    its variables are deleted, the strategy thread raises KeyError; a reference for a
    frame is given out; a request names a frame or a reference that exists or not. *)
Inductive rvt :=
| EFrame (f : N) | EResult (f : N) | EPop (f : N) | EDone (f : N) | ERaised
| EGave (vid f : N) | EScopes (f : N) | ENoFrame (f : N) | EFound (vid : N) | EMissing (vid : N).
(** [LStart], [LResult f], [LPop f]: the linear strategy starts a task, ends one with a
    stop, removes a frame; [LMain]: the strategy thread's next action; [LScopes f n]: a
    scopes request; [LVars vid n]: a variables or setVariable request; [n] variables are
    added; [LReq]: the receive thread's next action. *)
Inductive rlabel := LStart | LResult (f : N) | LPop (f : N) | LMain | LScopes (f : N) (n : nat) | LVars (vid : N) (n : nat) | LReq.

(** One action inside _add_variable. *)
Definition add_step (f : N) (v : vpc) (x : RS) : RS * option vpc * list rvt :=
  match v with
  | VRead => (x, Some (VLoad (r_ctr x)), [])
  | VLoad vid => (x, Some (VStore vid (r_ctr x)), [])
  | VStore vid c => (with_ctr (c + 1) x, Some (VIns vid), [])
  | VIns vid => (with_vars (upd (r_vars x) vid (Some f)) x, Some (VApp vid), [])
  | VApp vid => (with_list (upd (r_list x) f (r_list x f ++ [vid])) x, None, [EGave vid f])
  end.
(** The requests' loops: get_scopes 695-731 (the frame is looked up once, 695), get_variables
    882-890 and set_variable 923-932 (the variable is looked up once, with its frame). *)
Definition more (f : N) (n : nat) : qpc := match n with O => QIdle | S n => QAdd f n VRead end.

Definition rstep (x : RS) (l : rlabel) : option (RS * list rvt) :=
  match l with
  | LStart =>                                                             (* 541-549 *)
    match r_m x with
    | MIdle => Some (mkRS (r_vars x) (upd (r_list x) (r_next x) []) (r_live x ++ [r_next x]) (r_next x + 1) (r_ctr x) MIdle (r_q x), [EFrame (r_next x)])
    | _ => None end
  | LResult f =>                                                          (* 631-634 *)
    match r_m x with MIdle => if mem f (r_live x) then Some (with_m (MAdd f VRead) x, [EResult f]) else None | _ => None end
  | LPop f =>                                                             (* 523-524, 644-645 *)
    match r_m x with
    | MIdle => if mem f (r_live x) then Some (with_m (MDel f 0) (with_live (filter (fun g => negb (N.eqb g f)) (r_live x)) x), [EPop f]) else None
    | _ => None end
  | LMain =>
    match r_m x with
    | MIdle | MRaised => None
    | MAdd f v => let '(x', v', es) := add_step f v x in Some (with_m (match v' with Some v' => MAdd f v' | None => MIdle end) x', es)
    | MDel f i =>
      match nth_error (r_list x f) i with
      | None => Some (with_m MIdle x, [EDone f])
      | Some vid => match r_vars x vid with
                    | None => Some (with_m MRaised x, [ERaised])          (* KeyError *)
                    | Some _ => Some (with_m (MDel f (S i)) (with_vars (upd (r_vars x) vid None) x), [])
                    end
      end
    end
  | LScopes f n =>
    match r_q x with
    | QIdle => if mem f (r_live x) then Some (with_q (more f n) x, [EScopes f]) else Some (x, [ENoFrame f])
    | _ => None end
  | LVars vid n =>
    match r_q x with
    | QIdle => match r_vars x vid with
               | Some f => Some (with_q (more f n) x, [EFound vid])
               | None => Some (x, [EMissing vid]) end
    | _ => None end
  | LReq =>
    match r_q x with
    | QIdle => None
    | QAdd f n v => let '(x', v', es) := add_step f v x in Some (with_q (match v' with Some v' => QAdd f n v' | None => more f n end) x', es)
    end
  end.

(** [rrun ok x h x']: some schedule leads from [x] to [x'] through states that satisfy
    [ok], with the happenings [h]. *)
Inductive rrun (ok : RS -> Prop) : RS -> list rvt -> RS -> Prop :=
| rrun_nil x : ok x -> rrun ok x [] x
| rrun_step x h x1 l x2 es : rrun ok x h x1 -> rstep x1 l = Some (x2, es) -> ok x2 -> rrun ok x (h ++ es) x2.
