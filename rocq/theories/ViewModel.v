(** The threads and stackTrace requests while the playbook goes on: the strategy (main)
    thread adds and removes threads and stack frames, the receive thread lists them
    (strategy/debug.py).  No lock is held by either over these objects, so the model takes
    one access to a shared object at a time.

    The dict [threads] is what CPython makes of it: an array of entries, of which deleted
    ones stay as holes; an insertion may move the entries together (when the array is
    full; here: at any insertion).  An iterator remembers the number of keys at its
    creation and its position in the array, and raises RuntimeError when the number has
    changed.  A list iterator is a position.

    Simplifications: one play; the dict of frames is the list of its keys (only get, set
    and pop are used); a frame is popped whether it is the end of a task or the return from
    an include; how a stop is decided and how a request ends it are left out (LockModel has
    them): the strategy thread stops and goes on by itself here, at any time; an answer
    consists of the ids (names, paths and lines do not change). *)
From Verif Require Import PyBase.
Set Implicit Arguments.
Local Open Scope N_scope.

(** The strategy thread.  [MStarted t]: in _add_thread (963-978), before the event;
    [MExit ks]: in the loop of exit_threads (656-666); [MExited k ks]: before its event;
    [MPush t f]: in start_task between 543 and 549; [MPop t f]: between 523 and 524, or 644
    and 645; [MStop]: waiting at 599 or 638. *)
Inductive mpc := MIdle | MStarted (t : N) | MExit (ks : list N) | MExited (k : N) (ks : list N) | MPush (t f : N) | MPop (t f : N) | MStop.
(** The receive thread.  [QIter used i acc]: in the comprehension of get_threads (875);
    [QThreads r]: about to queue the answer, [None] an error; [QStack t i acc]: in the loop
    of get_stacktrace (859); [QFrame t i f acc]: before 860; [QStackAns r]: about to queue. *)
Inductive qpc := QIdle | QIter (used i : nat) (acc : list N) | QThreads (r : option (list N))
| QStack (t : N) (i : nat) (acc : list N) | QFrame (t : N) (i : nat) (f : N) (acc : list N) | QStackAns (r : option (list N)).

(** [v_ent]: the entries of [threads]; [v_stack]: the list [stack_frames] of each thread
    object; [v_frames]: the keys of [stackframes]; then the two counters. *)
Record VS := mkVS { v_ent : list (option N); v_stack : N -> list N; v_frames : list N; v_nt : N; v_nf : N; v_m : mpc; v_q : qpc }.
(** strategy/debug.py:484: thread 1 is the play itself. *)
Definition v_init : VS := mkVS [Some 1] (fun _ => []) [] 2 1 MIdle QIdle.

(** The keys present, in order; the array without its holes; without one key. *)
Definition keys (l : list (option N)) : list N := flat_map (fun o => match o with Some t => [t] | None => [] end) l.
Definition compact (l : list (option N)) : list (option N) := map (@Some N) (keys l).
Definition erase (t : N) (l : list (option N)) : list (option N) := map (fun o => match o with Some u => if N.eqb u t then None else o | None => None end) l.
(** The first key of the rest of the array, with the number of entries passed. *)
Fixpoint nxt (l : list (option N)) : option (N * nat) :=
  match l with
  | [] => None
  | Some t :: _ => Some (t, 1%nat)
  | None :: l => match nxt l with Some (t, n) => Some (t, S n) | None => None end
  end.

(** What happens: a key enters or leaves [threads]; the thread events on the send queue; a
    frame enters or leaves the list of a thread; the strategy thread stops, goes on; a
    threads request is picked up and answered on the send queue; the same for stackTrace. *)
Inductive vev := ENew (t : N) | EDel (t : N) | EStarted (t : N) | EExited (t : N) | EPush (t f : N) | EPop (t f : N)
| EStop | EGo | EAskT | EThreads (r : option (list N)) | EAskS (t : N) | EStack (r : option (list N)).
(** [LNew c]: the first task of a new host ([c]: the insertion moves the entries together);
    [LExit]: the play ends or the inventory is refreshed; [LPush t], [LPop t]: a task of
    thread t starts, a frame of t is left; [LMain]: the strategy thread's next action;
    [LThreads], [LStack t]: a request arrives; [LReq]: the receive thread's next action. *)
Inductive vlabel := LNew (c : bool) | LExit | LPush (t : N) | LPop (t : N) | LStop | LGo | LMain | LThreads | LStack (t : N) | LReq.

Definition upd {A} (m : N -> A) (k : N) (a : A) : N -> A := fun j => if N.eqb j k then a else m j.
Definition with_m m x := mkVS (v_ent x) (v_stack x) (v_frames x) (v_nt x) (v_nf x) m (v_q x).
Definition with_q q x := mkVS (v_ent x) (v_stack x) (v_frames x) (v_nt x) (v_nf x) (v_m x) q.
Definition with_ent e x := mkVS e (v_stack x) (v_frames x) (v_nt x) (v_nf x) (v_m x) (v_q x).
Definition with_stack s x := mkVS (v_ent x) s (v_frames x) (v_nt x) (v_nf x) (v_m x) (v_q x).
Definition with_frames f x := mkVS (v_ent x) (v_stack x) f (v_nt x) (v_nf x) (v_m x) (v_q x).

(** The strategy thread's next action inside a method. *)
Definition main_step (x : VS) : option (VS * list vev) :=
  match v_m x with
  | MIdle | MStop => None
  | MStarted t => Some (with_m MIdle x, [EStarted t])
  | MExit [] => Some (with_m MIdle x, [])
  | MExit (k :: ks) =>
    if N.eqb k 1 then Some (with_m (MExit ks) x, [])
    else Some (with_m (MExited k ks) (with_ent (erase k (v_ent x)) x), [EDel k])
  | MExited k ks => Some (with_m (MExit ks) x, [EExited k])
  | MPush t f => Some (with_m MIdle (with_stack (upd (v_stack x) t (f :: v_stack x t)) x), [EPush t f])
  | MPop t f => Some (with_m MIdle (with_frames (filter (fun g => negb (N.eqb g f)) (v_frames x)) x), [])
  end.
(** The receive thread's next action inside a request; a key that is missing or a dict
    that changed is an exception, which is answered with an error (_debuggee.py:120-136). *)
Definition req_step (x : VS) : option (VS * list vev) :=
  match v_q x with
  | QIdle => None
  | QIter used i acc =>                                                          (* 875 *)
    if Nat.eqb (length (keys (v_ent x))) used then
      match nxt (skipn i (v_ent x)) with
      | Some (t, n) => Some (with_q (QIter used (i + n) (acc ++ [t])) x, [])
      | None => Some (with_q (QThreads (Some acc)) x, [])
      end
    else Some (with_q (QThreads None) x, [])
  | QThreads r => Some (with_q QIdle x, [EThreads r])                            (* _debuggee.py:792-793 *)
  | QStack t i acc =>                                                            (* 859 *)
    match nth_error (v_stack x t) i with
    | Some f => Some (with_q (QFrame t (S i) f acc) x, [])
    | None => Some (with_q (QStackAns (Some acc)) x, [])
    end
  | QFrame t i f acc =>                                                          (* 860-861 *)
    if mem f (v_frames x) then Some (with_q (QStack t i (acc ++ [f])) x, []) else Some (with_q (QStackAns None) x, [])
  | QStackAns r => Some (with_q QIdle x, [EStack r])                             (* _debuggee.py:755-756 *)
  end.
Definition vstep (x : VS) (l : vlabel) : option (VS * list vev) :=
  match l with
  | LNew c =>                                                                    (* 510-515, 963-970 *)
    match v_m x with
    | MIdle => Some (mkVS ((if c then compact (v_ent x) else v_ent x) ++ [Some (v_nt x)]) (v_stack x) (v_frames x) (v_nt x + 1) (v_nf x) (MStarted (v_nt x)) (v_q x), [ENew (v_nt x)])
    | _ => None end
  | LExit => match v_m x with MIdle => Some (with_m (MExit (keys (v_ent x))) x, []) | _ => None end    (* 656 *)
  | LPush t =>                                                                   (* 541-548 *)
    match v_m x with
    | MIdle => if mem t (keys (v_ent x)) then Some (mkVS (v_ent x) (v_stack x) (v_nf x :: v_frames x) (v_nt x) (v_nf x + 1) (MPush t (v_nf x)) (v_q x), []) else None
    | _ => None end
  | LPop t =>                                                                    (* 517-523, 644 *)
    match v_m x, v_stack x t with
    | MIdle, f :: r => if mem t (keys (v_ent x)) then Some (with_m (MPop t f) (with_stack (upd (v_stack x) t r) x), [EPop t f]) else None
    | _, _ => None end
  | LStop => match v_m x with MIdle => Some (with_m MStop x, [EStop]) | _ => None end                  (* 599, 638 *)
  | LGo => match v_m x with MStop => Some (with_m MIdle x, [EGo]) | _ => None end
  | LMain => main_step x
  | LThreads => match v_q x with QIdle => Some (with_q (QIter (length (keys (v_ent x))) 0 []) x, [EAskT]) | _ => None end
  | LStack t =>                                                                  (* 858 *)
    match v_q x with
    | QIdle => Some (with_q (if mem t (keys (v_ent x)) then QStack t 0 [] else QStackAns None) x, [EAskS t])
    | _ => None end
  | LReq => req_step x
  end.

(** [vrun h x]: some schedule leads to [x], with the happenings [h]. *)
Inductive vrun : list vev -> VS -> Prop :=
| vrun_nil : vrun [] v_init
| vrun_step h x l x' es : vrun h x -> vstep x l = Some (x', es) -> vrun (h ++ es) x'.
