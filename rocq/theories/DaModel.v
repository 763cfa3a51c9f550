(** The adapter process: _debug_adapter.py, class DAServer, as a transition system of two
    threads: the main thread (start() and then stop(), through __exit__) and the thread
    that receives from the debuggee (DAProtocol).  One call of send_to_client is one step
    here; what happens when two such calls overlap is in SendModel.  Exceptions raised by
    stop() itself are not modelled. *)
From Verif Require Import PyBase PyDict.
Set Implicit Arguments.
Local Open Scope N_scope.

(** The program of stop() (305-350): [l]: requests of the snapshot still to look at. *)
Inductive spc :=
| PDisc (l : list (N * bool))     (* 323-325; (seq, is it a DisconnectRequest) *)
| PErr (l : list (N * bool))      (* 330-336 *)
| PDeb                            (* 338-340 *)
| PLaunch                         (* 342-344 *)
| PCheck                          (* 346 *)
| PSend                           (* 349 *)
| PSet.                           (* 350 *)
Inductive thr := TMain | TRecv.
Record call := mkCall { c_exp : bool; c_pc : spc }.
Inductive mainst :=
| MLoop (last : bool)                    (* reading; [last]: is_connected is already False *)
| MDisc                                  (* in _send_disconnect: debuggee.stop() *)
| MResp (seq : N) (last : bool)          (* the debuggee is started, the response is still to be sent: 454, 575 *)
| MStop (c : call) (back : option bool)  (* in stop(); Some last: returns to the loop (568), None: __exit__ *)
| MEnd.
Inductive recvst := RNone | RRun | RStop (c : call) | RDone.
Record DA := mkDA {
  a_main : mainst; a_recv : recvst;
  a_in : dict N bool;        (* _incoming_requests: seq -> is it a DisconnectRequest *)
  a_next : N;                (* the seq the connection accepts next, see C04 *)
  a_deb : bool;              (* _debuggee is not None *)
  a_run : list N;            (* _run_in_response_data: the seq of the launch request *)
  a_term : bool;             (* _terminated_sent *)
  a_fwd : list N }.          (* forwarded requests the connected debuggee has not answered yet (C20) *)
Definition da_init : DA := mkDA (MLoop false) RNone [] 1 false [] false [].

Inductive rkind := KInitialize | KAttach | KLaunch | KDisconnect | KOtherReq.
(** How a client message turns out. *)
Inductive outc := OkSoFar | RaisesExn.
Inductive dalabel :=
| AReq (k : rkind) (o : outc)       (* a request arrives: 289-303 *)
| ARunResp (seq : N) (started : option bool) (* RunInTerminalResponse: Some true: connected; Some false: CancelledError; None: another exception *)
| ABad                              (* next_message raises, or a message that is not supported: 289, 390 *)
| AEof                              (* stdin.read returns nothing: 283 *)
| AJoined                           (* debuggee.stop() in _send_disconnect returns: 382 *)
| ARespond                          (* the response after the debuggee was started: 454, 575 *)
| ALeave                            (* the loop ends: 282, then __exit__: 269 *)
| AMain                             (* the main thread's stop() goes on *)
| ADeliver (seq : option N)         (* a message from the debuggee: 231-235; Some: the response to that request *)
| AClosed (exp : bool)              (* connection_closed: 237-241 *)
| ARecv.                            (* the receive thread's stop() goes on *)

(** What happened, for the statements. *)
Inductive dev := EReq (seq : N) (disc : bool) | EResp (t : thr) (seq : N) | EStop (t : thr) (exp : bool) | ETerm (t : thr) | EExit | ENothing.

(** send_to_client of a response: 366-367. *)
Definition respond (seq : N) (a : DA) : DA :=
  mkDA (a_main a) (a_recv a) (ddel (a_in a) seq) (a_next a) (a_deb a) (a_run a) (a_term a) (a_fwd a).
Definition set_main (m : mainst) (a : DA) : DA := mkDA m (a_recv a) (a_in a) (a_next a) (a_deb a) (a_run a) (a_term a) (a_fwd a).
Definition set_recv (r : recvst) (a : DA) : DA := mkDA (a_main a) r (a_in a) (a_next a) (a_deb a) (a_run a) (a_term a) (a_fwd a).
Definition set_deb (b : bool) (a : DA) : DA := mkDA (a_main a) (a_recv a) (a_in a) (a_next a) b (a_run a) (a_term a) (a_fwd a).
Definition set_run (l : list N) (a : DA) : DA := mkDA (a_main a) (a_recv a) (a_in a) (a_next a) (a_deb a) l (a_term a) (a_fwd a).
Definition set_fwd (l : list N) (a : DA) : DA := mkDA (a_main a) (a_recv a) (a_in a) (a_next a) (a_deb a) (a_run a) (a_term a) l.
Definition set_termsent (a : DA) : DA := mkDA (a_main a) (a_recv a) (a_in a) (a_next a) (a_deb a) (a_run a) true (a_fwd a).
Definition begin_call (exp : bool) (a : DA) : call := mkCall exp (PDisc (a_in a)).

Definition recv_ended (r : recvst) : bool := match r with RNone | RDone => true | _ => false end.

(** One step of a stop() call of thread [t]; [None]: it has to wait. The new state, the
    rest of the call ([None]: it returns), what happened. *)
Definition stop_step (t : thr) (c : call) (a : DA) : option (DA * option call * dev) :=
  let next pc := Some (mkCall (c_exp c) pc) in
  match c_pc c with
  | PDisc [] => Some (a, next (if c_exp c then PErr (a_in a) else PDeb), ENothing)
  | PDisc ((seq, true) :: l) => Some (respond seq a, next (PDisc l), EResp t seq)
  | PDisc ((seq, false) :: l) => Some (a, next (PDisc l), ENothing)
  | PErr [] => Some (a, next PDeb, ENothing)
  | PErr ((seq, _) :: l) => Some (respond seq a, next (PErr l), EResp t seq)
  | PDeb =>
    match t with
    | TRecv => Some (a, next PLaunch, ENothing)
    | TMain =>
      if a_deb a then (if recv_ended (a_recv a) then Some (set_deb false a, next PLaunch, ENothing) else None)
      else Some (a, next PLaunch, ENothing)
    end
  | PLaunch => Some (a, next PCheck, ENothing)
  | PCheck => if a_term a then Some (a, None, ENothing) else Some (a, next PSend, ENothing)
  | PSend => Some (a, next PSet, ETerm t)
  | PSet => Some (set_termsent a, None, ENothing)
  end.

(** An exception leaves start(): __exit__ calls stop(exp). *)
Definition raise_main (a : DA) : DA := set_main (MStop (begin_call true a) None) a.

Definition dastep (a : DA) (l : dalabel) : option (DA * list dev) :=
  match l with
  | AReq k o =>
    match a_main a with
    | MLoop last =>
      let seq := a_next a in
      let disc := match k with KDisconnect => true | _ => false end in
      let a1 := mkDA (a_main a) (a_recv a) (dset (a_in a) seq disc) (seq + 1) (a_deb a) (a_run a) (a_term a) (a_fwd a) in
      let fail := (raise_main a1, [EReq seq disc; EStop TMain true]) in
      let ok a2 := (a2, [EReq seq disc]) in
      Some
      (if a_deb a then
        match k, o with
        | KDisconnect, OkSoFar => ok (set_main MDisc a1)
        | KDisconnect, RaisesExn => fail
        | _, OkSoFar => ok (set_fwd (match a_recv a with RRun => a_fwd a ++ [seq] | _ => a_fwd a end) a1)
        | _, RaisesExn => fail
        end
      else
        match k, o with
        | KInitialize, OkSoFar => (respond seq a1, [EReq seq disc; EResp TMain seq])
        | KAttach, OkSoFar => ok (set_main (MResp seq last) (set_recv RRun (set_deb true a1)))
        | KAttach, RaisesExn => (raise_main (set_deb true a1), [EReq seq disc; EStop TMain true])
        | KLaunch, OkSoFar => ok (set_run (seq :: a_run a) (set_deb true a1))
        | _, _ => fail                      (* 390: not supported; or an exception in the handler *)
        end)
    | _ => None
    end
  | ARunResp seq started =>
    match a_main a with
    | MLoop last =>
      let a1 := set_run (remove N.eq_dec seq (a_run a)) (mkDA (a_main a) (a_recv a) (a_in a) (a_next a + 1) (a_deb a) (a_run a) (a_term a) (a_fwd a)) in
      if mem seq (a_run a) && a_deb a && match a_recv a with RRun | RStop _ => false | _ => true end then
        match started with
        | Some true => Some (set_main (MResp seq last) (set_recv RRun a1), [])
        | Some false => Some (set_main (MStop (begin_call false a1) (Some last)) a1, [EStop TMain false])
        | None => Some (raise_main a1, [EStop TMain true])
        end
      else Some (raise_main a1, [EStop TMain true])   (* 558: KeyError; 561 on a queue that was stopped *)
    | _ => None
    end
  | ABad => match a_main a with MLoop _ => Some (raise_main a, [EStop TMain true]) | _ => None end
  | AEof => match a_main a with MLoop false => Some (a, []) | _ => None end
  | AJoined => match a_main a with MDisc => if recv_ended (a_recv a) then Some (set_main (MLoop true) a, []) else None | _ => None end
  | ARespond => match a_main a with MResp seq last => Some (set_main (MLoop last) (respond seq a), [EResp TMain seq]) | _ => None end
  | ALeave => match a_main a with MLoop true => Some (set_main (MStop (begin_call false a) None) a, [EStop TMain false]) | _ => None end
  | AMain =>
    match a_main a with
    | MStop c back =>
      match stop_step TMain c a with
      | Some (a1, Some c1, e) => Some (set_main (MStop c1 back) a1, [e])
      | Some (a1, None, e) =>
        match back with
        | Some last => Some (set_main (MLoop last) a1, [e])
        | None => Some (set_main MEnd a1, [e; EExit])
        end
      | None => None
      end
    | _ => None
    end
  | ADeliver s0 =>
    match a_recv a with
    | RRun =>
      match s0 with
      | None => Some (a, [])
      | Some seq => if mem seq (a_fwd a) then Some (respond seq (set_fwd (remove N.eq_dec seq (a_fwd a)) a), [EResp TRecv seq]) else None
      end
    | _ => None
    end
  | AClosed exp => match a_recv a with RRun => Some (set_fwd [] (set_recv (RStop (begin_call exp a)) a), [EStop TRecv exp]) | _ => None end
  | ARecv =>
    match a_recv a with
    | RStop c =>
      match stop_step TRecv c a with
      | Some (a1, Some c1, e) => Some (set_recv (RStop c1) a1, [e])
      | Some (a1, None, e) => Some (set_recv RDone a1, [e])
      | None => None
      end
    | _ => None
    end
  end.
Inductive darun : DA -> list dev -> DA -> Prop :=
| darun_nil a : darun a [] a
| darun_snoc a0 h a l a' es : darun a0 h a -> dastep a l = Some (a', es) -> darun a0 (h ++ es) a'.
