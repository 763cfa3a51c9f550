(** _socket_helper.py:233-365 [SocketCancellationToken], as a transition system: any number
    of threads run operations under [with_cancel] and call [cancel].  The token's lock
    protects two short sections of an operation (one atomic step each) and the whole of
    [cancel], in which the callbacks run one by one while other threads go on. *)
From Verif Require Import PyBase PyDict.
Set Implicit Arguments.
Local Open Scope N_scope.

(** An operation ([accept], [connect], [recv_into], [sendall]) is named by a number; its
    callback is named by the operation. *)
Inductive opst := ORunning (id : N) (body : bool) | ODone | ORefused.
Record Tok := mkTok {
  k_cancelled : bool;              (* _cancelled *)
  k_next : N;                      (* _cancel_id *)
  k_funcs : dict N N;              (* _cancel_funcs *)
  k_lock : option (list (N * N));  (* held by cancel(): the callbacks still to call *)
  k_ops : dict N opst }.
Definition tok_init : Tok := mkTok false 0 [] None [].

Inductive klabel :=
| KBegin (o : N)          (* with_cancel entered: 351-357 *)
| KBody (o : N)           (* the body of recv_into reads _cancelled: 317 *)
| KEnd (o : N)            (* with_cancel left: 363-365 *)
| KCancel                 (* cancel() got the lock: 337-340 *)
| KCall (raised : bool)   (* it calls the next callback: 342 *)
| KRet.                   (* 344, and the lock is released *)

(** What happened, for the statements. *)
Inductive kev := HBegin (o id : N) | HRefused (o : N) | HBody (o : N) (cancelled : bool) | HEnd (o : N) | HCancel | HCall (o : N) | HRet | HRaise.

Definition kstep (k : Tok) (l : klabel) : option (Tok * kev) :=
  match l with
  | KBegin o =>
    match k_lock k, dget (k_ops k) o with
    | None, None =>
      if k_cancelled k then Some (mkTok (k_cancelled k) (k_next k) (k_funcs k) None (dset (k_ops k) o ORefused), HRefused o)
      else
        let id := k_next k in
        Some (mkTok (k_cancelled k) (k_next k + 1) (dset (k_funcs k) id o) None (dset (k_ops k) o (ORunning id false)), HBegin o id)
    | _, _ => None
    end
  | KBody o =>
    match dget (k_ops k) o with
    | Some (ORunning id false) => Some (mkTok (k_cancelled k) (k_next k) (k_funcs k) (k_lock k) (dset (k_ops k) o (ORunning id true)), HBody o (k_cancelled k))
    | _ => None
    end
  | KEnd o =>
    match k_lock k, dget (k_ops k) o with
    | None, Some (ORunning id _) => Some (mkTok (k_cancelled k) (k_next k) (ddel (k_funcs k) id) None (dset (k_ops k) o ODone), HEnd o)
    | _, _ => None
    end
  | KCancel =>
    match k_lock k with
    | None => Some (mkTok true (k_next k) (k_funcs k) (Some (k_funcs k)) (k_ops k), HCancel)
    | Some _ => None
    end
  | KCall raised =>
    match k_lock k with
    | Some ((id, o) :: r) =>
      Some (mkTok (k_cancelled k) (k_next k) (k_funcs k) (if raised then None else Some r) (k_ops k), if raised then HRaise else HCall o)
    | _ => None
    end
  | KRet =>
    match k_lock k with
    | Some [] => Some (mkTok (k_cancelled k) (k_next k) [] None (k_ops k), HRet)
    | _ => None
    end
  end.
Inductive krun : Tok -> list kev -> Tok -> Prop :=
| krun_nil k : krun k [] k
| krun_snoc k0 h k l k' e : krun k0 h k -> kstep k l = Some (k', e) -> krun k0 (h ++ [e]) k'.
