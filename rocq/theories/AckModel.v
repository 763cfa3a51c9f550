(** The answer to a request that resumes threads: _debuggee.py:610-617 (continue),
    637-644 (next), 758-765 (stepIn), 767-774 (stepOut).  The handler calls the strategy,
    which sets the states under the lock (LockModel), and only afterwards, without the
    lock, queues the response; an exception is answered with an ErrorResponse by
    on_msg_received (120-136).

    Simplifications: those of LockModel; requests other than these and disconnect are
    left out; a disconnect request has no response from here: the end marker it puts on
    the queue (619-626) counts as its answer. *)
From Verif Require Import PyBase PyDict DbgTypes ThreadModel LockModel.
Set Implicit Arguments.

(** [a_owe]: the receive thread has left the strategy's method with ([true]) or without
    a result and is about to queue the answer. *)
Record AckS := mkAck { a_ls : LS; a_owe : option bool }.
Definition a_init (todo : list (scope * TState)) : AckS := mkAck (l_init todo) None.

(** What happens, in order: the events of LockModel, of which [EStop] is the stopped event
    put on the send queue, and answers put on the send queue. *)
Inductive aev := AEv (e : lev) | AAns (ok : bool).
(** [ALock l]: an action of LockModel; [AQueue]: the receive thread queues the answer. *)
Inductive alabel := ALock (l : llabel) | AQueue.

(** While it owes an answer the receive thread does nothing else; it owes one as soon as
    it left the "with" of strategy/debug.py:1007. *)
Definition astep (a : AckS) (l : alabel) : option (AckS * list aev) :=
  match l with
  | AQueue => match a_owe a with Some ok => Some (mkAck (a_ls a) None, [AAns ok]) | None => None end
  | ALock l =>
    match l, a_owe a with
    | LRecv _, Some _ => None
    | _, owe =>
      match lstep (a_ls a) l with
      | None => None
      | Some (s', es) =>
        let owe' := match l, l_r (a_ls a) with LRecv _, RRel ok => Some ok | _, _ => owe end in
        Some (mkAck s' owe', map AEv es)
      end
    end
  end.

(** [arun a h a']: some schedule leads from [a] to [a'], with the happenings [h]. *)
Inductive arun : AckS -> list aev -> AckS -> Prop :=
| arun_nil a : arun a [] a
| arun_step a h a1 l a2 es : arun a h a1 -> astep a1 l = Some (a2, es) -> arun a (h ++ es) a2.
