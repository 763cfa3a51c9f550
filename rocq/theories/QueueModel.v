(** The queue between the adapter and the debuggee: _mp_queue.py and the parts of
    _socket_helper.py it uses.  Pickle is abstract ([dumps], [loads]); a socket is the
    sequence of what its reads will bring. *)
From Verif Require Import PyBase.
Set Implicit Arguments.
Local Open Scope N_scope.

Definition blen (b : bytes) : N := N.of_nat (length b).

(** int.to_bytes(4, "little"), used at _mp_queue.py:80: OverflowError if it does not fit. *)
Definition to_bytes4 (n : N) : res bytes :=
  if n <? 2 ^ 32 then Ok [n mod 256; n / 256 mod 256; n / 65536 mod 256; n / 16777216 mod 256] else Err OverflowError.
(** int.from_bytes(b, "little", signed=False), used at _mp_queue.py:109, any length. *)
Fixpoint from_bytes (b : bytes) : N := match b with [] => 0 | x :: r => x + 256 * from_bytes r end.

(** What the reads on a socket bring: a piece of data, or an exception; at the end of the
    list the peer has closed (a read brings 0 bytes). *)
Inductive sockev := Data (b : bytes) | Fail (e : exn).

Section Q.
Variable M : Type.
Variable dumps : M -> bytes.
Variable loads : bytes -> res M.
(** What the protocol's on_msg_received raises, given the messages it got before. *)
Variable raises : list M -> M -> option exn.

(** _mp_queue.py:75-81 [send]: the bytes given to sendall, or the exception. *)
Definition send (m : M) : res bytes :=
  let b_data := dumps m in
  match to_bytes4 (blen b_data) with
  | Ok b_len => Ok (b_len ++ b_data)
  | Err e => Err e
  end.

(** _socket_helper.py:309-320 [recv_into] with at most [n] > 0 bytes: the data read and
    the rest of the socket. *)
Definition recv_into (n : N) (cs : list sockev) : res bytes * list sockev :=
  match cs with
  | [] => (Ok [], [])
  | Fail e :: cs' => (Err e, cs')
  | Data c :: cs' =>
    let k := N.to_nat (N.min n (blen c)) in
    (Ok (firstn k c), match skipn k c with [] => cs' | r => Data r :: cs' end)
  end.

(** _socket_helper.py:176-197 [recv]: read until [n] bytes or a read of 0 bytes.  [fuel]
    bounds the number of reads; [recv_enough] shows that one read per socket event and
    one more are enough. *)
Fixpoint recv_loop (fuel : nat) (n : N) (buf : bytes) (cs : list sockev) : res bytes * list sockev :=
  match fuel with
  | O => (Err EFuel, cs)
  | S f =>
    if blen buf <? n then
      match recv_into (n - blen buf) cs with
      | (Ok [], cs') => (Ok buf, cs')
      | (Ok d, cs') => recv_loop f n (buf ++ d) cs'
      | (Err e, cs') => (Err e, cs')
      end
    else (Ok buf, cs)
  end.
Definition recv (n : N) (cs : list sockev) : res bytes * list sockev := recv_loop (S (S (length cs))) n [] cs.

(** What the protocol object sees. *)
Inductive cb := CbMsg (m : M) | CbClosed (e : option exn).

(** _mp_queue.py:102-123 [_recv_handler].  [fuel]: number of iterations, see [handler_enough]. *)
Definition finish (e : exn) : cb := CbClosed (match e with CancelledError => None | _ => Some e end).
Fixpoint handler (fuel : nat) (seen : list M) (cs : list sockev) : list cb :=
  match fuel with
  | O => [CbClosed (Some EFuel)]
  | S f =>
    match recv 4 cs with
    | (Err e, _) => [finish e]
    | (Ok [], _) => [CbClosed None]
    | (Ok b_data_len, cs1) =>
      match recv (from_bytes b_data_len) cs1 with
      | (Err e, _) => [finish e]
      | (Ok b_data, cs2) =>
        match loads b_data with
        | Err e => [finish e]
        | Ok obj =>
          CbMsg obj ::
          match raises seen obj with
          | Some e => [finish e]
          | None => handler f (seen ++ [obj]) cs2
          end
        end
      end
    end
  end.
(** The bytes a socket still brings. *)
Definition sockdata (cs : list sockev) : bytes := flat_map (fun c => match c with Data b => b | Fail _ => [] end) cs.
Definition recv_handler (cs : list sockev) : list cb := handler (S (length (sockdata cs))) [] cs.

(** _mp_queue.py:184-199: the connected client reads one byte (whose presence it does not
    check) and starts the handler; an exception from that read leaves start().  The TLS
    wrapping is not modelled here. *)
Definition client_run (cs : list sockev) : res (list cb) :=
  match recv 1 cs with
  | (Ok _, cs') => Ok (recv_handler cs')
  | (Err e, _) => Err e
  end.
End Q.
Arguments CbClosed {M} e.
Arguments finish {M} e.

(** _mp_queue.py:166-182: connecting.  For each address of the resolver in order: the
    outcome of creating the socket and of [SocketCancellationToken.connect]. *)
Inductive sockact := Opened (i : nat) | SClosed (i : nat).
Record addr_outcome := mkAddr { ao_create : option exn; ao_connect : option exn }.
(** Python's class hierarchy: which exceptions are OSError. *)
Definition is_oserror (e : exn) : bool := match e with OSError | SSLError | TimeoutError => true | _ => false end.
Definition is_sslerror (e : exn) : bool := match e with SSLError => true | _ => false end.
Fixpoint connect_loop (i : nat) (error : exn) (l : list addr_outcome) : list sockact * res nat :=
  match l with
  | [] => ([], Err error)
  | a :: r =>
    match ao_create a with
    | Some e => ([], Err e)
    | None =>
      match ao_connect a with
      | None => ([Opened i], Ok i)
      | Some e =>
        if is_oserror e then
          let (tr, x) := connect_loop (S i) e r in (Opened i :: SClosed i :: tr, x)
        else ([Opened i], Err e)
      end
    end
  end.
Definition client_connect (l : list addr_outcome) : list sockact * res nat := connect_loop 0 OSError l.

(** _mp_queue.py:239-295 [ServerMPQueue.start]: what each accept brings: an exception, or
    a peer with the outcome of the TLS handshake and of sending the first byte. *)
Inductive acc := AccFail (e : exn) | AccPeer (hs : option exn) (snd : option exn).
Definition peer_outcome (tls : bool) (hs snd : option exn) : option exn :=
  if tls then match hs with Some e => Some e | None => snd end else snd.
Inductive sres := SConn (i : nat) | SExn (e : exn) | SWaits.
(** [closed]: the connections closed so far, in order; running out of peers means that
    accept waits. *)
Fixpoint server_loop (i : nat) (l : list acc) : list nat * sres :=
  match l with
  | [] => ([], SWaits)
  | AccFail e :: _ => ([], SExn e)
  | AccPeer hs sn :: r =>
    match peer_outcome true hs sn with
    | None => ([], SConn i)
    | Some e => if is_sslerror e then let (c, x) := server_loop (S i) r in (i :: c, x) else ([], SExn e)
    end
  end.
Definition server_start (tls : bool) (l : list acc) : list nat * sres :=
  if tls then server_loop 0 l
  else match l with
       | [] => ([], SWaits)
       | AccFail e :: _ => ([], SExn e)
       | AccPeer hs sn :: _ => match peer_outcome false hs sn with None => ([], SConn 0) | Some e => ([], SExn e) end
       end.
