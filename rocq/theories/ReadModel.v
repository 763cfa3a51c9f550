(** The reading side of the adapter, _debug_adapter.py:280-303 (DAServer.start): read a
    chunk, log it when the log level is debug, give it to the connection, handle every
    complete message.  Unlike AdapterModel.feed it keeps the messages that were handled
    before an exception.  What handling a message does is in DaModel; here an exception
    comes from the connection or from the log statement only, and the end of the input is
    the end of the list of chunks. *)
From Verif Require Import PyBase PyDict JsonModel MsgBase MsgModel AdapterModel.
Set Implicit Arguments.

(** 289: while msg := adapter.next_message(): ...  [f] bounds the loop ([handle_enough]). *)
Fixpoint handle_all (f : nat) (c : conn) : list pval * option exn * conn :=
  match f with
  | O => ([], Some EFuel, c)
  | S f' =>
    match next_message c with
    | (Err e, c1) => ([], Some e, c1)
    | (Ok None, c1) => ([], None, c1)
    | (Ok (Some m), c1) => let '(ms, e, c2) := handle_all f' c1 in (m :: ms, e, c2)
    end
  end.
(** 285-286: data.decode() is evaluated only if the level is debug. *)
Definition log_chunk (debug : bool) (data : bytes) : option exn :=
  if debug then match utf8_decode data with Ok _ => None | Err e => Some e end else None.
(** 282-303: the chunks stdin.read(4096) returns. *)
Fixpoint read_loop (debug : bool) (c : conn) (chunks : list bytes) : list pval * option exn * conn :=
  match chunks with
  | [] => ([], None, c)
  | data :: rest =>
    match log_chunk debug data with
    | Some e => ([], Some e, c)
    | None =>
      let c1 := receive_data c data in
      match handle_all (S (length (inb c1))) c1 with
      | (ms, Some e, c2) => (ms, Some e, c2)
      | (ms, None, c2) => let '(ms', e, c3) := read_loop debug c2 rest in (ms ++ ms', e, c3)
      end
    end
  end.
(** 352-363 send_to_client up to the write: queue_msg, data_to_send(), the log statement.
    The bytes written, or the exception. *)
Definition send_out (debug : bool) (c : conn) (m : pval) : res bytes * conn :=
  match queue_msg c m with
  | (Err e, c1) => (Err e, c1)
  | (Ok _, c1) =>
    let '(data, c2) := data_to_send c1 (-1) in
    match log_chunk debug data with Some e => (Err e, c2) | None => (Ok data, c2) end
  end.
