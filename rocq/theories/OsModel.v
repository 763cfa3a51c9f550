(** Sockets, files and the umask: _socket_helper.py create_uds_with_mask, _mp_queue.py
    ServerMPQueue / ClientMPQueue (construction, start, stop), the launch script of
    _debug_adapter.py and the process file of _debuggee.py, as programs over the calls they
    make.  The operating system answers each call ([sys]); between two calls other
    processes may act ([others]).  The data sent and received is the subject of QueueModel,
    cancellation of CancelModel; here any of those calls may succeed or raise. *)
From Verif Require Import PyBase.
Set Implicit Arguments.
Local Open Scope N_scope.

(** A file: its permission bits, and whether this process made it. *)
Record file := mkFile { f_mode : N; f_mine : bool }.
(** A socket: the mode the file gets when it is bound (before the umask), whether its
    descriptor is open. *)
Record sock := mkSock { s_mode : N; s_open : bool }.
(** [o_held]: the attribute [_socket] of the queue (_mp_queue.py:44), [None] before the
    constructor has set it.  Descriptors are positions in [o_socks]. *)
Record OS := mkOS { o_umask : N; o_files : pystr -> option file; o_socks : list sock; o_held : option nat }.

(** The calls the programs make. *)
Inductive call :=
| CSocket                            (* socket.socket(...) *)
| CFchmod (fd : nat) (mode : N)      (* os.fchmod on a socket *)
| CUmask (m : N)                     (* os.umask *)
| CBind (fd : nat) (path : pystr)    (* socket.bind on a unix socket *)
| CListen (fd : nat)
| CCreateServer                      (* socket.create_server: TCP, closes its socket on failure *)
| CAccept (fd : nat)                 (* SocketHelper.accept *)
| CConnect (fd : nat)                (* SocketCancellationToken.connect *)
| CTls (fd : nat)                    (* SSLContext.wrap_socket with its handshake *)
| CSend (fd : nat) | CRecv (fd : nat)
| CShutdown (fd : nat) | CClose (fd : nat)
| CUnlink (path : pystr)             (* Path.unlink(missing_ok=True) *)
| CMkstemp                           (* tempfile.mkstemp *)
| CFchmodFile (path : pystr) (mode : N)  (* os.fchmod on the file mkstemp made *)
| CWrite (path : pystr)              (* Path.write_text *)
| CSet (fd : nat) | CGet             (* self._socket = ..., self._socket *)
| COther.                            (* a step that touches none of this but may raise *)

(** [REinval]: OSError with errno EINVAL; [RGone e]: wrap_socket failed after it had taken
    over the descriptor, which it then closes. *)
Inductive answer := RUnit | RFd (fd : nat) | RNum (n : N) | RPath (p : pystr) | REinval | RErr (e : exn) | RGone (e : exn).

Definition put (fs : pystr -> option file) (p : pystr) (f : option file) : pystr -> option file :=
  fun q => if list_eqb q p then f else fs q.
Fixpoint set_nth (n : nat) (g : sock -> sock) (l : list sock) : list sock :=
  match l, n with
  | [], _ => []
  | x :: r, O => g x :: r
  | x :: r, S n' => x :: set_nth n' g r
  end.
Definition with_files (os : OS) (fs : pystr -> option file) : OS := mkOS (o_umask os) fs (o_socks os) (o_held os).
Definition with_socks (os : OS) (l : list sock) : OS := mkOS (o_umask os) (o_files os) l (o_held os).
Definition with_umask (os : OS) (m : N) : OS := mkOS m (o_files os) (o_socks os) (o_held os).
Definition with_held (os : OS) (fd : nat) : OS := mkOS (o_umask os) (o_files os) (o_socks os) (Some fd).
Definition close_fd (os : OS) (fd : nat) : OS := with_socks os (set_nth fd (fun x => mkSock (s_mode x) false) (o_socks os)).
(** All nine permission bits; read/write for all. *)
Definition rwx_all : N := 511.   (* 0o777 *)
Definition rw_all : N := 438.    (* 0o666 *)
Definition rw_owner : N := 384.  (* 0o600 *)
Definition rwx_owner : N := 448. (* 0o700 *)

(** What the operating system does on a call it answers with [a]; [None]: it never gives
    that answer.  A new socket has mode 0o777 (Linux: sock_alloc); bind makes the file with
    the socket's mode less the umask and fails if the path is taken; a new file made by
    mkstemp has 0o600 less the umask, by open() 0o666 less the umask; fchmod sets the mode
    as given; an existing file keeps its mode when it is written. *)
Definition sys (os : OS) (c : call) (a : answer) : option OS :=
  match c, a with
  | CSocket, RFd fd =>
    if Nat.eqb fd (length (o_socks os)) then Some (with_socks os (o_socks os ++ [mkSock rwx_all true])) else None
  | CCreateServer, RFd fd =>
    if Nat.eqb fd (length (o_socks os)) then Some (with_socks os (o_socks os ++ [mkSock rwx_all true])) else None
  | CAccept _, RFd fd =>
    if Nat.eqb fd (length (o_socks os)) then Some (with_socks os (o_socks os ++ [mkSock rwx_all true])) else None
  | CFchmod fd mode, RUnit => Some (with_socks os (set_nth fd (fun x => mkSock mode (s_open x)) (o_socks os)))
  | CFchmod _ _, REinval => Some os
  | CUmask m, RNum old => if N.eqb old (o_umask os) then Some (with_umask os m) else None
  | CUmask _, _ => None
  | CBind fd path, RUnit =>
    match o_files os path, nth_error (o_socks os) fd with
    | None, Some x => Some (with_files os (put (o_files os) path (Some (mkFile (N.ldiff (s_mode x) (o_umask os)) true))))
    | _, _ => None
    end
  | CListen _, RUnit | CConnect _, RUnit | CTls _, RUnit | CSend _, RUnit | CRecv _, RUnit | CShutdown _, RUnit | COther, RUnit =>
    Some os
  | CTls fd, RGone _ => Some (close_fd os fd)
  | CClose fd, RUnit => Some (close_fd os fd)
  | CClose _, _ => None
  | CUnlink path, RUnit => Some (with_files os (put (o_files os) path None))
  | CMkstemp, RPath p =>
    match o_files os p with
    | None => Some (with_files os (put (o_files os) p (Some (mkFile (N.ldiff rw_owner (o_umask os)) true))))
    | Some _ => None
    end
  | CFchmodFile path mode, RUnit =>
    match o_files os path with
    | Some f => if f_mine f then Some (with_files os (put (o_files os) path (Some (mkFile mode true)))) else Some os
    | None => Some os  (* the file is gone, the descriptor is not *)
    end
  | CWrite path, RUnit =>
    match o_files os path with
    | Some _ => Some os
    | None => Some (with_files os (put (o_files os) path (Some (mkFile (N.ldiff rw_all (o_umask os)) true))))
    end
  | CSet fd, RUnit => Some (with_held os fd)
  | CSet _, _ => None
  | CGet, RFd fd => match o_held os with Some h => if Nat.eqb fd h then Some os else None | None => None end
  | CGet, _ => None
  | _, RErr _ => Some os
  | _, _ => None
  end.

(** What other processes may have done between two calls: anything to files, except that
    they do not change what this process's files are (they may remove or replace them). *)
Definition others (os os' : OS) : Prop :=
  o_umask os' = o_umask os /\ o_socks os' = o_socks os /\ o_held os' = o_held os /\
  forall p f, o_files os' p = Some f -> f_mine f = true -> o_files os p = Some f.

(** Programs: [Stuck] marks an answer [sys] never gives, or the end of [tries] below. *)
Inductive prog (A : Type) := Ret (a : A) | Raise (e : exn) | Stuck | Call (c : call) (k : answer -> prog A).
Arguments Ret {A} a. Arguments Raise {A} e. Arguments Stuck {A}. Arguments Call {A} c k.
Fixpoint pbind {A B} (p : prog A) (f : A -> prog B) : prog B :=
  match p with
  | Ret a => f a
  | Raise e => Raise e
  | Stuck => Stuck
  | Call c k => Call c (fun a => pbind (k a) f)
  end.
Notation "x <~ p ; q" := (pbind p (fun x => q)) (at level 61, p at next level, right associativity).
(** Python's [try: p finally: q]. *)
Fixpoint finally {A} (p : prog A) (q : prog unit) : prog A :=
  match p with
  | Ret a => _ <~ q; Ret a
  | Raise e => _ <~ q; Raise e
  | Stuck => Stuck
  | Call c k => Call c (fun a => finally (k a) q)
  end.
(** Python's [try: p except ...: h], [h e = None] for an exception that is not caught. *)
Fixpoint catch {A} (p : prog A) (h : exn -> option (prog A)) : prog A :=
  match p with
  | Ret a => Ret a
  | Raise e => match h e with Some q => q | None => Raise e end
  | Stuck => Stuck
  | Call c k => Call c (fun a => catch (k a) h)
  end.

Definition get_fd (c : call) : prog nat :=
  Call c (fun a => match a with RFd fd => Ret fd | RErr e => Raise e | REinval => Raise OSError | _ => Stuck end).
Definition act (c : call) : prog unit :=
  Call c (fun a => match a with RUnit => Ret tt | RErr e => Raise e | RGone e => Raise e | REinval => Raise OSError | _ => Stuck end).
Definition set_umask (m : N) : prog N :=
  Call (CUmask m) (fun a => match a with RNum old => Ret old | _ => Stuck end).

(** [~mask] as os.umask takes it: only the nine permission bits count. *)
Definition inverted (mask : N) : N := N.ldiff rwx_all mask.
(** _socket_helper.py:116-127, the inner try: [original_umask] afterwards. *)
Definition prepare (fd : nat) (mask : N) : prog (option N) :=
  Call (CFchmod fd mask) (fun a =>
    match a with
    | RUnit => Ret None
    | REinval => old <~ set_umask (inverted mask); Ret (Some old)
    | RErr e => Raise e
    | _ => Stuck
    end).
(** _socket_helper.py:99-137 create_uds_with_mask.  When [prepare] raises, original_umask
    is None and the finally does nothing. *)
Definition create_uds_with_mask (addr : pystr) (mask : N) : prog nat :=
  fd <~ get_fd CSocket;
  original_umask <~ prepare fd mask;
  _ <~ finally (act (CBind fd addr)) (match original_umask with Some m => _ <~ set_umask m; Ret tt | None => Ret tt end);
  Ret fd.

(** An address after parse_addr_string (AddrModel). *)
Inductive address := Uds (path : pystr) | Tcp.
(** The attribute [_uds_path] of a server queue. *)
Definition uds_path (a : address) : option pystr := match a with Uds p => Some p | Tcp => None end.
(** _mp_queue.py:202-237 ServerMPQueue.__init__ after the address is parsed; [COther]:
    the call of [proto] (:45). *)
Definition server_init (a : address) : prog unit :=
  fd <~ (match a with
         | Uds p => fd <~ create_uds_with_mask p rwx_owner; _ <~ act (CListen fd); Ret fd
         | Tcp => get_fd CCreateServer
         end);
  _ <~ act (CSet fd);
  act COther.
(** _mp_queue.py:250-283: the first accept and, with TLS, the loop around the handshake;
    [tries]: how many handshakes fail before one succeeds or another exception leaves. *)
Fixpoint handshakes (tries : nat) (server : nat) (conn : nat) : prog nat :=
  match tries with
  | O => Stuck
  | S t =>
    catch (_ <~ act (CTls conn); _ <~ act (CSend conn); Ret conn)
      (fun e => match e with
                | SSLError => Some (_ <~ act (CClose conn); conn' <~ get_fd (CAccept server); handshakes t server conn')
                | _ => None
                end)
  end.
(** _mp_queue.py:239-295 ServerMPQueue.start; the last [COther]: starting the thread.
    [self._socket] is read anew each time in the code; nobody else writes it. *)
Definition server_start (tries : nat) (tls : bool) : prog unit :=
  server <~ get_fd CGet;
  conn <~ get_fd (CAccept server);
  conn <~ (if tls then handshakes tries server conn else _ <~ act (CSend conn); Ret conn);
  _ <~ act (CClose server);
  _ <~ act (CSet conn);
  act COther.
(** _mp_queue.py:93-100 MPQueue.stop: [COther]: cancelling the token (whose functions may
    raise) and joining the thread; shutdown swallows OSError (_socket_helper.py:209-216). *)
Definition queue_stop : prog unit :=
  _ <~ act COther;
  fd <~ get_fd CGet;
  _ <~ catch (act (CShutdown fd)) (fun e => match e with OSError | SSLError | TimeoutError => Some (Ret tt) | _ => None end);
  act (CClose fd).
(** _mp_queue.py:297-301 ServerMPQueue.stop *)
Definition server_stop (a : address) : prog unit :=
  _ <~ (match uds_path a with Some p => act (CUnlink p) | None => Ret tt end);
  queue_stop.

(** _mp_queue.py:127-139 ClientMPQueue.__init__; the second [COther]: parse_addr_string. *)
Definition client_init : prog unit :=
  fd <~ get_fd CSocket;
  _ <~ act (CSet fd);
  _ <~ act COther;
  act COther.
(** _mp_queue.py:166-182, for the [n] addresses of the resolver: the connected socket, or
    none and the last error. *)
Fixpoint connect_loop (n : nat) (error : exn) : prog nat :=
  match n with
  | O => Raise error
  | S n' =>
    fd <~ get_fd CSocket;
    r <~ catch (_ <~ act (CConnect fd); Ret None)
           (fun e => match e with
                     | OSError | SSLError | TimeoutError => Some (_ <~ act (CClose fd); Ret (Some e))
                     | _ => None
                     end);
    match r with None => Ret fd | Some e => connect_loop n' e end
  end.
(** _mp_queue.py:141-199 ClientMPQueue.start; the first [COther]: getaddrinfo. *)
Definition client_start (n : nat) (tls : bool) : prog unit :=
  _ <~ act COther;
  fd <~ connect_loop n OSError;
  _ <~ act (CSet fd);
  _ <~ (if tls then act (CTls fd) else Ret tt);
  _ <~ act (CRecv fd);
  act COther.

(** _debug_adapter.py:527-531: the launch script; mkstemp's name is new.  The text is
    written through the open descriptor ([COther]). *)
Definition launch_script : prog pystr :=
  Call CMkstemp (fun a =>
    match a with
    | RPath p => _ <~ act (CFchmodFile p rwx_owner); _ <~ act COther; Ret p
    | RErr e => Raise e
    | _ => Stuck
    end).
(** _debuggee.py:429: the process file. *)
Definition write_process_file (p : pystr) : prog unit := act (CWrite p).

(** _debuggee.py:418-440, 871-900: the socket side of a listening debuggee: construct,
    write the process file, then start, talk (any calls that only send and receive, here
    one step) and stop in the send thread. *)
Definition listening (tries : nat) (tls : bool) (a : address) (pidfile : pystr) : prog unit :=
  _ <~ server_init a;
  _ <~ write_process_file pidfile;
  finally (catch (_ <~ server_start tries tls; act COther) (fun _ => Some (Ret tt))) (server_stop a).
