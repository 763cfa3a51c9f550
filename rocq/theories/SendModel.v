(** DAServer.send_to_client (_debug_adapter.py:352-369) as two threads run it on the one
    DebugAdapterConnection (dap/_adapter.py:24-41, 76-87), in small steps.  The main
    thread and the receive thread (DAProtocol.on_msg_received, 231-235) both call it and
    there is no lock.  A step reads or writes the shared object at most once; the frame a
    message is serialised to is a parameter (C02, C03 are about it). *)
From Verif Require Import PyBase.
Set Implicit Arguments.
Local Open Scope N_scope.

Section Send.
Variable msg : Type.
Variable frame : N -> msg -> list N.

(** A call in progress, by the statement it is at. *)
Inductive spc :=
| S0                                   (* _adapter.py:26  no = self.__seq_no_out *)
| S1 (no : N)                          (* 27  self.__seq_no_out += 1: read *)
| S2 (no tmp : N)                      (* 27  write *)
| S3 (no : N)                          (* 85  self._out_buffer += ...: the object is loaded, *)
| S4 (no : N) (ob : nat)              (* 85  extended in place *)
| S5 (ob : nat)                       (* 85  and stored again *)
| S6                                   (* 35  n = len(self._out_buffer) *)
| S7 (n : nat)                         (* 36  min(n, len(...)) *)
| S8 (n : nat)                         (* 38  data = bytes(self._out_buffer[:n]) *)
| S9 (n : nat) (data : list N)         (* 39  self._out_buffer[n:], a new object *)
| S10 (ob : nat) (data : list N)      (* 39  stored *)
| S11 (data : list N).                 (* _debug_adapter.py:363  stdout.write(data); flush *)
Record thread := mkThread { t_cur : option (msg * spc); t_todo : list msg }.
Record st := mkSt {
  g_seq : N;                    (* __seq_no_out *)
  g_heap : list (list N);       (* the bytearray objects *)
  g_attr : nat;                 (* which of them self._out_buffer is *)
  g_out : list N;               (* what stdout was given *)
  g_a : thread; g_b : thread }.
Inductive who := TA | TB.
Definition th (w : who) (s : st) : thread := match w with TA => g_a s | TB => g_b s end.
Definition set_th (w : who) (t : thread) (s : st) : st :=
  match w with
  | TA => mkSt (g_seq s) (g_heap s) (g_attr s) (g_out s) t (g_b s)
  | TB => mkSt (g_seq s) (g_heap s) (g_attr s) (g_out s) (g_a s) t
  end.
Definition obj (s : st) (o : nat) : list N := nth o (g_heap s) [].
Fixpoint put (l : list (list N)) (o : nat) (v : list N) : list (list N) :=
  match l, o with [], _ => [] | _ :: l, O => v :: l | x :: l, S o => x :: put l o v end.

Definition sstep (w : who) (s : st) : option st :=
  let t := th w s in
  let to m pc s := Some (set_th w (mkThread (Some (m, pc)) (t_todo t)) s) in
  match t_cur t with
  | None => match t_todo t with [] => None | m :: r => Some (set_th w (mkThread (Some (m, S0)) r) s) end
  | Some (m, pc) =>
    match pc with
    | S0 => to m (S1 (g_seq s)) s
    | S1 no => to m (S2 no (g_seq s)) s
    | S2 no tmp => to m (S3 no) (mkSt (tmp + 1) (g_heap s) (g_attr s) (g_out s) (g_a s) (g_b s))
    | S3 no => to m (S4 no (g_attr s)) s
    | S4 no o => to m (S5 o) (mkSt (g_seq s) (put (g_heap s) o (obj s o ++ frame no m)) (g_attr s) (g_out s) (g_a s) (g_b s))
    | S5 o => to m S6 (mkSt (g_seq s) (g_heap s) o (g_out s) (g_a s) (g_b s))
    | S6 => to m (S7 (length (obj s (g_attr s)))) s
    | S7 n => to m (S8 (min n (length (obj s (g_attr s))))) s
    | S8 n => to m (S9 n (firstn n (obj s (g_attr s)))) s
    | S9 n d => to m (S10 (length (g_heap s)) d) (mkSt (g_seq s) (g_heap s ++ [skipn n (obj s (g_attr s))]) (g_attr s) (g_out s) (g_a s) (g_b s))
    | S10 o d => to m (S11 d) (mkSt (g_seq s) (g_heap s) o (g_out s) (g_a s) (g_b s))
    | S11 d => Some (set_th w (mkThread None (t_todo t)) (mkSt (g_seq s) (g_heap s) (g_attr s) (g_out s ++ d) (g_a s) (g_b s)))
    end
  end.
Fixpoint sched (ws : list who) (s : st) : option st :=
  match ws with [] => Some s | w :: ws => match sstep w s with Some s1 => sched ws s1 | None => None end end.
Definition start (a b : list msg) : st := mkSt 1 [[]] 0 [] (mkThread None a) (mkThread None b).
Definition idle (t : thread) : bool := match t_cur t with None => true | Some _ => false end.
Definition done (s : st) : bool := idle (g_a s) && idle (g_b s) && match t_todo (g_a s), t_todo (g_b s) with [], [] => true | _, _ => false end.
End Send.
