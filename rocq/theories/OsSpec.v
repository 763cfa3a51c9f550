(** What a run of a program over the operating system is, and who may use a file. *)
From Verif Require Import PyBase OsModel.
Set Implicit Arguments.
Local Open Scope N_scope.

(** The moments of a run: from [os, p], with any answers and any acts of other processes. *)
Inductive reach {A} : OS -> prog A -> OS -> prog A -> Prop :=
| Here os p : reach os p os p
| Others os p os1 os2 q : others os os1 -> reach os1 p os2 q -> reach os p os2 q
| Answered os c k a os1 os2 q : sys os c a = Some os1 -> reach os1 (k a) os2 q -> reach os (Call c k) os2 q.
(** [ended p]: nothing left to do. *)
Definition ended {A} (p : prog A) : Prop := (exists a, p = Ret a) \/ (exists e, p = Raise e).

(** Nobody but the owner has any permission (the six bits of group and others). *)
Definition private (f : file) : Prop := N.land (f_mode f) 63 = 0. (* 0o077 *)
(** Every file this process made is private / this process has made no file. *)
Definition all_private (os : OS) : Prop := forall p f, o_files os p = Some f -> f_mine f = true -> private f.
Definition no_files (os : OS) : Prop := forall p f, o_files os p = Some f -> f_mine f = false.
(** The sockets in [l] may be open, all others are closed. *)
Definition open_only (l : list nat) (os : OS) : Prop :=
  forall fd x, nth_error (o_socks os) fd = Some x -> s_open x = true -> In fd l.
