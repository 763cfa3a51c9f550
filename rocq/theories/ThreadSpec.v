(** Specification vocabulary for stepping and stop decisions. *)
From Verif Require Import PyBase PyDict DbgTypes ThreadModel.
Set Implicit Arguments.
Local Open Scope N_scope.

(** Kinds of playbook objects: tasks, include_tasks and include_role (files and roles loaded
    when the task runs; an import is loaded before), blocks with a rescue section. *)
Definition a_task (n : Node) : bool := match n_kind n with KTask _ => true | KBlock _ => false end.
Definition an_include (n : Node) : bool :=
  match n_kind n with KTask ActIncludeTasks | KTask ActIncludeRole => true | KTask ActImport | KTask ActOther | KBlock _ => false end.
Definition has_rescue_section (n : Node) : Prop := n_kind n = KBlock true.

(** All playbook objects around [n], innermost first. *)
Fixpoint ancestors (n : Node) : list Node :=
  match n_parent n with None => [] | Some p => p :: ancestors p end.

(** The include tasks around [n], innermost first, and the innermost one (given by
    its uuid; [None]: the task is not inside any include). *)
Definition includes_of (n : Node) : list Node := filter an_include (ancestors n).
Definition enclosing (n : Node) : option N :=
  match includes_of n with [] => None | i :: _ => Some (n_uuid i) end.

(** No statically imported file or role around [n]. *)
Definition no_imports (n : Node) : Prop := forall a, In a (ancestors n) -> a_task a = true -> an_include a = true.

(** Tasks a thread starts one after the other, each with the id of the breakpoint that
    matches it, if any.  [first_stop] is the first task the thread stops at, the stop
    event and the thread then. *)
Fixpoint first_stop (t : Thread) (l : list (Node * option N)) : option (nat * Stopped * Thread) :=
  match l with
  | [] => None
  | (task, bp) :: r =>
    match should_break task bp t with
    | (t', Some ev) => Some (O, ev, t')
    | (t', None) => match first_stop t' r with Some (n, ev, t'') => Some (S n, ev, t'') | None => None end
    end
  end.

(** [t] is a thread that has just stopped at [task] (by a breakpoint or a step). *)
Definition stopped_at (task : Node) (t : Thread) : Prop :=
  exists t0 bp ev, should_break task bp t0 = (t, Some ev).

(** A failure of [n] is handled: some block around it has a rescue section and [n]
    is in that block's main section. *)
Inductive rescued : Node -> Prop :=
| rescued_here n p : n_parent n = Some p -> has_rescue_section p -> n_sect n = InBlock -> rescued n
| rescued_up n p : n_parent n = Some p -> rescued p -> rescued n.
(** [n] is somewhere in a block that has a rescue section - in its main, its rescue or
    its always section. *)
Inductive in_rescue_block : Node -> Prop :=
| irb_here n p : n_parent n = Some p -> has_rescue_section p -> in_rescue_block n
| irb_up n p : n_parent n = Some p -> in_rescue_block p -> in_rescue_block n.
