(** [AnsibleThread] of strategy/debug.py: stepping and stop decisions.
    ("strategy/debug.py" is
    src/ansibug/ansible_collections/ansibug/dap/plugins/strategy/debug.py,
    "_breakpoints.py" is plugin_utils/_breakpoints.py beside it.) *)
From Verif Require Import PyBase PyDict DbgTypes.
Set Implicit Arguments.
Local Open Scope N_scope.

(** Ansible's playbook objects, as far as the debugger looks at them: a Task or Block
    with its [_uuid], [_parent], [get_path()] and, for a Task, what its action is.
    [ActImport] is a statically loaded import_tasks/import_role, which Ansible keeps
    as the parent of the imported blocks.  [n_sect] says in which section of its
    parent block the node is listed; the debugger does not look at it, the
    specification of "rescued" does.  [n_path]: [get_path()] is "path:line", or empty
    for implicit tasks; see [SplitModel] for the text form. *)
Inductive Action := ActIncludeTasks | ActIncludeRole | ActImport | ActOther.
Inductive Kind := KBlock (rescue : bool) | KTask (a : Action).
Inductive Section_ := InBlock | InRescue | InAlways.
Inductive Node := mkNode {
  n_kind : Kind; n_uuid : N; n_name : pystr; n_path : option (pystr * Z);
  n_sect : Section_; n_parent : option Node }.

(** [C._ACTION_ALL_INCLUDES], [C._ACTION_INCLUDE_ROLE] of ansible.constants. *)
Definition is_include (n : Node) : bool :=
  match n_kind n with KTask ActIncludeTasks | KTask ActIncludeRole => true | _ => false end.
Definition is_include_role (n : Node) : bool :=
  match n_kind n with KTask ActIncludeRole => true | _ => false end.
Definition is_task (n : Node) : bool := match n_kind n with KTask _ => true | _ => false end.

(** strategy/debug.py:83-101 [ThreadState]. *)
Inductive TState := TContinue | TStepIn | TStepOut | TStepOver | TWait | TEnd.
Definition tstate_eqb (a b : TState) : bool :=
  match a, b with
  | TContinue, TContinue | TStepIn, TStepIn | TStepOut, TStepOut
  | TStepOver, TStepOver | TWait, TWait | TEnd, TEnd => true
  | _, _ => false end.

(** An inventory host: identity (Host.__eq__ compares _uuid) and name. *)
Record Host := mkHost { h_uuid : N; h_name : pystr }.

(** strategy/debug.py:103-114 [AnsibleThread]. *)
Record Thread := mkThread {
  t_id : N; t_host : option Host; t_stack : list N; t_state : TState; t_stopped : option Node }.
Definition t_with_state x t := mkThread (t_id t) (t_host t) (t_stack t) x (t_stopped t).
Definition t_with_stopped x t := mkThread (t_id t) (t_host t) (t_stack t) (t_state t) x.
Definition t_with_stack x t := mkThread (t_id t) (t_host t) x (t_state t) (t_stopped t).

(** [while task := task._parent: if <test>: break] — the first ancestor that passes. *)
Fixpoint up (test : Node -> bool) (n : Node) : option Node :=
  match n_parent n with
  | None => None
  | Some p => if test p then Some p else up test p
  end.

(** strategy/debug.py:272-280 [_get_parent_task]. *)
Definition get_parent_task (n : Node) : option Node := up is_task n.
(** strategy/debug.py:128-137: the walk of [set_state] looks for an include task. *)
Definition get_parent_include (n : Node) : option Node := up is_include n.

Definition uuid_of (n : option Node) : option N := match n with Some x => Some (n_uuid x) | None => None end.

(** strategy/debug.py:122-148 [set_state]. *)
Definition set_state (st : TState) (t : Thread) : Thread :=
  match st, t_stopped t with
  | TStepOut, Some n => t_with_state TStepOut (t_with_stopped (get_parent_include n) t)
  | TStepIn, Some n => if is_include n then t_with_state TStepIn t else t_with_state TStepOver t
  | _, _ => t_with_state st t
  end.

(** strategy/debug.py:240-253 [_break_step_over]. *)
Definition break_step_over (t : Thread) (task : Node) : bool :=
  match t_stopped t with
  | Some n => tstate_eqb (t_state t) TStepOver
              && eqb (uuid_of (get_parent_task task)) (uuid_of (get_parent_task n))
  | None => false
  end.
(** strategy/debug.py:255-257 [_break_step_in]. *)
Definition break_step_in (t : Thread) : bool := tstate_eqb (t_state t) TStepIn.
(** strategy/debug.py:259-270 [_break_step_out]. *)
Definition break_step_out (t : Thread) (task : Node) : bool :=
  match t_stopped t with
  | Some n => tstate_eqb (t_state t) TStepOut
              && negb (eqb (uuid_of (get_parent_task task)) (Some (n_uuid n)))
  | None => false
  end.

(** strategy/debug.py:150-195 [should_break]; the breakpoint is given by its id. *)
Definition should_break (task : Node) (bp : option N) (t : Thread) : Thread * option Stopped :=
  let stop ev := (t_with_state TWait (t_with_stopped (Some task) t), Some ev) in
  if break_step_over t task then stop (mkStopped StStep (s "Step over") (t_id t) None [])
  else if break_step_out t task then stop (mkStopped StStep (s "Step out") (t_id t) None [])
  else if break_step_in t then stop (mkStopped StStep (s "Step in") (t_id t) None [])
  else match bp with
       | Some id => if tstate_eqb (t_state t) TStepOut then (t, None)
                    else stop (mkStopped StBreakpoint (s "Breakpoint hit") (t_id t) None [id])
       | None => (t, None)
       end.

(** A task result: TaskResult.is_failed/is_unreachable/is_skipped, the two ignore
    flags of [_task_fields], and the members of [_result] the details use.  The
    members are given as the text [str()] makes of them.  [ExcSummary] is the
    ErrorSummary of ansible-core 2.19, given by the text format_message makes. *)
Inductive Exc := ExcText (x : pystr) | ExcSummary (x : pystr).
Record Result := mkResult {
  r_failed : bool; r_unreachable : bool; r_skipped : bool;
  r_ignore_errors : bool; r_ignore_unreachable : bool;
  r_msg : option pystr; r_stdout : option pystr; r_exception : option Exc;
  r_skip_reason : option pystr; r_false_condition : option pystr }.

Definition nl : pystr := [10].

(** _breakpoints.py:22-33 [_format_exception]. *)
Definition format_exception (r : Result) : pystr :=
  let text := match r_msg r with Some m => m | None =>
              match r_stdout r with Some o => o | None => s "Unknown error" end end in
  match r_exception r with
  | None | Some (ExcText []) => text
  | Some (ExcSummary x) => x
  | Some (ExcText x) => text ++ nl ++ nl ++ x
  end.
(** _breakpoints.py:44-59, 62-77, 80-98. *)
Definition on_failed_details (r : Result) : pystr * pystr := (s "Task failed", format_exception r).
Definition on_unreachable_details (r : Result) : pystr * pystr := (s "Host unreachable", format_exception r).
Definition on_skipped_details (r : Result) : pystr * pystr :=
  let msg := s "Task skipped" in
  let text := msg ++ nl ++ match r_skip_reason r with Some x => x | None => s "Unknown reason" end in
  (msg, match r_false_condition r with
        | Some c => text ++ nl ++ nl ++ s "False condition: " ++ c
        | None => text end).

(** strategy/debug.py:197-238 [should_stop_on_exception]. *)
Definition has_rescue (n : Node) : bool := match n_kind n with KBlock r => r | _ => false end.
Definition should_stop_on_exception (task : Node) (r : Result) (on_error on_unreachable on_skipped : bool)
           (t : Thread) : Thread * option Stopped :=
  let details :=
    if r_failed r && negb (r_ignore_errors r) then
      let rescued := match up has_rescue task with Some _ => true | None => false end in
      if on_error && negb rescued then Some (on_failed_details r) else None
    else if r_unreachable r && negb (r_ignore_unreachable r) then
      if on_unreachable then Some (on_unreachable_details r) else None
    else if r_skipped r then
      if on_skipped then Some (on_skipped_details r) else None
    else None in
  match details with
  | Some (msg, text) => (t_with_state TWait t, Some (mkStopped StException msg (t_id t) (Some text) []))
  | None => (t, None)
  end.
