(** Specification vocabulary for breakpoints in a whole session: the calls a session
    makes on the debugger object, the breakpoints the client has set, and which of them
    a task hits.  Nothing here looks at the debugger's breakpoint tables. *)
From Verif Require Import PyBase PyDict DbgTypes BpModel BpSpec ThreadModel StratModel SysModel.
Set Implicit Arguments.
Local Open Scope Z_scope.

(** The calls of a history that concern breakpoints, filters and path mappings. *)
Definition is_call (o : bop) : bool :=
  match o with BSet _ _ _ _ | BExc _ _ | BReg _ _ _ | BClear | BConf _ => true | _ => false end.

(** The host's last shown task is an include_role, and the starting task lies in an
    included block: the role's tasks are registered now. *)
Definition an_include_role (n : Node) : bool :=
  match n_kind n with KTask ActIncludeRole => true | _ => false end.
Definition loads_role (y : Sys) (a : TaskStart) : bool :=
  match find_thread (ts_host a) (y_w y) with
  | Some t =>
    match t_stack t with
    | last :: _ =>
      match dget (w_frames (y_w y)) last, n_parent (ts_task a) with
      | Some f, Some blk => an_include_role (f_task f) && match n_parent blk with Some _ => true | None => false end
      | _, _ => false end
    | [] => false end
  | None => false end.

Definition loaded (l : list (pystr * Z * Z)) : list bop := map (fun x => match x with (p, line, t) => BReg p line t end) l.

(** What a step asks of the debugger: requests as they arrive, files as Ansible loads
    them, the configuration as the adapter connects, and the end of the session. *)
Definition calls (y : Sys) (l : label) : list bop :=
  match l with
  | LReq seq (RSetBreakpoints src bps md) => [BSet seq src bps md]
  | LReq seq (RSetException fs) => [BExc seq fs]
  | LReq _ (RDisconnect _) | LReq _ RTerminate | LClosed => [BClear]
  | LConfig maps => [BConf maps]
  | LInclude regs | LLoad regs => loaded regs
  | LStart a => if loads_role y a then match ts_role a with Some regs => loaded regs | None => [] end else []
  | _ => []
  end.

(** A breakpoint the client has set: the source path it named, the file of the
    controller that is, and the request. *)
Record Active := mkActive { ac_source : pystr; ac_path : pystr; ac_req : SourceBreakpoint }.
(** The first mapping whose local side is a prefix applies. *)
Definition map_path (maps : list Mapping) (p : pystr) : pystr :=
  match find (fun m => startswith p (m_local m)) maps with
  | Some m => m_remote m ++ skipn (length (m_local m)) p
  | None => p end.
Definition named_path (src : Source) : pystr := match src_path src with Some p => p | None => [] end.
(** A request replaces the breakpoints of the source it names; the end of a session
    takes everything away. *)
Definition take_call (st : list Mapping * list Active) (o : bop) : list Mapping * list Active :=
  match o with
  | BConf maps => (maps, snd st)
  | BClear => ([], [])
  | BSet _ src l md =>
    let p := named_path src in
    (fst st, filter (fun x => negb (eqb (ac_source x) p)) (snd st)
             ++ if md then [] else map (mkActive p (map_path (fst st) p)) l)
  | _ => st
  end.
Definition client_state (h : list bop) : list Mapping * list Active := fold_left take_call h ([], []).
Definition client_bps (h : list bop) : list Active := snd (client_state h).

(** A task at [path]:[line] is the one of the region the breakpoint was set in. *)
Definition hits (h : list bop) (path : pystr) (line : Z) (b : Active) : Prop :=
  ac_path b = path /\ set_in_region_at (regs_of path h) line (sb_line (ac_req b)).
(** The oldest of the client's breakpoints that does. *)
Definition first_hit (h : list bop) (path : pystr) (line : Z) (b : Active) : Prop :=
  exists l1 l2, client_bps h = l1 ++ b :: l2 /\ hits h path line b /\ forall b', In b' l1 -> ~ hits h path line b'.
(** No condition, or one that is true for this task. *)
Definition holds (a : TaskStart) (c : option pystr) : Prop :=
  match c with None | Some [] => True | Some c => ts_cond a c = CBool true end.
(** The state of the host's thread; a host without one gets a running one. *)
Definition host_state (y : Sys) (h : Host) : TState :=
  match find_thread h (y_w y) with Some t => t_state t | None => TContinue end.

Section H.
Variable step : Sys -> label -> option Sys.
(** All calls of a run, in order. *)
Fixpoint history (y : Sys) (ls : list label) : list bop :=
  match ls with
  | [] => []
  | l :: r => calls y l ++ match step y l with Some y' => history y' r | None => [] end
  end.
End H.

(** The task's result is one the client asked to stop at: [filters] are the exception
    filters it switched on. *)
Definition exception_wanted (filters : list pystr) (task : Node) (r : Result) (is_rescued : Node -> Prop) : Prop :=
  let failed := r_failed r = true /\ r_ignore_errors r = false in
  let unreachable := r_unreachable r = true /\ r_ignore_unreachable r = false in
  (failed /\ ~ is_rescued task /\ In (s "on_error") filters)
  \/ (~ failed /\ unreachable /\ In (s "on_unreachable") filters)
  \/ (~ failed /\ ~ unreachable /\ r_skipped r = true /\ In (s "on_skipped") filters).
(** The task the host was given and whose result has not been handled. *)
Definition running_task (y : Sys) (h : Host) (task : Node) : Prop :=
  exists h0, In (h0, task) (y_open y) /\ h_uuid h0 = h_uuid h.
