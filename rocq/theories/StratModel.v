(** [AnsibleDebugState] of strategy/debug.py: threads, frames, variables. *)
From Verif Require Import PyBase PyDict DbgTypes BpModel ThreadModel.
Set Implicit Arguments.
Local Open Scope N_scope.

(* ------------------------------------------------------------------ objects *)
(** Python objects reachable from Ansible variables.  The heap is a list; an address
    is an index.  A [VPrim] is an object without children (string, number, None,
    ...), identified by its [repr] and type text.  Dict keys are either strings or
    other hashables, the latter given by [str(k)] (assumed distinct for distinct
    keys of one dict).  [mut] is false for objects without item assignment (tuple,
    bytes, HostVars, ...). *)
Record key := mkKey { k_isstr : bool; k_txt : pystr }.
Definition key_eqb (a b : key) : bool := Bool.eqb (k_isstr a) (k_isstr b) && eqb (k_txt a) (k_txt b).
Lemma key_eqb_eq a b : key_eqb a b = true <-> a = b.
Proof.
  destruct a as [a1 a2], b as [b1 b2]. unfold key_eqb. cbn [k_isstr k_txt].
  rewrite andb_true_iff, eqb_eq. split.
  - intros (H & ->). apply Bool.eqb_prop in H. now subst.
  - intros H. injection H as -> ->. split; [apply Bool.eqb_reflx|reflexivity].
Qed.
#[export] Instance Eqb_key : Eqb key := {| eqb := key_eqb; eqb_eq := key_eqb_eq |}.
Definition kstr (x : pystr) : key := mkKey true x.

Inductive val := VPrim (text ty : pystr) | VRef (a : nat).
Inductive obj :=
| ODict (l : dict key val) (mut : bool)
| OList (l : list val) (mut : bool)
| OData (l : list (pystr * val)).        (* a dataclass instance *)
Definition heap := list obj.

(* ------------------------------------------------------------------ variables *)
(** strategy/debug.py:321-459: the five variable classes; [v_ds] is [_ds]. *)
Inductive vkind := VKList | VKDict | VKRaw (raw : nat) | VKHost (host : pystr).
Record Var := mkVar { v_frame : N; v_kind : vkind; v_ds : nat }.

(** strategy/debug.py:283-302 [AnsibleStackFrame]; [f_args] is the task's args dict,
    [f_tv] the task_vars dict. *)
Record Frame := mkFrame {
  f_id : N; f_task : Node; f_tv : nat; f_args : nat; f_vars : list N;
  f_options : N; f_taskvar : N; f_hostvars : N; f_result : N }.
Definition f_with_vars x f := mkFrame (f_id f) (f_task f) (f_tv f) (f_args f) x (f_options f) (f_taskvar f) (f_hostvars f) (f_result f).
Definition f_with_options x f := mkFrame (f_id f) (f_task f) (f_tv f) (f_args f) (f_vars f) x (f_taskvar f) (f_hostvars f) (f_result f).
Definition f_with_taskvar x f := mkFrame (f_id f) (f_task f) (f_tv f) (f_args f) (f_vars f) (f_options f) x (f_hostvars f) (f_result f).
Definition f_with_hostvars x f := mkFrame (f_id f) (f_task f) (f_tv f) (f_args f) (f_vars f) (f_options f) (f_taskvar f) x (f_result f).
Definition f_with_result x f := mkFrame (f_id f) (f_task f) (f_tv f) (f_args f) (f_vars f) (f_options f) (f_taskvar f) (f_hostvars f) x.

(** strategy/debug.py:478-491 [AnsibleDebugState.__init__].  [s_persist] is what was
    given to VariableManager.set_host_variable, newest last. *)
Record SS := mkSS {
  s_threads : dict N Thread; s_frames : dict N Frame; s_vars : dict N Var }.
(** The debugger, the strategy's debug state and the Python objects together. *)
Record World := mkW {
  w_dbg : Dbg; w_ss : SS; w_heap : heap; w_persist : list (pystr * pystr * val) }.
Definition ss_init : SS := mkSS [(1, mkThread 1 None [] TContinue None)] [] [].

Definition wd d w := mkW d (w_ss w) (w_heap w) (w_persist w).
Definition wh h w := mkW (w_dbg w) (w_ss w) h (w_persist w).
Definition wp p w := mkW (w_dbg w) (w_ss w) (w_heap w) p.
Definition wss x w := mkW (w_dbg w) x (w_heap w) (w_persist w).
Definition w_threads w := s_threads (w_ss w).
Definition w_frames w := s_frames (w_ss w).
Definition w_vars w := s_vars (w_ss w).
Definition wthreads x w := wss (mkSS x (w_frames w) (w_vars w)) w.
Definition wframes x w := wss (mkSS (w_threads w) x (w_vars w)) w.
Definition wvars x w := wss (mkSS (w_threads w) (w_frames w) x) w.
Definition emit (m : Out) w := wd (queue_msg m (w_dbg w)) w.

(* ------------------------------------------------------------------ variable objects *)
(** [named_variables] / [indexed_variables]: strategy/debug.py:332-338, 369-371, 396-398. *)
Definition var_named (h : heap) (v : Var) : N :=
  match v_kind v with
  | VKList => 0
  | _ => match nth_error h (v_ds v) with Some (ODict l _) => N.of_nat (length l) | _ => 0 end
  end.
Definition var_indexed (h : heap) (v : Var) : N :=
  match v_kind v with
  | VKList => match nth_error h (v_ds v) with Some (OList l _) => N.of_nat (length l) | _ => 0 end
  | _ => 0
  end.

(** [get()]: strategy/debug.py:373-374, 400-401; the names are [str(k)].
    Index names are [str(i)] for i = 0, 1, ...  The list class holds a sequence and
    the others a mapping (an object keeps its type, and templating the task
    arguments, a dict, gives a dict), so the remaining cases do not occur. *)
From Verif Require Import Digits.
Fixpoint enum_from (i : nat) (l : list val) : list (pystr * val) :=
  match l with [] => [] | v :: r => (digits (N.of_nat i), v) :: enum_from (S i) r end.
Definition var_get (h : heap) (v : Var) : list (pystr * val) :=
  match v_kind v, nth_error h (v_ds v) with
  | VKList, Some (OList l _) => enum_from 0 l
  | VKList, _ => []
  | _, Some (ODict l _) => map (fun kv => (k_txt (fst kv), snd kv)) l
  | _, _ => []
  end.

(** Item assignment on a heap object. *)
Definition obj_set_key (h : heap) (a : nat) (k : key) (v : val) : res heap :=
  match nth_error h a with
  | Some (ODict l true) => match set_nth h a (ODict (dset l k v) true) with Some h' => Ok h' | None => Err EUnmodelled end
  | Some _ => Err TypeError
  | None => Err EUnmodelled
  end.
Definition obj_set_index (h : heap) (a : nat) (i : Z) (v : val) : res heap :=
  match nth_error h a with
  | Some (OList l true) =>
    match py_setitem l i v with
    | Some l' => match set_nth h a (OList l' true) with Some h' => Ok h' | None => Err EUnmodelled end
    | None => Err IndexError
    end
  | Some _ => Err TypeError
  | None => Err EUnmodelled
  end.

(** [set(index, value)]: strategy/debug.py:376-381, 410-415, 435-437, 455-458.
    Python's [int(text)] is a parameter. *)
Section Vars.
Variable py_int : pystr -> option Z.

Definition var_set (v : Var) (name : pystr) (x : val) (w : World) : World * res unit :=
  match v_kind v with
  | VKList =>
    match py_int name with
    | None => (w, Err ValueError)
    | Some i => match obj_set_index (w_heap w) (v_ds v) i x with
                | Ok h => (wh h w, Ok tt) | Err e => (w, Err e) end
    end
  | VKDict =>
    match obj_set_key (w_heap w) (v_ds v) (kstr name) x with
    | Ok h => (wh h w, Ok tt) | Err e => (w, Err e) end
  | VKRaw raw =>
    match obj_set_key (w_heap w) (v_ds v) (kstr name) x with
    | Err e => (w, Err e)
    | Ok h => match obj_set_key h raw (kstr name) x with
              | Ok h' => (wh h' w, Ok tt)
              | Err e => (wh h w, Err e) end
    end
  | VKHost host =>
    match obj_set_key (w_heap w) (v_ds v) (kstr name) x with
    | Err e => (w, Err e)
    | Ok h => (wp (w_persist w ++ [(host, name, x)]) (wh h w), Ok tt)
    end
  end.

(** [remove(index)]: strategy/debug.py:403-408, 431-433 (the other classes have none). *)
Definition obj_del_key (h : heap) (a : nat) (k : key) : res heap :=
  match nth_error h a with
  | Some (ODict l m) =>
    if dhas l k then
      if m then match set_nth h a (ODict (ddel l k) m) with Some h' => Ok h' | None => Err EUnmodelled end
      else Err TypeError
    else Ok h
  | Some _ => Err TypeError
  | None => Err EUnmodelled
  end.
Definition var_remove (v : Var) (name : pystr) (w : World) : World * res unit :=
  match v_kind v with
  | VKList => (w, Err NotImplementedError)
  | VKRaw raw =>
    match obj_del_key (w_heap w) (v_ds v) (kstr name) with
    | Err e => (w, Err e)
    | Ok h => match obj_del_key h raw (kstr name) with
              | Ok h' => (wh h' w, Ok tt)
              | Err e => (wh h w, Err e) end
    end
  | _ => match obj_del_key (w_heap w) (v_ds v) (kstr name) with
         | Ok h => (wh h w, Ok tt) | Err e => (w, Err e) end
  end.

(** strategy/debug.py:980-1000 [_add_variable] for a frame in [stackframes]. *)
Definition add_var (sfid : N) (k : vkind) (ds : nat) (w : World) : N * World :=
  let '(vid, d) := next_variable_id (w_dbg w) in
  let w1 := wd d w in
  let w2 := wvars (dset (w_vars w1) vid (mkVar sfid k ds)) w1 in
  let fr := match dget (w_frames w2) sfid with
            | Some f => dset (w_frames w2) sfid (f_with_vars (f_vars f ++ [vid]) f)
            | None => w_frames w2 end in
  (vid, wframes fr w2).

(** How a container is presented: Mapping or Sequence (not str); a dataclass is first
    turned into a dict (dataclasses.asdict; only its first level is copied here). *)
Definition container_kind (h : heap) (v : val) : option vkind :=
  match v with
  | VRef a => match nth_error h a with
              | Some (ODict _ _) => Some VKDict
              | Some (OList _ _) => Some VKList
              | _ => None end
  | VPrim _ _ => None
  end.

(* ------------------------------------------------------------------ threads and frames *)
(** strategy/debug.py:961-978 [_add_thread]. *)
Definition add_thread (host : Host) (w : World) : N * World :=
  let '(tid, d) := next_thread_id (w_dbg w) in
  let w1 := wthreads (dset (w_threads w) tid (mkThread tid (Some host) [] TContinue None)) (wd d w) in
  (tid, emit (OThread true tid) w1).

Definition host_is (h : Host) (t : Thread) : bool :=
  match t_host t with Some h' => N.eqb (h_uuid h') (h_uuid h) | None => false end.
Definition find_thread (h : Host) (w : World) : option Thread := find (host_is h) (dvals (w_threads w)).

Definition set_thread (t : Thread) w := wthreads (dset (w_threads w) (t_id t) t) w.

(** Deleting a frame and its variables: strategy/debug.py:524-527, 644-647.  A missing
    variable is a KeyError. *)
Fixpoint del_vars (l : list N) (vs : dict N Var) : res (dict N Var) :=
  match l with
  | [] => Ok vs
  | x :: r => match dget vs x with None => Err KeyError | Some _ => del_vars r (ddel vs x) end
  end.

(** [CondRes]: what evaluating a breakpoint condition does (strategy/debug.py:563-583):
    a boolean, an error that [eval_condition] turns into False, or another exception. *)
Inductive CondRes := CBool (b : bool) | CCaught | CRaise (e : exn).

(** How a call of start_task / end_task ends: it returns, blocks in [wait_for] with
    the thread in WAIT, or raises. *)
Inductive outcome := Returns | Blocks | Raises (e : exn).

Record TaskStart := mkTS {
  ts_host : Host; ts_task : Node; ts_tv : nat; ts_args : nat;
  ts_role : option (list (pystr * Z * Z));      (* task._role: None, or the places its blocks register *)
  ts_cond : pystr -> CondRes }.

Fixpoint register_all (l : list (pystr * Z * Z)) (d : Dbg) : Dbg * res unit :=
  match l with
  | [] => (d, Ok tt)
  | (p, line, t) :: r => match register_path_breakpoint p line t d with
                         | (d', Ok _) => register_all r d'
                         | (d', Err e) => (d', Err e) end
  end.

(** strategy/debug.py:513-552, up to the new frame being on the stack.  Returns the
    thread id. *)
Definition enter_frame (a : TaskStart) (w : World) : World * res N :=
  let '(tid, w1) := match find_thread (ts_host a) w with
                    | Some t => (t_id t, w)
                    | None => add_thread (ts_host a) w end in
  let step2 :=
    match dget (w_threads w1) tid with
    | None => (w1, Err EUnmodelled)
    | Some t =>
      match t_stack t with
      | [] => (w1, Ok tt)
      | last :: rest =>
        match n_parent (ts_task a) with
        | None => (w1, Err AttributeError)              (* None has no _parent *)
        | Some blk =>
          let parent_task := n_parent blk in
          match dget (w_frames w1) last with
          | None => (w1, Err KeyError)
          | Some lf =>
            let leave := match parent_task with
                         | None => true
                         | Some p => negb (N.eqb (n_uuid (f_task lf)) (n_uuid p)) end in
            let popped :=
              if leave then
                let w2 := set_thread (t_with_stack rest t) w1 in
                let w3 := wframes (ddel (w_frames w2) last) w2 in
                match del_vars (f_vars lf) (w_vars w3) with
                | Ok vs => (wvars vs w3, Ok tt)
                | Err e => (w3, Err e)
                end
              else (w1, Ok tt) in
            match popped with
            | (w4, Err e) => (w4, Err e)
            | (w4, Ok _) =>
              match parent_task with
              | Some _ =>
                if is_include_role (f_task lf) then
                  match ts_role a with
                  | None => (w4, Err AttributeError)    (* None has no get_task_blocks *)
                  | Some regs => match register_all regs (w_dbg w4) with
                                 | (d', Ok _) => (wd d' w4, Ok tt)
                                 | (d', Err e) => (wd d' w4, Err e) end
                  end
                else (w4, Ok tt)
              | None => (w4, Ok tt)
              end
            end
          end
        end
      end
    end in
  match step2 with
  | (w5, Err e) => (w5, Err e)
  | (w5, Ok _) =>
    let '(sfid, d) := next_stackframe_id (w_dbg w5) in
    let w6 := wd d w5 in
    let w7 := wframes (dset (w_frames w6) sfid (mkFrame sfid (ts_task a) (ts_tv a) (ts_args a) [] 0 0 0 0)) w6 in
    match dget (w_threads w7) tid with
    | Some t => (set_thread (t_with_stack (sfid :: t_stack t) t) w7, Ok tid)
    | None => (w7, Err EUnmodelled)
    end
  end.

(** strategy/debug.py:554-604, the stop decision of [start_task].  An empty condition
    string is falsy. *)
Definition start_decide (a : TaskStart) (tid : N) (w : World) : World * outcome :=
  match n_path (ts_task a) with
  | None => (w, Returns)
  | Some (path, line) =>
    let bp := get_breakpoint (w_dbg w) path line in
    let chosen :=
      match bp with
      | None => Ok None
      | Some b => match sb_cond (lb_sb b) with
                  | None | Some [] => Ok (Some (lb_id b))
                  | Some c => match ts_cond a c with
                              | CBool true => Ok (Some (lb_id b))
                              | CBool false | CCaught => Ok None
                              | CRaise e => Err e end
                  end
      end in
    match chosen with
    | Err e => (w, Raises e)
    | Ok id =>
      match dget (w_threads w) tid with
      | None => (w, Raises EUnmodelled)
      | Some t =>
        match should_break (ts_task a) id t with
        | (t', Some ev) => (emit (OStopped ev) (set_thread t' w), Blocks)
        | (t', None) => (set_thread t' w, Returns)
        end
      end
    end
  end.

(** strategy/debug.py:493-604 [start_task] up to the wait. *)
Definition start_task (a : TaskStart) (w : World) : World * outcome * option N :=
  match enter_frame a w with
  | (w', Err e) => (w', Raises e, None)
  | (w', Ok tid) => let '(w'', o) := start_decide a tid w' in (w'', o, Some tid)
  end.
(** ... and after the wait: strategy/debug.py:601-604. *)
Definition start_resume (tid : N) (w : World) : outcome :=
  match dget (w_threads w) tid with
  | Some t => if tstate_eqb (t_state t) TEnd then Raises EndStrategy else Returns
  | None => Raises KeyError
  end.

(** strategy/debug.py:606-640 [end_task] up to the wait.  [res_addr] is the result
    dict. *)
Definition end_task (host : Host) (task : Node) (r : Result) (res_addr : nat) (w : World)
  : World * outcome * option N :=
  match find_thread host w with
  | None => (w, Raises StopIteration, None)
  | Some t =>
    let d := w_dbg w in
    match should_stop_on_exception task r (should_stop_on_error d) (should_stop_on_unreachable d)
            (should_stop_on_skipped d) t with
    | (t', Some ev) =>
      let w1 := set_thread t' w in
      match t_stack t with
      | [] => (w1, Raises IndexError, None)
      | sfid :: _ =>
        match dget (w_frames w1) sfid with
        | None => (w1, Raises KeyError, None)
        | Some _ =>
          let '(vid, w2) := add_var sfid VKDict res_addr w1 in
          let w3 := match dget (w_frames w2) sfid with
                    | Some f => wframes (dset (w_frames w2) sfid (f_with_result vid f)) w2
                    | None => w2 end in
          (emit (OStopped ev) w3, Blocks, Some (t_id t))
        end
      end
    | (_, None) => (w, Returns, Some (t_id t))
    end
  end.
(** ... and after the wait (or directly): strategy/debug.py:640-647. *)
Definition end_finish (tid : N) (task : Node) (w : World) : World * outcome :=
  match dget (w_threads w) tid with
  | None => (w, Raises KeyError)
  | Some t =>
    if tstate_eqb (t_state t) TEnd then (w, Raises EndStrategy)
    else if is_include task then (w, Returns)
    else match t_stack t with
         | [] => (w, Raises IndexError)
         | sfid :: rest =>
           let w1 := set_thread (t_with_stack rest t) w in
           match dget (w_frames w1) sfid with
           | None => (w1, Raises KeyError)
           | Some f =>
             let w2 := wframes (ddel (w_frames w1) sfid) w1 in
             match del_vars (f_vars f) (w_vars w2) with
             | Ok vs => (wvars vs w2, Returns)
             | Err e => (w2, Raises e)
             end
           end
         end
  end.

(** strategy/debug.py:649-666 [exit_threads]. *)
Definition exit_threads (w : World) : World :=
  fold_left (fun w tid => if N.eqb tid 1 then w
                          else emit (OThread false tid) (wthreads (ddel (w_threads w) tid) w))
            (dkeys (w_threads w)) w.

(* ------------------------------------------------------------------ requests *)
(** strategy/debug.py:1002-1011 [_resume_threads]: an unknown id raises KeyError after
    the earlier ids were handled. *)
Fixpoint resume (tids : list N) (st : TState) (w : World) : World * res unit :=
  match tids with
  | [] => (w, Ok tt)
  | t :: r => match dget (w_threads w) t with
              | None => (w, Err KeyError)
              | Some th => resume r st (wthreads (dset (w_threads w) t (set_state st th)) w)
              end
  end.

(** strategy/debug.py:668-682 [continue_request]. *)
Definition continue_request (seq : Z) (tid : N) (single : bool) (w : World) : World * res Out :=
  if single then
    match resume [tid] TContinue w with
    | (w', Ok _) => (w', Ok (OContinue seq false)) | (w', Err e) => (w', Err e) end
  else
    match resume (dkeys (w_threads w)) TContinue w with
    | (w', Ok _) => (w', Ok (OContinue seq true)) | (w', Err e) => (w', Err e) end.

(** strategy/debug.py:684-689 [disconnect]. *)
Definition disconnect (terminate : bool) (w : World) : World * res unit :=
  resume (dkeys (w_threads w)) (if terminate then TEnd else TContinue) w.

(** strategy/debug.py:943-959. *)
Definition step_in tid w := resume [tid] TStepIn w.
Definition step_out tid w := resume [tid] TStepOut w.
Definition step_over tid w := resume [tid] TStepOver w.

(** strategy/debug.py:304-318 [AnsibleStackFrame.to_dap]; [get_path()] is empty for an
    implicit task, and taking item 1 of its split then raises. *)
Definition frame_to_dap (d : Dbg) (f : Frame) : res FrameInfo :=
  match n_path (f_task f) with
  | None => Err IndexError
  | Some (p, line) => Ok (mkFI (f_id f) (n_name (f_task f)) (convert_to_client_path d p) line)
  end.
(** strategy/debug.py:853-867 [get_stacktrace]. *)
Definition get_stacktrace (seq : Z) (tid : N) (w : World) : World * res Out :=
  (w, match dget (w_threads w) tid with
      | None => Err KeyError
      | Some t =>
        do l <- mapM (fun id => match dget (w_frames w) id with
                                | None => Err KeyError
                                | Some f => frame_to_dap (w_dbg w) f end) (t_stack t);
        Ok (OFrames seq l (N.of_nat (length l)))
      end).

(** strategy/debug.py:869-876 [get_threads] and 116-120 [AnsibleThread.to_dap]. *)
Definition thread_info (t : Thread) : ThreadInfo :=
  mkTI (t_id t) (match t_host t with Some h => h_name h | None => s "main" end).
Definition get_threads (seq : Z) (w : World) : World * res Out :=
  (w, Ok (OThreads seq (map thread_info (dvals (w_threads w))))).

(** [repr] and get_canonicalized_variable_type are parameters. *)
Variable py_repr : heap -> val -> pystr.
Variable type_name : heap -> val -> pystr.

Definition container (sfid : N) (v : val) (w : World) : option N * World :=
  match container_kind (w_heap w) v, v with
  | Some k, VRef a => let '(id, w') := add_var sfid k a w in (Some id, w')
  | _, _ => (None, w)
  end.
(** dataclasses.asdict on the value of a child: strategy/debug.py:893-894. *)
Definition asdict (v : val) (h : heap) : option (heap * val) :=
  match v with
  | VRef a => match nth_error h a with
              | Some (OData l) => Some (h ++ [ODict (map (fun p => (kstr (fst p), snd p)) l) true], VRef (length h))
              | _ => None end
  | VPrim _ _ => None
  end.
Definition child_info (name : pystr) (v : val) (w : World) (id : option N) : VarInfo :=
  let var := match id with Some i => dget (w_vars w) i | None => None end in
  mkVI name (py_repr (w_heap w) v) (type_name (w_heap w) v)
       (match var with Some x => var_named (w_heap w) x | None => 0 end)
       (match var with Some x => var_indexed (w_heap w) x | None => 0 end)
       (match id with Some i => i | None => 0 end).

(** strategy/debug.py:878-917 [get_variables]. *)
Fixpoint list_children (sfid : N) (l : list (pystr * val)) (w : World) : World * list VarInfo :=
  match l with
  | [] => (w, [])
  | (name, v) :: r =>
    let '(id, w1) := match asdict v (w_heap w) with
                     | Some (h', v') => container sfid v' (wh h' w)
                     | None => container sfid v w end in
    let info := child_info name v w1 id in
    let '(w2, infos) := list_children sfid r w1 in
    (w2, info :: infos)
  end.
Definition get_variables (seq : Z) (ref : N) (w : World) : World * res Out :=
  match dget (w_vars w) ref with
  | None => (w, Err KeyError)
  | Some v => let '(w', infos) := list_children (v_frame v) (var_get (w_heap w) v) w in
              (w', Ok (OVars seq infos))
  end.

(** Templating: [tmpl expression task_vars heap] is what "{{ expression }}" gives,
    strategy/debug.py:1032-1049; [tmpl_args args task_vars heap] templates the task
    arguments, 697-699.  Both may create objects (appended to the heap); that they do
    not change existing ones is an assumption of the model. *)
Variable tmpl : pystr -> nat -> heap -> res (list obj * val).
Variable tmpl_args : nat -> nat -> heap -> res (list obj * val).
(** Text of a templating error: strategy/debug.py:1022-1025. *)
Variable err_text : exn -> pystr.

(** strategy/debug.py:919-941 [set_variable]. *)
Definition set_variable (seq : Z) (ref : N) (name value : pystr) (w : World) : World * res Out :=
  match dget (w_vars w) ref with
  | None => (w, Err KeyError)
  | Some v =>
    match dget (w_frames w) (v_frame v) with
    | None => (w, Err EUnmodelled)
    | Some f =>
      match tmpl value (f_tv f) (w_heap w) with
      | Err e => (w, Err e)
      | Ok (objs, x) =>
        let w1 := wh (w_heap w ++ objs) w in
        match var_set v name x w1 with
        | (w2, Err e) => (w2, Err e)
        | (w2, Ok _) =>
          let '(id, w3) := container (v_frame v) x w2 in
          (w3, Ok (OSetVar seq (child_info [] x w3 id)))
        end
      end
    end
  end.

Definition set_frame (f : Frame) w := wframes (dset (w_frames w) (f_id f) f) w.
(** [d[k]] on a heap mapping. *)
Definition obj_getitem (h : heap) (v : val) (k : key) : res val :=
  match v with
  | VRef a => match nth_error h a with
              | Some (ODict l _) => match dget l k with Some x => Ok x | None => Err KeyError end
              | _ => Err TypeError end
  | VPrim _ _ => Err TypeError
  end.
Definition obj_items (h : heap) (v : val) : res (dict key val) :=
  match v with
  | VRef a => match nth_error h a with Some (ODict l _) => Ok l | _ => Err AttributeError end
  | VPrim _ _ => Err AttributeError
  end.
Definition addr_of (v : val) : res nat := match v with VRef a => Ok a | VPrim _ _ => Err TypeError end.
Definition scope_of (w : World) (name : pystr) (id : N) : ScopeInfo :=
  match dget (w_vars w) id with
  | Some v => mkSI name id (var_named (w_heap w) v) (var_indexed (w_heap w) v)
  | None => mkSI name id 0 0
  end.
(** The text of a string object is its key form; inventory_hostname is a string. *)
Definition prim_text (v : val) : res pystr :=
  match v with VPrim t _ => Ok t | VRef _ => Err TypeError end.

(** strategy/debug.py:712-719: hostvars of this host overlaid with task_vars. *)
Definition amalgamate (hv : dict key val) (tv : list (pystr * val)) : dict key val :=
  fold_left (fun acc kv => if dhas acc (kstr (fst kv)) then acc else dset acc (kstr (fst kv)) (snd kv)) tv hv.

(** strategy/debug.py:691-781 [get_scopes].  [VPrim]'s first component is used as the
    host name text (strings are written without quotes in this model). *)
Definition get_scopes (seq : Z) (fid : N) (w : World) : World * res Out :=
  match dget (w_frames w) fid with
  | None => (w, Err KeyError)
  | Some f =>
    match tmpl_args (f_args f) (f_tv f) (w_heap w) with
    | Err e => (w, Err e)
    | Ok (objs, targs) =>
      match addr_of targs with
      | Err e => (w, Err e)
      | Ok ta =>
        let w1 := wh (w_heap w ++ objs) w in
        let '(oid, w2) := add_var fid (VKRaw (f_args f)) ta w1 in
        let w2 := match dget (w_frames w2) fid with Some f2 => set_frame (f_with_options oid f2) w2 | None => w2 end in
        let tvk := match container_kind (w_heap w2) (VRef (f_tv f)) with Some k => k | None => VKList end in
        let '(tid, w3) := add_var fid tvk (f_tv f) w2 in
        let w3 := match dget (w_frames w3) fid with Some f3 => set_frame (f_with_taskvar tid f3) w3 | None => w3 end in
        match (do hvs <- obj_getitem (w_heap w3) (VRef (f_tv f)) (kstr (s "hostvars"));
               do nm <- obj_getitem (w_heap w3) (VRef (f_tv f)) (kstr (s "inventory_hostname"));
               do name <- prim_text nm;
               do mine <- obj_getitem (w_heap w3) hvs (kstr name);
               do items <- obj_items (w_heap w3) mine;
               Ok (name, items)) with
        | Err e => (w3, Err e)
        | Ok (name, items) =>
          let tvv := match dget (w_vars w3) tid with Some v => v | None => mkVar fid VKDict (f_tv f) end in
          let am := amalgamate items (var_get (w_heap w3) tvv) in
          let w4 := wh (w_heap w3 ++ [ODict am true]) w3 in
          let '(hid, w5) := add_var fid (VKHost name) (length (w_heap w3)) w4 in
          let w5 := match dget (w_frames w5) fid with Some f5 => set_frame (f_with_hostvars hid f5) w5 | None => w5 end in
          match (do gv <- obj_getitem (w_heap w5) (VRef (f_tv f)) (kstr (s "vars"));
                 do ga <- addr_of gv;
                 Ok (ga, match container_kind (w_heap w5) gv with Some k => k | None => VKList end)) with
          | Err e => (w5, Err e)
          | Ok (ga, gk) =>
            let '(gid, w6) := add_var fid gk ga w5 in
            let four := [scope_of w6 (s "Module Options") oid; scope_of w6 (s "Task Variables") tid;
                         scope_of w6 (s "Host Variables") hid; scope_of w6 (s "Global Variables") gid] in
            let rid := match dget (w_frames w6) fid with Some f6 => f_result f6 | None => 0 end in
            if N.eqb rid 0 then (w6, Ok (OScopes seq four))
            else match dget (w_vars w6) rid with
                 | None => (w6, Err KeyError)
                 | Some _ => (w6, Ok (OScopes seq (scope_of w6 (s "Module Result") rid :: four)))
                 end
          end
        end
      end
    end
  end.

(** plugin_utils/_repl_util.py: the parsed command; the parser is a parameter here
    (ReplModel models it). *)
Inductive ReplCmd :=
| RcTemplate (e : pystr) | RcRemove (n : pystr) | RcSetOption (n e : pystr) | RcSetHostvar (n e : pystr)
| RcText (t : pystr).
Variable parse_repl : pystr -> res ReplCmd.

(** strategy/debug.py:1013-1030 [_safe_evaluate_expression]. *)
Definition safe_evaluate (e : pystr) (tv : nat) (w : World) : World * (pystr * option pystr) :=
  match tmpl e tv (w_heap w) with
  | Ok (objs, v) => let w1 := wh (w_heap w ++ objs) w in
                    (w1, (py_repr (w_heap w1) v, Some (type_name (w_heap w1) v)))
  | Err ex => (w, (err_text ex, None))
  end.

Fixpoint set_vars (ids : list N) (name : pystr) (x : val) (w : World) : World * res unit :=
  match ids with
  | [] => (w, Ok tt)
  | i :: r => match dget (w_vars w) i with
              | None => (w, Err KeyError)
              | Some v => match var_set v name x w with
                          | (w', Ok _) => set_vars r name x w'
                          | (w', Err e) => (w', Err e) end
              end
  end.

Definition frame_truthy (f : option N) : option N :=
  match f with Some i => if N.eqb i 0 then None else Some i | None => None end.
Definition ctx_in (c : option pystr) (l : list pystr) : bool :=
  match c with Some x => mem x l | None => false end.

(** strategy/debug.py:783-851 [evaluate]. *)
Definition evaluate (seq : Z) (expr : pystr) (frame : option N) (ctx : option pystr) (w : World) : World * res Out :=
  match frame_truthy frame with
  | Some fid =>
    if ctx_in ctx [s "repl"] && startswith expr (s "!") then
      match dget (w_frames w) fid with
      | None => (w, Err KeyError)
      | Some f =>
        match parse_repl (skipn 1 expr) with
        | Err e => (w, Err e)
        | Ok (RcTemplate e) =>
          let '(w', (v, ty)) := safe_evaluate e (f_tv f) w in (w', Ok (OEvaluate seq v ty))
        | Ok (RcRemove n) =>
          match dget (w_vars w) (f_options f) with
          | None => (w, Err KeyError)
          | Some v => match var_remove v n w with
                      | (w', Ok _) => (w', Ok (OEvaluate seq [] None))
                      | (w', Err e) => (w', Err e) end
          end
        | Ok (RcSetOption n e) =>
          match tmpl e (f_tv f) (w_heap w) with
          | Err ex => (w, Err ex)
          | Ok (objs, x) =>
            match set_vars [f_options f] n x (wh (w_heap w ++ objs) w) with
            | (w', Ok _) => (w', Ok (OEvaluate seq [] None))
            | (w', Err ex) => (w', Err ex) end
          end
        | Ok (RcSetHostvar n e) =>
          match tmpl e (f_tv f) (w_heap w) with
          | Err ex => (w, Err ex)
          | Ok (objs, x) =>
            match set_vars [f_taskvar f; f_hostvars f] n x (wh (w_heap w ++ objs) w) with
            | (w', Ok _) => (w', Ok (OEvaluate seq [] None))
            | (w', Err ex) => (w', Err ex) end
          end
        | Ok (RcText t) => (w, Ok (OEvaluate seq t None))
        end
      end
    else if ctx_in ctx [s "repl"; s "watch"; s "clipboard"; s "variables"] then
      match dget (w_frames w) fid with
      | None => (w, Err KeyError)
      | Some f => let '(w', (v, ty)) := safe_evaluate expr (f_tv f) w in (w', Ok (OEvaluate seq v ty))
      end
    else (w, Ok (OEvaluate seq (s "Evaluation for " ++ (match ctx with Some c => c | None => s "None" end) ++ s " is not implemented") None))
  | None => (w, Ok (OEvaluate seq (s "Evaluation for " ++ (match ctx with Some c => c | None => s "None" end) ++ s " is not implemented") None))
  end.
End Vars.
