(** Specification vocabulary for the debuggee as a whole. *)
From Verif Require Import PyBase PyDict DbgTypes BpModel BpSpec ThreadModel ThreadSpec StratModel SysModel.
Set Implicit Arguments.
Local Open Scope N_scope.

(** The command and request_seq of a response; events have none. *)
Definition resp_of (o : Out) : option (Cmd * Z) :=
  match o with
  | OBps seq _ => Some (CSetBreakpoints, seq)
  | OAck c seq => Some (c, seq)
  | OContinue seq _ => Some (CContinue, seq)
  | OEvaluate seq _ _ => Some (CEvaluate, seq)
  | OScopes seq _ => Some (CScopes, seq)
  | OFrames seq _ _ => Some (CStackTrace, seq)
  | OThreads seq _ => Some (CThreads, seq)
  | OVars seq _ => Some (CVariables, seq)
  | OSetVar seq _ => Some (CSetVariable, seq)
  | OError c seq => Some (c, seq)
  | OBpEvent _ | OThread _ _ | OStopped _ | OInitialized => None
  end.
Definition responses (out : list (option Out)) : list (Cmd * Z) :=
  flat_map (fun m => match m with Some o => match resp_of o with Some x => [x] | None => [] end | None => [] end) out.

(** The requests the adapter passed on, in order; disconnect is answered by the
    adapter itself. *)
Definition requests (ls : list label) : list (Z * Req) :=
  flat_map (fun l => match l with LReq seq r => [(seq, r)] | _ => [] end) ls.
Definition expects_answer (p : Z * Req) : list (Cmd * Z) :=
  match snd p with RDisconnect _ => [] | r => [(cmd_of r, fst p)] end.

(** Lines given by the client and by Ansible are not negative. *)
Definition regs_wf (l : list (pystr * Z * Z)) : Prop := forall p line t, In (p, line, t) l -> (0 <= line)%Z.
Definition label_wf (l : label) : Prop :=
  match l with
  | LReq _ (RSetBreakpoints _ bps _) => forall sb, In sb bps -> (0 <= sb_line sb)%Z
  | LStart a => match ts_role a with Some regs => regs_wf regs | None => True end
  | LInclude regs | LLoad regs => regs_wf regs
  | _ => True
  end.
Definition trace_wf (ls : list label) : Prop := Forall label_wf ls.

(** Stopped and thread events. *)
Definition stopped_events (out : list (option Out)) : list Stopped :=
  flat_map (fun m => match m with Some (OStopped e) => [e] | _ => [] end) out.
Definition thread_events (out : list (option Out)) : list (bool * N) :=
  flat_map (fun m => match m with Some (OThread b t) => [(b, t)] | _ => [] end) out.

(** What the debuggee queues for the adapter, without events: responses, and [None],
    the end of the outgoing stream. *)
Definition marks (out : list (option Out)) : list (option (Cmd * Z)) :=
  flat_map (fun m => match m with
                     | None => [None]
                     | Some o => match resp_of o with Some x => [Some x] | None => [] end end) out.
Definition expects_marks (p : Z * Req) : list (option (Cmd * Z)) :=
  match snd p with
  | RDisconnect _ => [None]
  | RTerminate => [Some (CTerminate, fst p); None]
  | r => [Some (cmd_of r, fst p)]
  end.
(** The request whose handler waits for a play. *)
Definition pending (y : Sys) : list (Z * Req) := match y_recv y with Some p => [p] | None => [] end.

(** Threads announced and not yet reported as exited, oldest first. *)
Definition alive (evs : list (bool * N)) : list N :=
  fold_left (fun (l : list N) (e : bool * N) => if fst e then l ++ [snd e] else filter (fun x => negb (N.eqb x (snd e))) l) evs ([] : list N).
(** A thread is announced once, and reported as exited only while it is alive. *)
Definition events_ok (evs : list (bool * N)) : Prop :=
  forall pre b t post, evs = pre ++ (b, t) :: post -> if b then ~ In (true, t) pre else In t (alive pre).

(** The references a message gives to the client, each with the advertised number of
    named and indexed children. *)
Definition refs_of (o : Out) : list (N * N * N) :=
  match o with
  | OScopes _ l => map (fun i => (si_ref i, si_named i, si_indexed i)) l
  | OVars _ l => map (fun i => (vi_ref i, vi_named i, vi_indexed i)) l
  | OSetVar _ i => [(vi_ref i, vi_named i, vi_indexed i)]
  | _ => []
  end.
Definition refs (out : list (option Out)) : list (N * N * N) :=
  flat_map (fun m => match m with Some o => refs_of o | None => [] end) out.
(** The debugger keeps data for this stack frame. *)
Definition frame_lives (fid : N) (y : Sys) : Prop := In fid (dkeys (w_frames (y_w y))).
(** The frame a scopes, variables or setVariable request is about. *)
Definition request_frame (w : World) (r : Req) : option N :=
  match r with
  | RScopes f => Some f
  | RVariables ref | RSetVariable ref _ _ => option_map v_frame (dget (w_vars w) ref)
  | _ => None
  end.

(** The value of the first entry whose name is [n]. *)
Definition first_named (n : pystr) (l : dict key val) : option val :=
  option_map snd (find (fun kv => eqb (k_txt (fst kv)) n) l).
(** What Ansible puts into the variables of every task: the templated arguments can be
    computed and are the object [ta]; the variables are the dict [tv] and contain the
    host's name [name], the variables [mine] of this host under hostvars, and the dict
    [ga] of all variables. *)
Definition task_env (tmpl_args : nat -> nat -> heap -> res (list obj * val)) (h : heap) (f : Frame)
    (ta : nat) (tv : dict key val) (name : pystr) (mine : dict key val) (ga : nat) : Prop :=
  (exists objs, tmpl_args (f_args f) (f_tv f) h = Ok (objs, VRef ta)) /\
  (exists m, nth_error h (f_tv f) = Some (ODict tv m)) /\
  (exists hva hvs m1, dget tv (kstr (s "hostvars")) = Some (VRef hva) /\ nth_error h hva = Some (ODict hvs m1) /\
     (exists ty, dget tv (kstr (s "inventory_hostname")) = Some (VPrim name ty)) /\
     (exists ma m2, dget hvs (kstr name) = Some (VRef ma) /\ nth_error h ma = Some (ODict mine m2))) /\
  dget tv (kstr (s "vars")) = Some (VRef ga).

(** [o'] is the dict [o] with [name] set to [x] and nothing else changed. *)
Definition key_set (name : pystr) (x : val) (o o' : obj) : Prop :=
  exists l l', o = ODict l true /\ o' = ODict l' true /\ dget l' (kstr name) = Some x /\
    (forall k, k <> kstr name -> dget l' k = dget l k) /\
    (forall k, In k (dkeys l') <-> k = kstr name \/ In k (dkeys l)).
(** [o'] is the list [o] with item [i] (counted from the end if negative) set to [x]. *)
Definition item_set (i : Z) (x : val) (o o' : obj) : Prop :=
  exists l l' j, o = OList l true /\ o' = OList l' true /\ (j < length l)%nat /\
    (i = Z.of_nat j \/ (i < 0)%Z /\ (i + Z.of_nat (length l))%Z = Z.of_nat j) /\
    length l' = length l /\ nth_error l' j = Some x /\ forall k, k <> j -> nth_error l' k = nth_error l k.
(** Assigning to [name] of an object seen through a reference: [py_int] is Python's
    int(text). *)
Definition assigned (py_int : pystr -> option Z) (k : vkind) (name : pystr) (x : val) (o o' : obj) : Prop :=
  match k with
  | VKList => exists i, py_int name = Some i /\ item_set i x o o'
  | _ => key_set name x o o'
  end.
Definition is_mut_dict (h : heap) (a : nat) : Prop := exists l, nth_error h a = Some (ODict l true).

(** [o'] is the dict [o] without [name] (a Python dict has no key twice). *)
Definition key_removed (name : pystr) (o o' : obj) : Prop :=
  exists l l' m, o = ODict l m /\ o' = ODict l' m /\ (forall k, k <> kstr name -> dget l' k = dget l k) /\
    (NoDup (dkeys l) -> NoDup (dkeys l') /\ dget l' (kstr name) = None).
(** Evaluate contexts in which an expression is evaluated. *)
Definition eval_contexts : list pystr := [s "repl"; s "watch"; s "clipboard"; s "variables"].
(** A repl command is an expression starting with '!' in the repl context. *)
Definition is_command (expr : pystr) (ctx : option pystr) : Prop := ctx = Some (s "repl") /\ exists rest, expr = s "!" ++ rest.
(** Everything that existed is as before. *)
Definition undisturbed (w w' : World) : Prop :=
  (forall a, (a < length (w_heap w))%nat -> nth_error (w_heap w') a = nth_error (w_heap w) a) /\
  w_persist w' = w_persist w /\ w_threads w' = w_threads w /\ w_frames w' = w_frames w /\ w_vars w' = w_vars w.
