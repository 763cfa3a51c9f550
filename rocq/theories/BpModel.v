(** Breakpoint half of [AnsibleDebugger] (src/ansibug/_debuggee.py). *)
From Verif Require Import PyBase PyDict DbgTypes.
Set Implicit Arguments.
Local Open Scope Z_scope.

(** _debuggee.py:228-275 [AnsibleDebugger.__init__].  [d_out] is the history of
    everything put on [_send_queue]; [None] is the end marker.  The cancel token,
    the threads and the condition variable are modelled in the concurrency files;
    [_terminated], [_configuration_done] are here. *)
Record Dbg := mkDbg {
  d_exc : dict pystr bool;
  d_bps : dict N LineBp;
  d_bpctr : N;
  d_src : dict pystr (list (option Z));
  d_maps : list Mapping;
  d_thread : N; d_frame : N; d_var : N;
  d_confdone : bool;
  d_term : bool;
  d_out : list (option Out) }.

Definition dbg_init : Dbg := mkDbg [] [] 1 [] [] 2 1 1 false false [].

Definition set_exc x d := mkDbg x (d_bps d) (d_bpctr d) (d_src d) (d_maps d) (d_thread d) (d_frame d) (d_var d) (d_confdone d) (d_term d) (d_out d).
Definition set_bps x d := mkDbg (d_exc d) x (d_bpctr d) (d_src d) (d_maps d) (d_thread d) (d_frame d) (d_var d) (d_confdone d) (d_term d) (d_out d).
Definition set_bpctr x d := mkDbg (d_exc d) (d_bps d) x (d_src d) (d_maps d) (d_thread d) (d_frame d) (d_var d) (d_confdone d) (d_term d) (d_out d).
Definition set_src x d := mkDbg (d_exc d) (d_bps d) (d_bpctr d) x (d_maps d) (d_thread d) (d_frame d) (d_var d) (d_confdone d) (d_term d) (d_out d).
Definition set_maps x d := mkDbg (d_exc d) (d_bps d) (d_bpctr d) (d_src d) x (d_thread d) (d_frame d) (d_var d) (d_confdone d) (d_term d) (d_out d).
Definition set_confdone x d := mkDbg (d_exc d) (d_bps d) (d_bpctr d) (d_src d) (d_maps d) (d_thread d) (d_frame d) (d_var d) x (d_term d) (d_out d).
Definition set_term x d := mkDbg (d_exc d) (d_bps d) (d_bpctr d) (d_src d) (d_maps d) (d_thread d) (d_frame d) (d_var d) (d_confdone d) x (d_out d).

(** _debuggee.py:492-504 [queue_msg]. *)
Definition queue_opt (m : option Out) d :=
  mkDbg (d_exc d) (d_bps d) (d_bpctr d) (d_src d) (d_maps d) (d_thread d) (d_frame d) (d_var d) (d_confdone d) (d_term d) (d_out d ++ [m]).
Definition queue_msg (m : Out) d := queue_opt (Some m) d.

(** _debuggee.py:315-319, 321-325, 327-331 [next_thread_id], [next_stackframe_id],
    [next_variable_id]. *)
Definition next_thread_id d : N * Dbg :=
  (d_thread d, mkDbg (d_exc d) (d_bps d) (d_bpctr d) (d_src d) (d_maps d) (d_thread d + 1)%N (d_frame d) (d_var d) (d_confdone d) (d_term d) (d_out d)).
Definition next_stackframe_id d : N * Dbg :=
  (d_frame d, mkDbg (d_exc d) (d_bps d) (d_bpctr d) (d_src d) (d_maps d) (d_thread d) (d_frame d + 1)%N (d_var d) (d_confdone d) (d_term d) (d_out d)).
Definition next_variable_id d : N * Dbg :=
  (d_var d, mkDbg (d_exc d) (d_bps d) (d_bpctr d) (d_src d) (d_maps d) (d_thread d) (d_frame d) (d_var d + 1)%N (d_confdone d) (d_term d) (d_out d)).

(** _debuggee.py:277-287 [should_stop_on_*]; the filter ids are the values of
    [ExceptionBreakpointType], _debuggee.py:37-41. *)
Definition f_error := s "on_error".
Definition f_unreachable := s "on_unreachable".
Definition f_skipped := s "on_skipped".
Definition exc_on (f : pystr) (d : Dbg) : bool :=
  match dget (d_exc d) f with Some b => b | None => false end.
Definition should_stop_on_error := exc_on f_error.
Definition should_stop_on_unreachable := exc_on f_unreachable.
Definition should_stop_on_skipped := exc_on f_skipped.

(** _debuggee.py:348-375 [get_breakpoint]. *)
Definition bp_matches (path : pystr) (line : Z) (b : LineBp) : bool :=
  eqb (lb_actual b) path
  && match bp_line (lb_bp b) with None => true | Some l => l <=? line end
  && match bp_end (lb_bp b) with None => true | Some e => e >=? line end.
Definition get_breakpoint (d : Dbg) (path : pystr) (line : Z) : option LineBp :=
  find (bp_matches path line) (dvals (d_bps d)).

(** _debuggee.py:506-528 [convert_to_client_path]. *)
Fixpoint to_client (maps : list Mapping) (path : pystr) : pystr :=
  match maps with
  | [] => path
  | m :: r => if startswith path (m_remote m)
              then m_local m ++ slice_from path (Z.of_nat (length (m_remote m)))
              else to_client r path
  end.
Definition convert_to_client_path (d : Dbg) (path : pystr) := to_client (d_maps d) path.

(** _debuggee.py:675-681, the mapping loop of setBreakpoints. *)
Fixpoint to_actual (maps : list Mapping) (path : pystr) : pystr :=
  match maps with
  | [] => path
  | m :: r => if startswith path (m_local m)
              then m_remote m ++ slice_from path (Z.of_nat (length (m_local m)))
              else to_actual r path
  end.

(** _debuggee.py:822-857 [_calculate_breakpoint]: the two while loops, with fuel
    that is shown sufficient ([EFuel] is never returned, BpProofs). *)
Fixpoint walk_back (fuel : nat) (fl : list (option Z)) (start : Z) : res (Z * Z) :=
  match fuel with
  | O => Err EFuel
  | S f => match py_index fl start with
           | None => Err IndexError
           | Some (Some t) => Ok (start, t)
           | Some None => walk_back f fl (start - 1)
           end
  end.
Fixpoint walk_fwd (fuel : nat) (fl : list (option Z)) (e : Z) : res Z :=
  match fuel with
  | O => Err EFuel
  | S f => if e <? Z.of_nat (length fl)
           then match py_index fl e with
                | None => Err IndexError
                | Some None => walk_fwd f fl (e + 1)
                | Some (Some _) => Ok e
                end
           else Ok e
  end.
Definition calculate (id : N) (src : Source) (line : Z) (fl : list (option Z)) : res Breakpoint :=
  let len := Z.of_nat (length fl) in
  let start0 := Z.min line (len - 1) in
  do st <- walk_back (S (Z.to_nat (start0 + len + 1))) fl start0;
  do e <- walk_fwd (S (Z.to_nat (len - (start0 + 1)))) fl (start0 + 1);
  let end_line := Z.min (e - 1) len in
  let zero := snd st =? 0 in
  Ok (mkBP id (negb zero) (if zero then Some (s "Breakpoint cannot be set here.") else None)
           src (Some (fst st)) (Some end_line)).

(** Python list item assignment [l[i] = v] with negative indices. *)
Fixpoint set_nth {A} (l : list A) (i : nat) (v : A) : option (list A) :=
  match l, i with
  | [], _ => None
  | _ :: r, O => Some (v :: r)
  | x :: r, S i' => match set_nth r i' v with Some r' => Some (x :: r') | None => None end
  end.
Definition py_setitem {A} (l : list A) (i : Z) (v : A) : option (list A) :=
  let len := Z.of_nat (length l) in
  if i <? 0 then if i + len <? 0 then None else set_nth l (Z.to_nat (i + len)) v
  else set_nth l (Z.to_nat i) v.

(** _debuggee.py:554-577, the loop over the breakpoints in
    [register_path_breakpoint].  An exception stops it with the breakpoints handled
    so far already updated and their events already queued. *)
Definition same_loc (a b : Breakpoint) : bool :=
  Bool.eqb (bp_verified a) (bp_verified b) && eqb (bp_line a) (bp_line b) && eqb (bp_end a) (bp_end b).
Fixpoint refresh (path : pystr) (fl : list (option Z)) (bps : dict N LineBp)
  : dict N LineBp * list Breakpoint * res unit :=
  match bps with
  | [] => ([], [], Ok tt)
  | (k, b) :: r =>
    if negb (eqb (lb_actual b) path) then
      let '(r', ev, x) := refresh path fl r in ((k, b) :: r', ev, x)
    else
      match calculate (lb_id b) (lb_source b) (sb_line (lb_sb b)) fl with
      | Err e => ((k, b) :: r, [], Err e)
      | Ok bp =>
        let '(r', ev, x) := refresh path fl r in
        if same_loc (lb_bp b) bp then ((k, b) :: r', ev, x)
        else ((k, mkLB (lb_id b) (lb_source b) (lb_sb b) bp (lb_actual b) (lb_srcpath b)) :: r', bp :: ev, x)
      end
  end.

Definition queue_all (l : list Out) (d : Dbg) : Dbg := fold_left (fun d m => queue_msg m d) l d.

(** _debuggee.py:530-577 [register_path_breakpoint]. *)
Definition register_path_breakpoint (path : pystr) (line typ : Z) (d : Dbg) : Dbg * res unit :=
  let fl0 := match dget (d_src d) path with Some l => l | None => [Some 0] end in
  let fl1 := fl0 ++ repeat None (Z.to_nat (1 + line - Z.of_nat (length fl0))) in
  match py_setitem fl1 line (Some typ) with
  | None => (set_src (dset (d_src d) path fl1) d, Err IndexError)
  | Some fl2 =>
    let '(bps', ev, x) := refresh path fl2 (d_bps d) in
    (queue_all (map OBpEvent ev) (set_bps bps' (set_src (dset (d_src d) path fl2) d)), x)
  end.

(** _debuggee.py:688-733, the loop over the requested breakpoints. *)
Fixpoint set_loop (src : Source) (spath apath : pystr) (modified : bool) (info : option (list (option Z)))
         (l : list SourceBreakpoint) (acc : list Breakpoint) (d : Dbg) : Dbg * res (list Breakpoint) :=
  match l with
  | [] => (d, Ok acc)
  | sb :: r =>
    let id := d_bpctr d in
    let d1 := set_bpctr (id + 1)%N d in
    if modified then
      set_loop src spath apath modified info r
        (acc ++ [mkBP id false (Some (s "Cannot set breakpoint on a modified source.")) src None None]) d1
    else
      let calc :=
        match info with
        | None | Some [] =>
          Ok (mkBP id false (Some (s "File has not been loaded by Ansible, cannot detect breakpoints yet."))
                   src (Some (sb_line sb)) None)
        | Some fl => calculate id src (sb_line sb) fl
        end in
      match calc with
      | Err e => (d1, Err e)
      | Ok bp =>
        set_loop src spath apath modified info r (acc ++ [bp])
          (set_bps (dset (d_bps d1) id (mkLB id src sb bp apath spath)) d1)
      end
  end.

(** _debuggee.py:667-738, the setBreakpoints handler. *)
Definition py_or_empty (p : option pystr) : pystr := match p with Some x => x | None => [] end.
Definition set_breakpoints (seq : Z) (src : Source) (l : list SourceBreakpoint) (modified : bool) (d : Dbg)
  : Dbg * res unit :=
  let spath := py_or_empty (src_path src) in
  let apath := to_actual (d_maps d) spath in
  let info := dget (d_src d) apath in
  let d1 := set_bps (filter (fun kb => negb (eqb (lb_srcpath (snd kb)) spath)) (d_bps d)) d in
  match set_loop src spath apath modified info l [] d1 with
  | (d2, Err e) => (d2, Err e)
  | (d2, Ok infos) => (queue_msg (OBps seq infos) d2, Ok tt)
  end.

(** _debuggee.py:655-665, the setExceptionBreakpoints handler. *)
Definition set_exception_breakpoints (seq : Z) (filters : list pystr) (d : Dbg) : Dbg :=
  queue_msg (OAck CSetExceptionBreakpoints seq)
    (set_exc (fold_left (fun x f => dset x f true) filters []) d).

(** _debuggee.py:470-471 and 863-864: the part of [shutdown] and [_disconnect] that
    forgets the configuration. *)
Definition clear_config (d : Dbg) : Dbg := set_bps [] (set_maps [] d).

(** _debuggee.py:804-820, the handler of the adapter's configuration event. *)
Definition set_config (maps : list Mapping) (d : Dbg) : Dbg := queue_msg OInitialized (set_maps maps d).
