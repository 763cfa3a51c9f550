(** The breakpoint table under concurrency: the strategy (main) thread looks breakpoints
    up and registers lines while the receive thread handles setBreakpoints or clears the
    table (src/ansibug/_debuggee.py).  No lock protects the table, so the model has one
    atomic action of either thread at a time and Python's dict objects: an iteration
    keeps the dict object it began with and raises RuntimeError when that object has
    changed size.

    Simplifications: _calculate_breakpoint reads the list of lines in one action; path
    mappings only change when the configuration is cleared; the two threads never insert under an existing id (ids come
    from the counter, used by the receive thread only). *)
From Verif Require Import PyBase PyDict DbgTypes BpModel.
Set Implicit Arguments.
Local Open Scope Z_scope.

(** Strategy thread.  [ALook]: in the loop of get_breakpoint (367-375) at position [i] of
    the dict object [ob], which had [n] entries when the loop began; [AReg1]: before
    setdefault (550); [AReg2]: before extend (551); [AReg3]: before the item assignment
    (552); [AReg4]: before the loop over the breakpoints; [ALoop]: in that loop (554-577); [AFailed]: an
    exception left the function. *)
Inductive apc :=
| AIdle
| ALook (path : pystr) (line : Z) (ob n i : nat)
| AReg1 (path : pystr) (line typ : Z) | AReg2 (path : pystr) (line typ : Z) | AReg3 (path : pystr) (line typ : Z) | AReg4 (path : pystr)
| ALoop (path : pystr) (ob n i : nat)
| AFailed.
(** Receive thread in the setBreakpoints handler: [BRead]: before 684 (source_info.get);
    [BBind]: before 688 (the new dict); [BCalc]: before 692-722 for the next breakpoint;
    [BIns]: before 724 (the insertion); [BSay]: before 734-738 (the response); [BErr]:
    an exception was raised, on_msg_received will answer with an error. *)
Record job := mkJob { j_seq : Z; j_src : Source; j_mod : bool }.
Inductive bpc :=
| BIdle
| BRead (j : job) (l : list SourceBreakpoint)
| BBind (j : job) (known : bool) (l : list SourceBreakpoint)
| BCalc (j : job) (known : bool) (l : list SourceBreakpoint) (acc : list Breakpoint)
| BIns (j : job) (known : bool) (id : N) (sb : SourceBreakpoint) (bp : Breakpoint) (l : list SourceBreakpoint) (acc : list Breakpoint)
| BSay (j : job) (acc : list Breakpoint)
| BErr (j : job).

(** [x_objs]: the AnsibleLineBreakpoint objects by id; [x_tabs]: the dict objects, each
    with its keys in order; [x_cur]: the one [_breakpoints] is bound to. *)
Record TS := mkTS {
  x_objs : dict N LineBp; x_tabs : list (list N); x_cur : nat;
  x_src : dict pystr (list (option Z)); x_ctr : N; x_maps : list Mapping;
  x_out : list Out; x_a : apc; x_b : bpc }.
Definition with_objs v x := mkTS v (x_tabs x) (x_cur x) (x_src x) (x_ctr x) (x_maps x) (x_out x) (x_a x) (x_b x).
Definition with_tabs v x := mkTS (x_objs x) v (x_cur x) (x_src x) (x_ctr x) (x_maps x) (x_out x) (x_a x) (x_b x).
Definition with_cur v x := mkTS (x_objs x) (x_tabs x) v (x_src x) (x_ctr x) (x_maps x) (x_out x) (x_a x) (x_b x).
Definition with_src v x := mkTS (x_objs x) (x_tabs x) (x_cur x) v (x_ctr x) (x_maps x) (x_out x) (x_a x) (x_b x).
Definition with_ctr v x := mkTS (x_objs x) (x_tabs x) (x_cur x) (x_src x) v (x_maps x) (x_out x) (x_a x) (x_b x).
Definition with_maps v x := mkTS (x_objs x) (x_tabs x) (x_cur x) (x_src x) (x_ctr x) v (x_out x) (x_a x) (x_b x).
Definition with_out v x := mkTS (x_objs x) (x_tabs x) (x_cur x) (x_src x) (x_ctr x) (x_maps x) v (x_a x) (x_b x).
Definition with_a v x := mkTS (x_objs x) (x_tabs x) (x_cur x) (x_src x) (x_ctr x) (x_maps x) (x_out x) v (x_b x).
Definition with_b v x := mkTS (x_objs x) (x_tabs x) (x_cur x) (x_src x) (x_ctr x) (x_maps x) (x_out x) (x_a x) v.
Definition say (m : Out) x := with_out (x_out x ++ [m]) x.
(** After the adapter's configuration event (804-820). *)
Definition table_init (maps : list Mapping) : TS := mkTS [] [[]] 0 [] 1 maps [OInitialized] AIdle BIdle.

(** Dict object number [c] becomes [v]. *)
Definition set_tab (c : nat) (v : list N) (tabs : list (list N)) : list (list N) := firstn c tabs ++ [v] ++ skipn (S c) tabs.
Definition tab (x : TS) (ob : nat) : list N := nth ob (x_tabs x) [].
(** The table's entries as [_breakpoints.values()] shows them. *)
Definition bps_of (x : TS) (ids : list N) : list LineBp :=
  flat_map (fun k => match dget (x_objs x) k with Some b => [b] | None => [] end) ids.
Definition current (x : TS) : list LineBp := bps_of x (tab x (x_cur x)).

(** What the strategy thread is told. *)
Inductive tev := TAnswer (r : option LineBp) | TRegistered | TRaised.
(** Labels: calls made by the strategy thread, its next action, a setBreakpoints request,
    the receive thread's next action, and the mappings and the table being replaced by
    empty ones (shutdown 470-471, _disconnect 863-864; only while no setBreakpoints is
    being handled). *)
Inductive tlabel :=
| LLook (path : pystr) (line : Z) | LReg (path : pystr) (line typ : Z) | LA
| LSet (j : job) (l : list SourceBreakpoint) | LB | LClear.

(** The entry an iteration gets next: nothing when the dict object has changed size. *)
Definition dict_next (x : TS) (ob n i : nat) : option (option N) :=
  if Nat.eqb (length (tab x ob)) n then Some (nth_error (tab x ob) i) else None.

Definition a_step (x : TS) : option (TS * list tev) :=
  match x_a x with
  | AIdle | AFailed => None
  | ALook path line ob n i =>
    match dict_next x ob n i with
    | None => Some (with_a AFailed x, [TRaised])                       (* RuntimeError *)
    | Some None => Some (with_a AIdle x, [TAnswer None])
    | Some (Some k) =>
      match dget (x_objs x) k with
      | None => None
      | Some b => if bp_matches path line b then Some (with_a AIdle x, [TAnswer (Some b)])
                  else Some (with_a (ALook path line ob n (S i)) x, [])
      end
    end
  | AReg1 path line typ =>
    Some (with_a (AReg2 path line typ) (with_src (match dget (x_src x) path with Some _ => x_src x | None => dset (x_src x) path [Some 0] end) x), [])
  | AReg2 path line typ =>
    match dget (x_src x) path with
    | None => None
    | Some fl => Some (with_a (AReg3 path line typ) (with_src (dset (x_src x) path (fl ++ repeat None (Z.to_nat (1 + line - Z.of_nat (length fl))))) x), [])
    end
  | AReg3 path line typ =>
    match dget (x_src x) path with
    | None => None
    | Some fl => match py_setitem fl line (Some typ) with
                 | None => Some (with_a AFailed x, [TRaised])          (* IndexError *)
                 | Some fl' => Some (with_a (AReg4 path) (with_src (dset (x_src x) path fl') x), [])
                 end
    end
  | AReg4 path => Some (with_a (ALoop path (x_cur x) (length (tab x (x_cur x))) 0) x, [])
  | ALoop path ob n i =>
    match dict_next x ob n i with
    | None => Some (with_a AFailed x, [TRaised])                       (* RuntimeError *)
    | Some None => Some (with_a AIdle x, [TRegistered])
    | Some (Some k) =>
      match dget (x_objs x) k, dget (x_src x) path with
      | Some b, Some fl =>
        if negb (eqb (lb_actual b) path) then Some (with_a (ALoop path ob n (S i)) x, [])
        else match calculate (lb_id b) (lb_source b) (sb_line (lb_sb b)) fl with
             | Err _ => Some (with_a AFailed x, [TRaised])
             | Ok bp =>
               if same_loc (lb_bp b) bp then Some (with_a (ALoop path ob n (S i)) x, [])
               else Some (with_a (ALoop path ob n (S i))
                           (say (OBpEvent bp) (with_objs (dset (x_objs x) k (mkLB (lb_id b) (lb_source b) (lb_sb b) bp (lb_actual b) (lb_srcpath b))) x)), [])
             end
      | _, _ => None
      end
    end
  end.

Definition j_spath (j : job) : pystr := py_or_empty (src_path (j_src j)).
Definition j_apath (x : TS) (j : job) : pystr := to_actual (x_maps x) (j_spath j).
Definition b_step (x : TS) : option TS :=
  match x_b x with
  | BIdle => None
  | BRead j l => Some (with_b (BBind j (match dget (x_src x) (j_apath x j) with Some (_ :: _) => true | _ => false end) l) x)
  | BBind j known l =>
    (* a new dict object without the entries of the source *)
    let keep := filter (fun k => match dget (x_objs x) k with Some b => negb (eqb (lb_srcpath b) (j_spath j)) | None => false end) (tab x (x_cur x)) in
    Some (with_b (BCalc j known l []) (with_cur (length (x_tabs x)) (with_tabs (x_tabs x ++ [keep]) x)))
  | BCalc j known [] acc => Some (with_b (BSay j acc) x)
  | BCalc j known (sb :: l) acc =>
    let id := x_ctr x in
    let x1 := with_ctr (id + 1)%N x in
    if j_mod j then
      Some (with_b (BCalc j known l (acc ++ [mkBP id false (Some (s "Cannot set breakpoint on a modified source.")) (j_src j) None None])) x1)
    else if known then
      match calculate id (j_src j) (sb_line sb) (match dget (x_src x) (j_apath x j) with Some fl => fl | None => [] end) with
      | Err _ => Some (with_b (BErr j) x1)
      | Ok bp => Some (with_b (BIns j known id sb bp l acc) x1)
      end
    else
      Some (with_b (BIns j known id sb
        (mkBP id false (Some (s "File has not been loaded by Ansible, cannot detect breakpoints yet.")) (j_src j) (Some (sb_line sb)) None) l acc) x1)
  | BIns j known id sb bp l acc =>
    (* [self._breakpoints[bp_id] = ...]: whatever dict is bound now *)
    Some (with_b (BCalc j known l (acc ++ [bp]))
      (with_objs (dset (x_objs x) id (mkLB id (j_src j) sb bp (j_apath x j) (j_spath j)))
        (with_tabs (set_tab (x_cur x) (tab x (x_cur x) ++ [id]) (x_tabs x)) x)))
  | BSay j acc => Some (with_b BIdle (say (OBps (j_seq j) acc) x))
  | BErr j => Some (with_b BIdle (say (OError CSetBreakpoints (j_seq j)) x))
  end.

Definition tstep (x : TS) (l : tlabel) : option (TS * list tev) :=
  match l with
  | LLook path line => match x_a x with
                       | AIdle => Some (with_a (ALook path line (x_cur x) (length (tab x (x_cur x))) 0) x, [])
                       | _ => None end
  | LReg path line typ => match x_a x with AIdle => Some (with_a (AReg1 path line typ) x, []) | _ => None end
  | LA => a_step x
  | LSet j l => match x_b x with BIdle => Some (with_b (BRead j l) x, []) | _ => None end
  | LB => match b_step x with Some x' => Some (x', []) | None => None end
  | LClear => match x_b x with BIdle => Some (with_maps [] (with_cur (length (x_tabs x)) (with_tabs (x_tabs x ++ [[]]) x)), []) | _ => None end
  end.
Inductive trun : TS -> list (tlabel * list tev) -> TS -> Prop :=
| trun_nil x : trun x [] x
| trun_step x h x1 l x2 es : trun x h x1 -> tstep x1 l = Some (x2, es) -> trun x (h ++ [(l, es)]) x2.
