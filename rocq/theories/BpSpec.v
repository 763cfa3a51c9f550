(** Specification vocabulary for the breakpoint properties: histories of calls,
    what the client has been told, and task regions of a file.  Nothing here uses
    the line table or the loops of the model. *)
From Verif Require Import PyBase PyDict DbgTypes BpModel.
Set Implicit Arguments.
Local Open Scope Z_scope.

(** One call on the debugger object. *)
Inductive bop :=
| BSet (seq : Z) (src : Source) (l : list SourceBreakpoint) (modified : bool)  (* setBreakpoints request *)
| BExc (seq : Z) (filters : list pystr)                                        (* setExceptionBreakpoints request *)
| BReg (path : pystr) (line typ : Z)                                           (* Ansible loaded something at path:line *)
| BClear                                                                       (* disconnect / shutdown *)
| BConf (maps : list Mapping)                                                  (* configuration from the adapter *)
| BMsg (m : option Out)                                                        (* any message without breakpoints is queued *)
| BThread | BFrame | BVar                                                      (* an id is allocated *)
| BConfDone | BTerm.                                                           (* configurationDone or shutdown; terminate *)

(** Breakpoints a message tells the client about. *)
Definition told (m : option Out) : list Breakpoint :=
  match m with Some (OBps _ l) => l | Some (OBpEvent b) => [b] | _ => [] end.

(** The effect of a call.  A request handler that raises is answered with an error
    response (on_msg_received, _debuggee.py:118-136). *)
Definition bstep (d : Dbg) (o : bop) : Dbg :=
  match o with
  | BSet seq src l m => match set_breakpoints seq src l m d with
                        | (d', Ok _) => d'
                        | (d', Err _) => queue_msg (OError CSetBreakpoints seq) d'
                        end
  | BExc seq f => set_exception_breakpoints seq f d
  | BReg p l t => fst (register_path_breakpoint p l t d)
  | BClear => clear_config d
  | BConf m => set_config m d
  | BMsg m => queue_opt m d
  | BThread => snd (next_thread_id d)
  | BFrame => snd (next_stackframe_id d)
  | BVar => snd (next_variable_id d)
  | BConfDone => set_confdone true d
  | BTerm => set_term true d
  end.
Definition brun (ops : list bop) : Dbg := fold_left bstep ops dbg_init.

(** Lines given by the client and by Ansible are not negative. *)
Definition op_wf (o : bop) : Prop :=
  match o with
  | BSet _ _ l _ => forall sb, In sb l -> 0 <= sb_line sb
  | BReg _ line _ => 0 <= line
  | BMsg m => told m = []
  | _ => True
  end.
Definition hist_wf (ops : list bop) : Prop := forall o, In o ops -> op_wf o.

(** What the client was last told about breakpoint [id]. *)
Definition last_told (out : list (option Out)) (id : N) : option Breakpoint :=
  find (fun b => N.eqb (bp_id b) id) (rev (flat_map told out)).

(** Registrations of one file, oldest first. *)
Fixpoint regs_of (path : pystr) (ops : list bop) : list (Z * Z) :=
  match ops with
  | [] => []
  | BReg p l t :: r => if list_eq_dec N.eq_dec p path then (l, t) :: regs_of path r else regs_of path r
  | _ :: r => regs_of path r
  end.

(** Line [l] starts a region of kind [t]: the last registration of that line says
    so.  The top of the file (line 0) is a region one cannot stop in unless
    registered otherwise. *)
Inductive starts : list (Z * Z) -> Z -> Z -> Prop :=
| starts_top : starts [] 0 0
| starts_new h l t : starts (h ++ [(l, t)]) l t
| starts_old h l t l' t' : starts h l' t' -> l' <> l -> starts (h ++ [(l, t)]) l' t'.
Definition boundary (h : list (Z * Z)) (l : Z) : Prop := exists t, starts h l t.

(** Region of [h] that contains line [q]: from the nearest boundary at or before
    [q] to just before the next boundary; the last region is reported as its first
    line. *)
Definition region_of (h : list (Z * Z)) (q first last t : Z) : Prop :=
  starts h first t /\ first <= q /\
  (forall x, boundary h x -> x <= q -> x <= first) /\
  ((exists nxt, boundary h nxt /\ q < nxt /\ last = nxt - 1 /\ forall x, boundary h x -> q < x -> nxt <= x)
   \/ ((forall x, boundary h x -> x <= q) /\ last = first)).

(** A breakpoint whose location is the one the file's registrations give. *)
Definition located (h : list (Z * Z)) (q : Z) (b : Breakpoint) : Prop :=
  exists first last t,
    region_of h q first last t /\ bp_line b = Some first /\ bp_end b = Some last /\
    (bp_verified b = true <-> t <> 0).
(** ... and of a file Ansible has not loaded. *)
Definition pending (q : Z) (b : Breakpoint) : Prop :=
  bp_verified b = false /\ bp_line b = Some q /\ bp_end b = None.
Definition placed (h : list (Z * Z)) (q : Z) (b : Breakpoint) : Prop :=
  match h with [] => pending q b | _ => located h q b end.

(** The breakpoint was requested somewhere in the region that starts at [L]. *)
Definition set_in_region_at (h : list (Z * Z)) (L q : Z) : Prop :=
  L <= q /\ forall x, boundary h x -> x <= q -> x <= L.

(** Ids of a kind handed out during a history, in order. *)
Fixpoint ids (next : Dbg -> N) (sel : bop -> bool) (d : Dbg) (ops : list bop) : list N :=
  match ops with
  | [] => []
  | o :: r => (if sel o then [next d] else []) ++ ids next sel (bstep d o) r
  end.

(** Filters of the most recent setExceptionBreakpoints request (none before the
    first). *)
Definition last_filters (ops : list bop) : list pystr :=
  fold_left (fun acc o => match o with BExc _ f => f | _ => acc end) ops [].

(** Breakpoint ids given in setBreakpoints responses. *)
Definition answered_ids (m : option Out) : list N :=
  match m with Some (OBps _ l) => map bp_id l | _ => [] end.

(** Path mappings.  [below root p]: [p] is [root] itself or lies under it. *)
Definition slash : N := 47.
Definition ends_with_slash (p : pystr) : Prop := exists q, p = q ++ [slash].
Definition below (root p : pystr) : Prop :=
  exists r, p = root ++ r /\ (r = [] \/ (exists r', r = slash :: r') \/ ends_with_slash root).
(** [m] is the first mapping of the list whose [root] side is a prefix of [p]. *)
Definition first_match (root : Mapping -> pystr) (maps : list Mapping) (p : pystr) (m : Mapping) : Prop :=
  exists before after, maps = before ++ m :: after /\ (exists r, p = root m ++ r) /\
    forall m', In m' before -> ~ exists r, p = root m' ++ r.
(** The file a path of the client names: the first mapping whose local side is a prefix
    applies; without one the path is used as it is. *)
Definition maps_to (maps : list Mapping) (p q : pystr) : Prop :=
  (exists m r, first_match m_local maps p m /\ p = m_local m ++ r /\ q = m_remote m ++ r)
  \/ ((forall m, In m maps -> ~ exists r, p = m_local m ++ r) /\ q = p).
(** The path of a source; a source may have none. *)
Definition source_path (src : Source) : pystr := match src_path src with Some p => p | None => [] end.
