(** Properties C23-C27 and C57: stepping, breakpoint and exception stops. *)
From Verif Require Import PyBase PyDict DbgTypes BpModel ThreadModel StratModel ThreadSpec.
Set Implicit Arguments.
Local Open Scope N_scope.

Lemma up_find test n : up test n = find test (ancestors n).
Proof.
  revert n. fix IH 1. intros [k u nm pa se [p|]]; cbn [up n_parent ancestors find]; [|reflexivity].
  rewrite IH. reflexivity.
Qed.
Lemma find_filter_head {A} (f : A -> bool) l : find f l = match filter f l with [] => None | x :: _ => Some x end.
Proof. induction l as [|x l IH]; cbn; auto. destruct (f x); auto. Qed.

Lemma an_include_eq n : an_include n = is_include n.
Proof. unfold an_include, is_include. destruct (n_kind n) as [|[]]; reflexivity. Qed.
Lemma a_task_eq n : a_task n = is_task n.
Proof. unfold a_task, is_task. destruct (n_kind n) as [|[]]; reflexivity. Qed.
Lemma rescue_section_eq n : has_rescue_section n <-> has_rescue n = true.
Proof. unfold has_rescue_section, has_rescue. destruct (n_kind n) as [[]|]; split; congruence. Qed.
Lemma includes_of_eq n : includes_of n = filter is_include (ancestors n).
Proof. apply filter_ext, an_include_eq. Qed.
Lemma include_is_task n : is_include n = true -> is_task n = true.
Proof. unfold is_include, is_task. destruct (n_kind n) as [|[]]; auto; discriminate. Qed.

Lemma parent_task_enclosing n : no_imports n -> uuid_of (get_parent_task n) = enclosing n.
Proof.
  intros H. unfold get_parent_task, enclosing. rewrite includes_of_eq, up_find, find_filter_head.
  replace (filter is_task (ancestors n)) with (filter is_include (ancestors n)).
  - destruct (filter is_include (ancestors n)); reflexivity.
  - apply filter_ext_in. intros a Ha. destruct (is_task a) eqn:E; [rewrite <- an_include_eq; apply H; [exact Ha|now rewrite a_task_eq]|].
    destruct (is_include a) eqn:E2; auto. apply include_is_task in E2. congruence.
Qed.
Lemma parent_include_enclosing n : uuid_of (get_parent_include n) = enclosing n.
Proof.
  unfold get_parent_include, enclosing. rewrite includes_of_eq, up_find, find_filter_head.
  destruct (filter is_include (ancestors n)); reflexivity.
Qed.

Lemma stopped_at_inv T t : stopped_at T t -> t_state t = TWait /\ t_stopped t = Some T.
Proof.
  intros (t0 & bp & ev & H). unfold should_break in H.
  destruct (break_step_over t0 T); [injection H as <- <-; auto|].
  destruct (break_step_out t0 T); [injection H as <- <-; auto|].
  destruct (break_step_in t0); [injection H as <- <-; auto|].
  destruct bp as [id|]; [|discriminate].
  destruct (tstate_eqb (t_state t0) TStepOut); [discriminate|]. injection H as <- <-; auto.
Qed.

Lemma eqb_opt_true (a b : option N) : eqb a b = true <-> a = b.
Proof. apply eqb_eq. Qed.

(* ---------------------------------------------------------------- C23 *)
Lemma step_over_run t T0 : t_state t = TStepOver -> t_stopped t = Some T0 -> no_imports T0 ->
  forall pre x bp rest,
  (forall p, In p pre -> no_imports (fst p) /\ enclosing (fst p) <> enclosing T0 /\ snd p = None) ->
  no_imports x -> enclosing x = enclosing T0 ->
  exists t', first_stop t (pre ++ (x, bp) :: rest) =
    Some (length pre, mkStopped StStep (s "Step over") (t_id t) None [], t') /\ stopped_at x t'.
Proof.
  intros HS HT N0 pre x bp rest. induction pre as [|(p, b) pre IH]; intros HP NX EX; cbn [app first_stop].
  - assert (B : break_step_over t x = true).
    { unfold break_step_over. rewrite HT, HS. cbn [tstate_eqb andb]. apply eqb_opt_true.
      rewrite !parent_task_enclosing; auto. }
    unfold should_break at 1. rewrite B. eexists. split; [reflexivity|].
    exists t, bp. eexists. unfold should_break. rewrite B. reflexivity.
  - destruct (HP (p, b)) as (NP & EP & BP); [now left|]. cbn [fst snd] in *. subst b.
    assert (B : break_step_over t p = false).
    { unfold break_step_over. rewrite HT, HS. cbn [tstate_eqb andb]. apply eqb_neq.
      rewrite !parent_task_enclosing; auto. }
    unfold should_break at 1. rewrite B. unfold break_step_out, break_step_in. rewrite HT, HS. cbn [tstate_eqb andb].
    destruct IH as (t' & E & S1); auto. { intros q Hq. apply HP. now right. }
    rewrite E. eexists. split; [reflexivity|exact S1].
Qed.

(** After a stop at [T0] and a step over, with no breakpoint in the way, the thread
    stops at the first task with the same enclosing include (or none), and at no task
    before it.  Missing for the full property: statically imported tasks and stops on
    an exception (both refuted below). *)
Theorem C23_step_over_partial : forall t T0 pre x bp rest,
  stopped_at T0 t -> no_imports T0 -> no_imports x ->
  (forall p, In p pre -> no_imports (fst p) /\ enclosing (fst p) <> enclosing T0 /\ snd p = None) ->
  enclosing x = enclosing T0 ->
  exists t', first_stop (set_state TStepOver t) (pre ++ (x, bp) :: rest) =
    Some (length pre, mkStopped StStep (s "Step over") (t_id t) None [], t') /\ stopped_at x t'.
Proof.
  intros t T0 pre x bp rest HS N0 NX HP EX. apply stopped_at_inv in HS. destruct HS as (S1 & S2).
  eapply (@step_over_run (set_state TStepOver t) T0); auto.
Qed.
Print Assumptions C23_step_over_partial.

(** Example playbook: an include at top level, two tasks inside it, one of them an
    include itself with a task inside, and a last task at top level. *)
Definition blk (u : N) (p : option Node) : Node := mkNode (KBlock false) u [] None InBlock p.
Definition tsk (u : N) (a : Action) (b : Node) : Node := mkNode (KTask a) u (s "t") (Some (s "/p.yml", Z.of_N u)) InBlock (Some b).
Definition pb := blk 100 None.
Definition t1 := tsk 1 ActIncludeTasks pb.
Definition b1 := blk 101 (Some t1).
Definition t2 := tsk 2 ActIncludeTasks b1.
Definition b2 := blk 102 (Some t2).
Definition t3 := tsk 3 ActOther b2.
Definition t4 := tsk 4 ActOther b1.
Definition t5 := tsk 5 ActOther pb.
Definition th0 := mkThread 2 None [] TContinue None.

Lemma ex_no_imports : forall n, In n [t1; t2; t3; t4; t5] -> no_imports n.
Proof.
  intros n H a Ha Ht. cbn in H.
  repeat match goal with H : _ \/ _ |- _ => destruct H as [<-|H] end; try contradiction; cbn in Ha;
  repeat match goal with H : _ \/ _ |- _ => destruct H as [<-|H] end; try contradiction; vm_compute in Ht |- *; congruence.
Qed.
Example C23_nonvacuous :
  exists t, stopped_at t1 t /\
  (match first_stop (set_state TStepOver t) [(t2, None); (t3, None); (t4, None); (t5, None)] with
   | Some (n, ev, _) => Some (n, st_desc ev) | None => None end) = Some (3%nat, s "Step over").
Proof.
  exists (fst (should_break t1 (Some 1) th0)). split.
  - exists th0, (Some 1). eexists. vm_compute. reflexivity.
  - vm_compute. reflexivity.
Qed.

(** Refuted for statically imported tasks: stopped at the last task of an import_tasks
    file at top level, step over does not stop at the next top-level task, although
    neither is inside an include. *)
Definition ti := tsk 6 ActImport pb.
Definition t7 := tsk 7 ActOther (blk 103 (Some ti)).
Theorem C23_step_over_imports_refuted :
  ~ (forall t T0 pre x bp rest,
      stopped_at T0 t ->
      (forall p, In p pre -> enclosing (fst p) <> enclosing T0 /\ snd p = None) ->
      enclosing x = enclosing T0 ->
      exists ev t', first_stop (set_state TStepOver t) (pre ++ (x, bp) :: rest) = Some (length pre, ev, t')).
Proof.
  intros H.
  destruct (H (fst (should_break t7 (Some 1) th0)) t7 [] t5 None []) as (ev & t' & E).
  - exists th0, (Some 1). eexists. vm_compute. reflexivity.
  - intros p [].
  - vm_compute. reflexivity.
  - vm_compute in E. discriminate.
Qed.
Print Assumptions C23_step_over_imports_refuted.

(** Refuted after a stop on an exception: the thread does not remember that task, so
    step over behaves like continue. *)
Definition failed_result : Result :=
  mkResult true false false false false (Some (s "boom")) None None None None.
Theorem C23_step_over_after_exception_refuted :
  exists t ev, should_stop_on_exception t4 failed_result true false false th0 = (t, Some ev) /\
    enclosing t4 = enclosing (tsk 8 ActOther b1) /\
    first_stop (set_state TStepOver t) [(tsk 8 ActOther b1, None)] = None.
Proof. eexists. eexists. split; [vm_compute; reflexivity|]. split; vm_compute; reflexivity. Qed.
Print Assumptions C23_step_over_after_exception_refuted.

(* ---------------------------------------------------------------- C24 *)
(** Step in from an include stops at the very next task whatever it is; from any
    other task it does exactly what step over does. *)
Theorem C24_step_in : forall t T0, stopped_at T0 t ->
  (an_include T0 = true -> forall x bp rest,
     exists t', first_stop (set_state TStepIn t) ((x, bp) :: rest) =
       Some (O, mkStopped StStep (s "Step in") (t_id t) None [], t') /\ stopped_at x t') /\
  (an_include T0 = false -> set_state TStepIn t = set_state TStepOver t).
Proof.
  intros t T0 HS. apply stopped_at_inv in HS. destruct HS as (S1 & S2). rewrite an_include_eq. split; intros HI.
  - intros x bp rest. unfold set_state. rewrite S2, HI.
    cbn [first_stop].
    assert (E : should_break x bp (t_with_state TStepIn t) =
      (t_with_state TWait (t_with_stopped (Some x) (t_with_state TStepIn t)),
       Some (mkStopped StStep (s "Step in") (t_id t) None []))).
    { unfold should_break, break_step_over, break_step_out, break_step_in.
      cbn [t_with_state t_stopped t_state tstate_eqb]. rewrite S2. reflexivity. }
    rewrite E. eexists. split; [reflexivity|]. eexists _, _, _. exact E.
  - unfold set_state. rewrite S2, HI. reflexivity.
Qed.
Print Assumptions C24_step_in.
Example C24_nonvacuous :
  (exists t, stopped_at t1 t /\ an_include t1 = true) /\ (exists t, stopped_at t4 t /\ an_include t4 = false).
Proof.
  split; [exists (fst (should_break t1 (Some 1) th0))|exists (fst (should_break t4 (Some 1) th0))];
    (split; [exists th0, (Some 1); eexists; vm_compute; reflexivity|reflexivity]).
Qed.

(* ---------------------------------------------------------------- C25 *)
Lemma step_out_run t I : t_state t = TStepOut -> t_stopped t = Some I ->
  forall pre x bp rest,
  (forall p, In p pre -> no_imports (fst p) /\ enclosing (fst p) = Some (n_uuid I)) ->
  no_imports x -> enclosing x <> Some (n_uuid I) ->
  exists t', first_stop t (pre ++ (x, bp) :: rest) =
    Some (length pre, mkStopped StStep (s "Step out") (t_id t) None [], t') /\ stopped_at x t'.
Proof.
  intros HS HT pre x bp rest. induction pre as [|(p, b) pre IH]; intros HP NX EX; cbn [app first_stop].
  - assert (B : break_step_out t x = true).
    { unfold break_step_out. rewrite HT, HS. cbn [tstate_eqb andb]. apply negb_true_iff. apply eqb_neq.
      rewrite parent_task_enclosing; auto. }
    assert (B0 : break_step_over t x = false) by (unfold break_step_over; now rewrite HT, HS).
    unfold should_break at 1. rewrite B0, B. eexists. split; [reflexivity|].
    exists t, bp. eexists. unfold should_break. rewrite B0, B. reflexivity.
  - destruct (HP (p, b)) as (NP & EP); [now left|]. cbn [fst snd] in *.
    assert (B : break_step_out t p = false).
    { unfold break_step_out. rewrite HT, HS. cbn [tstate_eqb andb]. apply negb_false_iff. apply eqb_opt_true.
      rewrite parent_task_enclosing; auto. }
    assert (E0 : should_break p b t = (t, None)).
    { unfold should_break. rewrite B. unfold break_step_over, break_step_in. rewrite HT, HS. cbn [tstate_eqb andb].
      destruct b; reflexivity. }
    rewrite E0. destruct IH as (t' & E & S1); auto. { intros q Hq. apply HP. now right. }
    rewrite E. eexists. split; [reflexivity|exact S1].
Qed.

(** Stepping out from inside include [I]: tasks directly in [I] are passed, even if
    breakpoints match them, and the thread stops at the first task whose enclosing
    include is not [I].  Missing: that this task is outside of [I] (it may be nested
    deeper, refuted below) and imported tasks. *)
Theorem C25_step_out_partial : forall t T0 I pre x bp rest,
  stopped_at T0 t -> enclosing T0 = Some I -> no_imports x ->
  (forall p, In p pre -> no_imports (fst p) /\ enclosing (fst p) = Some I) ->
  enclosing x <> Some I ->
  exists t', first_stop (set_state TStepOut t) (pre ++ (x, bp) :: rest) =
    Some (length pre, mkStopped StStep (s "Step out") (t_id t) None [], t') /\ stopped_at x t'.
Proof.
  intros t T0 I pre x bp rest HS EI NX HP EX. apply stopped_at_inv in HS. destruct HS as (S1 & S2).
  pose proof (parent_include_enclosing T0) as PI. rewrite EI in PI.
  destruct (get_parent_include T0) as [i|] eqn:G; [|discriminate]. cbn in PI. injection PI as PI. subst I.
  assert (E : set_state TStepOut t = t_with_state TStepOut (t_with_stopped (Some i) t)).
  { unfold set_state. rewrite S2, G. reflexivity. }
  rewrite E. eapply (@step_out_run (t_with_state TStepOut (t_with_stopped (Some i) t)) i); auto.
Qed.
Print Assumptions C25_step_out_partial.

(** Step out from the first task of include t1 (here: t2, itself an include) stops
    inside the nested include instead of passing it. *)
Theorem C25_step_out_nested_refuted :
  ~ (forall t T0 I pre x bp rest,
      stopped_at T0 t -> enclosing T0 = Some I ->
      (forall p, In p pre -> In I (map n_uuid (includes_of (fst p))) /\ snd p = None) ->
      ~ In I (map n_uuid (includes_of x)) ->
      exists ev t', first_stop (set_state TStepOut t) (pre ++ (x, bp) :: rest) = Some (length pre, ev, t')).
Proof.
  intros H.
  destruct (H (fst (should_break t2 (Some 1) th0)) t2 1 [(t3, None); (t4, None)] t5 None []) as (ev & t' & E).
  - exists th0, (Some 1). eexists. vm_compute. reflexivity.
  - reflexivity.
  - intros p [<-|[<-|[]]]; vm_compute; auto.
  - vm_compute. tauto.
  - vm_compute in E. discriminate.
Qed.
Print Assumptions C25_step_out_nested_refuted.

(** Step out when not inside an include never stops again and hides breakpoints. *)
Theorem C25_step_out_at_top_never_stops_refuted : forall t T0 l,
  stopped_at T0 t -> enclosing T0 = None -> first_stop (set_state TStepOut t) l = None.
Proof.
  intros t T0 l HS EI. apply stopped_at_inv in HS. destruct HS as (S1 & S2).
  pose proof (parent_include_enclosing T0) as PI. rewrite EI in PI.
  destruct (get_parent_include T0) as [i|] eqn:G; [discriminate|].
  assert (E : set_state TStepOut t = t_with_state TStepOut (t_with_stopped None t)).
  { unfold set_state. rewrite S2, G. reflexivity. }
  rewrite E. induction l as [|(p, b) l IH]; [reflexivity|].
  cbn [first_stop].
  assert (X : should_break p b (t_with_state TStepOut (t_with_stopped None t)) = (t_with_state TStepOut (t_with_stopped None t), None)).
  { unfold should_break, break_step_over, break_step_out, break_step_in. cbn. destruct b; reflexivity. }
  rewrite X, IH. reflexivity.
Qed.
Print Assumptions C25_step_out_at_top_never_stops_refuted.
Example C25_nonvacuous :
  exists t, stopped_at t2 t /\ enclosing t2 = Some 1 /\
   (match first_stop (set_state TStepOut t) [(t4, Some 9); (t5, None)] with Some (n, ev, _) => Some (n, st_desc ev) | None => None end)
   = Some (1%nat, s "Step out").
Proof.
  exists (fst (should_break t2 (Some 1) th0)). split; [exists th0, (Some 1); eexists; vm_compute; reflexivity|].
  split; vm_compute; reflexivity.
Qed.

(* ---------------------------------------------------------------- C26 *)
(** What evaluating the condition of a breakpoint amounts to. *)
Definition condition_holds (cond : pystr -> CondRes) (b : LineBp) : Prop :=
  sb_cond (lb_sb b) = None \/ sb_cond (lb_sb b) = Some [] \/
  exists c, sb_cond (lb_sb b) = Some c /\ cond c = CBool true.

Lemma c26 a tid w t path line :
  dget (w_threads w) tid = Some t -> t_state t = TContinue -> n_path (ts_task a) = Some (path, line) ->
  (forall c e, ts_cond a c <> CRaise e) ->
  match get_breakpoint (w_dbg w) path line with
  | None => snd (start_decide a tid w) = Returns /\ d_out (w_dbg (fst (start_decide a tid w))) = d_out (w_dbg w)
  | Some b =>
    (condition_holds (ts_cond a) b ->
       snd (start_decide a tid w) = Blocks /\
       d_out (w_dbg (fst (start_decide a tid w))) = d_out (w_dbg w) ++ [Some (OStopped (mkStopped StBreakpoint (s "Breakpoint hit") (t_id t) None [lb_id b]))]) /\
    (~ condition_holds (ts_cond a) b ->
       snd (start_decide a tid w) = Returns /\ d_out (w_dbg (fst (start_decide a tid w))) = d_out (w_dbg w))
  end.
Proof.
  intros HT HS HP HC. unfold start_decide. rewrite HP, HT.
  assert (SB : forall id, should_break (ts_task a) (Some id) t =
     (t_with_state TWait (t_with_stopped (Some (ts_task a)) t), Some (mkStopped StBreakpoint (s "Breakpoint hit") (t_id t) None [id]))).
  { intros id. unfold should_break, break_step_over, break_step_out, break_step_in. rewrite HS. cbn [tstate_eqb andb].
    destruct (t_stopped t); reflexivity. }
  assert (SN : should_break (ts_task a) None t = (t, None)).
  { unfold should_break, break_step_over, break_step_out, break_step_in. rewrite HS. cbn [tstate_eqb andb].
    destruct (t_stopped t); reflexivity. }
  destruct (get_breakpoint (w_dbg w) path line) as [b|].
  - unfold condition_holds. destruct (sb_cond (lb_sb b)) as [[|c0 c]|] eqn:EC.
    + rewrite SB. cbn. split; [auto|]. intros N. exfalso. apply N. auto.
    + destruct (ts_cond a (c0 :: c)) as [[|]| |e] eqn:EV.
      * rewrite SB. split; [cbn; auto|]. intros N. exfalso. apply N. right; right. eauto.
      * rewrite SN. split; [|cbn; auto]. intros [X|[X|(c' & X & Y)]]; try discriminate. injection X as <-. congruence.
      * rewrite SN. split; [|cbn; auto]. intros [X|[X|(c' & X & Y)]]; try discriminate. injection X as <-. congruence.
      * exfalso. apply (HC _ _ EV).
    + rewrite SB. cbn. split; [auto|]. intros N. exfalso. apply N. auto.
  - rewrite SN. cbn. auto.
Qed.

(** A running thread stops at a task iff the breakpoint found for its path and line
    has a true (or no) condition; the event names that breakpoint and the thread.
    The breakpoint found is the first one that matches (C16): see the refutation. *)
Theorem C26_breakpoint_stop_partial : forall a tid w t path line,
  dget (w_threads w) tid = Some t -> t_state t = TContinue -> n_path (ts_task a) = Some (path, line) ->
  (forall c e, ts_cond a c <> CRaise e) ->
  match get_breakpoint (w_dbg w) path line with
  | None => snd (start_decide a tid w) = Returns /\ d_out (w_dbg (fst (start_decide a tid w))) = d_out (w_dbg w)
  | Some b =>
    (condition_holds (ts_cond a) b ->
       snd (start_decide a tid w) = Blocks /\
       d_out (w_dbg (fst (start_decide a tid w))) = d_out (w_dbg w) ++ [Some (OStopped (mkStopped StBreakpoint (s "Breakpoint hit") (t_id t) None [lb_id b]))]) /\
    (~ condition_holds (ts_cond a) b ->
       snd (start_decide a tid w) = Returns /\ d_out (w_dbg (fst (start_decide a tid w))) = d_out (w_dbg w))
  end.
Proof. exact c26. Qed.
Print Assumptions C26_breakpoint_stop_partial.

(** A thread that is stepping out never stops because of a breakpoint. *)
Theorem C26_step_out_ignores_breakpoints : forall task id t t' ev,
  t_state t = TStepOut -> should_break task (Some id) t = (t', Some ev) -> st_reason ev = StStep.
Proof.
  intros task id t t' ev HS. unfold should_break.
  destruct (break_step_over t task); [intros H; injection H as <- <-; reflexivity|].
  destruct (break_step_out t task); [intros H; injection H as <- <-; reflexivity|].
  destruct (break_step_in t); [intros H; injection H as <- <-; reflexivity|].
  rewrite HS. cbn. discriminate.
Qed.
Print Assumptions C26_step_out_ignores_breakpoints.

(** Two breakpoints in the region of one task, the first with a false condition: the
    second, unconditional, matches but the task is not stopped. *)
Definition cbp (id : N) (c : option pystr) : N * LineBp :=
  (id, mkLB id (mkSource (Some (s "/p.yml")) 0) (mkSB 5 c 0)
            (mkBP id true None (mkSource (Some (s "/p.yml")) 0) (Some 5%Z) (Some 9%Z)) (s "/p.yml") (s "/p.yml")).
Definition c26_w : World :=
  mkW (set_bps [cbp 1 (Some (s "false")); cbp 2 None] dbg_init)
      (mkSS [(2, th0)] [] []) [] [].
Definition c26_a : TaskStart := mkTS (mkHost 1 (s "h")) t5 O O None (fun _ => CBool false).
Theorem C26_shadowed_breakpoint_refuted :
  ~ (forall a tid w t path line b,
      dget (w_threads w) tid = Some t -> t_state t = TContinue -> n_path (ts_task a) = Some (path, line) ->
      In b (dvals (d_bps (w_dbg w))) -> bp_matches path line b = true -> condition_holds (ts_cond a) b ->
      snd (start_decide a tid w) = Blocks).
Proof.
  intros H. specialize (H c26_a 2 c26_w th0 (s "/p.yml") 5%Z (snd (cbp 2 None))).
  assert (X : snd (start_decide c26_a 2 c26_w) = Blocks).
  { apply H; try reflexivity.
    - right. now left.
    - left. reflexivity. }
  vm_compute in X. discriminate.
Qed.
Print Assumptions C26_shadowed_breakpoint_refuted.
Example C26_nonvacuous :
  let w := mkW (set_bps [cbp 2 None] dbg_init) (mkSS [(2, th0)] [] []) [] [] in
  exists b, get_breakpoint (w_dbg w) (s "/p.yml") 5 = Some b /\ condition_holds (ts_cond c26_a) b /\
  snd (start_decide c26_a 2 w) = Blocks.
Proof. eexists. split; [vm_compute; reflexivity|]. split; [left; reflexivity|vm_compute; reflexivity]. Qed.

(* ---------------------------------------------------------------- C27 *)
Lemma rescue_ancestor n : (exists p, up has_rescue n = Some p) <-> exists a, In a (ancestors n) /\ has_rescue a = true.
Proof.
  rewrite up_find. split.
  - intros (p & H). apply find_some in H. eauto.
  - intros (a & H1 & H2). destruct (find has_rescue (ancestors n)) as [p|] eqn:E; [eauto|].
    apply (find_none _ _ E) in H1. congruence.
Qed.
Lemma rescued_ancestor n : rescued n -> exists a, In a (ancestors n) /\ has_rescue a = true.
Proof.
  induction 1 as [n p Hp HR HS|n p Hp H IH].
  - apply rescue_section_eq in HR. exists p. destruct n as [k u nm pa se par]; cbn in Hp |- *. subst par. cbn. auto.
  - destruct IH as (a & H1 & H2). exists a. destruct n as [k u nm pa se par]; cbn in Hp |- *. subst par. cbn. auto.
Qed.
(** All playbook objects around [n] (and [n] itself) are in main sections. *)
Inductive main_sections : Node -> Prop :=
| ms_top n : n_parent n = None -> main_sections n
| ms_up n p : n_parent n = Some p -> n_sect n = InBlock -> main_sections p -> main_sections n.
Lemma main_rescued n : main_sections n -> (rescued n <-> exists a, In a (ancestors n) /\ has_rescue a = true).
Proof.
  intros M. split; [apply rescued_ancestor|].
  induction M as [n H|n p H S1 M IH]; intros (a & H1 & H2).
  - destruct n as [k u nm pa se par]; cbn in *. subst par. contradiction.
  - assert (A : ancestors n = p :: ancestors p) by (destruct n as [k u nm pa se par]; cbn in *; subst par; reflexivity).
    rewrite A in H1. destruct H1 as [->|H1].
    + apply rescue_section_eq in H2. eapply rescued_here; eauto.
    + eapply rescued_up; eauto.
Qed.

(** When a failed task stops on on_error, etc.  The decision in terms of the spec;
    [stops] is whether a stopped event is produced. *)
Definition stops_on (task : Node) (r : Result) (e u k : bool) (t : Thread) : Prop :=
  exists t' ev, should_stop_on_exception task r e u k t = (t', Some ev).
Definition should_stop_spec (is_rescued : Node -> Prop) (task : Node) (r : Result) (e u k : bool) : Prop :=
  (r_failed r = true /\ r_ignore_errors r = false /\ ~ is_rescued task /\ e = true)
  \/ (~ (r_failed r = true /\ r_ignore_errors r = false) /\
      r_unreachable r = true /\ r_ignore_unreachable r = false /\ u = true)
  \/ (~ (r_failed r = true /\ r_ignore_errors r = false) /\
      ~ (r_unreachable r = true /\ r_ignore_unreachable r = false) /\ r_skipped r = true /\ k = true).

Lemma c27 (is_rescued : Node -> Prop) task r e u k t :
  (is_rescued task <-> exists a, In a (ancestors task) /\ has_rescue a = true) ->
  (stops_on task r e u k t <-> should_stop_spec is_rescued task r e u k).
Proof.
  intros R. unfold stops_on, should_stop_spec, should_stop_on_exception.
  assert (RU : (match up has_rescue task with Some _ => true | None => false end) = true <-> is_rescued task).
  { rewrite R, <- rescue_ancestor. destruct (up has_rescue task) as [p|].
    - split; eauto.
    - split; [discriminate|]. intros (p & H). discriminate. }
  set (ru := match up has_rescue task with Some _ => true | None => false end) in *.
  destruct (r_failed r), (r_ignore_errors r), (r_unreachable r), (r_ignore_unreachable r), (r_skipped r), e, u, k, ru;
    cbn [andb negb];
    (split;
     [ intros (t' & ev & H); try (injection H as <- <-); try discriminate;
       try (left; repeat split; auto; rewrite <- RU; discriminate);
       try (right; left; repeat split; auto; intros (? & ?); discriminate);
       right; right; repeat split; auto; intros (? & ?); discriminate
     | intros H; try (eexists; eexists; reflexivity); exfalso;
       destruct H as [(H1 & H2 & H3 & H4)|[(H1 & H2 & H3 & H4)|(H1 & H2 & H3 & H4)]];
       try discriminate; try (apply H1; split; reflexivity); try (apply H2; split; reflexivity);
       apply H3; now apply RU ]).
Qed.

(** With the filters set, a task result stops the thread iff it failed and was
    neither ignored nor rescued (on_error), was unreachable and not ignored
    (on_unreachable), or was skipped (on_skipped) - provided no enclosing object is in
    a rescue or always section, where the claim is refuted below. *)
Theorem C27_exception_stop_partial : forall task r e u k t,
  main_sections task -> (stops_on task r e u k t <-> should_stop_spec rescued task r e u k).
Proof. intros task r e u k t M. apply c27. now apply main_rescued. Qed.
Print Assumptions C27_exception_stop_partial.

(** What decides for every task: a failure stops iff no block around the task has a
    rescue section, whichever of its sections the task is in. *)
Lemma irb_ancestor n : in_rescue_block n <-> exists a, In a (ancestors n) /\ has_rescue a = true.
Proof.
  split.
  - induction 1 as [n p Hp HR|n p Hp H IH].
    + apply rescue_section_eq in HR. exists p. destruct n as [k u nm pa se par]; cbn in Hp |- *. subst par. cbn. auto.
    + destruct IH as (a & H1 & H2). exists a. destruct n as [k u nm pa se par]; cbn in Hp |- *. subst par. cbn. auto.
  - remember (ancestors n) as l eqn:L. revert n L. induction l as [|p l IH]; intros n L (a & H1 & H2); [contradiction|].
    assert (P : n_parent n = Some p /\ l = ancestors p).
    { destruct n as [k u nm pa se [q|]]; cbn in *; [|discriminate]. injection L as -> ->. auto. }
    destruct P as (P & L'). destruct H1 as [->|H1].
    + eapply irb_here; eauto. now apply rescue_section_eq.
    + eapply irb_up; eauto.
Qed.
Theorem C27_exception_stop_exact : forall task r e u k t,
  stops_on task r e u k t <-> should_stop_spec in_rescue_block task r e u k.
Proof. intros task r e u k t. apply c27. apply irb_ancestor. Qed.
Print Assumptions C27_exception_stop_exact.

(** Whatever the section: no stop without its filter, and an unrescued failure outside
    of every block with a rescue section does stop. *)
Theorem C27_filters_partial : forall task r e u k t,
  stops_on task r e u k t -> e = true \/ u = true \/ k = true.
Proof.
  intros task r e u k t (t' & ev & H). unfold should_stop_on_exception in H.
  destruct e; [auto|]. destruct u; [auto|]. destruct k; [auto|].
  destruct (r_failed r && negb (r_ignore_errors r)); [cbn in H; discriminate|].
  destruct (r_unreachable r && negb (r_ignore_unreachable r)); [discriminate|].
  destruct (r_skipped r); discriminate.
Qed.
Print Assumptions C27_filters_partial.

(** A task that fails inside the rescue section itself is not rescued, but the thread
    does not stop. *)
Definition rblock := mkNode (KBlock true) 200 [] (Some (s "/p.yml", 3%Z)) InBlock (Some pb).
Definition rtask := mkNode (KTask ActOther) 201 (s "t") (Some (s "/p.yml", 7%Z)) InRescue (Some rblock).
Theorem C27_failure_in_rescue_refuted :
  ~ (forall task r e u k t, stops_on task r e u k t <-> should_stop_spec rescued task r e u k).
Proof.
  intros H. destruct (H rtask failed_result true false false th0) as (_ & X).
  destruct X as (t' & ev & E).
  - left. repeat split; auto. intros R.
    inversion R as [n p Hp HR HS|n p Hp HR]; subst; [discriminate|].
    injection Hp as <-. inversion HR as [n p Hp2 HR2 HS2|n p Hp2 HR2]; subst.
    + injection Hp2 as <-. discriminate.
    + injection Hp2 as <-. inversion HR2 as [n p Hp3 HR3 HS3|n p Hp3 HR3]; subst; discriminate.
  - vm_compute in E. discriminate.
Qed.
Print Assumptions C27_failure_in_rescue_refuted.
Example C27_nonvacuous : main_sections t3 /\ stops_on t3 failed_result true false false th0.
Proof.
  split.
  - repeat (eapply ms_up; [reflexivity|reflexivity|]). apply ms_top. reflexivity.
  - eexists. eexists. vm_compute. reflexivity.
Qed.

(* ---------------------------------------------------------------- C57 *)
(** The base text of a failure: msg, else stdout, else a fixed text. *)
Inductive base_text (r : Result) : pystr -> Prop :=
| bt_msg m : r_msg r = Some m -> base_text r m
| bt_out o : r_msg r = None -> r_stdout r = Some o -> base_text r o
| bt_none : r_msg r = None -> r_stdout r = None -> base_text r (s "Unknown error").

(** The event of an exception stop: reason, thread and the documented text. *)
Theorem C57_stop_text : forall task r e u k t t' ev,
  should_stop_on_exception task r e u k t = (t', Some ev) ->
  st_reason ev = StException /\ st_thread ev = t_id t /\ st_hit ev = [] /\ t_state t' = TWait /\
  ((st_desc ev = s "Task skipped" /\ r_skipped r = true /\ k = true /\
    exists reason, (r_skip_reason r = Some reason \/ (r_skip_reason r = None /\ reason = s "Unknown reason")) /\
      st_text ev = Some (s "Task skipped" ++ [10] ++ reason ++
        match r_false_condition r with Some c => nl ++ [10] ++ s "False condition: " ++ c | None => [] end))
   \/ (((st_desc ev = s "Task failed" /\ r_failed r = true /\ r_ignore_errors r = false /\ e = true) \/
        (st_desc ev = s "Host unreachable" /\ r_unreachable r = true /\ r_ignore_unreachable r = false /\ u = true)) /\
       exists b, base_text r b /\
         match r_exception r with
         | None => st_text ev = Some b
         | Some (ExcText []) => st_text ev = Some b
         | Some (ExcText x) => st_text ev = Some (b ++ [10; 10] ++ x)
         | Some (ExcSummary x) => st_text ev = Some x
         end)).
Proof.
  intros task r e u k t t' ev. unfold should_stop_on_exception.
  assert (BT : exists b, base_text r b /\ match r_exception r with
         | None => format_exception r = b
         | Some (ExcText []) => format_exception r = b
         | Some (ExcText x) => format_exception r = b ++ nl ++ nl ++ x
         | Some (ExcSummary x) => format_exception r = x end).
  { unfold format_exception. destruct (r_msg r) as [m|] eqn:M.
    - exists m. split; [now constructor|]. destruct (r_exception r) as [[[|]|]|]; reflexivity.
    - destruct (r_stdout r) as [o|] eqn:O.
      + exists o. split; [now constructor 2|]. destruct (r_exception r) as [[[|]|]|]; reflexivity.
      + eexists. split; [now constructor 3|]. destruct (r_exception r) as [[[|]|]|]; reflexivity. }
  assert (EX : exists b, base_text r b /\
         match r_exception r with
         | None => Some (format_exception r) = Some b
         | Some (ExcText []) => Some (format_exception r) = Some b
         | Some (ExcText x) => Some (format_exception r) = Some (b ++ nl ++ nl ++ x)
         | Some (ExcSummary x) => Some (format_exception r) = Some x
         end).
  { destruct BT as (b & B1 & B2). exists b. split; [exact B1|].
    destruct (r_exception r) as [[[|]|]|]; now f_equal. }
  destruct (r_failed r && negb (r_ignore_errors r)) eqn:FA.
  - apply andb_prop in FA. destruct FA as (FA & IE). destruct (r_ignore_errors r); [discriminate|].
    destruct (e && negb _) eqn:EN; [|discriminate]. apply andb_prop in EN. destruct EN as (-> & _). cbn. intros H; injection H as <- <-. cbn.
    do 4 (split; [reflexivity|]). right. split; [left; auto|exact EX].
  - destruct (r_unreachable r && negb (r_ignore_unreachable r)) eqn:UN.
    + apply andb_prop in UN. destruct UN as (UN & IU). destruct (r_ignore_unreachable r); [discriminate|].
      destruct u; [|discriminate]. cbn. intros H; injection H as <- <-. cbn.
      do 4 (split; [reflexivity|]). right. split; [right; auto|exact EX].
    + destruct (r_skipped r) eqn:SK; [|discriminate]. destruct k; [|discriminate].
      cbn. intros H; injection H as <- <-. cbn [st_reason st_thread st_hit t_state t_with_state st_desc st_text].
      do 4 (split; [reflexivity|]). left. do 3 (split; [reflexivity|]).
      exists (match r_skip_reason r with Some x => x | None => s "Unknown reason" end).
      split; [destruct (r_skip_reason r); auto|]. f_equal.
      destruct (r_false_condition r); rewrite <- ?app_assoc, ?app_nil_r; reflexivity.
Qed.
Print Assumptions C57_stop_text.
Example C57_nonvacuous :
  st_text (match snd (should_stop_on_exception t4 failed_result true false false th0) with Some e => e | None => mkStopped StStep [] 0 None [] end)
  = Some (s "boom").
Proof. vm_compute. reflexivity. Qed.
