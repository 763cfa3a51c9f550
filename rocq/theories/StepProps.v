(** C70: stepping, over whole sessions. *)
From Verif Require Import PyBase PyDict DbgTypes BpModel BpSpec BpProofs BpProofs2 BpProofs3 BpProps ThreadModel ThreadSpec ThreadProps StratModel SysModel SysSpec
  SysProofs SysProofs2 SysProofs3 SysProofs4 SysProofs5 SysProofs6 SysProofs7 SysProofs8 SysProofs9 SysProofs10 SysProofs11 SysProps SysDemo HistSpec HistProofs HistProps StepSpec StepProofs.
From Coq Require Import Lia.
Set Implicit Arguments.
Local Open Scope N_scope.

Lemma level_parent n : uuid_of (get_parent_task n) = level n.
Proof. unfold get_parent_task, level. rewrite up_find, find_filter_head, (filter_ext a_task is_task a_task_eq (ancestors n)). destruct (filter is_task (ancestors n)); reflexivity. Qed.

(** What a thread that was told [st] at [T0] does at a task. *)
Definition told_state (r : Req) : TState :=
  match r with RNext _ => TStepOver | RStepIn _ => TStepIn | RStepOut _ => TStepOut | _ => TContinue end.
Lemma break_wanted r tid T0 T id t t1 : resumes tid r -> t_stopped t = Some T0 ->
  t_state t1 = t_state (set_state (told_state r) t) -> t_stopped t1 = t_stopped (set_state (told_state r) t) ->
  (snd (should_break T id t1) = None <-> ~ stop_wanted r T0 T (id <> None)) /\
  (forall ev, snd (should_break T id t1) = Some ev ->
     st_thread ev = t_id t1 /\
     (stop_wanted r T0 T False -> st_reason ev = StStep /\ st_hit ev = []) /\
     (~ stop_wanted r T0 T False -> st_reason ev = StBreakpoint /\ exists i, id = Some i /\ st_hit ev = [i])).
Proof.
  intros RS TS E1 E2.
  assert (NE : forall A (x : A), Some x <> None) by discriminate.
  assert (BP : (snd (match id with Some i => (t1, Some (mkStopped StBreakpoint (s "Breakpoint hit") (t_id t1) None [i])) | None => (t1, None) end) = None <-> ~ (id <> None)) /\
    (forall ev, snd (match id with Some i => (t1, Some (mkStopped StBreakpoint (s "Breakpoint hit") (t_id t1) None [i])) | None => (t1, None) end) = Some ev ->
       st_thread ev = t_id t1 /\ st_reason ev = StBreakpoint /\ exists i, id = Some i /\ st_hit ev = [i])).
  { destruct id as [i|]; cbn [snd].
    - split; [split; [discriminate|intros X; exfalso; apply X; discriminate]|]. intros ev X. injection X as <-. repeat split. exists i. split; reflexivity.
    - split; [split; [intros _ X; now apply X|reflexivity]|discriminate]. }
  assert (SB : snd (match id with Some i => (t_with_state TWait (t_with_stopped (Some T) t1), Some (mkStopped StBreakpoint (s "Breakpoint hit") (t_id t1) None [i])) | None => (t1, None) end)
    = snd (match id with Some i => (t1, Some (mkStopped StBreakpoint (s "Breakpoint hit") (t_id t1) None [i])) | None => (t1, None) end)) by (destruct id; reflexivity).
  assert (OV : t_state t1 = TStepOver -> t_stopped t1 = Some T0 ->
    (snd (should_break T id t1) = None <-> ~ (level T = level T0 \/ id <> None)) /\
    (forall ev, snd (should_break T id t1) = Some ev -> st_thread ev = t_id t1 /\
       (level T = level T0 -> st_reason ev = StStep /\ st_hit ev = []) /\
       (level T <> level T0 -> st_reason ev = StBreakpoint /\ exists i, id = Some i /\ st_hit ev = [i]))).
  { intros A B. unfold should_break, break_step_over, break_step_out, break_step_in. rewrite A, B, !level_parent. cbn [tstate_eqb andb].
    destruct (eqb_spec (level T) (level T0)) as [L|L]; cbn [snd].
    - split; [split; [discriminate|tauto]|]. intros ev X. injection X as <-. cbn. split; [reflexivity|]. split; [auto|tauto].
    - rewrite SB. destruct BP as (P1 & P2). split; [rewrite P1; tauto|]. intros ev X. destruct (P2 ev X) as (Q1 & Q2). split; [exact Q1|]. split; [tauto|auto]. }
  destruct r; cbn [resumes told_state stop_wanted] in *; try contradiction.
  - assert (A : t_state t1 = TContinue) by (rewrite E1; unfold set_state; destruct (t_stopped t); reflexivity).
    unfold should_break, break_step_over, break_step_out, break_step_in. rewrite A. cbn [tstate_eqb andb].
    replace (match t_stopped t1 with Some _ => false | None => false end) with false by (destruct (t_stopped t1); reflexivity).
    rewrite SB. destruct BP as (P1 & P2). split; [exact P1|]. intros ev X. destruct (P2 ev X) as (Q1 & Q2). split; [exact Q1|]. split; [tauto|auto].
  - destruct OV as (O1 & O2); [rewrite E1; unfold set_state; destruct (t_stopped t); reflexivity|rewrite E2; unfold set_state; destruct (t_stopped t) eqn:TT; [cbn; congruence|discriminate]|].
    split; [exact O1|]. intros ev X. destruct (O2 ev X) as (Q1 & Q2 & Q3). split; [exact Q1|]. split; [intros [Y|[]]; auto|intros Y; apply Q3; tauto].
  - unfold set_state in E1, E2. rewrite TS in E1, E2. rewrite an_include_eq. destruct (is_include T0) eqn:IT; cbn in E1, E2.
    + unfold should_break, break_step_over, break_step_out, break_step_in. rewrite E1. cbn [tstate_eqb andb].
      replace (match t_stopped t1 with Some _ => false | None => false end) with false by (destruct (t_stopped t1); reflexivity). cbn [snd].
      split; [split; [discriminate|tauto]|]. intros ev X. injection X as <-. cbn. split; [reflexivity|]. split; [auto|tauto].
    + destruct (OV E1) as (O1 & O2); [congruence|]. split; [rewrite O1; split; intros Y; [intros [Z|Z]; [discriminate|tauto]|tauto]|].
      intros ev X. destruct (O2 ev X) as (Q1 & Q2 & Q3). split; [exact Q1|]. split; [intros [Y|[Y|[]]]; [discriminate|auto]|intros Y; apply Q3; tauto].
  - unfold set_state in E1, E2. rewrite TS in E1, E2. cbn in E1, E2. pose proof (parent_include_enclosing T0) as PI.
    unfold should_break, break_step_over, break_step_out, break_step_in. rewrite E1, E2. cbn [tstate_eqb andb].
    replace (match get_parent_include T0 with Some _ => false | None => false end) with false by (destruct (get_parent_include T0); reflexivity).
    destruct (get_parent_include T0) as [I|]; cbn [uuid_of] in PI; rewrite <- PI.
    + rewrite level_parent. destruct (eqb_spec (level T) (Some (n_uuid I))) as [L|L]; cbn [negb snd].
      * replace (snd match id with Some _ => (t1, None) | None => (t1, None) end) with (@None Stopped) by (destruct id; reflexivity).
        split; [|discriminate]. split; [|reflexivity]. intros _ (i & X & Y). injection X as <-. contradiction.
      * split; [split; [discriminate|]; intros X; exfalso; apply X; eexists; split; [reflexivity|exact L]|].
        intros ev X. injection X as <-. cbn. split; [reflexivity|]. split; [auto|]. intros Y. exfalso. apply Y. eexists; split; [reflexivity|exact L].
    + replace (snd match id with Some _ => (t1, None) | None => (t1, None) end) with (@None Stopped) by (destruct id; reflexivity).
      split; [|discriminate]. split; [|reflexivity]. intros _ (i & X & _). discriminate.
Qed.

Section H.
Variable py_int : pystr -> option Z.
Variable py_repr : heap -> val -> pystr.
Variable type_name : heap -> val -> pystr.
Variable tmpl : pystr -> nat -> heap -> res (list obj * val).
Variable tmpl_args : nat -> nat -> heap -> res (list obj * val).
Variable err_text : exn -> pystr.
Variable parse_repl : pystr -> res ReplCmd.
Notation step := (step py_int py_repr type_name tmpl tmpl_args err_text parse_repl).
Notation run := (run py_int py_repr type_name tmpl tmpl_args err_text parse_repl).

Lemma request_tells tid q r y y' t : SInv y -> step y (LReq q r) = Some y' -> resumes tid r -> has_strategy y = true -> dget (w_threads (y_w y)) tid = Some t ->
  y_recv y' = None /\ y_phase y' = y_phase y /\ dget (w_threads (y_w y')) tid = Some (set_state (told_state r) t).
Proof.
  intros S ST RS HS HT. pose proof (y_inv S) as I. cbn [SysModel.step] in ST. destruct (y_recv y); [discriminate|]. rewrite HS, andb_false_r in ST. injection ST as <-. cbn [y_recv y_phase y_w].
  split; [reflexivity|]. split; [reflexivity|].
  assert (BS : wd (before_strategy r (w_dbg (y_w y))) (y_w y) = y_w y) by (destruct (y_w y), r; cbn [resumes] in RS; try contradiction; reflexivity). rewrite BS.
  set (w := y_w y) in *.
  assert (ONE : forall st, dget (w_threads (fst (resume [tid] st w))) tid = Some (set_state st t)).
  { intros st. cbn [resume]. rewrite HT. cbn -[dget dset]. apply dget_dset_same. }
  assert (ALL : forall st, dget (w_threads (fst (resume (dkeys (w_threads w)) st w))) tid = Some (set_state st t)).
  { intros st. destruct (@resume_get st (dkeys (w_threads w)) w (i_tnd I)) as (_ & _ & _ & _ & _ & A); auto. rewrite A.
    destruct (in_dec N.eq_dec tid (dkeys (w_threads w))) as [X|X]; [now rewrite HT|]. exfalso. apply X. eapply dget_Some_key; exact HT. }
  unfold SysModel.handle. destruct r as [|t0 sg| | |t0| | | | | |t0|t0| | | |]; cbn [resumes told_state SysModel.process] in *; try contradiction; subst;
    unfold step_over, step_in, step_out.
  - unfold continue_request. destruct sg.
    + destruct RS as [RS|RS]; [discriminate|subst t0]. specialize (ONE TContinue). destruct (resume [tid] TContinue w) as (w1, [u|e]); exact ONE.
    + specialize (ALL TContinue). destruct (resume _ TContinue w) as (w1, [u|e]); exact ALL.
  - specialize (ONE TStepOver). destruct (resume [tid] TStepOver w) as (w1, [u|e]); exact ONE.
  - specialize (ONE TStepIn). destruct (resume [tid] TStepIn w) as (w1, [u|e]); exact ONE.
  - specialize (ONE TStepOut). destruct (resume [tid] TStepOut w) as (w1, [u|e]); exact ONE.
Qed.

Lemma stop_thread a tid y y' : SInv y -> label_wf (LStart a) -> step y (LStart a) = Some y' -> y_phase y' = PWaitStart tid ->
  exists t, dget (w_threads (y_w y')) tid = Some t /\ t_state t = TWait /\ t_stopped t = Some (ts_task a) /\ uuid_host t = Some (h_uuid (ts_host a)).
Proof.
  intros S W ST P. pose proof (y_inv S) as I. pose proof (y_dwf S) as D. cbn [SysModel.step] in ST. destruct (y_phase y); try discriminate. destruct (host_open _ _); try discriminate.
  destruct (@enter_frame_spec a (y_w y) I D W) as (tid1 & _ & _ & SP). unfold start_task in ST. destruct (enter_frame a (y_w y)) as (w1, [tid'|e]).
  2:{ injection ST as <-. discriminate. }
  destruct SP as (-> & I1 & _ & _ & _ & t1 & (T1 & T2) & _).
  unfold start_decide in ST. destruct (n_path (ts_task a)) as [(path, line)|]; [|injection ST as <-; discriminate].
  match type of ST with context [match ?x with Ok _ => _ | Err _ => _ end] => destruct x as [id|e] end; [|injection ST as <-; discriminate].
  rewrite T1 in ST. destruct (should_break (ts_task a) id t1) as (t2, [ev|]) eqn:SB; injection ST as <-; [|discriminate]. cbn [y_phase] in P. injection P as ->.
  assert (SA : stopped_at (ts_task a) t2) by (exists t1, id, ev; exact SB). apply stopped_at_inv in SA. destruct SA as (A & B).
  pose proof (@should_break_same (ts_task a) id t1) as SM. rewrite SB in SM. cbn [fst] in SM.
  exists t2. cbn -[dget dset]. destruct (i_t I1 _ T1) as (TI & _). 
  destruct SM as (S1 & S2 & S3). split; [rewrite S1, TI; apply dget_dset_same|]. split; [exact A|]. split; [exact B|].
  apply is_uuid in T2. unfold uuid_host in *. now rewrite S2.
Qed.

Lemma stepping ls1 ls2 ls3 a0 a y0 y1 y2 y3 y4 y' tid q r path line :
  trace_wf (ls1 ++ LStart a0 :: ls2 ++ LReq q r :: ls3 ++ [LStart a]) ->
  run sys_init ls1 y0 -> step y0 (LStart a0) = Some y1 -> y_phase y1 = PWaitStart tid ->
  run y1 ls2 y2 -> Forall (leaves_alone tid) ls2 -> none_waiting tid y1 ->
  step y2 (LReq q r) = Some y3 -> resumes tid r ->
  run y3 ls3 y4 -> Forall (leaves_alone tid) ls3 ->
  step y4 (LStart a) = Some y' -> (forall e, y_phase y' <> PDone e) -> h_uuid (ts_host a) = h_uuid (ts_host a0) ->
  n_path (ts_task a) = Some (path, line) -> (forall c e, ts_cond a c <> CRaise e) ->
  let h := history step sys_init (ls1 ++ LStart a0 :: ls2 ++ LReq q r :: ls3 ++ [LStart a]) in
  regs_of path h <> [] -> boundary (regs_of path h) line ->
  let bp := at_breakpoint h a path line in
  (stop_wanted r (ts_task a0) (ts_task a) bp ->
     exists ev, y_phase y' = PWaitStart tid /\ stopped_events (d_out (w_dbg (y_w y'))) = stopped_events (d_out (w_dbg (y_w y4))) ++ [ev] /\ st_thread ev = tid /\
       (stop_wanted r (ts_task a0) (ts_task a) False -> st_reason ev = StStep /\ st_hit ev = []) /\
       (~ stop_wanted r (ts_task a0) (ts_task a) False -> st_reason ev = StBreakpoint /\ exists i, st_hit ev = [i])) /\
  (~ stop_wanted r (ts_task a0) (ts_task a) bp ->
     y_phase y' = PRun /\ stopped_events (d_out (w_dbg (y_w y'))) = stopped_events (d_out (w_dbg (y_w y4)))).
Proof.
  intros W R0 ST0 P1 R1 LA1 NW1 STQ RS R3 LA3 ST NP HU PA NR h NE HB bp.
  (* the run up to the last step *)
  set (ls := ls1 ++ LStart a0 :: ls2 ++ LReq q r :: ls3).
  assert (EL : ls1 ++ LStart a0 :: ls2 ++ LReq q r :: ls3 ++ [LStart a] = ls ++ [LStart a]).
  { unfold ls. rewrite <- app_assoc. cbn [app]. rewrite <- app_assoc. reflexivity. }
  assert (R : run sys_init ls y4).
  { unfold ls. apply run_app. exists y0. split; [exact R0|]. econstructor; [exact ST0|]. apply run_app. exists y2. split; [exact R1|]. econstructor; [exact STQ|exact R3]. }
  rewrite EL in W.
  assert (Wl : label_wf (LStart a)) by (apply Forall_app in W; destruct W as (_ & W); exact (Forall_inv W)).
  apply Forall_app in W. destruct W as (W & _).
  assert (W1 : trace_wf ls1 /\ label_wf (LStart a0) /\ trace_wf ls2 /\ trace_wf ls3 /\ label_wf (LReq q r)).
  { unfold ls in W. apply Forall_app in W. destruct W as (A & B). pose proof (Forall_inv B) as B1. apply Forall_inv_tail in B. apply Forall_app in B. destruct B as (C & E).
    pose proof (Forall_inv E) as E1. apply Forall_inv_tail in E. auto. }
  destruct W1 as (Wa & Wb & Wc & Wd & We).
  (* the thread *)
  pose proof (run_sinv Wa R0) as S0. destruct (@stop_thread a0 tid y0 y1 S0 Wb ST0 P1) as (t & T1 & T2 & T3 & T4).
  destruct (@step_inv py_int py_repr type_name tmpl tmpl_args err_text parse_repl y0 _ y1 S0 Wb ST0) as (S1 & _).
  destruct (@run_held py_int py_repr type_name tmpl tmpl_args err_text parse_repl tid ls2 y1 y2 t S1 Wc R1 LA1 NW1 (or_introl P1) T1 T2) as (NW2 & P2 & T5).
  assert (S2 : SInv y2).
  { apply (@run_sinv py_int py_repr type_name tmpl tmpl_args err_text parse_repl (ls1 ++ LStart a0 :: ls2)).
    - apply Forall_app. split; [exact Wa|]. constructor; [exact Wb|exact Wc].
    - apply run_app. exists y0. split; [exact R0|]. econstructor; [exact ST0|exact R1]. }
  assert (HS2 : has_strategy y2 = true) by (unfold has_strategy; now rewrite P2, P1).
  destruct (@request_tells tid q r y2 y3 t S2 STQ RS HS2 T5) as (RC & P3 & T6).
  destruct (@step_inv py_int py_repr type_name tmpl tmpl_args err_text parse_repl y2 _ y3 S2 We STQ) as (S3 & _).
  set (tt := set_state (told_state r) t) in *.
  destruct (set_state_same (told_state r) t) as (SS1 & SS2 & SS3). fold tt in SS1, SS2, SS3.
  assert (HN : t_host tt <> None). { rewrite SS2. unfold uuid_host in T4. destruct (t_host t); [discriminate|discriminate]. }
  assert (RA3 : runs_as tid tt y3). { split; [unfold has_strategy; now rewrite P3, P2, P1|]. exists tt. split; [exact T6|apply as_told_refl]. }
  assert (NW3 : none_waiting tid y3) by (intros q0 r0 X; rewrite RC in X; discriminate).
  assert (ST' := ST). cbn [SysModel.step] in ST'. destruct (y_phase y4) eqn:P4; try discriminate. destruct (host_open _ _) eqn:HO; try discriminate. clear ST'.
  destruct (@run_told py_int py_repr type_name tmpl tmpl_args err_text parse_repl tid ls3 y3 y4 tt S3 Wd R3 LA3 NW3 HN RA3) as [(e & X)|[([X|(tk & X)] & _)|RA4]];
    [congruence|congruence|congruence|].
  destruct RA4 as (_ & t4 & T7 & AT).
  (* the task *)
  pose proof (run_sinv W R) as S. pose proof (y_inv S) as I. pose proof (y_dwf S) as D.
  destruct (run_hist W R) as (ops & WO & EO & CO).
  assert (H : exists ops', hist_wf ops' /\ w_dbg (fst (enter_frame a (y_w y4))) = brun ops' /\ filter is_call ops' = h).
  { pose proof (@via_enter a y4 I D Wl) as V. rewrite EO in V. destruct (via_brun V WO) as (ops' & A & B & C). exists ops'. split; [exact A|]. split; [exact B|].
    unfold h. rewrite EL, (history_snoc (LStart a) R), <- CO. exact C. }
  destruct H as (ops' & WO' & EO' & CO').
  cbn [SysModel.step] in ST. rewrite P4, HO in ST.
  destruct (@enter_frame_spec a (y_w y4) I D Wl) as (tid1 & N1 & TID & SP). pose proof (enter_stopped a (y_w y4)) as ES.
  unfold start_task in ST. destruct (enter_frame a (y_w y4)) as (w1, [tid'|e]).
  2:{ injection ST as <-. exfalso. eapply NP. reflexivity. }
  cbn [fst] in EO', ES. destruct SP as (-> & I1 & _ & _ & _ & t' & (T8 & _) & _ & _ & _ & TS).
  assert (F : find_thread (ts_host a) (y_w y4) = Some t4).
  { apply (@thread_for_find (ts_host a) (y_w y4) tid t4 I). split; [exact T7|]. apply is_uuid. destruct AT as (U & _). rewrite U. unfold uuid_host. rewrite SS2. rewrite HU. exact T4. }
  rewrite F in TS, TID. destruct (find_thread_some _ I F) as (F1 & _). 
  assert (TT : tid1 = tid) by (rewrite TID; destruct (i_t I _ T7) as (X & _); exact X). clear TID. subst tid1.
  destruct TS as (TS1 & TS2). destruct AT as (_ & AT1 & AT2).
  assert (TI : t_id t' = tid) by (destruct (i_t I1 _ T8) as (TI & _); exact TI).
  assert (EQ : forall p l b, first_hit h p l b <-> first_hit ops' p l b).
  { intros p l b. unfold first_hit, hits, client_bps. rewrite <- CO', client_state_calls, regs_calls. tauto. }
  assert (NE' : regs_of path ops' <> []) by (rewrite <- regs_calls, CO'; exact NE).
  assert (HB' : boundary (regs_of path ops') line) by (rewrite <- regs_calls, CO'; exact HB).
  destruct (@found ops' path line WO' NE' HB') as (G1 & G2).
  assert (CH : forall b, condition_holds (ts_cond a) b <-> holds a (sb_cond (ac_req (view b)))).
  { intros b. unfold condition_holds, holds, view. cbn [ac_req]. destruct (sb_cond (lb_sb b)) as [[|c0 c]|]; split; auto.
    - intros [X|[X|(c' & X & Y)]]; try discriminate. injection X as <-. exact Y.
    - intros X. right; right. eauto. }
  unfold start_decide in ST. rewrite PA, EO' in ST. cbv zeta in ST.
  match type of ST with context [match ?x with Ok id => _ | Err e => _ end] => set (chosen := x) in ST end.
  assert (C : exists id, chosen = Ok id /\ (id <> None <-> bp)).
  { unfold chosen, bp, at_breakpoint. destruct (get_breakpoint (brun ops') path line) as [lb|] eqn:G.
    - assert (FH : first_hit h path line (view lb)) by (apply EQ; now apply G1).
      assert (U : forall b, first_hit h path line b -> b = view lb).
      { intros b FB. apply EQ in FB. destruct (G2 b FB) as (lb' & X & Y). congruence. }
      assert (K : match sb_cond (lb_sb lb) with None | Some [] => True | Some c => ts_cond a c = CBool true end <-> exists b, first_hit h path line b /\ holds a (sb_cond (ac_req b))).
      { split; [intros X; eauto|]. intros (b & X & Y). now rewrite (U b X) in Y. }
      destruct (sb_cond (lb_sb lb)) as [[|c0 c]|].
      + eexists. split; [reflexivity|]. rewrite <- K. split; [auto|intros _; discriminate].
      + specialize (NR (c0 :: c)). destruct (ts_cond a (c0 :: c)) as [[|]| |e]; [..|exfalso; now apply (NR e)]; eexists; (split; [reflexivity|]); rewrite <- K;
          (split; [intros X; first [reflexivity|now contradict X]|intros X; first [discriminate X|discriminate]]).
      + eexists. split; [reflexivity|]. rewrite <- K. split; [auto|intros _; discriminate].
    - exists None. split; [reflexivity|]. split; [intros X; now contradict X|]. intros (b & X & _). apply EQ in X. destruct (G2 b X) as (lb & Y & _). discriminate. }
  destruct C as (id & C & CB). rewrite C, T8 in ST.
  destruct (@break_wanted r tid (ts_task a0) (ts_task a) id t t' RS T3) as (B1 & B2).
  { fold tt. congruence. } { fold tt. congruence. }
  assert (SW : forall P Q : Prop, (P <-> Q) -> (stop_wanted r (ts_task a0) (ts_task a) P <-> stop_wanted r (ts_task a0) (ts_task a) Q)).
  { intros P Q PQ. destruct r; cbn [stop_wanted]; tauto. }
  rewrite (SW _ _ CB) in B1.
  destruct (should_break (ts_task a) id t') as (t2, [ev|]) eqn:SB; injection ST as <-; cbn [snd] in *; cbn [y_phase y_w].
  - destruct (B2 ev eq_refl) as (Q1 & Q2 & Q3). split.
    + intros _. exists ev. split; [reflexivity|]. split. { cbn. rewrite sev_app. cbn [stopped_events flat_map app]. f_equal. exact ES. }
      split; [now rewrite Q1|]. split; [exact Q2|]. intros X. destruct (Q3 X) as (Y & i & _ & Z). split; [exact Y|eauto].
    + intros X. apply B1 in X. discriminate.
  - split; [intros X; exfalso; now apply (proj1 B1 eq_refl)|]. intros _. split; [reflexivity|]. cbn. exact ES.
Qed.
End H.

(** A host is stopped at a task.  Then the client resumes it with [r], and later one of
    its tasks starts.  In between, other hosts, other requests and tasks of the host come
    and go; nothing else tells the host to go on, and its play does not end.  Then the
    playbook stops at the task iff [r] and the client's breakpoints ask for it, and the
    client gets one stopped event, with the step as its reason if the step asks for it. *)
Theorem C70_stepping : forall py_int py_repr type_name tmpl tmpl_args err_text parse_repl ls1 ls2 ls3 a0 a y0 y1 y2 y3 y4 y' tid q r path line,
  let run := run py_int py_repr type_name tmpl tmpl_args err_text parse_repl in
  let step := step py_int py_repr type_name tmpl tmpl_args err_text parse_repl in
  trace_wf (ls1 ++ LStart a0 :: ls2 ++ LReq q r :: ls3 ++ [LStart a]) ->
  run sys_init ls1 y0 -> step y0 (LStart a0) = Some y1 -> y_phase y1 = PWaitStart tid ->
  run y1 ls2 y2 -> Forall (leaves_alone tid) ls2 -> none_waiting tid y1 ->
  step y2 (LReq q r) = Some y3 -> resumes tid r ->
  run y3 ls3 y4 -> Forall (leaves_alone tid) ls3 ->
  step y4 (LStart a) = Some y' -> (forall e, y_phase y' <> PDone e) -> h_uuid (ts_host a) = h_uuid (ts_host a0) ->
  n_path (ts_task a) = Some (path, line) -> (forall c e, ts_cond a c <> CRaise e) ->
  let h := history step sys_init (ls1 ++ LStart a0 :: ls2 ++ LReq q r :: ls3 ++ [LStart a]) in
  regs_of path h <> [] -> boundary (regs_of path h) line ->
  let bp := at_breakpoint h a path line in
  (stop_wanted r (ts_task a0) (ts_task a) bp ->
     exists ev, y_phase y' = PWaitStart tid /\ stopped_events (d_out (w_dbg (y_w y'))) = stopped_events (d_out (w_dbg (y_w y4))) ++ [ev] /\ st_thread ev = tid /\
       (stop_wanted r (ts_task a0) (ts_task a) False -> st_reason ev = StStep /\ st_hit ev = []) /\
       (~ stop_wanted r (ts_task a0) (ts_task a) False -> st_reason ev = StBreakpoint /\ exists i, st_hit ev = [i])) /\
  (~ stop_wanted r (ts_task a0) (ts_task a) bp ->
     y_phase y' = PRun /\ stopped_events (d_out (w_dbg (y_w y'))) = stopped_events (d_out (w_dbg (y_w y4)))).
Proof. exact stepping. Qed.
Print Assumptions C70_stepping.

(* ---------------------------------------------------------------- examples *)
(** Host a stops at the include (line 4); host b runs meanwhile. *)
Definition st_ls1 : list label :=
  [ LConfig []; LReq 1 (RSetBreakpoints src_p [mkSB 4%Z None 0] false); LReq 2 RConfigurationDone;
    LLoad [(s "/p.yml", 3%Z, 1%Z); (s "/p.yml", 4%Z, 1%Z); (s "/p.yml", 5%Z, 1%Z)]; LPlay; LHeap demo_heap;
    LStart (bt hostB t1); LEnd hostB okr 6 ].
Definition st_ls2 : list label := [ LReq 3 RThreads; LReq 4 (RNext 2); LReq 5 (RContinue 2 true); LHeap demo_heap ].
Definition st_in : list label := [ LWake; LEnd hostA okr 6; LInclude [(s "/i.yml", 1%Z, 1%Z)] ].
Definition st_y1 := after (st_ls1 ++ [LStart (bt hostA t2)]).
Definition ex (y : Sys) (ls : list label) : Sys := match exec y ls with Some y' => y' | None => y end.
Lemma ex_run y ls : exec y ls <> None -> drun y ls (ex y ls).
Proof. intros H. unfold ex. destruct (exec y ls) eqn:E; [|congruence]. now apply exec_run. Qed.
(** The hypotheses hold for a request [r], tasks [ls3] in between and a last task [T] of the play or the include. *)
Definition st_hyps (r : Req) (ls3 : list label) (T : Node) (path : pystr) (line : Z) : Prop :=
  let all := st_ls1 ++ LStart (bt hostA t2) :: st_ls2 ++ LReq 6 r :: ls3 ++ [LStart (bt hostA T)] in
  let y2 := ex st_y1 st_ls2 in let y3 := ex y2 [LReq 6 r] in let y4 := ex y3 ls3 in let y' := ex y4 [LStart (bt hostA T)] in
  trace_wf all /\ drun sys_init st_ls1 (after st_ls1) /\ dstep (after st_ls1) (LStart (bt hostA t2)) = Some st_y1 /\ y_phase st_y1 = PWaitStart 3 /\
  drun st_y1 st_ls2 y2 /\ Forall (leaves_alone 3) st_ls2 /\ none_waiting 3 st_y1 /\ dstep y2 (LReq 6 r) = Some y3 /\ resumes 3 r /\
  drun y3 ls3 y4 /\ Forall (leaves_alone 3) ls3 /\ dstep y4 (LStart (bt hostA T)) = Some y' /\ (forall e, y_phase y' <> PDone e) /\
  n_path T = Some (path, line) /\ (forall c e, ts_cond (bt hostA T) c <> CRaise e) /\
  regs_of path (history dstep sys_init all) <> [] /\ boundary (regs_of path (history dstep sys_init all)) line.
Ltac hyps :=
  unfold st_hyps; cbv zeta;
  split; [unfold st_ls1, st_ls2, st_in; wf|]; split; [apply after_run; vm_compute; discriminate|]; split; [vm_compute; reflexivity|]; split; [vm_compute; reflexivity|];
  split; [apply ex_run; vm_compute; discriminate|]; split; [unfold st_ls2; repeat constructor; cbn; try tauto; try discriminate; intros [X|X]; discriminate|];
  split; [intros q r X; vm_compute in X; discriminate|]; split; [vm_compute; reflexivity|]; split; [cbn; auto|];
  split; [apply ex_run; vm_compute; discriminate|]; split; [unfold st_in; cbn [app]; repeat constructor; cbn; try tauto; try discriminate; intros [X|X]; discriminate|];
  split; [vm_compute; reflexivity|]; split; [intros e; vm_compute; discriminate|]; split; [reflexivity|]; split; [intros c e; cbn; discriminate|];
  match goal with |- context [history ?st ?y ?ls] => match goal with |- context [regs_of ?p (history st y ls)] =>
    let v := eval vm_compute in (regs_of p (history st y ls)) in replace (regs_of p (history st y ls)) with v by (vm_compute; reflexivity) end end; split; [discriminate|].
Lemma starts_i : boundary [(1, 1)]%Z 1%Z. Proof. exists 1%Z. apply (starts_new []). Qed.
Lemma starts_p : boundary [(3, 1); (4, 1); (5, 1)]%Z 5%Z. Proof. exists 1%Z. apply (starts_new [(3, 1); (4, 1)]%Z). Qed.
(** next: not at the task of the include, but at the one after it. *)
Example C70_next_over : st_hyps (RNext 3) st_in t3 (s "/i.yml") 1%Z /\ level t3 <> level t2.
Proof. split; [hyps; apply starts_i|discriminate]. Qed.
Definition st_through := st_in ++ [LStart (bt hostA t3); LEnd hostA okr 6].
Example C70_next_stops : st_hyps (RNext 3) st_through t4 (s "/p.yml") 5%Z /\ stop_wanted (RNext 3) t2 t4 False.
Proof. split; [hyps; apply starts_p|]. left. reflexivity. Qed.
(** stepIn: at the task of the include. *)
Example C70_step_in : st_hyps (RStepIn 3) st_in t3 (s "/i.yml") 1%Z /\ stop_wanted (RStepIn 3) t2 t3 False.
Proof. split; [hyps; apply starts_i|]. left. reflexivity. Qed.
Example C70_continue : st_hyps (RContinue 3 false) st_through t4 (s "/p.yml") 5%Z.
Proof. hyps; apply starts_p. Qed.
(** stepOut of the include, where stepIn stopped: at the task after it. *)
Example C70_step_out : stop_wanted (RStepOut 3) t3 t4 False /\
  y_phase (after (st_ls1 ++ LStart (bt hostA t2) :: LReq 6 (RStepIn 3) :: st_in ++ LStart (bt hostA t3) :: LReq 7 (RStepOut 3) :: [LWake; LEnd hostA okr 6; LStart (bt hostA t4)])) = PWaitStart 3.
Proof. split; [eexists; split; [reflexivity|discriminate]|vm_compute; reflexivity]. Qed.
