(** C74: the debugger does not change what the playbook does. *)
From Verif Require Import PyBase PyDict DbgTypes BpModel BpSpec ThreadModel ThreadSpec StratModel SysModel SysSpec SysProofs7 SysProofs8 SysProps SysDemo PlayModel PlaySpec PlayProofs PlayEnd PlayShape.
Set Implicit Arguments.
Local Open Scope N_scope.
Ltac csplit := repeat match goal with |- _ /\ _ => split end.

Definition at_a_stop (d : DS) : Prop := exists tid, y_phase (d_y d) = PWaitStart tid \/ exists task, y_phase (d_y d) = PWaitEnd tid task.
Definition waits_for_client (d : DS) : Prop := exists tid t,
  (y_phase (d_y d) = PWaitStart tid \/ exists task, y_phase (d_y d) = PWaitEnd tid task) /\ dget (w_threads (y_w (d_y d))) tid = Some t /\ t_state t = TWait.

Section P.
Variable py_int : pystr -> option Z.
Variable py_repr : heap -> val -> pystr.
Variable type_name : heap -> val -> pystr.
Variable tmpl : pystr -> nat -> heap -> res (list obj * val).
Variable tmpl_args : nat -> nat -> heap -> res (list obj * val).
Variable err_text : exn -> pystr.
Variable parse_repl : pystr -> res ReplCmd.
Notation step := (step py_int py_repr type_name tmpl tmpl_args err_text parse_repl).
Notation dstep := (dstep py_int py_repr type_name tmpl tmpl_args err_text parse_repl).
Notation druns := (druns py_int py_repr type_name tmpl tmpl_args err_text parse_repl).
Notation run := (run py_int py_repr type_name tmpl tmpl_args err_text parse_repl).

(** Whatever the client does, and whatever stops there are: the calls Ansible makes to the
    base class, and the answers it gets, are ones it makes without the debugger, and if it
    ends, it ends the same way, as long as the debugger has not ended the play. *)
Theorem C74_transparent : forall A xs d, honest A -> druns (begin A) xs d -> own_answers (d_log d) -> not_done d ->
  exists B, plain A (d_log d) B /\ (forall c, d_p d = DRet c -> B = ARet c) /\ (forall e, d_p d = DRaise e -> B = ARaise e).
Proof.
  intros A xs d HA R OWN ND. destruct (@druns_pinv _ _ _ _ _ _ _ _ _ _ HA R OWN ND) as (B & PL & HB & S & _). exists B. csplit; auto.
  - intros c E. rewrite E in S. now apply sim_ret.
  - intros c E. rewrite E in S. now apply sim_raise.
Qed.
(** The debugger's side of it is a session of the debuggee, so everything proved of those
    (C20-C36, C47, ...) holds here. *)
Theorem C74_session : forall A xs d, druns (begin A) xs d -> run sys_init (d_ls d) (d_y d).
Proof. intros A xs d. apply druns_run. Qed.
(** Every task is shown to the debugger before it runs, once and in order; every result is
    shown after it came, once and in order; while the debugger stops, Ansible does nothing;
    and when the playbook has ended nothing was left out. *)
Theorem C74_every_task_is_shown : forall A xs d, honest A -> druns (begin A) xs d -> own_answers (d_log d) -> not_done d ->
  (exists next, shown (d_ls d) = ran (d_log d) ++ next /\ (length next <= 1)%nat) /\
  (exists rest, results (d_log d) = reported (d_ls d) ++ rest) /\
  (at_a_stop d -> forall r, dstep d (Base r) = None) /\
  (forall tid, y_phase (d_y d) = PWaitStart tid -> exists a, shown (d_ls d) = ran (d_log d) ++ [a]) /\
  ((exists c, d_p d = DRet c) \/ (exists e, d_p d = DRaise e) -> shown (d_ls d) = ran (d_log d) /\ reported (d_ls d) = results (d_log d)).
Proof.
  intros A xs d HA R OWN ND. destruct (@druns_pinv _ _ _ _ _ _ _ _ _ _ HA R OWN ND) as (B & PL & HB & S & POS & SH & RE). csplit.
  - eexists. split; [exact SH|]. unfold about. destruct (innermost (d_p d)) as [| |a k| | | |b k| | |]; cbn; try lia. { destruct (y_phase (d_y d)); cbn; lia. } destruct b; cbn; lia.
  - eauto.
  - intros (tid & W) r. cbn [PlayModel.dstep]. destruct (base_step (d_p d) r) as [(b, q)|] eqn:E; auto. exfalso. destruct (base_inner _ _ E) as (k & IN). unfold position_ok in POS.
    destruct W as [W|(task & W)]; rewrite W in POS; [destruct POS as (? & ? & POS)|destruct POS as (? & ? & ? & ? & POS)]; congruence.
  - intros tid W. unfold position_ok in POS. rewrite W in *. destruct POS as (a & k & POS). exists a. rewrite SH. unfold about. now rewrite POS.
  - intros F. assert (X : about (d_p d) (y_phase (d_y d)) = [] /\ todo (d_p d) (y_phase (d_y d)) = []).
    { destruct F as [(c & ->)|(e & ->)]; unfold about, todo; cbn; destruct (y_phase (d_y d)); auto. }
    destruct X as (X1 & X2). rewrite X1 in SH. rewrite X2 in RE. rewrite app_nil_r in *. auto.
Qed.
(** The debugger ends the play only when the client asked for it, when the condition of a
    breakpoint raised an exception it does not handle, or on a task without role after a
    role include (see C32). *)
Theorem C74_ends_only_if_asked : forall A xs d e, druns (begin A) xs d -> trace_wf (d_ls d) -> y_phase (d_y d) = PDone e ->
  (e = EndStrategy /\ asked_to_end (d_ls d)) \/
  (exists a, In (LStart a) (d_ls d) /\ ((exists c, ts_cond a c = CRaise e) \/ (e = AttributeError /\ (ts_role a = None \/ n_parent (ts_task a) = None)))).
Proof.
  intros A xs d e R. revert e. remember (begin A) as d0 eqn:D0. induction R as [d|d xs d1 x d2 R IH E]; intros e W P; subst; [discriminate|].
  specialize (IH eq_refl). pose proof (druns_run R) as RR.
  assert (KEY : forall l y', step (d_y d1) l = Some y' -> d_ls d2 = d_ls d1 ++ [l] -> d_y d2 = y' ->
    (e = EndStrategy /\ asked_to_end (d_ls d2)) \/ (exists a, In (LStart a) (d_ls d2) /\ ((exists c, ts_cond a c = CRaise e) \/ (e = AttributeError /\ (ts_role a = None \/ n_parent (ts_task a) = None))))).
  { intros l y' S EL EY. rewrite EL in *. rewrite EY in P. pose proof W as W0. apply Forall_app in W0. destruct W0 as (W1 & W2).
    assert (OLD : y_phase (d_y d1) = PDone e -> (e = EndStrategy /\ asked_to_end (d_ls d1 ++ [l])) \/ (exists a, In (LStart a) (d_ls d1 ++ [l]) /\ ((exists c, ts_cond a c = CRaise e) \/ (e = AttributeError /\ (ts_role a = None \/ n_parent (ts_task a) = None))))).
    { intros P1. destruct (IH e W1 P1) as [(-> & X)|(a & X & Y)]; [left; split; auto; now apply asked_app|right; exists a; split; auto; apply in_or_app; now left]. }
    destruct (y_phase (d_y d1)) as [| | | |e1] eqn:P1.
    5: { pose proof (@done_stays py_int py_repr type_name tmpl tmpl_args err_text parse_repl _ _ _ _ S P1). assert (e1 = e) by congruence. subst e1. auto. }
    all: destruct (@C31_start_and_end_do_not_fail py_int py_repr type_name tmpl tmpl_args err_text parse_repl (d_ls d1) (d_y d1) l y' e W RR S P ltac:(congruence)) as [(-> & k & t & T1 & T2)|(a & -> & X)];
      [left; split; auto; destruct (asked_dec (d_ls d1)) as [AD|AD]; [now apply asked_app|exfalso]|right; exists a; split; auto; apply in_or_app; right; now left].
    all: pose proof (@run_calm py_int py_repr type_name tmpl tmpl_args err_text parse_repl (d_ls d1) [] sys_init (d_y d1) sinv_init W1 RR AD init_calm) as ((_ & C) & _); exact (C _ _ T1 T2). }
  destruct x as [l| | |r]; cbn [PlayModel.dstep] in E.
  - destruct (outside l); [|discriminate]. destruct (step (d_y d1) l) as [y'|] eqn:S; [|discriminate]. injection E as <-. eapply KEY; eauto.
  - destruct (next_label _ _) as [l|]; [|discriminate]. destruct (step (d_y d1) l) as [y'|] eqn:S; [|discriminate]. injection E as <-. eapply KEY; eauto.
  - destruct (leaves _ _); [|discriminate]. injection E as <-. auto.
  - destruct (base_step _ _) as [(b0, p)|]; [|discriminate]. injection E as <-. auto.
Qed.
(** ... and then the exception comes out of the method Ansible has called: the task was
    not run, or its result is not returned. *)
Theorem C74_the_call_raises : forall A xs d d' e, honest A -> shape false A -> druns (begin A) xs d -> own_answers (d_log d) -> not_done d ->
  dstep d Hook = Some d' -> y_phase (d_y d') = PDone e ->
  exists log0 b kb k, plain A log0 (ARun (ACall b kb) k) /\ (d_log d' = log0 \/ exists r, d_log d' = log0 ++ [(b, r)]) /\
    d_p d' = DIn (interpose (kb (BExn e))) (fun r => interpose (k r)) /\
    (kb (BExn EndStrategy) = ARaise EndStrategy -> e = EndStrategy ->
      (forall r, dstep d' (Base r) = None) /\ dstep d' Hook = None /\
      exists d'', dstep d' Leave = Some d'' /\ d_p d'' = interpose (k (Ok 8%Z)) /\ d_log d'' = d_log d').
Proof.
  intros A xs d d' e HA SA R OWN ND H P. pose proof (@druns_hinv _ _ _ _ _ _ _ _ _ _ HA SA R OWN ND) as HI. unfold HInv in HI.
  cbn [PlayModel.dstep] in H. destruct (next_label (d_p d) (y_phase (d_y d))) as [l|] eqn:N; [|discriminate]. destruct (step (d_y d) l) as [y'|] eqn:E; [|discriminate]. injection H as <-. cbn [d_y d_p d_log] in *.
  assert (IP : in_play A (d_log d) (d_p d)).
  { destruct (y_phase (d_y d)) as [| | | |e0] eqn:Q; auto; [|elim (ND e0); exact Q].
    exfalso. destruct HI as (B & PL & HB & SH & EP). rewrite EP in N. destruct B as [x|e0|[a|a rf ad|n|] kb|B k|ls B]; cbn [interpose next_label] in N; try discriminate N; injection N as <-; cbn [SysModel.step] in E; rewrite Q in E; injection E as <-; discriminate P. }
  clear HI. destruct IP as (q & B & k & EP & PL & HB & HK & S & SH & SK & F). rewrite EP in *.
  assert (HQ : hookpos q /\ after_label (DIn q (fun r => interpose (k r))) (PDone e) = DIn (after_label q (PDone e)) (fun r => interpose (k r))).
  { destruct q as [c|e0|a K|h r ad K|K|l0 K|b K|b K|b K|l0 b]; cbn [next_label] in N; try discriminate N; try (split; [exact Logic.I|reflexivity]).
    - destruct (y_phase (d_y d)) eqn:Q; try discriminate N. injection N as <-. cbn [SysModel.step] in E. rewrite Q in E. injection E as <-. discriminate P.
    - destruct (y_phase (d_y d)) eqn:Q; try discriminate N. injection N as <-. cbn [SysModel.step] in E. rewrite Q in E. injection E as <-. discriminate P.
    - exfalso. inversion S as [x A0 E0| | | | |]; subst; inversion E0 as [A1 E1|]; subst; destruct B as [x|x|[a|a rf ad|n|] kb|B0 k1|ls B0]; try discriminate E1; inversion SH.
    - exfalso. apply sim_not_in in S. destruct S as (? & ? & ->). inversion SH.
    - exfalso. inversion S as [x A0 E0| | | | |]; subst; inversion E0 as [A1 E1|]; subst; destruct B as [x|x|[a|a rf ad|n|] kb|B0 k1|ls B0]; try discriminate E1; inversion SH. }
  destruct HQ as (HQ & AL). destruct (F HQ) as (log0 & b & kb & asked & FA & FP & FL). exists log0, b, kb, k. rewrite P, AL.
  assert (AQ : after_label q (PDone e) = interpose (kb (BExn e))).
  { inversion FA as [a K FB FE Q Q2|h r ad K FE FN Q Q2|K FE FN Q Q2|ls K FE FN Q Q2]; subst; cbn [after_label hook_result]; auto. }
  rewrite AQ. csplit; auto.
  - destruct asked; [right; exact FL|left; exact FL].
  - intros KB ->. rewrite KB. cbn [interpose]. csplit; auto.
    + cbn [PlayModel.dstep d_p d_y]. now rewrite P.
    + eexists. split; [cbn [PlayModel.dstep d_p d_y]; rewrite P; reflexivity|]. split; reflexivity.
Qed.
(** The debugger never gets the playbook stuck: unless it is at a stop and the client has
    not yet told the thread to go on, the playbook goes on. *)
Theorem C74_progress : forall A xs d, honest A -> shape false A -> druns (begin A) xs d -> own_answers (d_log d) -> not_done d ->
  (exists c, d_p d = DRet c) \/ (exists e, d_p d = DRaise e) \/
  (forall r, exists d', dstep d (Base r) = Some d') \/ (exists d', dstep d Hook = Some d') \/
  waits_for_client d \/ breaks_rules d.
Proof.
  intros A xs d HA SA R OWN ND. destruct (@druns_pinv _ _ _ _ _ _ _ _ _ _ HA R OWN ND) as (_ & _ & _ & _ & POS & _).
  pose proof (@druns_hinv _ _ _ _ _ _ _ _ _ _ HA SA R OWN ND) as HI. unfold HInv in HI. clear R.
  assert (HOOK : forall l, next_label (d_p d) (y_phase (d_y d)) = Some l -> step (d_y d) l <> None -> exists d', dstep d Hook = Some d').
  { intros l N S. cbn [PlayModel.dstep]. rewrite N. destruct (step (d_y d) l); [eauto|congruence]. }
  destruct (y_phase (d_y d)) as [| |tid|tid task|e] eqn:P.
  - destruct HI as (B & PL & HB & SH & EP). rewrite EP in *. destruct B as [x|e0|b kb|B k|ls B]; cbn [interpose]; eauto.
    + inversion SH.
    + right; right; right; left. eapply HOOK; [reflexivity|]. cbn [SysModel.step]. rewrite P. discriminate.
    + right; right; right; left. eapply HOOK; [reflexivity|]. cbn [SysModel.step]. rewrite P. discriminate.
  - destruct HI as (q & B & k & EP & PL & HB & HK & S & SH & SK & F). unfold breaks_rules. rewrite EP in *. right; right. cbn [innermost].
    destruct q as [c|e0|a K|h r ad K|K|l0 K|b K|b K|b K|l0 b]; cbn [innermost].
    + right; left. eapply HOOK; [reflexivity|]. cbn [SysModel.step]. rewrite P. discriminate.
    + right; left. eapply HOOK; [reflexivity|]. cbn [SysModel.step]. rewrite P. discriminate.
    + destruct (host_open (ts_host a) (y_open (d_y d))) eqn:HO.
      * right; right; right. apply existsb_exists in HO. destruct HO as ((h, task) & X & Y). exists h, task. split; auto. now apply N.eqb_eq.
      * right; left. eapply HOOK; [reflexivity|]. cbn [SysModel.step]. rewrite P, HO. unfold start_task.
        destruct (enter_frame a (y_w (d_y d))) as (w1, [tid|e]); [|discriminate]. destruct (start_decide a tid w1) as (w2, [| |e]); discriminate.
    + destruct (find (fun p => host_eqb (fst p) h) (y_open (d_y d))) as [(h0, task)|] eqn:FO.
      * right; left. eapply HOOK; [reflexivity|]. cbn [SysModel.step]. rewrite P, FO. unfold end_task.
        destruct (find_thread h (y_w (d_y d))) as [t|]; [|discriminate]. destruct (should_stop_on_exception _ _ _ _ _ t) as (t', [ev|]).
        -- destruct (t_stack t) as [|sfid rest]; [discriminate|]. destruct (dget _ sfid); [|discriminate]. destruct (add_var _ _ _ _). discriminate.
        -- unfold end_finish. destruct (dget _ (t_id t)) as [t0|]; [|discriminate]. destruct (tstate_eqb _ _); [discriminate|]. destruct (is_include task); [discriminate|].
           destruct (t_stack t0) as [|sfid rest]; [discriminate|]. destruct (dget _ sfid); [|discriminate]. destruct (del_vars _ _); discriminate.
      * right; right; right. intros h' task IN EQ. apply (find_none _ _ FO) in IN. cbn in IN. unfold host_eqb in IN. rewrite EQ, N.eqb_refl in IN. discriminate.
    + destruct (y_open (d_y d)) as [|o1 [|o2 os]] eqn:O; [right; right; right; cbn; lia| |right; right; right; cbn; lia].
      right; left. eapply HOOK; [reflexivity|]. cbn [SysModel.step]. rewrite P, O. discriminate.
    + right; left. eapply HOOK; [reflexivity|]. cbn [SysModel.step]. rewrite P. destruct (register_all _ _) as (dd, [u|e]); discriminate.
    + left. intros r. cbn [PlayModel.dstep]. rewrite EP. cbn. eauto.
    + exfalso. inversion S as [x A0 E0| | | | |]; subst; inversion E0 as [A1 E1|]; subst; destruct B as [x|x|[a|a rf ad|n|] kb|B0 k1|ls B0]; try discriminate E1; inversion SH.
    + exfalso. apply sim_not_in in S. destruct S as (? & ? & ->). inversion SH.
    + exfalso. inversion S as [x A0 E0| | | | |]; subst; inversion E0 as [A1 E1|]; subst; destruct B as [x|x|[a|a rf ad|n|] kb|B0 k1|ls B0]; try discriminate E1; inversion SH.
  - right; right; right. destruct HI as (q & B & k & EP & PL & HB & HK & S & SH & SK & F). destruct POS as (a & K & IN).
    assert (NX : next_label (d_p d) (PWaitStart tid) = Some LWake).
    { rewrite EP in *. destruct q; cbn [innermost] in IN; try discriminate IN; [reflexivity|]. exfalso. apply sim_not_in in S. destruct S as (? & ? & ->). inversion SH. }
    destruct (waiting tid (y_w (d_y d))) eqn:WT.
    + right; left. unfold waiting in WT. destruct (dget (w_threads (y_w (d_y d))) tid) as [t|] eqn:T; [|discriminate]. exists tid, t. csplit; auto. destruct (t_state t); try discriminate; auto.
    + left. eapply HOOK; [exact NX|]. cbn [SysModel.step]. rewrite P, WT. unfold start_resume. destruct (dget _ tid) as [t|]; [|discriminate]. destruct (tstate_eqb _ _); discriminate.
  - right; right; right. destruct HI as (q & B & k & EP & PL & HB & HK & S & SH & SK & F). destruct POS as (h & r & ad & K & IN).
    assert (NX : next_label (d_p d) (PWaitEnd tid task) = Some LWake).
    { rewrite EP in *. destruct q; cbn [innermost] in IN; try discriminate IN; [reflexivity|]. exfalso. apply sim_not_in in S. destruct S as (? & ? & ->). inversion SH. }
    destruct (waiting tid (y_w (d_y d))) eqn:WT.
    + right; left. unfold waiting in WT. destruct (dget (w_threads (y_w (d_y d))) tid) as [t|] eqn:T; [|discriminate]. exists tid, t. csplit; eauto. destruct (t_state t); try discriminate; auto.
    + left. eapply HOOK; [exact NX|]. cbn [SysModel.step]. rewrite P, WT. unfold end_finish.
      destruct (dget _ tid) as [t0|]; [|discriminate]. destruct (tstate_eqb _ _); [discriminate|]. destruct (is_include task); [discriminate|].
      destruct (t_stack t0) as [|sfid rest]; [discriminate|]. destruct (dget _ sfid); [|discriminate]. destruct (del_vars _ _); discriminate.
  - elim (ND e). exact P.
Qed.
End P.
(* ------------------------------------------------------------------ the hypotheses are met *)
(** One play: a task on host a at the breakpoint, then its result; exceptions are let
    through; the executor returns the play's code. *)
Definition demo_ansible : ansible :=
  ALoad [(s "/p.yml", 3%Z, 1%Z); (s "/p.yml", 4%Z, 1%Z)]
    (ARun (ACall (BQueue (bt hostA t1)) (fun r => match r with
             | BExn e => ARaise e
             | _ => ACall BResults (fun r => match r with BExn e => ARaise e | _ => ARet 0%Z end) end))
          (fun r => match r with Ok c => ARet c | Err e => ARaise e end)).
Notation demo_dstep := (PlayModel.dstep demo_int demo_repr demo_type demo_tmpl demo_args demo_err demo_parse).
Notation demo_druns := (PlayModel.druns demo_int demo_repr demo_type demo_tmpl demo_args demo_err demo_parse).
Fixpoint dexec (d : DS) (xs : list dlabel) : option DS :=
  match xs with [] => Some d | x :: r => match demo_dstep d x with Some d' => dexec d' r | None => None end end.
Lemma dexec_runs d0 xs0 d xs d' : demo_druns d0 xs0 d -> dexec d xs = Some d' -> demo_druns d0 (xs0 ++ xs) d'.
Proof.
  revert xs0 d. induction xs as [|x xs IH]; cbn [dexec]; intros xs0 d R E.
  - injection E as <-. now rewrite app_nil_r.
  - destruct (demo_dstep d x) as [d1|] eqn:E1; [|discriminate]. change (x :: xs) with ([x] ++ xs). rewrite app_assoc. eapply IH; [|exact E]. eapply druns_snoc; eauto.
Qed.
Definition demo_to_stop : list dlabel :=
  [ Env (LConfig []); Env (LReq 1 (RSetBreakpoints src_p [mkSB 3%Z None 0] false)); Env (LReq 2 RConfigurationDone); Hook; Hook; Env (LHeap demo_heap); Hook ].
Definition demo_to_end : list dlabel :=
  demo_to_stop ++ [ Env (LReq 3 (RContinue 2 false)); Hook; Base BUnit; Base (BRes [mkTRes hostA okr 6]); Hook; Hook ].
Definition demo_terminated : list dlabel := demo_to_stop ++ [ Env (LReq 3 RTerminate) ].
Definition dafter (xs : list dlabel) : DS := match dexec (begin demo_ansible) xs with Some d => d | None => begin demo_ansible end.
Lemma dafter_runs xs : dexec (begin demo_ansible) xs <> None -> demo_druns (begin demo_ansible) xs (dafter xs).
Proof. intros H. unfold dafter. destruct (dexec (begin demo_ansible) xs) as [d|] eqn:E; [|congruence]. change xs with ([] ++ xs). eapply dexec_runs; [apply druns_nil|exact E]. Qed.
Example demo_honest : honest demo_ansible /\ shape false demo_ansible.
Proof.
  unfold demo_ansible. split.
  - apply honest_load, honest_run.
    + apply honest_call. intros [| | | |e] N; try (apply honest_raise; congruence); apply honest_call; intros [| | | |e] M; try apply honest_ret; apply honest_raise; congruence.
    + intros [c|e] N; [apply honest_ret|apply honest_raise; congruence].
  - apply shape_load, shape_run.
    + apply shape_call. intros [| | | |e]; try apply shape_raise; apply shape_call; intros [| | | |e]; try apply shape_ret; apply shape_raise.
    + intros [c|e]; [apply shape_ret|apply shape_raise].
Qed.
(** The playbook stops before its task, goes on, and ends as without the debugger. *)
Example C74_met :
  (demo_druns (begin demo_ansible) demo_to_stop (dafter demo_to_stop) /\ y_phase (d_y (dafter demo_to_stop)) = PWaitStart 2 /\
   ran (d_log (dafter demo_to_stop)) = [] /\ shown (d_ls (dafter demo_to_stop)) = [bt hostA t1] /\ waits_for_client (dafter demo_to_stop)) /\
  (demo_druns (begin demo_ansible) demo_to_end (dafter demo_to_end) /\ y_phase (d_y (dafter demo_to_end)) = PIdle /\ d_p (dafter demo_to_end) = DRet 0%Z /\
   d_log (dafter demo_to_end) = [(BQueue (bt hostA t1), BUnit); (BResults, BRes [mkTRes hostA okr 6])] /\ trace_wf (d_ls (dafter demo_to_end))).
Proof.
  csplit; try (apply dafter_runs; vm_compute; discriminate); try (vm_compute; reflexivity).
  - exists 2, (mkThread 2 (Some hostA) [1] TWait (Some t1)). csplit; try (vm_compute; reflexivity). left. vm_compute. reflexivity.
  - replace (d_ls (dafter demo_to_end)) with [LConfig []; LReq 1 (RSetBreakpoints src_p [mkSB 3%Z None 0] false); LReq 2 RConfigurationDone; LLoad [(s "/p.yml", 3%Z, 1%Z); (s "/p.yml", 4%Z, 1%Z)]; LPlay; LHeap demo_heap; LStart (bt hostA t1); LReq 3 (RContinue 2 false); LWake; LEnd hostA okr 6; LPlayEnd] by (vm_compute; reflexivity).
    wf.
Qed.
(** terminate at the stop: the task never runs, the play's code is 8. *)
Example C74_terminate_met : demo_druns (begin demo_ansible) demo_terminated (dafter demo_terminated) /\
  match dexec (dafter demo_terminated) [Hook; Leave] with
  | Some d => y_phase (d_y d) = PDone EndStrategy /\ d_p d = DRet 8%Z /\ d_log d = []
  | None => False end.
Proof. split; [apply dafter_runs; vm_compute; discriminate|]. vm_compute. auto. Qed.

Print Assumptions C74_transparent.
Print Assumptions C74_session.
Print Assumptions C74_every_task_is_shown.
Print Assumptions C74_ends_only_if_asked.
Print Assumptions C74_the_call_raises.
Print Assumptions C74_progress.
