(** C79: a stopped event leads the client to the stopped task.  C36: threads carry the names
    of the hosts they were announced for. *)
From Verif Require Import PyBase PyDict DbgTypes BpModel BpSpec BpProofs2 BpProofs3 BpProps ThreadModel ThreadSpec StratModel SysModel SysSpec SysProofs SysProofs2 SysProofs3 SysProofs4 SysProofs5 SysProofs6 SysProofs7 SysProofs8 SysProofs9 SysProofs10 SysProofs11 SysDemo HistSpec HistProps StackSpec StackProofs StackProps LeadSpec LeadProofs.
Set Implicit Arguments.
Local Open Scope N_scope.
Ltac csplit := repeat match goal with |- _ /\ _ => split end.

Lemma decide_stopped a tid t w : dget (w_threads w) tid = Some t -> t_id t = tid ->
  let '(w', o) := start_decide a tid w in
  match o with
  | Blocks => exists ev, stopped_events (d_out (w_dbg w')) = stopped_events (d_out (w_dbg w)) ++ [ev] /\ st_thread ev = tid
  | _ => stopped_events (d_out (w_dbg w')) = stopped_events (d_out (w_dbg w)) end.
Proof.
  intros H TI. unfold start_decide. destruct (n_path (ts_task a)) as [(path, line)|]; [|reflexivity].
  match goal with |- context [match ?x with Ok _ => _ | Err _ => _ end] => destruct x as [id|e] end; [|reflexivity]. rewrite H.
  destruct (should_break (ts_task a) id t) as (t', [ev|]) eqn:SB; [|reflexivity]. exists ev. split.
  - cbn. rewrite sev_app. reflexivity.
  - unfold should_break in SB. destruct (break_step_over _ _); [injection SB as _ <-; exact TI|]. destruct (break_step_out _ _); [injection SB as _ <-; exact TI|].
    destruct (break_step_in _); [injection SB as _ <-; exact TI|]. destruct id; [|discriminate]. destruct (tstate_eqb _ _); [discriminate|]. injection SB as _ <-. exact TI.
Qed.
Lemma end_task_stopped h task r addr w : WInv w -> open_ok h task w ->
  match end_task h task r addr w with
  | (w', Blocks, Some tid) => exists ev, stopped_events (d_out (w_dbg w')) = stopped_events (d_out (w_dbg w)) ++ [ev] /\ st_thread ev = tid
  | (w', _, _) => stopped_events (d_out (w_dbg w')) = stopped_events (d_out (w_dbg w)) end.
Proof.
  intros I OK. destruct OK as (tid & t & HI & HT & sfid & rest & f & SS & HF & _).
  destruct (@thread_for_find h w tid t I (conj HT HI)) as (FT & TID). unfold end_task. rewrite FT.
  destruct (should_stop_on_exception _ _ _ _ _ t) as (t', [ev|]) eqn:SE; [|reflexivity]. rewrite SS. cbv zeta.
  change (w_frames (set_thread t' w)) with (w_frames w). rewrite HF.
  destruct (add_var sfid VKDict addr (set_thread t' w)) as (vid, w2) eqn:AV. exists ev. split.
  - assert (O2 : d_out (w_dbg w2) = d_out (w_dbg w)) by (unfold add_var in AV; cbn -[dset dget] in AV; injection AV as _ <-; reflexivity).
    cbn. rewrite sev_app. f_equal. destruct (dget (w_frames w2) sfid); cbn; now rewrite O2.
  - unfold should_stop_on_exception in SE. match type of SE with (match ?x with Some _ => _ | None => _ end) = _ => destruct x as [(m, tx)|] end; [|discriminate].
    injection SE as _ <-. reflexivity.
Qed.
Lemma finish_out tid task w : d_out (w_dbg (fst (end_finish tid task w))) = d_out (w_dbg w).
Proof.
  unfold end_finish. destruct (dget (w_threads w) tid); [|reflexivity]. destruct (tstate_eqb _ _); [reflexivity|]. destruct (is_include task); [reflexivity|].
  destruct (t_stack _); [reflexivity|]. cbv zeta. destruct (dget _ n); [|reflexivity]. destruct (del_vars _ _); reflexivity.
Qed.
Lemma trail_last h ls : last_task h ls = option_map fst (trail h ls).
Proof.
  induction ls as [|l ls IH] using rev_ind; [reflexivity|]. unfold last_task in *. rewrite fold_left_app, trail_snoc. cbn [fold_left]. rewrite IH.
  destruct l; cbn; try reflexivity. destruct (N.eqb _ _); reflexivity.
Qed.

Section S.
Variable py_int : pystr -> option Z.
Variable py_repr : heap -> val -> pystr.
Variable type_name : heap -> val -> pystr.
Variable tmpl : pystr -> nat -> heap -> res (list obj * val).
Variable tmpl_args : nat -> nat -> heap -> res (list obj * val).
Variable err_text : exn -> pystr.
Variable parse_repl : pystr -> res ReplCmd.
Notation step := (step py_int py_repr type_name tmpl tmpl_args err_text parse_repl).
Notation run := (run py_int py_repr type_name tmpl tmpl_args err_text parse_repl).
Notation out y := (d_out (w_dbg (y_w y))).

(** One step: nothing stops and no stopped event is sent, or a task start or end stops,
    with one event. *)
Lemma step_stop y l y' : SInv y -> label_wf l -> step y l = Some y' ->
  (stopped_events (out y') = stopped_events (out y) /\ (is_stopped y' -> y_phase y' = y_phase y /\ strategy_label l = false)) \/
  (exists ev h task, ~ is_stopped y /\ stopped_on (st_thread ev) y' /\ stopped_events (out y') = stopped_events (out y) ++ [ev] /\
     acting_step None l = Some h /\ in_task h task (st_thread ev) y').
Proof.
  intros S W H. pose proof (y_inv S) as I. pose proof (y_dwf S) as D.
  assert (NS : forall w o rq, ~ is_stopped (mkSys w PRun o rq)) by (intros w o rq (tid & [X|(task & X)]); discriminate).
  assert (ND : forall w o rq e, ~ is_stopped (mkSys w (PDone e) o rq)) by (intros w o rq e (tid & [X|(task & X)]); discriminate).
  assert (NR : y_phase y = PRun -> ~ is_stopped y) by (intros E (tid & [X|(task & X)]); congruence).
  assert (SAME : stopped_events (out y') = stopped_events (out y) -> ~ is_stopped y' ->
     (stopped_events (out y') = stopped_events (out y) /\ (is_stopped y' -> y_phase y' = y_phase y /\ strategy_label l = false)) \/
     (exists ev h task, ~ is_stopped y /\ stopped_on (st_thread ev) y' /\ stopped_events (out y') = stopped_events (out y) ++ [ev] /\
        acting_step None l = Some h /\ in_task h task (st_thread ev) y')).
  { intros E N. left. split; auto. intros X. contradiction. }
  destruct (strategy_label l) eqn:SL.
  2:{ left. destruct (@step_marks py_int py_repr type_name tmpl tmpl_args err_text parse_repl y l y' S W H) as (ms & E & _ & K).
      destruct (K SL) as (_ & K2). split; [now rewrite E, sev_app, K2, app_nil_r|]. intros X. split; auto.
      destruct l; try discriminate; try (eapply (@step_other py_int py_repr type_name tmpl tmpl_args err_text parse_repl); eauto; discriminate).
      cbn in H. destruct (y_phase y); try discriminate. injection H as <-. exfalso. eapply NS; eauto. }
  destruct l as [|a|h1 r addr| | |regs| |seq r| |maps| |hp|lregs]; try discriminate; cbn [SysModel.step] in H.
  - destruct (y_phase y) eqn:P; try discriminate. destruct (host_open _ _); [discriminate|].
    destruct (@start_task_spec a (y_w y) I D W) as (tid & _ & E).
    pose proof (enter_stopped a (y_w y)) as ES. destruct (@enter_frame_spec a (y_w y) I D W) as (tid1 & _ & _ & EF).
    unfold start_task in *. destruct (enter_frame a (y_w y)) as (w1, [tid2|e]); cbn [fst] in ES.
    + destruct EF as (-> & I1 & _ & _ & _ & t1 & (T1 & _) & _). destruct (i_t I1 _ T1) as (TI & _).
      pose proof (@decide_stopped a tid1 t1 w1 T1 TI) as DS. destruct (start_decide a tid1 w1) as (w2, [| |e]).
      * injection H as <-. apply SAME; auto. cbn. now rewrite DS.
      * injection H as <-. right. destruct DS as (ev & E1 & E2). destruct E as (-> & _ & _ & (t' & HI & OT & _) & _). subst tid.
        exists ev, (h_uuid (ts_host a)), (ts_task a). rewrite !E2. unfold in_task. csplit; auto.
        -- now left.
        -- cbn [y_w]. now rewrite E1, ES.
        -- cbn [y_w]. destruct OT as (OT & _). destruct (host_is_host _ _ HI) as (h' & A & B). exists t', h'. auto.
        -- left. exists (ts_host a). split; [now left|reflexivity].
      * injection H as <-. apply SAME; [|apply ND]. cbn [abort y_w]. destruct E as (_ & I2 & _). rewrite stopped_exit by auto. now rewrite DS.
    + injection H as <-. apply SAME; [|apply ND]. cbn [abort y_w]. destruct E as (I2 & _). rewrite stopped_exit by auto. exact ES.
  - destruct (y_phase y) eqn:P; try discriminate. destruct (find _ (y_open y)) as [(h2, task)|] eqn:F; [|discriminate].
    apply find_open in F. destruct F as (F1 & F2). cbn in F2.
    assert (OKh : open_ok h1 task (y_w y)).
    { destruct (y_ok S _ _ F1) as (tid & t & A & B). exists tid, t. split; auto. unfold host_is in *. destruct (t_host t); [|discriminate]. now rewrite <- F2. }
    destruct (@end_task_spec h1 task r addr (y_w y) I OKh) as (tid & t & TF & OT & E). pose proof (@end_task_stopped h1 task r addr (y_w y) I OKh) as ES.
    destruct (end_task h1 task r addr (y_w y)) as ((w', [| |e]), [tid'|]); try contradiction.
    + destruct E as (-> & ->). pose proof (finish_out tid task (y_w y)) as FO.
      assert (N1 : tid <> 1). { destruct TF as (T1 & T2). destruct (host_is_host _ _ T2) as (h3 & HH & _). eapply (@thread_not_main (y_w y) tid t I T1). rewrite HH. discriminate. }
      pose proof (@end_finish_spec tid t task (y_w y) I OT N1) as EF.
      destruct (end_finish tid task (y_w y)) as (w2, [| |e]); cbn [fst] in FO; [|discriminate|]; injection H as <-; (apply SAME; [cbn [abort y_w]|first [apply NS|apply ND]]).
      * now rewrite FO.
      * destruct EF as (-> & _). now rewrite stopped_exit.
    + injection H as <-. right. destruct ES as (ev & E1 & E2). destruct E as (-> & _ & _ & t' & (OT' & _) & (_ & SH & _) & _). subst tid.
      exists ev, (h_uuid h1), task. rewrite ?E2. unfold in_task. csplit; auto.
      * right. exists task. reflexivity.
      * cbn [y_w]. destruct TF as (_ & TF). destruct (host_is_host _ _ TF) as (h' & A & B). exists t', h'. csplit; auto. congruence.
  - destruct (y_phase y) eqn:P; try discriminate.
    + destruct (waiting _ _); [discriminate|]. destruct (start_resume _ _); try discriminate; injection H as <-; (apply SAME; [|first [apply NS|apply ND]]); [reflexivity|]. cbn [abort y_w]. now rewrite stopped_exit.
    + destruct (waiting _ _); [discriminate|]. pose proof (y_ph S) as Q. rewrite P in Q. destruct Q as (t & h & OT & TH & _).
      assert (N1 : tid <> 1). { destruct OT as (T1 & _). eapply (@thread_not_main (y_w y) tid t I T1). rewrite TH. discriminate. }
      pose proof (finish_out tid task (y_w y)) as FO. pose proof (@end_finish_spec tid t task (y_w y) I OT N1) as EF.
      destruct (end_finish tid task (y_w y)) as (w2, [| |e]); cbn [fst] in FO; [|discriminate|]; injection H as <-; (apply SAME; [cbn [abort y_w]|first [apply NS|apply ND]]).
      * now rewrite FO.
      * destruct EF as (-> & _). now rewrite stopped_exit.
  - destruct (y_phase y); try discriminate. destruct (y_open y) as [|? [|]]; try discriminate. injection H as <-. apply SAME; auto. cbn [y_w]. now rewrite stopped_exit.
  - destruct (y_phase y); try discriminate. pose proof (@register_quiet regs (w_dbg (y_w y)) W) as Q.
    destruct (register_all regs (w_dbg (y_w y))) as (d, x) eqn:R. pose proof (register_stopped _ _ R) as RS. cbn [fst] in Q.
    destruct x as [u|e]; injection H as <-; (apply SAME; [|first [apply NS|apply ND]]); [exact RS|]. cbn [abort y_w]. rewrite stopped_exit; auto. apply inv_dbg; auto. now apply quiet_ctr.
  - destruct (y_phase y); try discriminate. injection H as <-. apply SAME; [cbn [y_w]; now rewrite stopped_exit|]. intros (tid & [X|(task & X)]); discriminate.
  - destruct (y_phase y); try discriminate. injection H as <-. destruct (register_all lregs (w_dbg (y_w y))) as (d, x) eqn:R. apply SAME; [cbn; apply (register_stopped _ _ R)|].
    intros (tid & [X|(task & X)]); discriminate.
Qed.

Lemma stop_inv ls : forall y tid, trace_wf ls -> run sys_init ls y -> stopped_on tid y ->
  exists h task evs ev, acting ls = Some h /\ in_task h task tid y /\ stopped_events (out y) = evs ++ [ev] /\ st_thread ev = tid.
Proof.
  induction ls as [|l ls IH] using rev_ind; intros y tid W R ST.
  - inversion R; subst. destruct ST as [X|(task & X)]; discriminate.
  - apply Forall_app in W. destruct W as (W1 & W2). inversion W2 as [|? ? W3 _]; subst.
    apply run_snoc in R. destruct R as (y1 & R1 & HS). pose proof (@run_sinv py_int py_repr type_name tmpl tmpl_args err_text parse_repl _ _ W1 R1) as S1.
    unfold acting. rewrite fold_left_app. cbn [fold_left]. fold (acting ls).
    destruct (@step_stop y1 l y S1 W3 HS) as [(E & X)|(ev & h & task & N & SO & E & A & T)].
    + destruct (X (ex_intro _ tid ST)) as (P & SL).
      assert (ST1 : stopped_on tid y1) by (unfold stopped_on in *; now rewrite <- P).
      destruct (IH y1 tid W1 R1 ST1) as (h & task & evs & ev & A & T & E2 & TI). exists h, task, evs, ev.
      assert (NP : l <> LPlay). { intros ->. cbn in HS. destruct ST1 as [Y|(z & Y)]; rewrite Y in HS; discriminate. }
      destruct (@step_other py_int py_repr type_name tmpl tmpl_args err_text parse_repl y1 l y S1 W3 HS SL NP) as (Q & _ & O).
      destruct T as ((t & h' & T1 & T2 & T3) & TT). destruct (q_t Q _ T1) as (t' & T1' & (_ & SH & _)).
      split; [destruct l; try discriminate; exact A|]. split; [|split; [congruence|exact TI]].
      split; [exists t', h'; csplit; auto; congruence|]. now rewrite O, P.
    + assert (tid = st_thread ev). { destruct SO as [Y|(z & Y)], ST as [Z|(z' & Z)]; congruence. } subst tid.
      exists h, task, (stopped_events (out y1)), ev. csplit; auto. destruct l; try discriminate; exact A.
Qed.

Lemma thread_infos y seq : pending y = [] -> has_strategy y = true ->
  exists y', step y (LReq seq RThreads) = Some y' /\ out y' = out y ++ [Some (OThreads seq (map thread_info (dvals (w_threads (y_w y)))))].
Proof.
  intros P HS. assert (RC : y_recv y = None) by (unfold pending in P; destruct (y_recv y); [discriminate|auto]).
  eexists. split. { cbn [SysModel.step]. rewrite RC, HS. cbn [needs_strategy andb negb before_strategy]. reflexivity. }
  destruct y as [[d x h p] ph o rc]. reflexivity.
Qed.
Lemma stopped_strategy tid y : stopped_on tid y -> has_strategy y = true.
Proof. unfold has_strategy. intros [-> |(t & ->)]; reflexivity. Qed.

(** C36.  threads answers with main, and every other thread under the name of the host
    at whose task the thread was announced to the client. *)
Theorem C36_threads_named_after_hosts ls y seq : trace_wf ls -> run sys_init ls y -> pending y = [] -> has_strategy y = true ->
  exists y' infos, step y (LReq seq RThreads) = Some y' /\ out y' = out y ++ [Some (OThreads seq (mkTI 1 (s "main") :: infos))] /\
    map ti_id infos = alive (thread_events (out y)) /\
    forall i, In i infos -> exists h, ti_name i = h_name h /\ announced run step ls (ti_id i) h.
Proof.
  intros W R P HS. pose proof (@run_sinv py_int py_repr type_name tmpl tmpl_args err_text parse_repl _ _ W R) as S. pose proof (y_inv S) as I.
  destruct (@thread_infos y seq P HS) as (y' & ST & O). destruct (run_tinv sinv_init W R tinv_init) as (A & _ & _).
  pose proof (run_hosts W R) as RH. destruct (i_main I) as (st & sn & M). pose proof (i_tnd I) as ND. pose proof (i_t I) as IT.
  destruct (w_threads (y_w y)) as [|(k, t) rest] eqn:E; [discriminate|]. cbn [dkeys map fst] in A. injection A as -> A.
  assert (t = mkThread 1 None [] st sn). { cbn in M. congruence. } subst t.
  exists y', (map thread_info (dvals rest)). split; auto. split; [exact O|]. 
  assert (IN : forall k t, In (k, t) rest -> dget ((1, mkThread 1 None [] st sn) :: rest) k = Some t) by (intros k t X; apply In_dget; auto; now right).
  split.
  - change (map fst rest) with (dkeys rest) in A. rewrite <- A. unfold dvals, dkeys. rewrite !map_map. apply map_ext_in. intros (k, t) X. apply IN, IT in X. cbn. tauto.
  - intros i X. unfold dvals in X. apply in_map_iff in X. destruct X as (t & <- & X). apply in_map_iff in X. destruct X as ((k, t1) & E1 & X). cbn in E1. subst t1.
    pose proof (IN _ _ X) as X1. destruct (IT _ _ X1) as (TI & _ & TH & _). destruct (t_host t) as [h|] eqn:HO.
    + exists h. split; [unfold thread_info; cbn; now rewrite HO|]. cbn. rewrite TI. eapply RH; eauto.
    + exfalso. specialize (TH eq_refl). subst k. change (NoDup (1 :: map fst rest)) in ND. inversion ND as [|? ? N1 _]; subst. apply N1. rewrite <- TH. apply (in_map fst _ _ X).
Qed.

(** C79.  A stopped event is sent exactly when a starting or ending task makes the playbook
    wait, one event each time, naming the thread that waits. *)
Theorem C79_one_event_per_stop ls y l y' : trace_wf (ls ++ [l]) -> run sys_init ls y -> step y l = Some y' ->
  (~ is_stopped y /\ is_stopped y' ->
     exists ev, stopped_events (out y') = stopped_events (out y) ++ [ev] /\ stopped_on (st_thread ev) y') /\
  (~ (~ is_stopped y /\ is_stopped y') -> stopped_events (out y') = stopped_events (out y)).
Proof.
  intros W R H. apply Forall_app in W. destruct W as (W1 & W2). inversion W2 as [|? ? W3 _]; subst.
  pose proof (@run_sinv py_int py_repr type_name tmpl tmpl_args err_text parse_repl _ _ W1 R) as S.
  destruct (@step_stop y l y' S W3 H) as [(E & X)|(ev & h & task & N & SO & E & A & T)].
  - split; auto. intros (N & Y). exfalso. destruct (X Y) as (P & _). apply N. destruct Y as (tid & Y). exists tid. unfold stopped_on in *. now rewrite <- P.
  - split; [eauto|]. intros Z. exfalso. apply Z. split; auto. eexists; eauto.
Qed.

(** While the playbook waits, the last stopped event names thread [tid]; threads lists it
    under the name of the host whose task was started or ended last, and stackTrace of
    it shows this host's current task on top, with the includes still open below. *)
Theorem C79_stop_leads_to_task ls y tid : trace_wf ls -> run sys_init ls y -> stopped_on tid y ->
  exists h task below, acting ls = Some h /\ trail h ls = Some (task, below) /\ last_task h ls = Some task /\
    (exists evs ev, stopped_events (out y) = evs ++ [ev] /\ st_thread ev = tid) /\
    (pending y = [] -> forall seq,
      (exists y' infos host, step y (LReq seq RThreads) = Some y' /\ out y' = out y ++ [Some (OThreads seq infos)] /\
         In (mkTI tid (h_name host)) infos /\ NoDup (map ti_id infos) /\ h_uuid host = h /\ announced run step ls tid host) /\
      (exists y', step y (LReq seq (RStackTrace tid)) = Some y' /\
         ((forall n, In n (task :: below) -> n_path n <> None) ->
          exists fis, out y' = out y ++ [Some (OFrames seq fis (N.of_nat (length fis)))] /\ Forall2 (shows (mappings ls)) fis (task :: below)))).
Proof.
  intros W R ST. destruct (@stop_inv ls y tid W R ST) as (h & task & evs & ev & A & T & E & TI).
  pose proof (stopped_strategy ST) as HS. pose proof (@run_sinv py_int py_repr type_name tmpl tmpl_args err_text parse_repl _ _ W R) as S. pose proof (y_inv S) as I.
  assert (TB : exists below, trail h ls = Some (task, below)).
  { pose proof (@run_J py_int py_repr type_name tmpl tmpl_args err_text parse_repl h ls y W R HS) as [_ JO JE].
    destruct T as ((t & h' & T1 & T2 & T3) & [(h2 & O1 & O2)|O]); [eapply JO; eauto|]. eapply JE; [exact O|]. split; eauto. }
  destruct TB as (below & TB). exists h, task, below. split; auto. split; auto. split; [now rewrite trail_last, TB|]. split; [eauto|].
  intros P seq. split.
  - destruct (@thread_infos y seq P HS) as (y' & H & O). destruct T as ((t & h' & T1 & T2 & T3) & _).
    exists y', (map thread_info (dvals (w_threads (y_w y)))), h'. csplit; auto.
    + apply in_map_iff. exists t. destruct (i_t I _ T1) as (TID & _). split; [unfold thread_info; now rewrite T2, TID|].
      unfold dvals. apply in_map_iff. exists (tid, t). split; auto. now apply dget_In.
    + replace (map ti_id (map thread_info (dvals (w_threads (y_w y))))) with (dkeys (w_threads (y_w y))); [apply (i_tnd I)|].
      unfold dvals, dkeys. rewrite !map_map. apply map_ext_in. intros (k, t0) X. apply In_dget in X; [|apply (i_tnd I)]. apply (i_t I) in X. cbn. symmetry. tauto.
    + eapply run_hosts; eauto.
  - assert (RC : y_recv y = None) by (unfold pending in P; destruct (y_recv y); [discriminate|auto]).
    destruct (step y (LReq seq (RStackTrace tid))) as [y'|] eqn:H; [|cbn in H; rewrite RC, HS in H; discriminate].
    exists y'. split; auto. destruct (@C32_stack_trace_exact py_int py_repr type_name tmpl tmpl_args err_text parse_repl h ls y tid task seq y' W R T H) as (b & TB' & X).
    assert (b = below) by congruence. subst b. exact X.
Qed.
End S.
Print Assumptions C36_threads_named_after_hosts.
Print Assumptions C79_one_event_per_stop.
Print Assumptions C79_stop_leads_to_task.

(** Host b runs an include freely, then host a stops at the breakpoint: thread 3 is named a,
    and its stack shows line 3 of the playbook.  Later host b's task fails and stops. *)
Definition lead_start : list label := demo_setup ++ [ LStart (bt hostB t2); LEnd hostB okr 6; LStart (bt hostA t1) ].
Definition lead_end : list label := lead_start ++ [ LReq 7 (RContinue 3 true); LWake; LStart (bt hostB t3); LEnd hostA okr 6; LEnd hostB failr 6 ].
Definition last_reply (ls : list label) (r : Req) : option (option Out) :=
  match dstep (after ls) (LReq 50 r) with Some y' => hd_error (rev (d_out (w_dbg (y_w y')))) | None => None end.
Example C79_start_met :
  trace_wf lead_start /\ drun sys_init lead_start (after lead_start) /\ stopped_on 3 (after lead_start) /\ pending (after lead_start) = [] /\
  acting lead_start = Some 100 /\ trail 100 lead_start = Some (t1, []) /\
  last_reply lead_start RThreads = Some (Some (OThreads 50 [mkTI 1 (s "main"); mkTI 2 (s "b"); mkTI 3 (s "a")])) /\
  (exists id, last_reply lead_start (RStackTrace 3) = Some (Some (OFrames 50 [mkFI id (s "t") (s "/p.yml") 3%Z] 1))).
Proof.
  split; [unfold lead_start, demo_setup; wf|]. split; [apply after_run; vm_compute; discriminate|]. split; [left; vm_compute; reflexivity|].
  csplit; try (vm_compute; reflexivity). eexists. vm_compute. reflexivity.
Qed.
Example C79_end_met :
  trace_wf lead_end /\ drun sys_init lead_end (after lead_end) /\ stopped_on 2 (after lead_end) /\ pending (after lead_end) = [] /\
  acting lead_end = Some 101 /\ trail 101 lead_end = Some (t3, [t2]) /\ map st_thread (stopped_events (d_out (w_dbg (y_w (after lead_end))))) = [3; 2].
Proof.
  split; [unfold lead_end, lead_start, demo_setup; wf|]. split; [apply after_run; vm_compute; discriminate|]. split; [right; exists t3; vm_compute; reflexivity|].
  csplit; vm_compute; reflexivity.
Qed.
