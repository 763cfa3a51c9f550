(** Steps of the system, seen as a whole. *)
From Verif Require Import PyBase PyDict DbgTypes BpModel BpSpec BpProofs2 BpProofs3 BpProps ThreadModel StratModel SysModel SysSpec SysProofs SysProofs2 SysProofs3 SysProofs4 SysProofs5 SysProofs6 SysProofs7 SysProofs8 SysProofs9 SysProofs10.
Set Implicit Arguments.
Local Open Scope N_scope.

Definition strategy_label (l : label) : bool :=
  match l with LStart _ | LEnd _ _ _ | LWake | LRefresh | LInclude _ | LPlayEnd | LLoad _ => true | _ => false end.

Section S.
Variable py_int : pystr -> option Z.
Variable py_repr : heap -> val -> pystr.
Variable type_name : heap -> val -> pystr.
Variable tmpl : pystr -> nat -> heap -> res (list obj * val).
Variable tmpl_args : nat -> nat -> heap -> res (list obj * val).
Variable err_text : exn -> pystr.
Variable parse_repl : pystr -> res ReplCmd.
Notation handle := (handle py_int py_repr type_name tmpl tmpl_args err_text parse_repl).
Notation step := (step py_int py_repr type_name tmpl tmpl_args err_text parse_repl).
Notation run := (run py_int py_repr type_name tmpl tmpl_args err_text parse_repl).

Lemma handle_out seq r w ops : WInv w -> binv (w_dbg w) ops -> req_wf r ->
  exists ms, d_out (w_dbg (handle seq r w)) = d_out (w_dbg w) ++ ms /\ marks ms = expects_marks (seq, r) /\ thread_events ms = [] /\ stopped_events ms = [].
Proof.
  intros I B W. destruct (@process_spec py_int py_repr type_name tmpl tmpl_args err_text parse_repl seq r w ops I B W) as (I' & Q & A). unfold SysModel.handle.
  assert (NE : forall o c, resp_of o = Some c -> thread_events [Some o] = [] /\ stopped_events [Some o] = []) by (intros o c0 E; destruct o; try discriminate; auto).
  destruct (process _ _ _ _ _ _ _ seq r w) as (w', [u|e]); cbn [fst snd answered] in *.
  - destruct r; cbn [answered] in A; try (destruct A as (o & A & E); exists [Some o]; split; [exact A|]; destruct (NE _ _ E); csplit; auto; cbn; rewrite E; reflexivity);
      eexists; (split; [exact A|]); auto.
  - destruct A as (A & N). eexists. split; [cbn; rewrite A; reflexivity|]. csplit; auto. destruct r; try contradiction; reflexivity.
Qed.

Lemma step_micro y l y' : SInv y -> label_wf l -> step y l = Some y' -> strategy_label l = true ->
  msteps (y_w y) (y_w y') /\ y_recv y' = y_recv y.
Proof.
  intros S W H SL. pose proof (y_inv S) as I. pose proof (y_dwf S) as D.
  assert (AB : forall w e, WInv w -> msteps (y_w y) w -> msteps (y_w y) (y_w (abort e w y)) /\ y_recv (abort e w y) = y_recv y).
  { intros w e Iw M. split; auto. cbn. eapply ms_trans; [exact M|]. now apply exit_threads_micro. }
  destruct l as [|a|h r addr| | |regs| |seq r| |maps| |hp|lregs]; try discriminate; cbn [SysModel.step] in H.
  - destruct (y_phase y) eqn:P; try discriminate. destruct (host_open (ts_host a) (y_open y)); [discriminate|].
    pose proof (@start_task_micro a (y_w y) I D W) as M. destruct (@start_task_spec a (y_w y) I D W) as (tid & _ & E).
    destruct (start_task a (y_w y)) as ((w', o), [tid'|]); cbn [fst] in M.
    + destruct E as (_ & I' & _). destruct o; injection H as <-; auto.
    + destruct E as (I' & _ & e & -> & _). injection H as <-. auto.
  - destruct (y_phase y) eqn:P; try discriminate. destruct (find _ (y_open y)) as [(h0, task)|] eqn:F; [|discriminate].
    apply find_open in F. destruct F as (F1 & F2). cbn in F2.
    assert (OKh : open_ok h task (y_w y)).
    { destruct (y_ok S _ _ F1) as (tid & t & A & B). exists tid, t. split; auto. unfold host_is in *. destruct (t_host t); [|discriminate]. now rewrite <- F2. }
    pose proof (@end_task_micro h task r addr (y_w y) I OKh) as M.
    destruct (@end_task_spec h task r addr (y_w y) I OKh) as (tid & t & (T1 & T2) & OT & E).
    destruct (end_task h task r addr (y_w y)) as ((w', o), [tid'|]); [|destruct o; contradiction]. cbn [fst] in M.
    destruct o; [| |contradiction].
    + destruct E as (-> & ->). pose proof (@end_finish_micro tid t task (y_w y) I OT) as M2.
      destruct (end_finish tid task (y_w y)) as (w2, [| |e]); cbn [fst] in M2; [|discriminate|]; injection H as <-; auto.
      apply AB; auto. apply (msteps_inv M2 I).
    + injection H as <-. auto.
  - destruct (y_phase y) as [| |tid|tid task|] eqn:P; try discriminate; destruct (waiting tid (y_w y)) eqn:WA; try discriminate.
    + destruct (start_resume tid (y_w y)); try discriminate; injection H as <-; [|apply AB; auto; constructor]. split; [constructor|reflexivity].
    + pose proof (y_ph S) as PH. rewrite P in PH. destruct PH as (t & h & PH1 & _).
      pose proof (@end_finish_micro tid t task (y_w y) I PH1) as M2.
      destruct (end_finish tid task (y_w y)) as (w2, [| |e]); cbn [fst] in M2; [|discriminate|]; injection H as <-; auto.
      apply AB; auto. apply (msteps_inv M2 I).
  - destruct (y_phase y) eqn:P; try discriminate. destruct (y_open y) as [|p [|]]; try discriminate. injection H as <-. split; auto. now apply exit_threads_micro.
  - destruct (y_phase y) eqn:P; try discriminate. pose proof (@register_quiet regs (w_dbg (y_w y)) W) as Q.
    destruct (register_all regs (w_dbg (y_w y))) as (d', [u|e]); cbn [fst] in Q; injection H as <-.
    + split; auto. cbn. now apply ms_one, m_dbg.
    + apply AB; [apply inv_dbg; auto; now apply quiet_ctr|]. now apply ms_one, m_dbg.
  - destruct (y_phase y) eqn:P; try discriminate. injection H as <-. split; auto. now apply exit_threads_micro.
  - destruct (y_phase y) eqn:P; try discriminate. pose proof (@register_quiet lregs (w_dbg (y_w y)) W) as Q. injection H as <-. split; auto. cbn. now apply ms_one, m_dbg.
Qed.

Lemma shutdown_out b w : d_out (w_dbg (shutdown b w)) = d_out (w_dbg w).
Proof. unfold shutdown. destruct (b && _); auto. unfold disconnect. now rewrite resume_out. Qed.
Lemma before_out r w : d_out (before_strategy r w) = d_out w.
Proof. destruct r; reflexivity. Qed.

Lemma step_other y l y' : SInv y -> label_wf l -> step y l = Some y' -> strategy_label l = false -> l <> LPlay ->
  qext (y_w y) (y_w y') /\ y_phase y' = y_phase y /\ y_open y' = y_open y.
Proof.
  intros S W H SL NP. pose proof (y_inv S) as I. pose proof (y_dwf S) as D.
  destruct l as [|a|h r addr| | |regs| |seq r| |maps| |hp|lregs]; try discriminate; try congruence; cbn [SysModel.step] in H.
  - destruct (y_recv y) eqn:R; [discriminate|]. destruct (@before_good r (y_w y) I) as (I1 & Q1).
    set (w1 := wd (before_strategy r (w_dbg (y_w y))) (y_w y)) in *.
    assert (D1 : dwf (w_dbg w1)) by (eapply dwf_dext; [exact D|apply (q_d Q1)]).
    destruct (needs_strategy r && negb (has_strategy y)) eqn:NS; injection H as <-; cbn; csplit; auto.
    destruct (dwf_binv D1) as (ops & B). destruct (@handle_spec py_int py_repr type_name tmpl tmpl_args err_text parse_repl seq r w1 ops I1 B W) as (I2 & Q2 & _).
    eapply qext_trans; eauto.
  - destruct (y_recv y) as [(seq, r)|] eqn:R; [|discriminate]. destruct (has_strategy y) eqn:HS; [|discriminate]. injection H as <-.
    pose proof (y_rq S) as RW. rewrite R in RW. destruct RW as (RW & _).
    destruct (dwf_binv D) as (ops & B). destruct (@handle_spec py_int py_repr type_name tmpl tmpl_args err_text parse_repl seq r (y_w y) ops I B RW) as (I2 & Q2 & _). auto.
  - destruct (y_recv y); [discriminate|]. injection H as <-. destruct (@good_bstep (BConf maps) (y_w y) Logic.I Logic.I I) as (I2 & Q2). auto.
  - destruct (y_recv y); [discriminate|]. injection H as <-. destruct (@shutdown_good (has_strategy y) (y_w y) I) as (I2 & Q2). auto.
  - injection H as <-. destruct (@good_heap hp (y_w y) I) as (I2 & Q2). auto.
Qed.

(** Messages. *)
Lemma step_marks y l y' : SInv y -> label_wf l -> step y l = Some y' ->
  exists ms, d_out (w_dbg (y_w y')) = d_out (w_dbg (y_w y)) ++ ms /\
  marks ms ++ flat_map expects_marks (pending y') = flat_map expects_marks (pending y) ++ flat_map expects_marks (requests [l]) /\
  (strategy_label l = false -> thread_events ms = [] /\ stopped_events ms = []).
Proof.
  intros S W H. pose proof (y_inv S) as I. pose proof (y_dwf S) as D.
  destruct (strategy_label l) eqn:SL.
  { destruct (@step_micro y l y' S W H SL) as (M & R). destruct (msteps_out I M) as (_ & ms & E & K).
    exists ms. unfold pending. rewrite R, K. csplit; auto; [|discriminate]. destruct l; try discriminate; cbn; now rewrite app_nil_r. }
  assert (NIL : forall z, y_recv y = y_recv z -> d_out (w_dbg (y_w z)) = d_out (w_dbg (y_w y)) -> requests [l] = [] -> exists ms, d_out (w_dbg (y_w z)) = d_out (w_dbg (y_w y)) ++ ms /\
     marks ms ++ flat_map expects_marks (pending z) = flat_map expects_marks (pending y) ++ flat_map expects_marks (requests [l]) /\ (false = false -> thread_events ms = [] /\ stopped_events ms = [])).
  { intros z E1 E2 E3. exists []. unfold pending. rewrite E1, E2, E3. csplit; auto; now rewrite app_nil_r. }
  destruct l as [|a|h r addr| | |regs| |seq r| |maps| |hp|lregs]; try discriminate; cbn [SysModel.step] in H.
  - destruct (y_phase y); try discriminate. injection H as <-. apply NIL; reflexivity.
  - destruct (y_recv y) eqn:R; [discriminate|]. destruct (@before_good r (y_w y) I) as (I1 & Q1).
    set (w1 := wd (before_strategy r (w_dbg (y_w y))) (y_w y)) in *.
    assert (D1 : dwf (w_dbg w1)) by (eapply dwf_dext; [exact D|apply (q_d Q1)]).
    assert (O1 : d_out (w_dbg w1) = d_out (w_dbg (y_w y))) by (cbn; apply before_out).
    destruct (needs_strategy r && negb (has_strategy y)) eqn:NS; injection H as <-.
    + exists []. cbn [y_w pending y_recv]. rewrite O1, app_nil_r. unfold pending. rewrite R. auto.
    + destruct (dwf_binv D1) as (ops & B). destruct (@handle_out seq r w1 ops I1 B W) as (ms & E & K1 & K2 & K3).
      exists ms. cbn [y_w pending y_recv]. rewrite E, O1. unfold pending. rewrite R. csplit; auto. cbn. now rewrite K1.
  - destruct (y_recv y) as [(seq, r)|] eqn:R; [|discriminate]. destruct (has_strategy y) eqn:HS; [|discriminate]. injection H as <-.
    pose proof (y_rq S) as RW. rewrite R in RW. destruct RW as (RW & _).
    destruct (dwf_binv D) as (ops & B). destruct (@handle_out seq r (y_w y) ops I B RW) as (ms & E & K1 & K2 & K3).
    exists ms. cbn [y_w pending y_recv]. rewrite E. unfold pending. rewrite R. csplit; auto. cbn. rewrite K1, !app_nil_r. reflexivity.
  - destruct (y_recv y) eqn:R; [discriminate|]. injection H as <-. exists [Some OInitialized]. unfold pending. cbn. rewrite R. csplit; auto.
  - destruct (y_recv y) eqn:R; [discriminate|]. injection H as <-. apply NIL; auto. cbn. apply shutdown_out.
  - injection H as <-. apply NIL; reflexivity.
Qed.

Lemma requests_app a b : requests (a ++ b) = requests a ++ requests b.
Proof. unfold requests. apply flat_map_app. Qed.

Lemma run_marks ls : forall y y', SInv y -> trace_wf ls -> run y ls y' ->
  exists ms, d_out (w_dbg (y_w y')) = d_out (w_dbg (y_w y)) ++ ms /\
  marks ms ++ flat_map expects_marks (pending y') = flat_map expects_marks (pending y) ++ flat_map expects_marks (requests ls).
Proof.
  induction ls as [|l ls IH]; intros y y' S W R.
  - inversion R; subst. exists []. rewrite !app_nil_r. auto.
  - inversion R as [|? ? y1 ? ? A B]; subst. inversion W as [|? ? W1 W2]; subst.
    destruct (@step_inv py_int py_repr type_name tmpl tmpl_args err_text parse_repl y l y1 S W1 A) as (S1 & _ & _).
    destruct (@step_marks y l y1 S W1 A) as (m1 & E1 & K1 & _). destruct (IH y1 y' S1 W2 B) as (m2 & E2 & K2).
    exists (m1 ++ m2). rewrite E2, E1, app_assoc. split; auto. rewrite marks_app, <- app_assoc, K2, app_assoc, K1, <- app_assoc.
    change (l :: ls) with ([l] ++ ls). now rewrite requests_app, flat_map_app.
Qed.

(** Threads. *)
Lemma step_tinv y l y' : SInv y -> label_wf l -> step y l = Some y' -> tinv (y_w y) -> tinv (y_w y').
Proof.
  intros S W H T. pose proof (y_inv S) as I. destruct (strategy_label l) eqn:SL.
  - destruct (@step_micro y l y' S W H SL) as (M & R). eapply msteps_tinv; eauto.
  - destruct (@step_marks y l y' S W H) as (ms & E & _ & TE). specialize (TE SL). destruct TE as (TE & _).
    assert (C : l = LPlay \/ l <> LPlay) by (destruct l; ((left; reflexivity) || (right; discriminate))). destruct C as [->|NP].
    + cbn in H. destruct (y_phase y) eqn:P; try discriminate. injection H as <-. pose proof (y_ph S) as PH. rewrite P in PH. destruct PH as (_ & PH).
      eapply (@tinv_same0 (y_w y)); [reflexivity|cbn; lia|rewrite PH; reflexivity|exact T].
    + destruct (@step_other y l y' S W H SL NP) as (Q & _). eapply tinv_same; eauto; [apply (dext_ctr (q_d Q))|apply (q_tk Q)].
Qed.
Lemma run_tinv ls : forall y y', SInv y -> trace_wf ls -> run y ls y' -> tinv (y_w y) -> tinv (y_w y').
Proof.
  induction ls as [|l ls IH]; intros y y' S W R T.
  - inversion R; subst. auto.
  - inversion R as [|? ? y1 ? ? A B]; subst. inversion W as [|? ? W1 W2]; subst.
    destruct (@step_inv py_int py_repr type_name tmpl tmpl_args err_text parse_repl y l y1 S W1 A) as (S1 & _ & _).
    apply (IH y1 y' S1 W2 B). exact (@step_tinv y l y1 S W1 A T).
Qed.
Lemma tinv_init : tinv (y_w sys_init).
Proof. split; [reflexivity|]. split; [contradiction|]. apply events_ok_nil. Qed.

(** Variables and frames. *)
Lemma step_vrel y l y' : SInv y -> label_wf l -> step y l = Some y' -> vrel (y_w y) (y_w y').
Proof.
  intros S W H. pose proof (y_inv S) as I. destruct (strategy_label l) eqn:SL.
  - destruct (@step_micro y l y' S W H SL) as (M & R). eapply msteps_vrel; eauto.
  - assert (C : l = LPlay \/ l <> LPlay) by (destruct l; ((left; reflexivity) || (right; discriminate))). destruct C as [->|NP].
    + cbn in H. destruct (y_phase y) eqn:P; try discriminate. injection H as <-. constructor; cbn; try discriminate; try lia.
      * intros v x _ (f & X). discriminate.
      * intros f (fr & X). discriminate.
    + destruct (@step_other y l y' S W H SL NP) as (Q & _). now apply vrel_qext.
Qed.
Lemma run_vrel ls : forall y y', SInv y -> trace_wf ls -> run y ls y' -> vrel (y_w y) (y_w y').
Proof.
  induction ls as [|l ls IH]; intros y y' S W R.
  - inversion R; subst. apply vrel_refl.
  - inversion R as [|? ? y1 ? ? A B]; subst. inversion W as [|? ? W1 W2]; subst.
    destruct (@step_inv py_int py_repr type_name tmpl tmpl_args err_text parse_repl y l y1 S W1 A) as (S1 & _ & _).
    exact (vrel_trans (y_inv S) (@step_vrel y l y1 S W1 A) (IH y1 y' S1 W2 B)).
Qed.
End S.
