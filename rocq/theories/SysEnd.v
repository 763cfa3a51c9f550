(** What happens after the session ends: C22, C30. *)
From Verif Require Import PyBase PyDict Digits DbgTypes BpModel BpSpec BpProofs BpProofs2 BpProofs3 BpProps ThreadModel ThreadSpec StratModel SysModel SysSpec SysProofs SysProofs2 SysProofs3 SysProofs4 SysProofs5 SysProofs6 SysProofs7 SysProofs8 SysProofs9 SysProofs10 SysProofs11 SysProps SysDemo.
Set Implicit Arguments.
Local Open Scope N_scope.

(** The strategy's own progress: no client request. *)
Definition by_strategy (l : label) : Prop :=
  match l with LReq _ _ | LUnblock | LConfig _ | LClosed => False | _ => True end.
(** No exception filter is switched on. *)
Definition filters_off (d : Dbg) : Prop := forall f, exc_on f d = false.
(** The playbook is not stuck: it is not inside a wait, or the wait can end. *)
Definition not_stuck (step : Sys -> label -> option Sys) (y : Sys) : Prop :=
  match y_phase y with PWaitStart _ | PWaitEnd _ _ => step y LWake <> None | _ => True end.

(** Nothing can stop: no breakpoints, filters off, and the threads run or end; the host
    threads with an id below [n] have been told to end. *)
Definition st_ok (n k : N) (st : TState) : Prop := (st = TContinue \/ st = TEnd) /\ (1 < k < n -> st = TEnd).
Record quiet (n : N) (w : World) : Prop := {
  q_bps : d_bps (w_dbg w) = [];
  q_exc : filters_off (w_dbg w);
  q_st : forall k t, In (k, t) (w_threads w) -> st_ok n k (t_state t);
  q_ctr : n <= d_thread (w_dbg w);
  q_term : n = 0 \/ d_term (w_dbg w) = true }.
Lemma in_dset {V} (d : dict N V) k v k' v' : In (k', v') (dset d k v) -> (k' = k /\ v' = v) \/ In (k', v') d.
Proof. intros H. apply In_dset in H. destruct H as [H|H]; auto. injection H as <- <-. auto. Qed.
Lemma in_ddel {V} (d : dict N V) k k' v' : In (k', v') (ddel d k) -> In (k', v') d.
Proof. apply In_ddel. Qed.
Lemma quiet_frames n w w' : d_bps (w_dbg w') = d_bps (w_dbg w) -> d_exc (w_dbg w') = d_exc (w_dbg w) -> d_thread (w_dbg w') = d_thread (w_dbg w) ->
  d_term (w_dbg w') = d_term (w_dbg w) -> w_threads w' = w_threads w -> quiet n w -> quiet n w'.
Proof.
  intros A B C D E []. split; try congruence.
  - intros f. unfold exc_on. rewrite B. apply q_exc0.
  - rewrite E. auto.
Qed.

Lemma register_quiet l : forall d d' r, d_bps d = [] -> register_all l d = (d', r) -> d_bps d' = [] /\ d_exc d' = d_exc d /\ d_out d' = d_out d /\ d_thread d' = d_thread d /\ d_term d' = d_term d.
Proof.
  induction l as [|((p, line), t) l IH]; intros d d' r H E; cbn [register_all] in E.
  - injection E as <- <-. auto.
  - assert (X : forall d1 x, register_path_breakpoint p line t d = (d1, x) -> d_bps d1 = [] /\ d_exc d1 = d_exc d /\ d_out d1 = d_out d /\ d_thread d1 = d_thread d /\ d_term d1 = d_term d).
    { intros d1 x F. unfold register_path_breakpoint in F. destruct (py_setitem _ _ _) as [fl|]; [|injection F as <- <-; auto]. rewrite H in F. cbn in F. injection F as <- <-. auto. }
    destruct (register_path_breakpoint p line t d) as (d1, [u|e]).
    + destruct (X _ _ eq_refl) as (A & B & C & C' & C''). destruct (IH _ _ _ A E) as (A2 & B2 & C2 & C2' & C2''). csplit; congruence.
    + injection E as <- <-. eapply X. reflexivity.
Qed.

Lemma quiet_set_thread n w t : st_ok n (t_id t) (t_state t) -> quiet n w -> quiet n (set_thread t w).
Proof. intros S []. split; auto. intros k t0 H. apply in_dset in H. destruct H as [(-> & ->)|H]; eauto. Qed.
Lemma stopped_app a b : stopped_events (a ++ b) = stopped_events a ++ stopped_events b.
Proof. apply flat_map_app. Qed.
Definition keepq (w w' : World) : Prop := forall n, quiet n w -> quiet n w' /\ stopped_events (d_out (w_dbg w')) = stopped_events (d_out (w_dbg w)).
Lemma keepq_trans a b c : keepq a b -> keepq b c -> keepq a c.
Proof. intros H1 H2 n Q. destruct (H1 _ Q) as (Q1 & E1). destruct (H2 _ Q1) as (Q2 & E2). split; auto. congruence. Qed.
Lemma keepq_refl w : keepq w w.
Proof. intros n Q. auto. Qed.
Lemma keepq_same w w' : w_dbg w' = w_dbg w -> w_threads w' = w_threads w -> keepq w w'.
Proof. intros A B n Q. rewrite A. split; auto. apply (@quiet_frames n w w'); auto; congruence. Qed.
Lemma keepq_stack w t x : dget (w_threads w) (t_id t) = Some t -> keepq w (set_thread (t_with_stack x t) w).
Proof. intros H n Q. split; auto. apply quiet_set_thread; auto. cbn. eapply q_st; eauto. apply dget_In. eauto. Qed.
Lemma keepq_register l w d r : register_all l (w_dbg w) = (d, r) -> keepq w (wd d w).
Proof.
  intros E n Q. destruct (register_quiet _ _ (q_bps Q) E) as (A & B & C & D1 & D2). split; [|cbn; congruence]. apply (@quiet_frames n w); auto. cbn. rewrite A. symmetry. apply (q_bps Q).
Qed.
Lemma keepq_add_thread h w : keepq w (snd (add_thread h w)).
Proof.
  unfold add_thread. cbn. intros n Q. destruct Q. split.
  - split; auto; cbn.
    + intros k t H. apply in_dset in H. destruct H as [(-> & ->)|H]; eauto. split; [left; reflexivity|]. lia.
    + lia.
  - cbn. rewrite stopped_app. apply app_nil_r.
Qed.

Lemma enter_quiet a w : WInv w -> keepq w (fst (enter_frame a w)).
Proof.
  intros I. unfold enter_frame.
  destruct (match find_thread (ts_host a) w with Some t => (t_id t, w) | None => add_thread (ts_host a) w end) as (tid, w1) eqn:E1.
  assert (K1 : keepq w w1 /\ forall t, dget (w_threads w1) tid = Some t -> t_id t = tid).
  { destruct (find_thread (ts_host a) w) eqn:F.
    - injection E1 as <- <-. split; [apply keepq_refl|]. intros t0 H. apply (i_t I) in H. tauto.
    - pose proof (@keepq_add_thread (ts_host a) w) as K. pose proof (@inv_add_thread w (ts_host a) I F) as I1. rewrite E1 in K, I1. split; [exact K|]. intros t0 H. apply (i_t I1) in H. tauto. }
  destruct K1 as (K1 & TI).
  set (step2 := match dget (w_threads w1) tid with None => _ | Some t => _ end).
  assert (K2 : keepq w (fst step2)).
  { eapply keepq_trans; [exact K1|]. subst step2. destruct (dget (w_threads w1) tid) as [t|] eqn:T; [|apply keepq_refl].
    destruct (t_stack t) as [|last rest]; [apply keepq_refl|]. destruct (n_parent (ts_task a)) as [blk|]; [|apply keepq_refl].
    destruct (dget (w_frames w1) last) as [lf|]; [|apply keepq_refl].
    match goal with |- context [if ?b then ?A else (w1, Ok tt)] => set (popped := if b then A else (w1, Ok tt)) end.
    assert (KP : keepq w1 (fst popped)).
    { subst popped. destruct (match n_parent blk with None => _ | Some p => _ end); [|apply keepq_refl].
      assert (S1 : keepq w1 (set_thread (t_with_stack rest t) w1)) by (apply keepq_stack; rewrite (TI _ eq_refl); exact T).
      match goal with |- context [del_vars ?x ?y] => destruct (del_vars x y) as [vs|e] end; cbn [fst].
      - eapply keepq_trans; [exact S1|]. apply keepq_same; reflexivity.
      - eapply keepq_trans; [exact S1|]. apply keepq_same; reflexivity. }
    destruct popped as (w4, [u|e]); cbn [fst] in KP; auto. destruct (n_parent blk); [|exact KP]. destruct (is_include_role (f_task lf)); [|exact KP].
    destruct (ts_role a) as [regs|]; [|exact KP]. destruct (register_all regs (w_dbg w4)) as (d', [u2|e]) eqn:R; cbn [fst]; (eapply keepq_trans; [exact KP|]; eapply keepq_register; exact R). }
  assert (TI2 : forall t, dget (w_threads (fst step2)) tid = Some t -> t_id t = tid).
  { subst step2. destruct (dget (w_threads w1) tid) as [t|] eqn:T; [|cbn; congruence].
    assert (ID : t_id t = tid) by auto.
    destruct (t_stack t) as [|last rest]; [cbn; congruence|]. destruct (n_parent (ts_task a)) as [blk|]; [|cbn; congruence].
    destruct (dget (w_frames w1) last) as [lf|]; [|cbn; congruence].
    match goal with |- context [if ?b then ?A else (w1, Ok tt)] => set (popped := if b then A else (w1, Ok tt)) end.
    assert (KP : forall t0, dget (w_threads (fst popped)) tid = Some t0 -> t_id t0 = tid).
    { subst popped. destruct (match n_parent blk with None => _ | Some p => _ end); [|cbn; congruence].
      match goal with |- context [del_vars ?x ?y] => destruct (del_vars x y) as [vs|e] end; intros t0 H; cbn -[dget dset] in H; rewrite dget_dset in H; cbn -[eqb dget] in H;
        (destruct (eqb_spec (t_id t) tid); [injection H as <-; auto|congruence]). }
    destruct popped as (w4, [u|e]); cbn [fst] in KP |- *; auto. destruct (n_parent blk); [|exact KP]. destruct (is_include_role (f_task lf)); [|exact KP].
    destruct (ts_role a) as [regs|]; [|exact KP]. destruct (register_all regs (w_dbg w4)) as (d', [u2|e]); exact KP. }
  destruct step2 as (w5, [u|e]); cbn [fst] in *; auto.
  destruct (next_stackframe_id (w_dbg w5)) as (sfid, d) eqn:NF. unfold next_stackframe_id in NF. injection NF as <- <-.
  cbn -[dget dset set_thread]. change (w_threads (wframes ?x ?y)) with (w_threads y).
  match goal with |- context [wframes ?x (wd ?d w5)] => set (w7 := wframes x (wd d w5)) end.
  assert (K7 : keepq w w7). { eapply keepq_trans; [exact K2|]. intros n Q. split; [|reflexivity]. apply (@quiet_frames n w5); auto. }
  match goal with |- context [match ?X with Some t => (set_thread _ _, _) | None => _ end] => change X with (dget (w_threads w5) tid) end.
  destruct (dget (w_threads w5) tid) as [t|] eqn:T; cbn [fst]; auto.
  eapply keepq_trans; [exact K7|]. apply keepq_stack. rewrite (TI2 _ eq_refl). exact T.
Qed.

Lemma start_quiet a w : WInv w -> dwf (w_dbg w) -> (match ts_role a with Some regs => regs_wf regs | None => True end) ->
  let '(w', o, _) := start_task a w in keepq w w' /\ (forall n, quiet n w -> o <> Blocks).
Proof.
  intros I D WF. unfold start_task. pose proof (enter_quiet a I) as K. destruct (@enter_frame_spec a w I D WF) as (tid0 & _ & _ & E).
  destruct (enter_frame a w) as (w', [tid|e]); cbn [fst] in K; [|split; auto; discriminate].
  destruct E as (-> & I' & _). unfold start_decide. destruct (n_path (ts_task a)) as [(path, line)|]; [|split; auto; discriminate].
  assert (GB : forall n, quiet n w -> get_breakpoint (w_dbg w') path line = None).
  { intros n Q. destruct (K _ Q) as (Q' & _). unfold get_breakpoint. now rewrite (q_bps Q'). }
  destruct (get_breakpoint (w_dbg w') path line) as [b|] eqn:G.
  - assert (N : forall n, ~ quiet n w) by (intros n Q; specialize (GB n Q); discriminate). 
    match goal with |- context [match ?X with Ok id => _ | Err e => (w', Raises e) end] => destruct X as [id|e] end; [|split; auto; discriminate].
    destruct (dget (w_threads w') tid0) as [t|]; [|split; auto; discriminate]. destruct (should_break (ts_task a) id t) as (t', [ev|]); (split; [intros n Q; destruct (N n Q)|intros n Q; destruct (N n Q)]).
  - destruct (dget (w_threads w') tid0) as [t|] eqn:T; [|split; auto; discriminate].
    destruct (should_break (ts_task a) None t) as (t', [ev|]) eqn:SB.
    + assert (N : forall n, ~ quiet n w).
      { intros n Q. destruct (K _ Q) as (Q' & _). destruct (q_st Q' _ _ (dget_In _ _ T)) as (ST & _). unfold should_break, break_step_over, break_step_out, break_step_in in SB.
        destruct ST as [ST|ST]; rewrite ST in SB; cbn in SB; destruct (t_stopped t); cbn in SB; discriminate. }
      split; intros n Q; destruct (N n Q).
    + split; [|discriminate]. eapply keepq_trans; [exact K|]. intros n Q'.
      assert (t' = t).
      { unfold should_break in SB. repeat (match type of SB with context [if ?b then _ else _] => destruct b end; try discriminate); try (injection SB as <-; auto). }
      subst t'. split; auto. apply quiet_set_thread; auto. eapply q_st; eauto. apply dget_In. assert (ID : t_id t = tid0) by (apply (i_t I') in T; tauto). rewrite ID. exact T.
Qed.

Lemma exit_keepq w : keepq w (exit_threads w).
Proof.
  unfold exit_threads. generalize (dkeys (w_threads w)). intros l. revert w. induction l as [|x l IH]; intros w; cbn [fold_left]; [apply keepq_refl|].
  eapply keepq_trans; [|apply IH]. destruct (N.eqb x 1); [apply keepq_refl|]. intros n Q. destruct Q. split.
  - split; auto. intros k t H. apply in_ddel in H. eauto.
  - cbn. rewrite stopped_app. apply app_nil_r.
Qed.

Lemma set_state_plain st t : st = TContinue \/ st = TEnd -> t_state (set_state st t) = st.
Proof. intros [->| ->]; unfold set_state; destruct (t_stopped t); reflexivity. Qed.
(** Resuming all threads. *)
Lemma resume_all st w : WInv w -> st = TContinue \/ st = TEnd ->
  let w' := fst (resume (dkeys (w_threads w)) st w) in
  w_dbg w' = w_dbg w /\ (forall k t, In (k, t) (w_threads w') -> t_state t = st) /\
  forall k, dget (w_threads w') k = option_map (set_state st) (dget (w_threads w) k).
Proof.
  intros I ST w'. destruct (@resume_get st (dkeys (w_threads w)) w (i_tnd I) (fun x H => H)) as (_ & _ & _ & _ & D & G). fold w' in D, G.
  assert (G2 : forall k, dget (w_threads w') k = option_map (set_state st) (dget (w_threads w) k)).
  { intros k. rewrite G. destruct (in_dec N.eq_dec k (dkeys (w_threads w))) as [IN|NI]; auto. apply dget_None in NI. now rewrite NI. }
  csplit; auto. intros k t H. pose proof (@resume_good st (dkeys (w_threads w)) w I) as (I' & _). fold w' in I'. apply In_dget in H; [|exact (i_tnd I')]. rewrite G2 in H. destruct (dget (w_threads w) k) as [t0|]; [|discriminate]. injection H as <-. now apply set_state_plain.
Qed.

Lemma no_stop task r t : should_stop_on_exception task r false false false t = (t, None).
Proof.
  unfold should_stop_on_exception. destruct (r_failed r && negb (r_ignore_errors r)); [reflexivity|]. destruct (r_unreachable r && negb (r_ignore_unreachable r)); [reflexivity|].
  destruct (r_skipped r); reflexivity.
Qed.
Lemma end_task_quiet h task r addr w : filters_off (w_dbg w) ->
  end_task h task r addr w = match find_thread h w with None => (w, Raises StopIteration, None) | Some t => (w, Returns, Some (t_id t)) end.
Proof.
  intros F. unfold end_task. destruct (find_thread h w) as [t|]; auto. unfold should_stop_on_error, should_stop_on_unreachable, should_stop_on_skipped. now rewrite !F, no_stop.
Qed.
Lemma end_finish_quiet tid task w : WInv w -> keepq w (fst (end_finish tid task w)) /\ snd (end_finish tid task w) <> Blocks.
Proof.
  intros I. unfold end_finish. destruct (dget (w_threads w) tid) as [t|] eqn:T; [|split; [apply keepq_refl|discriminate]].
  assert (ID : t_id t = tid) by (apply (i_t I) in T; tauto).
  destruct (tstate_eqb (t_state t) TEnd); [split; [apply keepq_refl|discriminate]|]. destruct (is_include task); [split; [apply keepq_refl|discriminate]|].
  destruct (t_stack t) as [|sfid rest]; [split; [apply keepq_refl|discriminate]|].
  assert (S1 : keepq w (set_thread (t_with_stack rest t) w)) by (apply keepq_stack; rewrite ID; exact T).
  destruct (dget (w_frames (set_thread (t_with_stack rest t) w)) sfid) as [f|]; [|split; [exact S1|discriminate]].
  match goal with |- context [del_vars ?x ?y] => destruct (del_vars x y) as [vs|e] end; (split; [|discriminate]); (eapply keepq_trans; [exact S1|]; apply keepq_same; reflexivity).
Qed.

Section S.
Variable py_int : pystr -> option Z.
Variable py_repr : heap -> val -> pystr.
Variable type_name : heap -> val -> pystr.
Variable tmpl : pystr -> nat -> heap -> res (list obj * val).
Variable tmpl_args : nat -> nat -> heap -> res (list obj * val).
Variable err_text : exn -> pystr.
Variable parse_repl : pystr -> res ReplCmd.
Notation handle := (handle py_int py_repr type_name tmpl tmpl_args err_text parse_repl).
Notation step := (step py_int py_repr type_name tmpl tmpl_args err_text parse_repl).
Notation run := (run py_int py_repr type_name tmpl tmpl_args err_text parse_repl).

Lemma shutdown_quiet b n w : WInv w -> filters_off (w_dbg w) -> n <= d_thread (w_dbg w) -> (n = 0 \/ d_term (w_dbg w) = true) ->
  (d_term (w_dbg w) = false /\ b = true) \/ (forall k t, In (k, t) (w_threads w) -> st_ok n k (t_state t)) ->
  quiet n (shutdown b w) /\ d_out (w_dbg (shutdown b w)) = d_out (w_dbg w).
Proof.
  intros I F NC NT H. unfold shutdown. set (w1 := wd (set_confdone true (clear_config (w_dbg w))) w).
  assert (I1 : WInv w1). { apply inv_dbg; auto. repeat split. }
  change (d_term (w_dbg w1)) with (d_term (w_dbg w)).
  destruct (b && negb (d_term (w_dbg w))) eqn:B.
  - unfold disconnect. destruct (@resume_all TContinue w1 I1 (or_introl eq_refl)) as (D & S & _). cbv zeta in D, S. split; [|now rewrite D].
    assert (Z : n = 0). { destruct NT as [->|NT]; auto. rewrite NT in B. destruct b; discriminate. }
    split; [now rewrite D| | |now rewrite D|now rewrite D].
    + intros f. unfold exc_on. rewrite D. apply F.
    + intros k t X. split; [left; eapply S; eauto|]. lia.
  - destruct H as [(A & ->)|H]; [rewrite A in B; discriminate|]. split; [|reflexivity]. split; auto.
Qed.

Lemma step_quiet n y l y' : SInv y -> label_wf l -> quiet n (y_w y) -> (by_strategy l \/ l = LClosed) -> step y l = Some y' ->
  quiet n (y_w y') /\ stopped_events (d_out (w_dbg (y_w y'))) = stopped_events (d_out (w_dbg (y_w y))) /\
  (y_phase y' = y_phase y \/ y_phase y' = PIdle \/ y_phase y' = PRun \/ exists e, y_phase y' = PDone e).
Proof.
  intros S WF Q BS E. pose proof (y_inv S) as I. pose proof (y_dwf S) as D.
  destruct l as [|a|h r addr| | |regs| |seq r| |maps| |hp|lregs]; cbn [SysModel.step] in E; try (destruct BS as [BS|BS]; [contradiction|discriminate]).
  - destruct (y_phase y); try discriminate. injection E as <-. cbn. csplit; auto. destruct Q. split; auto.
    intros k t [H|[]]. injection H as <- <-. split; [left; reflexivity|lia].
  - destruct (y_phase y); try discriminate. destruct (host_open _ _); try discriminate. pose proof (@start_quiet a (y_w y) I D WF) as K.
    destruct (start_task a (y_w y)) as ((w', o), tid) eqn:ST. destruct K as (K & NB). destruct (K _ Q) as (Q' & O'). specialize (NB _ Q).
    destruct o; try congruence.
    + injection E as <-. cbn. csplit; auto.
    + injection E as <-. cbn. destruct (@exit_keepq w' _ Q') as (Q2 & O2). csplit; eauto. congruence.
  - destruct (y_phase y); try discriminate. destruct (find _ (y_open y)) as [(h0, task)|]; try discriminate.
    rewrite (end_task_quiet h task r addr _ (q_exc Q)) in E. destruct (find_thread h (y_w y)) as [t|].
    + pose proof (@end_finish_quiet (t_id t) task (y_w y) I) as (K & NB). 
      destruct (end_finish (t_id t) task (y_w y)) as (w'', [| |e]); cbn [fst snd] in *; try congruence; injection E as <-; cbn; destruct (K _ Q) as (Q' & O').
      * csplit; auto.
      * destruct (@exit_keepq w'' _ Q') as (Q2 & O2). csplit; eauto. congruence.
    + injection E as <-. cbn. destruct (@exit_keepq (y_w y) _ Q) as (Q2 & O2). csplit; eauto.
  - destruct (y_phase y) as [| |tid|tid task|e] eqn:P; try discriminate; destruct (waiting tid (y_w y)); try discriminate.
    + destruct (start_resume tid (y_w y)); try discriminate; injection E as <-; cbn; [csplit; auto|]. destruct (@exit_keepq (y_w y) _ Q) as (Q2 & O2). csplit; eauto.
    + pose proof (@end_finish_quiet tid task (y_w y) I) as (K & NB). 
      destruct (end_finish tid task (y_w y)) as (w'', [| |e]); cbn [fst snd] in *; try congruence; injection E as <-; cbn; destruct (K _ Q) as (Q' & O').
      * csplit; auto.
      * destruct (@exit_keepq w'' _ Q') as (Q2 & O2). csplit; eauto. congruence.
  - destruct (y_phase y); try discriminate. destruct (y_open y) as [|p [|q l]]; try discriminate. injection E as <-. cbn. destruct (@exit_keepq (y_w y) _ Q) as (Q2 & O2). csplit; auto.
  - destruct (y_phase y); try discriminate. destruct (register_all regs (w_dbg (y_w y))) as (d, [u|e]) eqn:R.
    + injection E as <-. destruct (@keepq_register regs (y_w y) d _ R _ Q) as (A & B). cbn. csplit; auto.
    + exfalso. destruct (@register_all_ok regs (w_dbg (y_w y)) D WF) as (d' & R' & _). rewrite R in R'. discriminate.
  - destruct (y_phase y); try discriminate. injection E as <-. cbn. destruct (@exit_keepq (y_w y) _ Q) as (Q2 & O2). csplit; auto.
  - destruct (y_recv y); try discriminate. injection E as <-.
    destruct (@shutdown_quiet (has_strategy y) n (y_w y) I (q_exc Q) (q_ctr Q) (q_term Q) (or_intror (q_st Q))) as (A & B). cbn. rewrite B. csplit; auto.
  - injection E as <-. cbn. csplit; auto. destruct Q; split; auto.
  - destruct (y_phase y); try discriminate. destruct (@register_all_ok lregs (w_dbg (y_w y)) D WF) as (d & R & _). rewrite R in E.
    injection E as <-. destruct (@keepq_register lregs (y_w y) d _ R _ Q) as (A & B). cbn. csplit; auto.
Qed.

Lemma run_quiet n ls : forall y y', SInv y -> trace_wf ls -> quiet n (y_w y) -> Forall (fun l => by_strategy l \/ l = LClosed) ls -> run y ls y' ->
  SInv y' /\ quiet n (y_w y') /\ stopped_events (d_out (w_dbg (y_w y'))) = stopped_events (d_out (w_dbg (y_w y))) /\
  ((exists tid, y_phase y' = PWaitStart tid \/ exists task, y_phase y' = PWaitEnd tid task) -> y_phase y' = y_phase y).
Proof.
  induction ls as [|l ls IH]; intros y y' S W Q B R; inversion R; subst; clear R.
  - csplit; auto.
  - inversion W; subst. inversion B; subst.
    match goal with H : step y l = Some ?y1 |- _ => rename H into E; rename y1 into ym end.
    destruct (@step_quiet n y l ym S ltac:(assumption) Q ltac:(assumption) E) as (Q1 & O1 & P1).
    destruct (@step_inv py_int py_repr type_name tmpl tmpl_args err_text parse_repl y l ym S ltac:(assumption) E) as (S1 & _ & _).
    destruct (IH ym y' S1 ltac:(assumption) Q1 ltac:(assumption) ltac:(assumption)) as (S2 & Q2 & O2 & P2). csplit; auto; [congruence|].
    intros X. specialize (P2 X). rewrite P2 in *. destruct X as (tid & X). destruct P1 as [P1|[P1|[P1|(e & P1)]]]; auto; rewrite P1 in X; destruct X as [X|(task & X)]; discriminate.
Qed.
(** ---------------------------------------------------------------- the properties *)
Lemma wake_possible y tid : SInv y -> (y_phase y = PWaitStart tid \/ exists task, y_phase y = PWaitEnd tid task) ->
  (forall t, dget (w_threads (y_w y)) tid = Some t -> t_state t <> TWait) -> step y LWake <> None.
Proof.
  intros S P NW. cbn [SysModel.step].
  assert (W : waiting tid (y_w y) = false).
  { unfold waiting. destruct (dget (w_threads (y_w y)) tid) as [t|]; auto. specialize (NW t eq_refl). destruct (t_state t); auto. congruence. }
  destruct P as [P|(task & P)]; rewrite P, W.
  - unfold start_resume. destruct (dget _ tid) as [t|]; [|discriminate]. destruct (tstate_eqb _ _); discriminate.
  - pose proof (@end_finish_quiet tid task (y_w y) (y_inv S)) as (_ & NB). destruct (end_finish tid task (y_w y)) as (w', [| |e]); cbn [snd] in NB; congruence.
Qed.
Lemma not_waiting y : SInv y -> (forall k t, dget (w_threads (y_w y)) k = Some t -> t_state t <> TWait) -> not_stuck step y.
Proof. intros S H. unfold not_stuck. destruct (y_phase y) as [| |tid|tid task|e] eqn:P; auto; eapply wake_possible; eauto. Qed.

(** The state right after a disconnect or terminate request was processed. *)
Lemma disconnected y seq r st y' : SInv y -> pending y = [] -> has_strategy y = true ->
  ((exists t, r = RDisconnect t /\ st = (match t with Some true => TEnd | _ => TContinue end)) \/ r = RTerminate /\ st = TEnd) ->
  step y (LReq seq r) = Some y' ->
  SInv y' /\ d_bps (w_dbg (y_w y')) = [] /\ d_maps (w_dbg (y_w y')) = [] /\ d_exc (w_dbg (y_w y')) = d_exc (w_dbg (y_w y)) /\
  d_thread (w_dbg (y_w y')) = d_thread (w_dbg (y_w y)) /\ (r = RTerminate -> d_term (w_dbg (y_w y')) = true) /\ y_phase y' = y_phase y /\
  stopped_events (d_out (w_dbg (y_w y'))) = stopped_events (d_out (w_dbg (y_w y))) /\
  (forall k t, In (k, t) (w_threads (y_w y')) -> t_state t = st) /\
  forall k, dget (w_threads (y_w y')) k = option_map (set_state st) (dget (w_threads (y_w y)) k).
Proof.
  intros S P HS R E. pose proof (y_inv S) as I.
  assert (WF : label_wf (LReq seq r)) by (destruct R as [(t & -> & _)|(-> & _)]; exact Logic.I).
  destruct (@step_inv py_int py_repr type_name tmpl tmpl_args err_text parse_repl y _ y' S WF E) as (S' & _ & _).
  assert (RC : y_recv y = None) by (unfold pending in P; destruct (y_recv y); [discriminate|auto]).
  cbn [SysModel.step] in E. rewrite RC, HS in E.
  assert (E2 : y' = mkSys (handle seq r (wd (before_strategy r (w_dbg (y_w y))) (y_w y))) (y_phase y) (y_open y) None).
  { destruct R as [(t & -> & _)|(-> & _)]; cbn [needs_strategy andb negb] in E; injection E as <-; reflexivity. }
  clear E. split; auto. subst y'. cbn [y_w y_phase].
  set (w1 := wd (before_strategy r (w_dbg (y_w y))) (y_w y)) in *.
  assert (I1 : WInv w1) by (apply inv_dbg; auto; destruct R as [(t & -> & _)|(-> & _)]; repeat split).
  assert (ST : st = TContinue \/ st = TEnd) by (destruct R as [([[|]|] & _ & ->)|(_ & ->)]; auto).
  destruct (@resume_all st w1 I1 ST) as (D & AL & G). cbv zeta in D, AL, G. pose proof (@resume_all_ok st w1) as OK.
  unfold SysModel.handle. destruct R as [(t & -> & EST)|(-> & EST)]; cbn [process].
  - assert (DE : disconnect (match t with Some true => true | _ => false end) w1 = resume (dkeys (w_threads w1)) st w1) by (unfold disconnect; destruct t as [[|]|]; subst st; reflexivity).
    rewrite DE. destruct (resume (dkeys (w_threads w1)) st w1) as (w2, x). cbn [fst snd] in *. subst x. cbn. rewrite D. csplit; auto; try discriminate.
    cbn. rewrite stopped_app. apply app_nil_r.
  - assert (DE : disconnect true w1 = resume (dkeys (w_threads w1)) st w1) by (unfold disconnect; subst st; reflexivity).
    rewrite DE. destruct (resume (dkeys (w_threads w1)) st w1) as (w2, x). cbn [fst snd] in *. subst x. cbn [ack]. cbn. rewrite D. csplit; auto.
    cbn. rewrite !stopped_app, !app_nil_r. reflexivity.
Qed.

(** C22: after a disconnect request was processed no line breakpoint matches, there are
    no path mappings, no thread is left waiting and the playbook is not stuck. *)
Theorem C22_after_disconnect ls y seq t y' :
  trace_wf ls -> run sys_init ls y -> pending y = [] -> has_strategy y = true ->
  step y (LReq seq (RDisconnect t)) = Some y' ->
  (forall path line, get_breakpoint (w_dbg (y_w y')) path line = None) /\ d_maps (w_dbg (y_w y')) = [] /\
  (forall k th, dget (w_threads (y_w y')) k = Some th -> t_state th <> TWait) /\ not_stuck step y'.
Proof.
  intros W R P HS E. pose proof (@run_sinv py_int py_repr type_name tmpl tmpl_args err_text parse_repl ls y W R) as S.
  destruct (@disconnected y seq (RDisconnect t) _ y' S P HS (or_introl (ex_intro _ t (conj eq_refl eq_refl))) E) as (S' & B & M & _ & _ & _ & _ & _ & ST & _).
  assert (NW : forall k th, dget (w_threads (y_w y')) k = Some th -> t_state th <> TWait).
  { intros k th H. apply dget_In in H. rewrite (ST _ _ H). destruct t as [[|]|]; discriminate. }
  csplit; auto; [|now apply not_waiting]. intros. unfold get_breakpoint. now rewrite B.
Qed.

(** C22: after the connection was closed, unless a terminate request was processed before
    (then see C22_terminated_thread_waits_refuted); the gate is open, too. *)
Theorem C22_after_shutdown_partial ls y y' :
  trace_wf ls -> run sys_init ls y -> step y LClosed = Some y' ->
  (forall path line, get_breakpoint (w_dbg (y_w y')) path line = None) /\ d_maps (w_dbg (y_w y')) = [] /\ d_confdone (w_dbg (y_w y')) = true /\
  (d_term (w_dbg (y_w y)) = false ->
     (has_strategy y = true -> forall k th, dget (w_threads (y_w y')) k = Some th -> t_state th = TContinue) /\ not_stuck step y').
Proof.
  intros W R E. pose proof (@run_sinv py_int py_repr type_name tmpl tmpl_args err_text parse_repl ls y W R) as S. pose proof (y_inv S) as I.
  destruct (@step_inv py_int py_repr type_name tmpl tmpl_args err_text parse_repl y LClosed y' S Logic.I E) as (S' & _ & _).
  cbn [SysModel.step] in E. destruct (y_recv y); [discriminate|]. injection E as EY. 
  set (w1 := wd (set_confdone true (clear_config (w_dbg (y_w y)))) (y_w y)).
  assert (I1 : WInv w1) by (apply inv_dbg; auto; repeat split).
  assert (X : w_dbg (shutdown (has_strategy y) (y_w y)) = w_dbg w1 /\
    (d_term (w_dbg (y_w y)) = false -> has_strategy y = true -> forall k th, dget (w_threads (shutdown (has_strategy y) (y_w y))) k = Some th -> t_state th = TContinue)).
  { unfold shutdown. fold w1. change (d_term (w_dbg w1)) with (d_term (w_dbg (y_w y))).
    destruct (@resume_all TContinue w1 I1 (or_introl eq_refl)) as (D & AL & _). cbv zeta in D, AL.
    destruct (has_strategy y && negb (d_term (w_dbg (y_w y)))) eqn:B.
    - split; [exact D|]. intros _ _ k th H. apply dget_In in H. eapply AL; eauto.
    - split; auto. intros T H. rewrite T, H in B. discriminate. }
  destruct X as (X1 & X2). rewrite <- EY in *. cbn [y_w] in *. rewrite X1. csplit; auto.
  intros T. split; [intros H; now apply X2|]. unfold not_stuck. cbn [y_phase] in *.
  assert (HSW : forall tid, (y_phase y = PWaitStart tid \/ exists task, y_phase y = PWaitEnd tid task) -> has_strategy y = true) by (intros tid [P|(task & P)]; unfold has_strategy; now rewrite P).
  destruct (y_phase y) as [| |tid|tid task|e] eqn:P; auto; rewrite EY; (eapply wake_possible; [rewrite <- EY; exact S'|rewrite <- EY; cbn; eauto|]);
    intros t0 H; rewrite <- EY in H; cbn [y_w] in H; rewrite (X2 T (HSW tid ltac:(eauto)) _ _ H); discriminate.
Qed.

(** C22: with the exception filters off, nothing stops any more once the connection is
    closed, and the playbook never gets stuck. *)
Theorem C22_nothing_stops_partial ls y y' ls2 y2 :
  trace_wf ls -> run sys_init ls y -> step y LClosed = Some y' ->
  d_term (w_dbg (y_w y)) = false -> has_strategy y = true -> filters_off (w_dbg (y_w y)) ->
  trace_wf ls2 -> Forall by_strategy ls2 -> run y' ls2 y2 ->
  stopped_events (d_out (w_dbg (y_w y2))) = stopped_events (d_out (w_dbg (y_w y))) /\ not_stuck step y2.
Proof.
  intros W R E T HS F W2 B2 R2. pose proof (@run_sinv py_int py_repr type_name tmpl tmpl_args err_text parse_repl ls y W R) as S. pose proof (y_inv S) as I.
  destruct (@step_inv py_int py_repr type_name tmpl tmpl_args err_text parse_repl y LClosed y' S Logic.I E) as (S' & _ & _).
  cbn [SysModel.step] in E. destruct (y_recv y); [discriminate|]. injection E as EY.
  destruct (@shutdown_quiet (has_strategy y) 0 (y_w y) I F (N.le_0_l _) (or_introl eq_refl) (or_introl (conj T HS))) as (Q & O).
  assert (QY : quiet 0 (y_w y')) by (rewrite <- EY; exact Q).
  assert (FB : Forall (fun l => by_strategy l \/ l = LClosed) ls2) by (eapply Forall_impl; [|exact B2]; auto).
  destruct (@run_quiet 0 ls2 y' y2 S' W2 QY FB R2) as (S2 & Q2 & O2 & _). split.
  - rewrite O2, <- EY. cbn [y_w]. now rewrite O.
  - apply not_waiting; auto. intros k t H. apply dget_In in H. destruct (q_st Q2 _ _ H) as ([X|X] & _); rewrite X; discriminate.
Qed.

(** C30: a terminate request was processed while a play runs, with the exception filters
    off.  Whatever the strategy does then (and whether or not the connection gets closed):
    the next result of a host that had a thread at that time ends the strategy, and so
    does the wake-up of a stopped thread. *)
Theorem C30_terminate_ends_partial ls y seq y1 ls2 y2 :
  trace_wf ls -> run sys_init ls y -> pending y = [] -> has_strategy y = true -> filters_off (w_dbg (y_w y)) ->
  step y (LReq seq RTerminate) = Some y1 ->
  trace_wf ls2 -> Forall (fun l => by_strategy l \/ l = LClosed) ls2 -> run y1 ls2 y2 ->
  (forall h r addr y3 tid t, step y2 (LEnd h r addr) = Some y3 ->
     thread_for h tid t (y_w y2) -> In tid (dkeys (w_threads (y_w y))) -> y_phase y3 = PDone EndStrategy) /\
  (forall tid, y_phase y2 = PWaitStart tid \/ (exists task, y_phase y2 = PWaitEnd tid task) ->
     exists y3, step y2 LWake = Some y3 /\ y_phase y3 = PDone EndStrategy).
Proof.
  intros W R P HS F E W2 B2 R2. pose proof (@run_sinv py_int py_repr type_name tmpl tmpl_args err_text parse_repl ls y W R) as S. pose proof (y_inv S) as I.
  destruct (@disconnected y seq RTerminate TEnd y1 S P HS (or_intror (conj eq_refl eq_refl)) E) as (S1 & B & M & EX & TH & TM & PH & O & ST & G).
  set (n := d_thread (w_dbg (y_w y))).
  assert (Q1 : quiet n (y_w y1)).
  { split; auto.
    - intros f. unfold exc_on. rewrite EX. apply F.
    - intros k t H. split; [right; eauto|eauto].
    - rewrite TH. unfold n. lia. }
  destruct (@run_quiet n ls2 y1 y2 S1 W2 Q1 B2 R2) as (S2 & Q2 & _ & P2). pose proof (y_inv S2) as I2. split.
  - intros h r addr y3 tid t E3 TF IN. cbn [SysModel.step] in E3. destruct (y_phase y2); try discriminate. destruct (find _ (y_open y2)) as [(h0, task)|]; try discriminate.
    rewrite (end_task_quiet h task r addr _ (q_exc Q2)) in E3. destruct (thread_for_find I2 TF) as (FT & ID). rewrite FT in E3.
    assert (N1 : tid <> 1).
    { intros ->. destruct TF as (TF & HI). destruct (i_main I2) as (st & sn & M1). rewrite M1 in TF. injection TF as <-. discriminate HI. }
    assert (LT : 1 < tid < n).
    { destruct (dget_key_ex _ _ IN) as (t0 & T0). apply (i_t I) in T0. unfold n. lia. }
    destruct TF as (TF & HI). destruct (q_st Q2 _ _ (dget_In _ _ TF)) as (_ & TE). specialize (TE LT).
    unfold end_finish in E3. rewrite ID, TF, TE in E3. cbn in E3. injection E3 as <-. reflexivity.
  - intros tid PW. assert (PE : y_phase y2 = y_phase y1) by (apply P2; exists tid; destruct PW; auto).
    rewrite PH in PE.
    assert (KT : exists t, dget (w_threads (y_w y2)) tid = Some t /\ 1 < tid < n).
    { assert (X : exists t h, dget (w_threads (y_w y2)) tid = Some t /\ t_host t = Some h).
      { pose proof (y_ph S2) as PP. destruct PW as [PW|(task & PW)]; rewrite PW in PP; cbn in PP.
        - destruct PP as (h & task & t & _ & HI & (T & _)). exists t. unfold host_is in HI. destruct (t_host t) as [h'|] eqn:HH; [|discriminate]. exists h'. auto.
        - destruct PP as (t & h & PP). destruct PP as ((T & _) & HH & _). exists t, h. auto. }
      destruct X as (t & h & T & HH). exists t. split; auto.
      assert (N1 : tid <> 1). { intros ->. destruct (i_main I2) as (st & sn & M1). rewrite M1 in T. injection T as <-. discriminate HH. }
      assert (LT : tid < n).
      { pose proof (y_ph S) as PP. destruct PW as [PW|(task & PW)]; rewrite PW in PE; rewrite <- PE in PP; cbn in PP.
        - destruct PP as (h0 & task & t0 & _ & HI & (T0 & _)). apply (i_t I) in T0. unfold n. lia.
        - destruct PP as (t0 & h0 & PP). destruct PP as ((T0 & _) & _). apply (i_t I) in T0. unfold n. lia. }
      apply (i_t I2) in T. lia. }
    destruct KT as (t & T & LT). destruct (q_st Q2 _ _ (dget_In _ _ T)) as (_ & TE). specialize (TE LT).
    assert (NW : waiting tid (y_w y2) = false) by (unfold waiting; rewrite T, TE; reflexivity).
    cbn [SysModel.step]. destruct PW as [PW|(task & PW)]; rewrite PW, NW.
    + unfold start_resume. rewrite T, TE. cbn. eexists. split; reflexivity.
    + unfold end_finish. rewrite T, TE. cbn. eexists. split; reflexivity.
Qed.
End S.
Print Assumptions C22_after_disconnect.
Print Assumptions C22_after_shutdown_partial.
Print Assumptions C22_nothing_stops_partial.
Print Assumptions C30_terminate_ends_partial.

(** Stuck for ever: whatever the strategy and Ansible do, the wait does not end. *)
Definition stuck (y : Sys) : Prop :=
  forall ls y', Forall by_strategy ls -> drun y ls y' ->
  y_phase y' = y_phase y /\ w_threads (y_w y') = w_threads (y_w y) /\ dstep y' LWake = None.
Lemma stuck_intro y tid : (y_phase y = PWaitStart tid \/ exists task, y_phase y = PWaitEnd tid task) -> waiting tid (y_w y) = true -> stuck y.
Proof.
  intros P WT ls. revert y P WT. induction ls as [|l ls IH]; intros y P WT y' F R.
  - inversion R; subst. csplit; auto. cbn [SysModel.step]. destruct P as [P|(task & P)]; rewrite P, WT; reflexivity.
  - inversion R as [|? ? y1 ? ? E R1]; subst. inversion F as [|? ? B F1]; subst.
    assert (X : y_phase y1 = y_phase y /\ w_threads (y_w y1) = w_threads (y_w y)).
    { destruct l; cbn in B; try contradiction; cbn [SysModel.step] in E.
      all: try (destruct P as [P|(task0 & P)]; rewrite P in E; try rewrite WT in E; discriminate).
      injection E as <-. auto. }
    destruct X as (X1 & X2). assert (WT1 : waiting tid (y_w y1) = true) by (unfold waiting in *; now rewrite X2).
    rewrite <- X1 in P. destruct (IH _ P WT1 _ F1 R1) as (A & B1 & C). csplit; congruence.
Qed.

Lemma run_after a b : exec sys_init (a ++ b) <> None -> drun (after a) b (after (a ++ b)).
Proof.
  unfold after. intros H. assert (X : forall l y, exec y (l ++ b) = match exec y l with Some z => exec z b | None => None end).
  { induction l as [|x l IH]; intros y; cbn [app exec]; [reflexivity|]. destruct (dstep y x); auto. }
  rewrite X in H |- *. destruct (exec sys_init a) as [z|]; [|congruence]. destruct (exec z b) eqn:E; [|congruence]. now apply exec_run.
Qed.
Ltac ran := first [apply after_run; vm_compute; discriminate | apply run_after; vm_compute; discriminate].
Ltac bystrat := repeat first [apply Forall_nil | apply Forall_cons; [exact Logic.I|]].

(** C22 refuted: the exception filters survive the end of the session, so a failing
    task stops a host that nobody can resume: the playbook hangs. *)
Definition demo_inflight : list label := demo_setup ++ [LStart (bt hostB t4)].
Theorem C22_exception_filter_refuted : exists ls y y' ls2 y2,
  trace_wf ls /\ drun sys_init ls y /\ d_term (w_dbg (y_w y)) = false /\ has_strategy y = true /\
  dstep y LClosed = Some y' /\ Forall by_strategy ls2 /\ drun y' ls2 y2 /\
  length (stopped_events (d_out (w_dbg (y_w y2)))) = S (length (stopped_events (d_out (w_dbg (y_w y))))) /\ stuck y2.
Proof.
  exists demo_inflight, (after demo_inflight), (after (demo_inflight ++ [LClosed])), [LEnd hostB failr 6], (after ((demo_inflight ++ [LClosed]) ++ [LEnd hostB failr 6])).
  csplit.
  - wf.
  - ran.
  - vm_compute; reflexivity.
  - vm_compute; reflexivity.
  - vm_compute; reflexivity.
  - bystrat.
  - ran.
  - vm_compute; reflexivity.
  - apply stuck_intro with (tid := 2); [right; exists t4; vm_compute; reflexivity|vm_compute; reflexivity].
Qed.
(** C22 and C30 refuted: a terminate request, then the in-flight task fails: the host
    stops, and closing the connection does not resume it. *)
Theorem C22_terminated_thread_waits_refuted : exists ls y y1 ls2 y2 y3,
  trace_wf ls /\ drun sys_init ls y /\ dstep y (LReq 9 RTerminate) = Some y1 /\ Forall by_strategy ls2 /\
  drun y1 ls2 y2 /\ dstep y2 LClosed = Some y3 /\ stuck y3.
Proof.
  set (a := demo_inflight ++ [LReq 9 RTerminate]).
  exists demo_inflight, (after demo_inflight), (after a), [LEnd hostB failr 6], (after (a ++ [LEnd hostB failr 6])), (after ((a ++ [LEnd hostB failr 6]) ++ [LClosed])).
  csplit.
  - wf.
  - ran.
  - vm_compute; reflexivity.
  - bystrat.
  - ran.
  - vm_compute; reflexivity.
  - apply stuck_intro with (tid := 2); [right; exists t4; vm_compute; reflexivity|vm_compute; reflexivity].
Qed.
(** C30 refuted: disconnect with terminateDebuggee followed by the end of the connection:
    the playbook goes on with the next task. *)
Theorem C30_disconnect_terminate_refuted : exists ls y y1 y2 ls2 y3,
  trace_wf ls /\ drun sys_init ls y /\ dstep y (LReq 9 (RDisconnect (Some true))) = Some y1 /\ dstep y1 LClosed = Some y2 /\
  Forall by_strategy ls2 /\ In (LStart (bt hostB t1)) ls2 /\ drun y2 ls2 y3 /\ y_phase y3 = PRun.
Proof.
  set (a := demo_inflight ++ [LReq 9 (RDisconnect (Some true))]). set (b := [LEnd hostB okr 6; LStart (bt hostB t1)]).
  exists demo_inflight, (after demo_inflight), (after a), (after (a ++ [LClosed])), b, (after ((a ++ [LClosed]) ++ b)).
  csplit.
  - wf.
  - ran.
  - vm_compute; reflexivity.
  - vm_compute; reflexivity.
  - bystrat.
  - right. left. reflexivity.
  - ran.
  - vm_compute; reflexivity.
Qed.
(** C30 refuted: hosts that start after the terminate request are not ended; neither is
    the next play. *)
Theorem C30_new_host_refuted : exists ls y y1 ls2 y3,
  trace_wf ls /\ drun sys_init ls y /\ has_strategy y = true /\ dstep y (LReq 9 RTerminate) = Some y1 /\
  Forall by_strategy ls2 /\ In (LEnd hostA okr 6) ls2 /\ In LPlay ls2 /\ drun y1 ls2 y3 /\ y_phase y3 = PRun.
Proof.
  set (a := demo_setup ++ [LReq 9 RTerminate]). set (b := [LStart (bt hostA t4); LEnd hostA okr 6; LPlayEnd; LPlay; LStart (bt hostA t4)]).
  exists demo_setup, (after demo_setup), (after a), b, (after (a ++ b)).
  csplit.
  - wf.
  - ran.
  - vm_compute; reflexivity.
  - vm_compute; reflexivity.
  - bystrat.
  - right. left. reflexivity.
  - do 3 right. left. reflexivity.
  - ran.
  - vm_compute; reflexivity.
Qed.

(** The hypotheses are met: a session without exception filters; host a waits at the
    breakpoint, host b is inside a task, when the client disconnects. *)
Definition demo_nofilter : list label :=
  [ LConfig []; LReq 1 (RSetBreakpoints src_p [mkSB 3%Z None 0] false); LReq 3 RConfigurationDone;
    LPlay; LHeap demo_heap; LInclude [(s "/p.yml", 3%Z, 1%Z); (s "/p.yml", 4%Z, 1%Z)]; LStart (bt hostB t4); LStart (bt hostA t1) ].
Example C22_case : trace_wf demo_nofilter /\ drun sys_init demo_nofilter (after demo_nofilter) /\
  pending (after demo_nofilter) = [] /\ has_strategy (after demo_nofilter) = true /\ d_term (w_dbg (y_w (after demo_nofilter))) = false /\
  filters_off (w_dbg (y_w (after demo_nofilter))) /\ waiting 3 (y_w (after demo_nofilter)) = true /\
  dstep (after demo_nofilter) (LReq 8 (RDisconnect None)) <> None /\ dstep (after demo_nofilter) LClosed <> None.
Proof.
  csplit; try (vm_compute; reflexivity); try (vm_compute; discriminate).
  - wf.
  - ran.
Qed.
(** After terminate: the waiting host ends the playbook. *)
Example C30_case : exists y1 ls2 y2, dstep (after demo_nofilter) (LReq 9 RTerminate) = Some y1 /\
  Forall by_strategy ls2 /\ drun y1 ls2 y2 /\ y_phase y2 = PDone EndStrategy.
Proof.
  exists (after (demo_nofilter ++ [LReq 9 RTerminate])), [LWake], (after ((demo_nofilter ++ [LReq 9 RTerminate]) ++ [LWake])).
  csplit; try (vm_compute; reflexivity); [bystrat|ran].
Qed.
Print Assumptions C22_exception_filter_refuted.
Print Assumptions C22_terminated_thread_waits_refuted.
Print Assumptions C30_disconnect_terminate_refuted.
Print Assumptions C30_new_host_refuted.
