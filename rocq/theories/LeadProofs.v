(** The host of every thread is the one it was announced for. *)
From Verif Require Import PyBase PyDict DbgTypes BpModel BpSpec BpProofs2 BpProofs3 BpProps ThreadModel ThreadSpec StratModel SysModel SysSpec SysProofs SysProofs2 SysProofs3 SysProofs4 SysProofs5 SysProofs6 SysProofs7 SysProofs8 SysProofs9 SysProofs10 SysProofs11 StackSpec StackProofs LeadSpec.
Set Implicit Arguments.
Local Open Scope N_scope.

Definition hs (w w' : World) : Prop := forall k t' h, dget (w_threads w') k = Some t' -> t_host t' = Some h ->
  exists t, dget (w_threads w) k = Some t /\ t_host t = Some h.
Lemma hs_refl w : hs w w. Proof. intros k t h A B. eauto. Qed.
Lemma hs_same w w' : w_threads w' = w_threads w -> hs w w'.
Proof. intros E k t h. rewrite E. eauto. Qed.
Lemma hs_trans a b c : hs a b -> hs b c -> hs a c.
Proof. intros H1 H2 k t h A B. destruct (H2 _ _ _ A B) as (t1 & A1 & B1). eauto. Qed.
Lemma hs_set w t t0 : dget (w_threads w) (t_id t) = Some t0 -> t_host t = t_host t0 -> hs w (set_thread t w).
Proof.
  intros H E k t' h. unfold set_thread. cbn -[dset dget]. rewrite dget_dset. destruct (eqb_spec (t_id t) k) as [<-|]; [|eauto].
  intros X; injection X as <-. rewrite E. eauto.
Qed.
Lemma hs_qext w w' : qext w w' -> hs w w'.
Proof.
  intros Q k t' h A B. assert (K : In k (dkeys (w_threads w))) by (rewrite <- (q_tk Q); eapply dget_Some_key; eauto).
  destruct (dget_key_ex _ _ K) as (t & T). destruct (q_t Q _ T) as (t1 & T1 & (_ & E & _)). exists t. split; auto. congruence.
Qed.
Lemma hs_only tid t t' w w' : only tid w w' -> dget (w_threads w) tid = Some t -> dget (w_threads w') tid = Some t' -> t_host t' = t_host t -> hs w w'.
Proof.
  intros O A B E k t2 h X Y. destruct (N.eq_dec k tid) as [->|N]; [|rewrite (o_t O) in X by auto; eauto]. exists t. split; auto. congruence.
Qed.
Lemma hs_main w w' : WInv w' -> only_main w' -> hs w w'.
Proof. intros I M k t h A B. exfalso. eapply (@only_main_absent (h_uuid h) w' I M); eauto. Qed.
Lemma hs_finish tid t task w : WInv w -> on_top tid t task w -> tid <> 1 -> hs w (fst (end_finish tid task w)).
Proof.
  intros I OT N1. pose proof (@end_finish_spec tid t task w I OT N1) as X. destruct (end_finish tid task w) as (w', [| |e]); cbn [fst]; [|contradiction|].
  - destruct X as (_ & _ & _ & [(_ & ->)|(_ & sfid & rest & f & vs & _ & _ & -> & _)]); [apply hs_refl|].
    destruct OT as (T & _). destruct (i_t I _ T) as (E & _). eapply hs_trans; [apply (@hs_set w (t_with_stack rest t) t)|apply hs_same; reflexivity]; cbn; congruence.
  - destruct X as (-> & _). apply hs_refl.
Qed.

(** Starting a task on [h]: only [h]'s thread can be new. *)
Definition hs1 (h : Host) (w w' : World) : Prop := forall k t' h', dget (w_threads w') k = Some t' -> t_host t' = Some h' ->
  (exists t, dget (w_threads w) k = Some t /\ t_host t = Some h') \/ (dget (w_threads w) k = None /\ h' = h).
Lemma hs1_hs h a b c : hs1 h a b -> hs b c -> hs1 h a c.
Proof. intros H1 H2 k t h' A B. destruct (H2 _ _ _ A B) as (t1 & A1 & B1). eauto. Qed.
Lemma hs_1 h w w' : hs w w' -> hs1 h w w'.
Proof. intros H k t h' A B. left. eauto. Qed.
Lemma enter_hosts a w : WInv w -> hs1 (ts_host a) w (fst (enter_frame a w)).
Proof.
  intros I. unfold enter_frame.
  set (x := match find_thread (ts_host a) w with Some t => (t_id t, w) | None => add_thread (ts_host a) w end).
  assert (X : exists tid w1, x = (tid, w1) /\ hs1 (ts_host a) w w1 /\ forall t, dget (w_threads w1) tid = Some t -> t_id t = tid).
  { subst x. destruct (find_thread (ts_host a) w) as [t|] eqn:F.
    - exists (t_id t), w. csplit; auto; [apply hs_1, hs_refl|]. intros t0 H. apply (i_t I) in H. tauto.
    - exists (d_thread (w_dbg w)), (snd (add_thread (ts_host a) w)). split; [reflexivity|]. split.
      + intros k t' h'. unfold add_thread. cbn -[dset dget]. rewrite dget_dset. destruct (eqb_spec (d_thread (w_dbg w)) k) as [<-|]; [|left; eauto].
        intros Y; injection Y as <-. cbn. intros Y; injection Y as <-. right. split; auto.
        destruct (dget (w_threads w) (d_thread (w_dbg w))) eqn:E; auto. apply (i_t I) in E. lia.
      + intros t H. apply (i_t (@inv_add_thread w (ts_host a) I F)) in H. tauto. }
  destruct X as (tid & w1 & -> & H1 & ID). 
  set (step2 := match dget (w_threads w1) tid with None => _ | Some t => _ end).
  assert (K2 : hs w1 (fst step2) /\ forall t, dget (w_threads (fst step2)) tid = Some t -> t_id t = tid).
  { subst step2. destruct (dget (w_threads w1) tid) as [t|] eqn:T; [|split; [apply hs_refl|cbn; congruence]].
    specialize (ID _ eq_refl).
    assert (BASE : hs w1 w1 /\ forall t0, dget (w_threads w1) tid = Some t0 -> t_id t0 = tid) by (split; [apply hs_refl|congruence]).
    destruct (t_stack t) as [|last rest]; [exact BASE|]. destruct (n_parent (ts_task a)) as [blk|]; [|exact BASE].
    destruct (dget (w_frames w1) last) as [lf|]; [|exact BASE]. cbv zeta.
    set (popped := if (match n_parent blk with None => true | Some p => negb (n_uuid (f_task lf) =? n_uuid p)%N end) then _ else _).
    assert (P : hs w1 (fst popped) /\ forall t0, dget (w_threads (fst popped)) tid = Some t0 -> t_id t0 = tid).
    { subst popped. destruct (match n_parent blk with None => true | Some _ => _ end); [|exact BASE].
      assert (Y : hs w1 (set_thread (t_with_stack rest t) w1) /\ forall t0, dget (w_threads (set_thread (t_with_stack rest t) w1)) tid = Some t0 -> t_id t0 = tid).
      { split; [apply (@hs_set w1 (t_with_stack rest t) t); cbn; congruence|]. intros t0. unfold set_thread. cbn -[dset dget]. rewrite dget_dset, ID.
        destruct (eqb_spec tid tid); [|congruence]. intros Z; injection Z as <-. exact ID. }
      destruct (del_vars _ _); exact Y. }
    destruct popped as (w4, [u|e]); cbn [fst] in P |- *; [|exact P].
    destruct (n_parent blk); [|exact P]. destruct (is_include_role _); [|exact P].
    destruct (ts_role a) as [regs|]; [|exact P].
    destruct (register_all regs (w_dbg w4)) as (d', [u2|e]); exact P. }
  destruct K2 as (K2 & ID2). destruct step2 as (w5, [u|e]); cbn [fst] in *; [|eapply hs1_hs; eauto].
  cbn -[dset dget set_thread]. match goal with |- context [dget (w_threads ?z) tid] => change (dget (w_threads z) tid) with (dget (w_threads w5) tid); set (w7 := z) end.
  destruct (dget (w_threads w5) tid) as [t|] eqn:T; cbn [fst]; [|eapply hs1_hs; [exact H1|exact K2]].
  eapply hs1_hs; [exact H1|]. eapply hs_trans; [exact K2|]. eapply hs_trans; [apply (@hs_same w5 w7); reflexivity|].
  apply (@hs_set w7 _ t); [|reflexivity]. cbn [t_id t_with_stack]. rewrite (ID2 _ eq_refl). exact T.
Qed.
Lemma start_hosts a w : WInv w -> dwf (w_dbg w) -> (match ts_role a with Some regs => regs_wf regs | None => True end) ->
  hs1 (ts_host a) w (fst (fst (start_task a w))).
Proof.
  intros I D W. pose proof (@enter_hosts a w I) as H. destruct (@enter_frame_spec a w I D W) as (tid & _ & _ & E). unfold start_task.
  destruct (enter_frame a w) as (w1, [tid'|e]); cbn [fst] in *; auto.
  destruct E as (-> & I1 & _ & _ & _ & t' & (T1 & _) & _).
  pose proof (@start_decide_spec a tid t' w1 I1 T1) as X. destruct (start_decide a tid w1) as (w2, o). cbn [fst].
  destruct X as (_ & O & _ & _ & _ & _ & (t2 & T2 & (_ & E & _) & _) & _). eapply hs1_hs; [exact H|]. eapply hs_only; eauto.
Qed.

Lemma alive_new a b k : In k (alive (a ++ b)) -> In k (alive a) \/ In (true, k) b.
Proof.
  revert a. induction b as [|e b IH] using rev_ind; intros a H; [rewrite app_nil_r in H; auto|].
  rewrite app_assoc, alive_snoc in H. destruct e as ([|], t); cbn [fst snd] in H.
  - apply in_app_or in H. destruct H as [H|[H|[]]]; [|right; apply in_or_app; right; left; congruence].
    destruct (IH _ H); [auto|right; apply in_or_app; auto].
  - apply filter_In in H. destruct H as (H & _). destruct (IH _ H); [auto|right; apply in_or_app; auto].
Qed.

Section S.
Variable py_int : pystr -> option Z.
Variable py_repr : heap -> val -> pystr.
Variable type_name : heap -> val -> pystr.
Variable tmpl : pystr -> nat -> heap -> res (list obj * val).
Variable tmpl_args : nat -> nat -> heap -> res (list obj * val).
Variable err_text : exn -> pystr.
Variable parse_repl : pystr -> res ReplCmd.
Notation step := (step py_int py_repr type_name tmpl tmpl_args err_text parse_repl).
Notation run := (run py_int py_repr type_name tmpl tmpl_args err_text parse_repl).

Lemma step_hosts y l y' : SInv y -> label_wf l -> step y l = Some y' ->
  match l with LStart a => hs1 (ts_host a) (y_w y) (y_w y') | _ => hs (y_w y) (y_w y') end.
Proof.
  intros S W H. pose proof (y_inv S) as I. pose proof (y_dwf S) as D.
  destruct (@step_inv py_int py_repr type_name tmpl tmpl_args err_text parse_repl y l y' S W H) as (S' & _ & _).
  pose proof (y_inv S') as I'.
  assert (AB : forall e w, y' = abort e w y -> hs (y_w y) (y_w y')).
  { intros e w ->. apply hs_main; auto. pose proof (y_ph S') as P. cbn in P. tauto. }
  destruct (strategy_label l) eqn:SL.
  - destruct l as [|a|h1 r addr| | |regs| |seq r| |maps| |hp|lregs]; try discriminate; cbn [SysModel.step] in H.
    + destruct (y_phase y); try discriminate. destruct (host_open _ _); [discriminate|].
      pose proof (@start_hosts a (y_w y) I D W) as X. destruct (start_task a (y_w y)) as ((w', [| |e]), [tid|]); cbn [fst] in X; try discriminate; injection H as <-; auto.
      * apply hs_1. eapply AB; reflexivity.
      * apply hs_1. eapply AB; reflexivity.
    + destruct (y_phase y); try discriminate. destruct (find _ (y_open y)) as [(h2, task)|] eqn:F; [|discriminate].
      apply find_open in F. destruct F as (F1 & F2). cbn in F2.
      assert (OKh : open_ok h1 task (y_w y)).
      { destruct (y_ok S _ _ F1) as (tid & t & A & B). exists tid, t. split; auto. unfold host_is in *. destruct (t_host t); [|discriminate]. now rewrite <- F2. }
      destruct (@end_task_spec h1 task r addr (y_w y) I OKh) as (tid & t & TF & OT & E).
      assert (N1 : tid <> 1). { destruct TF as (T1 & T2). destruct (host_is_host _ _ T2) as (h3 & HH & _). eapply (@thread_not_main (y_w y) tid t I T1). rewrite HH. discriminate. }
      destruct (end_task h1 task r addr (y_w y)) as ((w', [| |e]), [tid'|]); try contradiction.
      * destruct E as (-> & ->). pose proof (@hs_finish tid t task (y_w y) I OT N1) as X.
        destruct (end_finish tid task (y_w y)) as (w2, [| |e]); cbn [fst] in X; [|discriminate|]; injection H as <-; auto. eapply AB; reflexivity.
      * destruct E as (-> & _ & O & t' & (T' & _) & (_ & E & _) & _). injection H as <-. cbn [y_w]. destruct OT as (OT & _). eapply hs_only; eauto.
    + destruct (y_phase y) eqn:P; try discriminate.
      * destruct (waiting _ _); [discriminate|]. destruct (start_resume _ _); try discriminate; injection H as <-; [apply hs_refl|eapply AB; reflexivity].
      * destruct (waiting _ _); [discriminate|]. pose proof (y_ph S) as Q. rewrite P in Q. destruct Q as (t & h & OT & TH & _).
        assert (N1 : tid <> 1). { destruct OT as (T1 & _). eapply (@thread_not_main (y_w y) tid t I T1). rewrite TH. discriminate. }
        pose proof (@hs_finish tid t task (y_w y) I OT N1) as X.
        destruct (end_finish tid task (y_w y)) as (w2, [| |e]); cbn [fst] in X; [|discriminate|]; injection H as <-; auto. eapply AB; reflexivity.
    + destruct (y_phase y); try discriminate. destruct (y_open y) as [|? [|]]; try discriminate. injection H as <-. apply hs_main; [auto|]. cbn. destruct (exit_threads_spec I) as (_ & _ & _ & _ & X & _). exact X.
    + destruct (y_phase y); try discriminate. destruct (register_all _ _) as (d, [u|e]); injection H as <-; [apply hs_same; reflexivity|eapply AB; reflexivity].
    + destruct (y_phase y); try discriminate. injection H as <-. apply hs_main; [auto|]. cbn. destruct (exit_threads_spec I) as (_ & _ & _ & _ & X & _). exact X.
    + destruct (y_phase y); try discriminate. injection H as <-. apply hs_same; reflexivity.
  - destruct l; try discriminate; try (apply hs_qext; eapply (@step_other py_int py_repr type_name tmpl tmpl_args err_text parse_repl); eauto; discriminate).
    cbn in H. destruct (y_phase y); try discriminate. injection H as <-. apply hs_main; [auto|reflexivity].
Qed.

Lemma run_snoc ls l y : run sys_init (ls ++ [l]) y <-> exists y1, run sys_init ls y1 /\ step y1 l = Some y.
Proof.
  rewrite (@run_app py_int py_repr type_name tmpl tmpl_args err_text parse_repl). split; intros (y1 & A & B); exists y1; (split; [exact A|]).
  - inversion B as [|? ? ? ? ? X Y]; subst. inversion Y; subst. exact X.
  - econstructor; [exact B|constructor].
Qed.
Lemma announced_snoc ls l k h : announced run step ls k h -> announced run step (ls ++ [l]) k h.
Proof.
  intros (pre & a & post & y1 & y2 & new & -> & H). exists pre, a, (post ++ [l]), y1, y2, new. split; auto. now rewrite <- app_assoc.
Qed.
Lemma run_hosts ls : forall y, trace_wf ls -> run sys_init ls y ->
  forall k t h, dget (w_threads (y_w y)) k = Some t -> t_host t = Some h -> announced run step ls k h.
Proof.
  induction ls as [|l ls IH] using rev_ind; intros y W R k t h A B.
  - inversion R; subst. exfalso. pose proof sinv_init as S0. pose proof (y_ph S0) as P. cbn in P. eapply (@only_main_absent (h_uuid h) _ (y_inv S0) (proj2 P)); eauto.
  - apply Forall_app in W. destruct W as (W1 & W2). inversion W2 as [|? ? W3 _]; subst.
    apply run_snoc in R. destruct R as (y1 & R1 & ST). pose proof (@run_sinv py_int py_repr type_name tmpl tmpl_args err_text parse_repl _ _ W1 R1) as S1.
    pose proof (@step_hosts y1 l y S1 W3 ST) as X.
    destruct l as [|a|h1 r addr| | |regs| |seq r| |maps| |hp|lregs];
      try (destruct (X _ _ _ A B) as (t1 & A1 & B1); apply announced_snoc; eauto; fail).
    destruct (X _ _ _ A B) as [(t1 & A1 & B1)|(N & ->)]; [apply announced_snoc; eauto|].
    destruct (@step_marks py_int py_repr type_name tmpl tmpl_args err_text parse_repl y1 _ y S1 W3 ST) as (ms & E & _).
    exists ls, a, [], y1, y, (thread_events ms). csplit; auto. { now rewrite E, tev_app. }
    destruct (run_tinv sinv_init W1 R1 tinv_init) as (T1 & _).
    assert (W' : trace_wf (ls ++ [LStart a])) by (apply Forall_app; auto).
    assert (R' : run sys_init (ls ++ [LStart a]) y) by (apply run_snoc; eauto).
    destruct (run_tinv sinv_init W' R' tinv_init) as (T2 & _).
    assert (K2 : In k (dkeys (w_threads (y_w y)))) by (eapply dget_Some_key; eauto). apply dget_None in N. rewrite T1 in N. rewrite T2, E, tev_app in K2.
    destruct K2 as [<-|K2]; [exfalso; apply N; now left|]. destruct (alive_new _ _ _ K2) as [K|K]; auto. exfalso. apply N. now right.
Qed.
End S.
