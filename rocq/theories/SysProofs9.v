(** The strategy's operations as sequences of small world changes. *)
From Verif Require Import PyBase PyDict DbgTypes BpModel BpSpec BpProofs2 BpProofs3 BpProps ThreadModel StratModel SysModel SysSpec SysProofs SysProofs2 SysProofs3 SysProofs4 SysProofs5 SysProofs6 SysProofs7 SysProofs8.
Set Implicit Arguments.
Local Open Scope N_scope.

(** What the strategy does to the debugger object by itself: registering places and
    sending stop events. *)
Definition quiet_op (o : bop) : Prop :=
  match o with BReg _ line _ => (0 <= line)%Z | BMsg (Some (OStopped _)) => True | _ => False end.
Definition quiet (d d' : Dbg) : Prop := exists ops, Forall quiet_op ops /\ d' = fold_left bstep ops d.
Lemma quiet_refl d : quiet d d. Proof. exists []. split; auto. Qed.
Lemma quiet_trans a b c : quiet a b -> quiet b c -> quiet a c.
Proof. intros (o1 & W1 & ->) (o2 & W2 & ->). exists (o1 ++ o2). split; [apply Forall_app; auto|now rewrite fold_left_app]. Qed.
Lemma quiet_op_wf o : quiet_op o -> op_wf o.
Proof. destruct o as [| |? ? ?| | |[[]|]| | | | |]; cbn; auto; contradiction. Qed.
Lemma quiet_dext d d' : quiet d d' -> dext d d'.
Proof. intros (ops & W & E). exists ops. split; auto. intros o H. rewrite Forall_forall in W. now apply quiet_op_wf, W. Qed.
Lemma quiet_ctr d d' : quiet d d' -> same_ctr d d'.
Proof.
  intros (ops & W & ->). revert d. induction W as [|o ops Ho W IH]; intros d; cbn [fold_left]; [repeat split|].
  destruct (IH (bstep d o)) as (A & B & C). destruct (bstep_ctrs d o) as (A' & B' & C'). unfold same_ctr. rewrite A, B, C, A', B', C'.
  destruct o as [| |? ? ?| | |[[]|]| | | | |]; cbn in Ho |- *; try contradiction; repeat split; lia.
Qed.
Lemma register_quiet l : forall d, regs_wf l -> quiet d (fst (register_all l d)).
Proof.
  induction l as [|((p, line), t) l IH]; intros d W; cbn [register_all]; [apply quiet_refl|].
  assert (L : (0 <= line)%Z) by (eapply W; left; reflexivity).
  assert (Q : quiet d (fst (register_path_breakpoint p line t d))).
  { exists [BReg p line t]. split; [constructor; auto|reflexivity]. }
  destruct (register_path_breakpoint p line t d) as (d', [u|e]); cbn [fst] in *; auto.
  eapply quiet_trans; [exact Q|]. apply IH. intros p0 l0 t0 H. eapply W. right. exact H.
Qed.

Inductive micro (w : World) : World -> Prop :=
| m_dbg d : quiet (w_dbg w) d -> micro w (wd d w)
| m_thread k t t' : dget (w_threads w) k = Some t -> same_thread t t' -> micro w (wthreads (dset (w_threads w) k t') w)
| m_add h : find_thread h w = None -> micro w (snd (add_thread h w))
| m_push a tid t : dget (w_threads w) tid = Some t -> tid <> 1 ->
    micro w (set_thread (t_with_stack (d_frame (w_dbg w) :: t_stack t) t)
              (wframes (dset (w_frames w) (d_frame (w_dbg w)) (mkFrame (d_frame (w_dbg w)) (ts_task a) (ts_tv a) (ts_args a) [] 0 0 0 0))
                (wd (snd (next_stackframe_id (w_dbg w))) w)))
| m_drop tid t sfid rest f vs : dget (w_threads w) tid = Some t -> t_stack t = sfid :: rest -> dget (w_frames w) sfid = Some f ->
    del_vars (f_vars f) (w_vars w) = Ok vs -> micro w (drop_frame tid t sfid rest vs w)
| m_scope fid k ds g f : dget (w_frames w) fid = Some f -> scope_setter g ->
    micro w (let '(id, w2) := add_var fid k ds w in match dget (w_frames w2) fid with Some f2 => set_frame (g id f2) w2 | None => w2 end)
| m_exit tid t : tid <> 1 -> dget (w_threads w) tid = Some t ->
    micro w (emit (OThread false tid) (wthreads (ddel (w_threads w) tid) w)).

Lemma micro_inv w w' : micro w w' -> WInv w -> WInv w' /\ dext (w_dbg w) (w_dbg w').
Proof.
  intros M I. destruct M as [d Q|k t t' H S|h F|a tid t H N|tid t sfid rest f vs H1 H2 H3 H4|fid k ds g f H S|tid t N H].
  - split; [apply inv_dbg; auto; now apply quiet_ctr|now apply quiet_dext].
  - destruct S as (A & B & C). split; [eapply inv_thread_upd; eauto|apply dext_refl].
  - split; [now apply inv_add_thread|]. apply dext_trans with (snd (next_thread_id (w_dbg w))); [apply (@dext_one _ BThread); exact Logic.I|].
    apply (@dext_msg _ (Some (OThread true (d_thread (w_dbg w))))). reflexivity.
  - destruct (@inv_push w tid t a I H N) as (A & B). split; [exact A|apply (o_d B)].
  - destruct (@inv_drop w tid t sfid rest f I H1 H2 H3) as (vs' & A & B & _). assert (vs' = vs) by congruence. subst. split; auto. apply dext_refl.
  - pose proof (@add_scope fid k ds g w f I H S) as A. destruct (add_var fid k ds w) as (id, w2). cbv zeta in A. destruct A as (A & Q & _). split; auto. apply (q_d Q).
  - split; [|apply (@dext_msg _ (Some (OThread false tid))); reflexivity].
    destruct (@exit_loop [tid] w) as (A & _); auto.
    + repeat constructor. intros [].
    + intros x [<-|[]]. now apply dget_Some_key in H.
    + cbn [fold_left] in A. destruct (N.eqb_spec tid 1); [contradiction|]. exact A.
Qed.

Inductive msteps : World -> World -> Prop :=
| ms_refl w : msteps w w
| ms_step w w1 w2 : micro w w1 -> msteps w1 w2 -> msteps w w2.
Lemma ms_one w w' : micro w w' -> msteps w w'.
Proof. intros. econstructor; [eassumption|constructor]. Qed.
Lemma ms_trans a b c : msteps a b -> msteps b c -> msteps a c.
Proof. induction 1; auto. intros. econstructor; eauto. Qed.
Lemma msteps_inv w w' : msteps w w' -> WInv w -> WInv w' /\ dext (w_dbg w) (w_dbg w').
Proof.
  induction 1 as [w|w w1 w2 M _ IH]; intros I; [split; auto using dext_refl|].
  destruct (micro_inv M I) as (I1 & D1). destruct (IH I1) as (I2 & D2). split; auto. eapply dext_trans; eauto.
Qed.
(** Reasoning principle. *)
Lemma msteps_rel (R : World -> World -> Prop) : (forall w, WInv w -> R w w) -> (forall a b c, WInv a -> R a b -> R b c -> R a c) ->
  (forall w w', WInv w -> micro w w' -> R w w') -> forall w w', WInv w -> msteps w w' -> R w w'.
Proof.
  intros R1 R2 R3 w w' I M. induction M as [w|w w1 w2 M _ IH]; auto. eapply R2; [exact I|apply R3; eauto|]. apply IH. now apply (micro_inv M).
Qed.

Lemma enter_frame_micro a w : WInv w -> (match ts_role a with Some regs => regs_wf regs | None => True end) ->
  msteps w (fst (enter_frame a w)).
Proof.
  intros I W. unfold enter_frame.
  set (x := match find_thread (ts_host a) w with Some t => (t_id t, w) | None => add_thread (ts_host a) w end).
  assert (X : exists tid w1 t1, x = (tid, w1) /\ tid <> 1 /\ WInv w1 /\ msteps w w1 /\ dget (w_threads w1) tid = Some t1).
  { subst x. destruct (find_thread (ts_host a) w) as [t|] eqn:F.
    - pose proof (find_thread_some _ I F) as (T1 & T2). exists (t_id t), w, t. csplit; auto; [|constructor].
      destruct (host_is_host _ _ T2) as (h & HH & _). eapply thread_not_main; eauto. congruence.
    - exists (d_thread (w_dbg w)), (snd (add_thread (ts_host a) w)). eexists. split; [reflexivity|]. split; [destruct (i_ctr I); lia|].
      split; [now apply inv_add_thread|]. split; [now apply ms_one, m_add|]. unfold add_thread. cbn -[dset dget]. apply dget_dset_same. }
  destruct X as (tid & w1 & t1 & -> & N1 & I1 & M1 & TF1). rewrite TF1.
  assert (PUSH : forall w5 t5, WInv w5 -> msteps w w5 -> dget (w_threads w5) tid = Some t5 ->
     msteps w (fst (let '(sfid, d) := next_stackframe_id (w_dbg w5) in
       let w6 := wd d w5 in
       let w7 := wframes (dset (w_frames w6) sfid (mkFrame sfid (ts_task a) (ts_tv a) (ts_args a) [] 0 0 0 0)) w6 in
       match dget (w_threads w7) tid with
       | Some t => (set_thread (t_with_stack (sfid :: t_stack t) t) w7, Ok tid)
       | None => (w7, Err EUnmodelled) end))).
  { intros w5 t5 I5 M5 T5. unfold next_stackframe_id.
    match goal with |- context [dget (w_threads (wframes ?u ?v)) tid] => change (dget (w_threads (wframes u v)) tid) with (dget (w_threads w5) tid) end.
    rewrite T5. cbn [fst]. eapply ms_trans; [exact M5|]. apply ms_one. apply (@m_push w5 a tid t5 T5 N1). }
  destruct (t_stack t1) as [|last rest] eqn:ES; [eapply PUSH; eauto|].
  destruct (n_parent (ts_task a)) as [blk|]; [|exact M1].
  destruct (@i_stack _ I1 tid t1 last TF1) as (lf & HL). { rewrite ES. now left. }
  rewrite HL.
  set (leave := match n_parent blk with Some p => negb (N.eqb (n_uuid (f_task lf)) (n_uuid p)) | None => true end).
  assert (POP : exists w4 t4, (if leave then
                 let w2 := set_thread (t_with_stack rest t1) w1 in
                 let w3 := wframes (ddel (w_frames w2) last) w2 in
                 match del_vars (f_vars lf) (w_vars w3) with Ok vs => (wvars vs w3, Ok tt) | Err e => (w3, Err e) end
               else (w1, Ok tt)) = (w4, Ok tt) /\ WInv w4 /\ msteps w w4 /\ dget (w_threads w4) tid = Some t4).
  { destruct leave.
    - destruct (@inv_drop w1 tid t1 last rest lf I1 TF1 ES HL) as (vs & E & I4 & _ & _).
      exists (drop_frame tid t1 last rest vs w1), (t_with_stack rest t1). cbv zeta.
      match goal with |- context [del_vars ?u ?v] => change (del_vars u v) with (del_vars (f_vars lf) (w_vars w1)) end. rewrite E.
      destruct (i_t I1 _ TF1) as (TID & _). csplit; auto.
      + eapply ms_trans; [exact M1|]. apply ms_one. eapply m_drop; eauto.
      + unfold drop_frame, set_thread. cbn -[dset dget]. rewrite TID. apply dget_dset_same.
    - exists w1, t1. auto. }
  destruct POP as (w4 & t4 & EP & I4 & M4 & T4). fold leave. cbv zeta. cbv zeta in EP. rewrite EP.
  destruct (n_parent blk) as [p|]; [|eapply PUSH; eauto].
  destruct (is_include_role (f_task lf)); [|eapply PUSH; eauto].
  destruct (ts_role a) as [regs|]; [|exact M4].
  pose proof (@register_quiet regs (w_dbg w4) W) as Q. destruct (register_all regs (w_dbg w4)) as (d5, [u|e]); cbn [fst] in Q.
  - eapply PUSH.
    + apply inv_dbg; [exact I4|now apply quiet_ctr].
    + eapply ms_trans; [exact M4|]. now apply ms_one, m_dbg.
    + exact T4.
  - eapply ms_trans; [exact M4|]. now apply ms_one, m_dbg.
Qed.

Lemma quiet_stop ev d : quiet d (queue_msg (OStopped ev) d).
Proof. exists [BMsg (Some (OStopped ev))]. split; [repeat constructor|reflexivity]. Qed.

Lemma set_thread_micro w tid t t' : WInv w -> dget (w_threads w) tid = Some t -> same_thread t t' -> micro w (set_thread t' w).
Proof.
  intros I H S. destruct (i_t I _ H) as (E & _). unfold set_thread. pose proof S as (A & _). rewrite A, E. eapply m_thread; eauto.
Qed.

Lemma start_decide_micro a tid t w : WInv w -> dget (w_threads w) tid = Some t -> msteps w (fst (start_decide a tid w)).
Proof.
  intros I H. unfold start_decide. destruct (n_path (ts_task a)) as [(path, line)|]; [|constructor].
  match goal with |- context [match ?x with Ok _ => _ | Err _ => _ end] => destruct x as [id|e] end; [|constructor].
  rewrite H. pose proof (should_break_same (ts_task a) id t) as S.
  destruct (should_break (ts_task a) id t) as (t', [ev|]); cbn [fst] in *; pose proof (@set_thread_micro w tid t t' I H S) as M.
  - econstructor; [exact M|]. apply ms_one. apply m_dbg. apply quiet_stop.
  - now apply ms_one.
Qed.
Lemma start_task_micro a w : WInv w -> dwf (w_dbg w) -> (match ts_role a with Some regs => regs_wf regs | None => True end) ->
  msteps w (fst (fst (start_task a w))).
Proof.
  intros I D W. pose proof (@enter_frame_micro a w I W) as M. destruct (@enter_frame_spec a w I D W) as (tid & _ & _ & E). unfold start_task.
  destruct (enter_frame a w) as (w1, [tid'|e]); cbn [fst] in *; auto.
  destruct E as (-> & I1 & _ & _ & _ & t' & (T1 & _) & _).
  pose proof (@start_decide_micro a tid t' w1 I1 T1) as M2. destruct (start_decide a tid w1) as (w2, o). cbn [fst] in *. eapply ms_trans; eauto.
Qed.

Lemma end_task_micro h task r addr w : WInv w -> open_ok h task w -> msteps w (fst (fst (end_task h task r addr w))).
Proof.
  intros I (tid & t & HI & HT & sfid & rest & f & ST & HF & TK).
  destruct (@thread_for_find h w tid t I (conj HT HI)) as (FT & TID). unfold end_task. rewrite FT.
  pose proof (ssoe_same task r (should_stop_on_error (w_dbg w)) (should_stop_on_unreachable (w_dbg w)) (should_stop_on_skipped (w_dbg w)) t) as S.
  destruct (should_stop_on_exception task r _ _ _ t) as (t', [ev|]); cbn [fst] in S; [|constructor].
  pose proof (@set_thread_micro w tid t t' I HT S) as M1. destruct (micro_inv M1 I) as (I1 & _). set (w1 := set_thread t' w) in *.
  rewrite ST. assert (HF1 : dget (w_frames w1) sfid = Some f) by exact HF. rewrite HF1.
  pose proof (@m_scope w1 sfid VKDict addr f_with_result f HF1 ss_result) as M2.
  pose proof (@add_var_new sfid VKDict addr w1 I1 (ex_intro _ f HF1)) as B.
  destruct (add_var sfid VKDict addr w1) as (vid, w2). destruct B as (_ & _ & _ & _ & _ & _ & _ & B5 & _). specialize (B5 _ HF1).
  rewrite B5 in M2 |- *. cbn [fst]. unfold set_frame in M2. cbn [f_id f_with_result f_with_vars] in M2. destruct (i_f I _ HF) as (E & _). rewrite E in M2.
  econstructor; [exact M1|]. econstructor; [exact M2|]. apply ms_one. apply m_dbg, quiet_stop.
Qed.

Lemma end_finish_micro tid t task w : WInv w -> on_top tid t task w -> msteps w (fst (end_finish tid task w)).
Proof.
  intros I (HT & sfid & rest & f & ST & HF & TK). unfold end_finish. rewrite HT.
  destruct (tstate_eqb (t_state t) TEnd); [constructor|]. destruct (is_include task); [constructor|]. rewrite ST.
  change (w_frames (set_thread (t_with_stack rest t) w)) with (w_frames w). rewrite HF.
  destruct (@inv_drop w tid t sfid rest f I HT ST HF) as (vs & E & _).
  match goal with |- context [del_vars ?u ?v] => change (del_vars u v) with (del_vars (f_vars f) (w_vars w)) end. rewrite E.
  apply ms_one. eapply m_drop; eauto.
Qed.

Lemma exit_threads_micro w : WInv w -> msteps w (exit_threads w).
Proof.
  intros I. unfold exit_threads. assert (G : forall ks w, NoDup ks -> WInv w -> (forall x, In x ks -> In x (dkeys (w_threads w))) ->
    msteps w (fold_left (fun w tid => if N.eqb tid 1 then w else emit (OThread false tid) (wthreads (ddel (w_threads w) tid) w)) ks w)).
  { clear. induction ks as [|a ks IH]; intros w ND I IN; cbn [fold_left]; [constructor|]. inversion ND as [|? ? N1 N2]; subst.
    destruct (N.eqb_spec a 1) as [->|NE]. { apply IH; auto. intros x Hx. apply IN. now right. }
    destruct (dget_key_ex _ _ (IN a (or_introl eq_refl))) as (t & Ht). pose proof (m_exit w NE Ht) as M.
    econstructor; [exact M|]. apply IH; auto.
    - apply (micro_inv M I).
    - intros x Hx. change (In x (dkeys (ddel (w_threads w) a))). apply In_dkeys_ddel; [apply (i_tnd I)|]. split; [congruence|]. apply IN. now right. }
  apply G; auto. apply (i_tnd I).
Qed.
