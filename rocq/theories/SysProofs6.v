(** Starting and ending tasks. *)
From Verif Require Import PyBase PyDict DbgTypes BpModel BpSpec BpProofs2 BpProofs3 BpProps ThreadModel StratModel SysModel SysSpec SysProofs SysProofs2 SysProofs3 SysProofs4 SysProofs5.
Set Implicit Arguments.
Local Open Scope N_scope.

Definition dwf (d : Dbg) : Prop := exists ops, hist_wf ops /\ d = brun ops.
Lemma dwf_binv d : dwf d -> exists ops, binv d ops.
Proof. intros (ops & W & ->). exists ops. now apply binv_run. Qed.
Lemma dwf_dext d d' : dwf d -> dext d d' -> dwf d'.
Proof.
  intros (ops & W & ->) (ops2 & W2 & ->). exists (ops ++ ops2). split.
  - intros o H. apply in_app_or in H. destruct H; auto.
  - unfold brun. now rewrite fold_left_app.
Qed.

Lemma register_all_ok l : forall d, dwf d -> regs_wf l ->
  exists d', register_all l d = (d', Ok tt) /\ dext d d' /\ same_ctr d d' /\ d_term d' = d_term d.
Proof.
  induction l as [|((p, line), t) l IH]; intros d D W; cbn [register_all].
  - exists d. split; auto. split; [apply dext_refl|repeat split].
  - destruct (dwf_binv D) as (ops & B). assert (L : (0 <= line)%Z) by (eapply W; left; reflexivity).
    destruct (@reg_ok d ops p line t B L) as (d1 & E & _). rewrite E.
    pose proof (@dext_one d (BReg p line t) L) as X. cbn [bstep] in X. rewrite E in X. cbn [fst] in X.
    destruct (IH d1 (dwf_dext D X)) as (d2 & E2 & X2 & (C1 & C2 & C3) & T2). { intros p0 l0 t0 H. eapply W. right. exact H. }
    exists d2. split; auto. split; [eapply dext_trans; eauto|].
    destruct (register_frame p line t d) as (_ & F1 & F2 & F3 & _ & _ & F4 & _). rewrite E in F1, F2, F3, F4. cbn [fst] in *.
    split; [unfold same_ctr; repeat split; congruence|congruence].
Qed.

(** A host's thread. *)
Definition thread_for (h : Host) (tid : N) (t : Thread) (w : World) : Prop :=
  dget (w_threads w) tid = Some t /\ host_is h t = true.
Lemma find_thread_some h w t : WInv w -> find_thread h w = Some t -> thread_for h (t_id t) t w.
Proof.
  intros I H. unfold find_thread in H. apply find_some in H. destruct H as (H1 & H2). split; auto.
  unfold dvals in H1. apply in_map_iff in H1. destruct H1 as ((k, t') & E & H1). cbn in E. subst t'.
  apply In_dget in H1; [|apply (i_tnd I)]. destruct (i_t I _ H1) as (-> & _). auto.
Qed.
Lemma thread_for_find h w tid t : WInv w -> thread_for h tid t w -> find_thread h w = Some t /\ t_id t = tid.
Proof.
  intros I (H1 & H2). destruct (i_t I _ H1) as (E & _). split; auto.
  destruct (find_thread h w) as [t'|] eqn:F.
  - pose proof (find_thread_some _ I F) as (A & B). unfold host_is in *.
    destruct (t_host t) as [h1|] eqn:E1; [|discriminate]. destruct (t_host t') as [h2|] eqn:E2; [|discriminate].
    assert (t_id t' = tid). { eapply (i_host I _ _ A H1 E2 E1). apply N.eqb_eq in H2, B. congruence. }
    congruence.
  - unfold find_thread in F. assert (In t (dvals (w_threads w))). { apply dget_In in H1. unfold dvals. apply in_map_iff. exists (tid, t). auto. }
    apply (find_none _ _ F) in H. congruence.
Qed.

(** Only thread [tid] and its own frames are touched. *)
Record only (tid : N) (w w' : World) : Prop := {
  o_t : forall k, k <> tid -> dget (w_threads w') k = dget (w_threads w) k;
  o_f : forall k t f, k <> tid -> dget (w_threads w) k = Some t -> In f (t_stack t) -> dget (w_frames w') f = dget (w_frames w) f;
  o_d : dext (w_dbg w) (w_dbg w') }.
Lemma only_refl tid w : only tid w w.
Proof. constructor; auto using dext_refl. Qed.
Lemma only_trans tid w1 w2 w3 : only tid w1 w2 -> only tid w2 w3 -> only tid w1 w3.
Proof.
  intros [] []. constructor; eauto using dext_trans.
  - intros k N. rewrite o_t1; auto.
  - intros k t f N H1 H2. rewrite (o_f1 k t f); eauto. rewrite o_t0; auto.
Qed.

(** Which includes stay on the stack when [task] starts. *)
Definition leaves (lf : Frame) (task : Node) : bool :=
  match n_parent task with
  | Some blk => match n_parent blk with
                | None => true
                | Some p => negb (N.eqb (n_uuid (f_task lf)) (n_uuid p)) end
  | None => true end.
Definition kept (w : World) (task : Node) (S : list N) : list N :=
  match S with
  | [] => []
  | last :: rest => match dget (w_frames w) last with Some lf => if leaves lf task then rest else S | None => S end
  end.

Lemma inv_push w tid t a : WInv w -> dget (w_threads w) tid = Some t -> tid <> 1 ->
  let sfid := d_frame (w_dbg w) in
  let w6 := wd (snd (next_stackframe_id (w_dbg w))) w in
  let w7 := wframes (dset (w_frames w6) sfid (mkFrame sfid (ts_task a) (ts_tv a) (ts_args a) [] 0 0 0 0)) w6 in
  let w8 := set_thread (t_with_stack (sfid :: t_stack t) t) w7 in
  WInv w8 /\ only tid w w8.
Proof.
  intros I Ht N1 sfid w6 w7 w8. pose proof I as I0. destruct I. destruct (i_t _ _ Ht) as (T1 & T2 & T3 & T4).
  assert (fresh : dget (w_frames w) sfid = None).
  { destruct (dget (w_frames w) sfid) eqn:E; auto. apply i_f in E. unfold sfid in E. lia. }
  assert (nst : forall k t0, dget (w_threads w) k = Some t0 -> ~ In sfid (t_stack t0)).
  { intros k t0 A B. destruct (i_stack _ _ _ A B). congruence. }
  assert (TH : w_threads w8 = dset (w_threads w) tid (t_with_stack (sfid :: t_stack t) t)) by (unfold w8, set_thread; cbn; now rewrite T1).
  assert (FR : w_frames w8 = dset (w_frames w) sfid (mkFrame sfid (ts_task a) (ts_tv a) (ts_args a) [] 0 0 0 0)) by reflexivity.
  assert (VR : w_vars w8 = w_vars w) by reflexivity.
  assert (D8 : w_dbg w8 = snd (next_stackframe_id (w_dbg w))) by reflexivity.
  clearbody w8. split.
  - constructor; rewrite ?TH, ?FR, ?VR, ?D8; auto.
    + now apply NoDup_dset.
    + now apply NoDup_dset.
    + destruct i_main as (st & sn & M). exists st, sn. rewrite dget_dset_other; auto.
    + intros k t0. rewrite dget_dset. destruct (eqb_spec tid k) as [<-|]; [|apply i_t].
      intros X; injection X as <-. cbn [t_id t_host t_stack t_with_stack]. repeat split; auto; try (cbn; lia). constructor; eauto.
    + intros k1 k2 t1 t2 h1 h2. rewrite !dget_dset.
      destruct (eqb_spec tid k1) as [<-|], (eqb_spec tid k2) as [<-|]; intros X1 X2 X3 X4 X5; auto;
        try (injection X1 as <-); try (injection X2 as <-); cbn in *; eauto.
    + intros k t0 f. rewrite dget_dset. destruct (eqb_spec tid k) as [<-|].
      * intros X; injection X as <-. cbn [t_stack t_with_stack]. rewrite dget_dset. destruct (eqb_spec sfid f); [eauto|].
        intros [Y|Y]; [congruence|]. eauto.
      * intros X Y. rewrite dget_dset. destruct (eqb_spec sfid f); eauto.
    + intros k1 k2 t1 t2 f. rewrite !dget_dset.
      destruct (eqb_spec tid k1) as [<-|], (eqb_spec tid k2) as [<-|]; intros X1 X2 X3 X4; auto;
        try (injection X1 as <-); try (injection X2 as <-); cbn [t_stack t_with_stack] in *; eauto.
      * destruct X3 as [<-|X3]; [exfalso; eapply nst; eauto|]. eauto.
      * destruct X4 as [<-|X4]; [exfalso; eapply nst; eauto|]. eauto.
    + intros k f. rewrite dget_dset. destruct (eqb_spec sfid k) as [<-|].
      * intros X; injection X as <-. cbn. destruct i_ctr as (_ & C & _). repeat split; auto; unfold sfid in *; try lia. constructor.
      * intros X. apply i_f in X. cbn. repeat split; try lia; try tauto.
    + intros k f v. rewrite dget_dset. destruct (eqb_spec sfid k) as [<-|]; eauto.
      intros X; injection X as <-. cbn. tauto.
    + intros v x X. destruct (i_v _ _ X) as (A & f & B & C). split; auto. rewrite dget_dset.
      destruct (eqb_spec sfid (v_frame x)) as [E|]; eauto. rewrite E in fresh. congruence.
    + cbn. destruct i_ctr as (C1 & C2 & C3). repeat split; lia.
  - constructor; rewrite ?TH, ?FR, ?D8.
    + intros k N. now apply dget_dset_other; auto.
    + intros k t0 f N X Y. apply dget_dset_other. intros ->. eapply nst; eauto.
    + apply (@dext_one _ BFrame). exact Logic.I.
Qed.

Lemma only_drop w tid t sfid rest vs : WInv w -> dget (w_threads w) tid = Some t -> t_stack t = sfid :: rest ->
  only tid w (drop_frame tid t sfid rest vs w).
Proof.
  intros I Ht Hs. destruct (i_t I _ Ht) as (T1 & _). constructor.
  - intros k N. unfold drop_frame, set_thread. cbn -[dset dget]. rewrite T1. now apply dget_dset_other; auto.
  - intros k t0 f N X Y. unfold drop_frame, set_thread. cbn -[ddel dget]. apply dget_ddel_other. intros ->.
    apply N. eapply (i_disj I); eauto. rewrite Hs. now left.
  - apply dext_refl.
Qed.

Lemma same_ctr_refl d : same_ctr d d. Proof. repeat split. Qed.

Definition orphan (n : Node) : Prop := n_parent n = None.
(** [enter_frame], completely. *)
Lemma enter_frame_spec a w : WInv w -> dwf (w_dbg w) -> (match ts_role a with Some regs => regs_wf regs | None => True end) ->
  exists tid, tid <> 1 /\
  (match find_thread (ts_host a) w with Some t => tid = t_id t | None => tid = d_thread (w_dbg w) end) /\
  match enter_frame a w with
  | (w', Ok tid') =>
      tid' = tid /\ WInv w' /\ only tid w w' /\ w_heap w' = w_heap w /\ w_persist w' = w_persist w /\
      let S0 := match find_thread (ts_host a) w with Some t => t_stack t | None => [] end in
      exists t', thread_for (ts_host a) tid t' w' /\
        t_stack t' = d_frame (w_dbg w) :: kept w (ts_task a) S0 /\
        dget (w_frames w') (d_frame (w_dbg w)) = Some (mkFrame (d_frame (w_dbg w)) (ts_task a) (ts_tv a) (ts_args a) [] 0 0 0 0) /\
        (forall x, In x (kept w (ts_task a) S0) -> dget (w_frames w') x = dget (w_frames w) x) /\
        (match find_thread (ts_host a) w with Some t => t_state t' = t_state t /\ t_stopped t' = t_stopped t | None => t_state t' = TContinue /\ t_stopped t' = None end)
  | (w', Err e) => WInv w' /\ only tid w w' /\ e = AttributeError /\ (ts_role a = None \/ orphan (ts_task a))
  end.
Proof.
  intros I D W. unfold enter_frame.
  set (x := match find_thread (ts_host a) w with Some t => (t_id t, w) | None => add_thread (ts_host a) w end).
  assert (X : exists tid w1 t1, x = (tid, w1) /\ tid <> 1 /\ WInv w1 /\ only tid w w1 /\ thread_for (ts_host a) tid t1 w1 /\
     w_frames w1 = w_frames w /\ w_vars w1 = w_vars w /\ w_heap w1 = w_heap w /\ w_persist w1 = w_persist w /\ d_frame (w_dbg w1) = d_frame (w_dbg w) /\
     t_stack t1 = match find_thread (ts_host a) w with Some t => t_stack t | None => [] end /\
     (match find_thread (ts_host a) w with Some t => t1 = t /\ tid = t_id t | None => tid = d_thread (w_dbg w) /\ t_state t1 = TContinue /\ t_stopped t1 = None end)).
  { subst x. destruct (find_thread (ts_host a) w) as [t|] eqn:F.
    - pose proof (find_thread_some _ I F) as TF. exists (t_id t), w, t. csplit; auto using only_refl.
      destruct TF as (T1 & T2). intros E. rewrite E in T1. destruct (i_main I) as (st & sn & M). rewrite M in T1. injection T1 as <-. discriminate.
    - exists (d_thread (w_dbg w)), (snd (add_thread (ts_host a) w)), (mkThread (d_thread (w_dbg w)) (Some (ts_host a)) [] TContinue None).
      csplit; auto.
      + destruct (i_ctr I). lia.
      + now apply inv_add_thread.
      + constructor.
        * intros k N. unfold add_thread. cbn -[dset dget]. now apply dget_dset_other; auto.
        * auto.
        * apply dext_trans with (snd (next_thread_id (w_dbg w))); [apply (@dext_one _ BThread); exact Logic.I|].
          apply (@dext_msg _ (Some (OThread true (d_thread (w_dbg w))))). reflexivity.
      + split; [|cbn; apply N.eqb_refl]. unfold add_thread. cbn -[dset dget]. apply dget_dset_same. }
  destruct X as (tid & w1 & t1 & -> & N1 & I1 & O1 & (TF1 & TF2) & F1 & V1 & H1 & P1 & DF1 & S1 & ID).
  exists tid. split; auto. split. { destruct (find_thread (ts_host a) w); tauto. }
  rewrite TF1.
  assert (D1 : dwf (w_dbg w1)) by (eapply dwf_dext; [exact D|apply (o_d O1)]).
  (* pushing the new frame, from any w5 reached by dropping the top and registering *)
  assert (PUSH : forall w5 t5, WInv w5 -> only tid w w5 -> dget (w_threads w5) tid = Some t5 -> host_is (ts_host a) t5 = true ->
     t_stack t5 = kept w (ts_task a) (t_stack t1) -> d_frame (w_dbg w5) = d_frame (w_dbg w) ->
     w_heap w5 = w_heap w -> w_persist w5 = w_persist w -> t_state t5 = t_state t1 -> t_stopped t5 = t_stopped t1 ->
     (forall x, In x (t_stack t5) -> dget (w_frames w5) x = dget (w_frames w) x) ->
     let '(sfid, d) := next_stackframe_id (w_dbg w5) in
     match (let w6 := wd d w5 in
       let w7 := wframes (dset (w_frames w6) sfid (mkFrame sfid (ts_task a) (ts_tv a) (ts_args a) [] 0 0 0 0)) w6 in
       match dget (w_threads w7) tid with
       | Some t => (set_thread (t_with_stack (sfid :: t_stack t) t) w7, Ok tid)
       | None => (w7, Err EUnmodelled) end) with
     | (w', Ok tid') =>
        tid' = tid /\ WInv w' /\ only tid w w' /\ w_heap w' = w_heap w /\ w_persist w' = w_persist w /\
        let S0 := match find_thread (ts_host a) w with Some t => t_stack t | None => [] end in
        exists t', thread_for (ts_host a) tid t' w' /\
          t_stack t' = d_frame (w_dbg w) :: kept w (ts_task a) S0 /\
          dget (w_frames w') (d_frame (w_dbg w)) = Some (mkFrame (d_frame (w_dbg w)) (ts_task a) (ts_tv a) (ts_args a) [] 0 0 0 0) /\
          (forall x, In x (kept w (ts_task a) S0) -> dget (w_frames w') x = dget (w_frames w) x) /\
          (match find_thread (ts_host a) w with Some t => t_state t' = t_state t /\ t_stopped t' = t_stopped t | None => t_state t' = TContinue /\ t_stopped t' = None end)
     | (w', Err e) => WInv w' /\ only tid w w' /\ e = AttributeError /\ (ts_role a = None \/ orphan (ts_task a))
     end).
  { intros w5 t5 I5 O5 T5 HI5 S5 DF5 H5 P5 ST5 SN5 FR5. unfold next_stackframe_id.
    pose proof (@inv_push w5 tid t5 a I5 T5 N1) as PU. cbv zeta in PU. cbn [snd next_stackframe_id] in PU.
    match goal with |- context [dget (w_threads (wframes ?u ?v)) tid] => change (dget (w_threads (wframes u v)) tid) with (dget (w_threads w5) tid) end.
    rewrite T5. set (w8 := set_thread _ _) in *. destruct PU as (I8 & O8).
    destruct (i_t I5 _ T5) as (TID & _).
    assert (TH8 : dget (w_threads w8) tid = Some (t_with_stack (d_frame (w_dbg w5) :: t_stack t5) t5)).
    { subst w8. unfold set_thread. cbn -[dset dget]. rewrite TID. apply dget_dset_same. }
    assert (FR8 : w_frames w8 = dset (w_frames w5) (d_frame (w_dbg w5)) (mkFrame (d_frame (w_dbg w5)) (ts_task a) (ts_tv a) (ts_args a) [] 0 0 0 0)) by reflexivity.
    split; auto. split; auto. split; [eapply only_trans; eauto|]. split; [exact H5|]. split; [exact P5|].
    rewrite <- S1. exists (t_with_stack (d_frame (w_dbg w5) :: t_stack t5) t5). csplit.
    - split; auto.
    - cbn [t_stack t_with_stack]. now rewrite DF5, S5.
    - rewrite FR8, DF5. apply dget_dset_same.
    - intros x Hx. rewrite <- S5 in Hx. rewrite FR8. rewrite dget_dset_other; auto.
      intros ->. destruct (i_stack I5 _ _ T5 Hx) as (fr & E). apply (i_f I5) in E. lia.
    - cbn [t_state t_stopped t_with_stack]. rewrite ST5, SN5. destruct (find_thread (ts_host a) w); [destruct ID as (-> & _); auto|tauto]. }
  destruct (t_stack t1) as [|last rest] eqn:ES.
  { apply (PUSH w1 t1); auto; rewrite ES; cbn; auto. contradiction. }
  destruct (n_parent (ts_task a)) as [blk|] eqn:BK; [|auto].
  destruct (@i_stack _ I1 tid t1 last TF1) as (lf & HL). { rewrite ES. now left. }
  rewrite HL.
  set (leave := match n_parent blk with Some p => negb (N.eqb (n_uuid (f_task lf)) (n_uuid p)) | None => true end).
  assert (LV : leaves lf (ts_task a) = leave) by (unfold leaves; rewrite BK; reflexivity).
  assert (K1 : kept w (ts_task a) (last :: rest) = if leave then rest else last :: rest).
  { unfold kept. rewrite <- F1, HL, LV. reflexivity. }
  (* the world after leaving the include *)
  assert (POP : exists w4 t4, (if leave then
                 let w2 := set_thread (t_with_stack rest t1) w1 in
                 let w3 := wframes (ddel (w_frames w2) last) w2 in
                 match del_vars (f_vars lf) (w_vars w3) with Ok vs => (wvars vs w3, Ok tt) | Err e => (w3, Err e) end
               else (w1, Ok tt)) = (w4, Ok tt) /\ WInv w4 /\ only tid w w4 /\ dget (w_threads w4) tid = Some t4 /\ host_is (ts_host a) t4 = true /\
               t_stack t4 = kept w (ts_task a) (last :: rest) /\ w_dbg w4 = w_dbg w1 /\ w_heap w4 = w_heap w1 /\ w_persist w4 = w_persist w1 /\
               t_state t4 = t_state t1 /\ t_stopped t4 = t_stopped t1 /\ (forall x, In x (t_stack t4) -> dget (w_frames w4) x = dget (w_frames w) x)).
  { rewrite K1. destruct leave.
    - destruct (@inv_drop w1 tid t1 last rest lf I1 TF1 ES HL) as (vs & E & I4 & _ & _).
      pose proof (@only_drop w1 tid t1 last rest vs I1 TF1 ES) as O4.
      exists (drop_frame tid t1 last rest vs w1), (t_with_stack rest t1). cbv zeta.
      match goal with |- context [del_vars ?u ?v] => change (del_vars u v) with (del_vars (f_vars lf) (w_vars w1)) end. rewrite E.
      destruct (i_t I1 _ TF1) as (TID & _ & _ & ND). rewrite ES in ND. inversion ND as [|? ? ND1 ND2]; subst.
      csplit; auto.
      + eapply only_trans; eauto.
      + unfold drop_frame, set_thread. cbn -[dset dget]. apply dget_dset_same.
      + intros x Hx. cbn [t_stack t_with_stack] in Hx. unfold drop_frame, set_thread. cbn -[ddel dget].
        unfold w_frames in F1 |- *. rewrite F1. apply dget_ddel_other. intros ->; auto.
    - exists w1, t1. csplit; auto. intros x Hx. now rewrite F1. }
  destruct POP as (w4 & t4 & EP & I4 & O4 & T4 & HI4 & S4 & D4 & H4 & P4 & ST4 & SN4 & FR4).
  fold leave. cbv zeta. cbv zeta in EP. rewrite EP.
  assert (NORM : forall w5, w5 = w4 ->
     let '(sfid, d) := next_stackframe_id (w_dbg w5) in
     match (let w6 := wd d w5 in
       let w7 := wframes (dset (w_frames w6) sfid (mkFrame sfid (ts_task a) (ts_tv a) (ts_args a) [] 0 0 0 0)) w6 in
       match dget (w_threads w7) tid with
       | Some t => (set_thread (t_with_stack (sfid :: t_stack t) t) w7, Ok tid)
       | None => (w7, Err EUnmodelled) end) with
     | (w', Ok tid') =>
        tid' = tid /\ WInv w' /\ only tid w w' /\ w_heap w' = w_heap w /\ w_persist w' = w_persist w /\
        let S0 := match find_thread (ts_host a) w with Some t => t_stack t | None => [] end in
        exists t', thread_for (ts_host a) tid t' w' /\
          t_stack t' = d_frame (w_dbg w) :: kept w (ts_task a) S0 /\
          dget (w_frames w') (d_frame (w_dbg w)) = Some (mkFrame (d_frame (w_dbg w)) (ts_task a) (ts_tv a) (ts_args a) [] 0 0 0 0) /\
          (forall x, In x (kept w (ts_task a) S0) -> dget (w_frames w') x = dget (w_frames w) x) /\
          (match find_thread (ts_host a) w with Some t => t_state t' = t_state t /\ t_stopped t' = t_stopped t | None => t_state t' = TContinue /\ t_stopped t' = None end)
     | (w', Err e) => WInv w' /\ only tid w w' /\ e = AttributeError /\ (ts_role a = None \/ orphan (ts_task a))
     end).
  { intros w5 ->. apply (PUSH w4 t4); auto; congruence. }
  destruct (n_parent blk) as [p|]; [|apply NORM; reflexivity].
  destruct (is_include_role (f_task lf)); [|apply NORM; reflexivity].
  destruct (ts_role a) as [regs|] eqn:ER.
  - assert (D4' : dwf (w_dbg w4)) by (rewrite D4; exact D1).
    destruct (@register_all_ok regs (w_dbg w4) D4' W) as (d5 & E5 & X5 & C5 & _). rewrite E5.
    apply (PUSH (wd d5 w4) t4); auto; try congruence.
    + apply inv_dbg; auto.
    + eapply only_trans; [exact O4|]. constructor; auto.
    + cbn. destruct C5 as (_ & C5 & _). congruence.
    + cbn. congruence.
    + cbn. congruence.
  - auto.
Qed.
