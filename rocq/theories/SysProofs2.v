(** What requests do to the debug state: ids stay, nothing is removed. *)
From Verif Require Import PyBase PyDict DbgTypes BpModel BpSpec BpProofs2 BpProofs3 BpProps ThreadModel StratModel SysModel SysProofs.
Set Implicit Arguments.
Local Open Scope N_scope.

(** The debugger object evolves by well-formed calls (BpSpec). *)
Definition dext (d d' : Dbg) : Prop := exists ops, hist_wf ops /\ d' = fold_left bstep ops d.
Lemma dext_refl d : dext d d.
Proof. exists []. split; [intros o []|reflexivity]. Qed.
Lemma dext_trans d1 d2 d3 : dext d1 d2 -> dext d2 d3 -> dext d1 d3.
Proof.
  intros (o1 & W1 & ->) (o2 & W2 & ->). exists (o1 ++ o2). split.
  - intros o H. apply in_app_or in H. destruct H; auto.
  - now rewrite fold_left_app.
Qed.
Lemma dext_one d o : op_wf o -> dext d (bstep d o).
Proof. intros W. exists [o]. split; auto. intros x [<-|[]]. exact W. Qed.
Lemma dext_msg d m : told m = [] -> dext d (queue_opt m d).
Proof. intros. apply (@dext_one d (BMsg m)). exact H. Qed.
Lemma dext_ctr d d' : dext d d' -> d_thread d <= d_thread d' /\ d_frame d <= d_frame d' /\ d_var d <= d_var d'.
Proof.
  intros (ops & _ & ->). revert d. induction ops as [|o ops IH]; intros d; cbn [fold_left]; [lia|].
  specialize (IH (bstep d o)). destruct (bstep_ctrs d o) as (A & B & C). rewrite A, B, C in IH. lia.
Qed.
(** A message history only grows. *)
Lemma bstep_out d o : exists ms, d_out (bstep d o) = d_out d ++ ms.
Proof.
  destruct o as [seq src l md|seq fs|p line t| |maps|m| | | | |]; cbn [bstep]; try (exists []; cbn; now rewrite app_nil_r); try (eexists; reflexivity).
  - unfold set_breakpoints. match goal with |- context [set_loop ?a ?b ?c ?e ?f l ?g ?x] =>
      destruct (set_loop_frame a b c e f l g x) as (_ & _ & _ & _ & _ & _ & _ & _ & A9);
      destruct (set_loop a b c e f l g x) as (d2, [infos|er]) end; cbn [fst] in A9; cbn; rewrite A9; eexists; reflexivity.
  - unfold register_path_breakpoint. destruct (py_setitem _ line (Some t)) as [fl2|]; [|exists []; cbn; now rewrite app_nil_r].
    destruct (refresh p fl2 (d_bps d)) as ((bps', ev), x). cbn [fst].
    rewrite queue_all_out. eexists; reflexivity.
Qed.
Lemma dext_out d d' : dext d d' -> exists ms, d_out d' = d_out d ++ ms.
Proof.
  intros (ops & _ & ->). revert d. induction ops as [|o ops IH]; intros d; cbn [fold_left]; [exists []; now rewrite app_nil_r|].
  destruct (IH (bstep d o)) as (m1 & E1). destruct (bstep_out d o) as (m2 & E2). rewrite E1, E2. exists (m2 ++ m1). now rewrite app_assoc.
Qed.

Definition same_thread (t t' : Thread) : Prop := t_id t' = t_id t /\ t_host t' = t_host t /\ t_stack t' = t_stack t.
Definition frame_ext (f f' : Frame) : Prop :=
  f_id f' = f_id f /\ f_task f' = f_task f /\ f_tv f' = f_tv f /\ f_args f' = f_args f /\ exists l, f_vars f' = f_vars f ++ l.
Record qext (w w' : World) : Prop := {
  q_tk : dkeys (w_threads w') = dkeys (w_threads w);
  q_t : forall k t, dget (w_threads w) k = Some t -> exists t', dget (w_threads w') k = Some t' /\ same_thread t t';
  q_fk : dkeys (w_frames w') = dkeys (w_frames w);
  q_f : forall k f, dget (w_frames w) k = Some f -> exists f', dget (w_frames w') k = Some f' /\ frame_ext f f';
  q_v : forall v x, dget (w_vars w) v = Some x -> dget (w_vars w') v = Some x;
  q_vn : forall v x, dget (w_vars w') v = Some x -> dget (w_vars w) v = Some x \/ d_var (w_dbg w) <= v;
  q_d : dext (w_dbg w) (w_dbg w') }.

Lemma qext_refl w : qext w w.
Proof.
  constructor; auto.
  - intros k t H. exists t. repeat split; auto.
  - intros k f H. exists f. repeat split; auto. exists []. now rewrite app_nil_r.
  - apply dext_refl.
Qed.
Lemma qext_trans w1 w2 w3 : qext w1 w2 -> qext w2 w3 -> qext w1 w3.
Proof.
  intros [] []. constructor; try congruence; eauto using dext_trans.
  - intros k t H. destruct (q_t0 _ _ H) as (t' & A & B1 & B2 & B3). destruct (q_t1 _ _ A) as (t'' & C & D1 & D2 & D3).
    exists t''. repeat split; congruence.
  - intros k f H. destruct (q_f0 _ _ H) as (f' & A & B1 & B2 & B3 & B4 & l & B5). destruct (q_f1 _ _ A) as (f'' & C & D1 & D2 & D3 & D4 & l' & D5).
    exists f''. repeat split; try congruence. exists (l ++ l'). now rewrite D5, B5, app_assoc.
  - intros v x H. destruct (dext_ctr q_d0) as (_ & _ & C). destruct (q_vn1 _ _ H) as [H'|H']; [|right; lia]. destruct (q_vn0 _ _ H'); auto.
Qed.

Definition good (w w' : World) : Prop := WInv w -> WInv w' /\ qext w w'.
Lemma good_refl w : good w w. Proof. intros I. split; auto. apply qext_refl. Qed.
Lemma good_trans w1 w2 w3 : good w1 w2 -> good w2 w3 -> good w1 w3.
Proof. intros A B I. destruct (A I) as (I2 & Q). destruct (B I2) as (I3 & Q2). split; auto. eapply qext_trans; eauto. Qed.

Lemma qext_same_ss w w' : w_ss w' = w_ss w -> dext (w_dbg w) (w_dbg w') -> qext w w'.
Proof.
  intros E D. destruct (qext_refl w). constructor; unfold w_threads, w_frames, w_vars in *; rewrite ?E; auto.
Qed.
Lemma same_ctr_of w d : same_ctr (w_dbg w) d -> WInv w -> WInv (wd d w).
Proof. intros H I. now apply inv_dbg. Qed.
Lemma good_heap h w : good w (wh h w).
Proof. intros I. split; [now apply inv_heap|]. apply qext_same_ss; [reflexivity|apply dext_refl]. Qed.
Lemma good_persist h w : good w (wp h w).
Proof. intros I. split; [now apply inv_persist|]. apply qext_same_ss; [reflexivity|apply dext_refl]. Qed.
Lemma good_emit m w : told (Some m) = [] -> good w (emit m w).
Proof. intros H I. split; [now apply inv_emit|]. apply qext_same_ss; [reflexivity|now apply dext_msg]. Qed.
Lemma good_bstep o w : op_wf o -> match o with BThread | BFrame | BVar => False | _ => True end -> good w (wd (bstep (w_dbg w) o) w).
Proof.
  intros H N I. split.
  - apply inv_dbg; auto. destruct (bstep_ctrs (w_dbg w) o) as (A & B & C). unfold same_ctr. rewrite A, B, C.
    destruct o; try contradiction; cbn; repeat split; lia.
  - apply qext_same_ss; [reflexivity|now apply dext_one].
Qed.

Lemma set_state_same st t : same_thread t (set_state st t).
Proof. destruct st; cbn; destruct (t_stopped t); try (repeat split; fail). cbn. destruct (is_include n); repeat split. Qed.

Lemma resume_good st l : forall w, good w (fst (resume l st w)).
Proof.
  induction l as [|a l IH]; intros w; cbn [resume]; [apply good_refl|].
  destruct (dget (w_threads w) a) as [t|] eqn:E; [|apply good_refl].
  eapply good_trans; [|apply IH]. intros I.
  destruct (set_state_same st t) as (A & B & C). split.
  - eapply inv_thread_upd; eauto.
  - destruct (qext_refl w). constructor; cbn -[dset dget]; auto.
    + apply dkeys_dset_in. now apply dget_Some_key in E.
    + intros k t0 H. cbn -[dset dget]. rewrite dget_dset. destruct (eqb_spec a k) as [->|]; auto.
      assert (t0 = t) by congruence. subst. exists (set_state st t). repeat split; auto.
Qed.
Lemma resume_out st l : forall w, d_out (w_dbg (fst (resume l st w))) = d_out (w_dbg w).
Proof.
  induction l as [|a l IH]; intros w; cbn [resume]; auto. destruct (dget (w_threads w) a); auto. now rewrite IH.
Qed.

Lemma good_add_var w sfid k ds : (exists f, dget (w_frames w) sfid = Some f) -> good w (snd (add_var sfid k ds w)).
Proof.
  intros (f & Hf) I. pose proof (@inv_add_var w sfid k ds f I Hf) as H. destruct (add_var sfid k ds w) as (vid, w') eqn:E.
  destruct H as (I' & V & A1 & A2 & A3 & A4 & A5 & A6 & A7 & A8 & A9 & A10 & A11). split; auto. cbn [snd].
  constructor; auto.
  - now rewrite A5.
  - rewrite A5. intros k0 t H. exists t. repeat split; auto.
  - intros k0 f0 H. destruct (N.eq_dec k0 sfid) as [->|N].
    + assert (f0 = f) by congruence. subst f0. eexists; split; [exact A2|]. repeat split. cbn. eauto.
    + rewrite A4 by auto. exists f0. repeat split; auto. exists []. now rewrite app_nil_r.
  - intros v x H. rewrite A3; auto. intros ->. apply (i_v I) in H. lia.
  - intros v x H. destruct (N.eq_dec v vid) as [->|NE]; [right; lia|left]. now rewrite <- A3.
  - assert (w_dbg w' = snd (next_variable_id (w_dbg w))).
    { unfold add_var in E. cbn in E. injection E as _ <-. reflexivity. }
    rewrite H. apply (@dext_one _ BVar). exact Logic.I.
Qed.

(** Replacing a frame by one that differs in the scope ids only. *)
Lemma good_set_frame w f f' : dget (w_frames w) (f_id f) = Some f ->
  f_id f' = f_id f -> f_task f' = f_task f -> f_tv f' = f_tv f -> f_args f' = f_args f -> f_vars f' = f_vars f ->
  (WInv w -> (f_options f' = 0 \/ In (f_options f') (f_vars f)) /\ (f_taskvar f' = 0 \/ In (f_taskvar f') (f_vars f)) /\
    (f_hostvars f' = 0 \/ In (f_hostvars f') (f_vars f)) /\ (f_result f' = 0 \/ In (f_result f') (f_vars f))) ->
  good w (set_frame f' w).
Proof.
  intros Hf E1 E2 E3 E4 E5 HS I. destruct (HS I) as (S1 & S2 & S3 & S4). clear HS. split.
  - destruct I. unfold set_frame. rewrite E1. constructor; cbn -[dset dget]; auto.
    + now apply NoDup_dset.
    + intros k t f0 A B. cbn -[dset dget]. rewrite dget_dset. destruct (eqb_spec (f_id f) f0); eauto.
    + intros k f0. cbn -[dset dget]. rewrite dget_dset. destruct (eqb_spec (f_id f) k) as [<-|]; auto.
      intros X; injection X as <-. rewrite E1, E5. destruct (i_f _ _ Hf) as (A & B & C & _). repeat split; auto; lia.
    + intros k f0 v. cbn -[dset dget]. rewrite dget_dset. destruct (eqb_spec (f_id f) k) as [<-|]; eauto.
      intros X; injection X as <-. rewrite E5. eauto.
    + intros v x X. destruct (i_v _ _ X) as (A & f0 & B & C). split; auto. cbn -[dset dget]. rewrite dget_dset.
      destruct (eqb_spec (f_id f) (v_frame x)) as [Y|]; eauto. exists f'. split; auto. rewrite E5.
      rewrite <- Y in B. congruence.
  - destruct (qext_refl w). unfold set_frame. rewrite E1. constructor; cbn -[dset dget]; auto.
    + apply dkeys_dset_in. now apply dget_Some_key in Hf.
    + intros k f0 H. cbn -[dset dget]. rewrite dget_dset. destruct (eqb_spec (f_id f) k) as [<-|]; auto.
      assert (f0 = f) by congruence. subst. exists f'. repeat split; auto. exists []. now rewrite app_nil_r.
Qed.
