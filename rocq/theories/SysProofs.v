(** Bookkeeping invariant of the strategy's debug state. *)
From Verif Require Import PyBase PyDict DbgTypes BpModel BpProps ThreadModel StratModel SysModel.
Set Implicit Arguments.
Local Open Scope N_scope.

Record WInv (w : World) : Prop := {
  i_tnd : NoDup (dkeys (w_threads w));
  i_fnd : NoDup (dkeys (w_frames w));
  i_vnd : NoDup (dkeys (w_vars w));
  i_main : exists st sn, dget (w_threads w) 1 = Some (mkThread 1 None [] st sn);
  i_t : forall k t, dget (w_threads w) k = Some t -> t_id t = k /\ 1 <= k < d_thread (w_dbg w) /\ (t_host t = None -> k = 1) /\ NoDup (t_stack t);
  i_host : forall k1 k2 t1 t2 h1 h2, dget (w_threads w) k1 = Some t1 -> dget (w_threads w) k2 = Some t2 ->
             t_host t1 = Some h1 -> t_host t2 = Some h2 -> h_uuid h1 = h_uuid h2 -> k1 = k2;
  i_stack : forall k t f, dget (w_threads w) k = Some t -> In f (t_stack t) -> exists fr, dget (w_frames w) f = Some fr;
  i_disj : forall k1 k2 t1 t2 f, dget (w_threads w) k1 = Some t1 -> dget (w_threads w) k2 = Some t2 ->
             In f (t_stack t1) -> In f (t_stack t2) -> k1 = k2;
  i_f : forall k f, dget (w_frames w) k = Some f -> f_id f = k /\ 1 <= k < d_frame (w_dbg w) /\ NoDup (f_vars f) /\
          (f_options f = 0 \/ In (f_options f) (f_vars f)) /\ (f_taskvar f = 0 \/ In (f_taskvar f) (f_vars f)) /\
          (f_hostvars f = 0 \/ In (f_hostvars f) (f_vars f)) /\ (f_result f = 0 \/ In (f_result f) (f_vars f));
  i_fv : forall k f v, dget (w_frames w) k = Some f -> In v (f_vars f) -> exists x, dget (w_vars w) v = Some x /\ v_frame x = k;
  i_v : forall v x, dget (w_vars w) v = Some x -> 1 <= v < d_var (w_dbg w) /\
          exists f, dget (w_frames w) (v_frame x) = Some f /\ In v (f_vars f);
  i_ctr : 2 <= d_thread (w_dbg w) /\ 1 <= d_frame (w_dbg w) /\ 1 <= d_var (w_dbg w) }.

(** Changes that keep ids. *)
Definition same_ctr (d d' : Dbg) : Prop := d_thread d' = d_thread d /\ d_frame d' = d_frame d /\ d_var d' = d_var d.

Lemma inv_dbg w d : WInv w -> same_ctr (w_dbg w) d -> WInv (wd d w).
Proof. intros [] (A & B & C). constructor; cbn; try rewrite A; try rewrite B; try rewrite C; auto. Qed.
Lemma inv_heap w h : WInv w -> WInv (wh h w).
Proof. intros []. constructor; auto. Qed.
Lemma inv_persist w h : WInv w -> WInv (wp h w).
Proof. intros []. constructor; auto. Qed.
Lemma inv_emit m w : WInv w -> WInv (emit m w).
Proof. intros H. apply inv_dbg; auto. repeat split. Qed.

Lemma inv_init h p d : 2 <= d_thread d -> 1 <= d_frame d -> 1 <= d_var d -> WInv (mkW d ss_init h p).
Proof.
  intros A B C. constructor; cbn -[eqb]; try (intros; discriminate).
  - repeat constructor; cbn; auto.
  - constructor.
  - constructor.
  - rewrite eqb_refl. eauto.
  - intros k t H. destruct (eqb_spec 1 k); [|discriminate]. injection H as <-. subst. cbn. repeat split; try lia. constructor.
  - intros k1 k2 t1 t2 h1 h2 H1 H2. destruct (eqb_spec 1 k1); [|discriminate]. destruct (eqb_spec 1 k2); [|discriminate]. congruence.
  - intros k t f H. destruct (eqb_spec 1 k); [|discriminate]. injection H as <-. cbn. tauto.
  - intros k1 k2 t1 t2 f H1 H2. destruct (eqb_spec 1 k1); [|discriminate]. destruct (eqb_spec 1 k2); [|discriminate]. congruence.
  - auto.
Qed.

(** Updating a thread's state or stopped task. *)
Lemma inv_thread_upd w k t t' : WInv w -> dget (w_threads w) k = Some t ->
  t_id t' = t_id t -> t_host t' = t_host t -> t_stack t' = t_stack t ->
  WInv (wthreads (dset (w_threads w) k t') w).
Proof.
  intros I Hk E1 E2 E3. destruct I. constructor; cbn; auto.
  - now apply NoDup_dset.
  - destruct i_main0 as (st & sn & M). rewrite dget_dset. destruct (eqb_spec k 1) as [->|]; eauto.
    assert (t = mkThread 1 None [] st sn) by congruence. subst t. destruct t'; cbn in *; subst. eauto.
  - intros k0 t0. rewrite dget_dset. destruct (eqb_spec k k0) as [<-|]; [|apply i_t0].
    intros X; injection X as <-. rewrite E1, E2, E3. now apply i_t0.
  - intros k1 k2 t1 t2 h1 h2. rewrite !dget_dset.
    destruct (eqb_spec k k1) as [<-|], (eqb_spec k k2) as [<-|]; intros X1 X2 X3 X4 X5; auto;
      try (injection X1 as <-); try (injection X2 as <-); try rewrite E2 in *; eauto.
  - intros k0 t0 f. rewrite dget_dset. destruct (eqb_spec k k0) as [<-|]; [|apply i_stack0].
    intros X; injection X as <-. rewrite E3. eauto.
  - intros k1 k2 t1 t2 f. rewrite !dget_dset.
    destruct (eqb_spec k k1) as [<-|], (eqb_spec k k2) as [<-|]; intros X1 X2 X3 X4; auto;
      try (injection X1 as <-); try (injection X2 as <-); try rewrite E3 in *; eauto.
Qed.

Lemma inv_add_thread w h : WInv w -> find_thread h w = None -> WInv (snd (add_thread h w)).
Proof.
  intros I Hf. pose proof I as I0. destruct I. unfold add_thread, next_thread_id, emit, queue_msg, queue_opt. cbn.
  assert (fresh : dget (w_threads w) (d_thread (w_dbg w)) = None).
  { destruct (dget (w_threads w) (d_thread (w_dbg w))) eqn:E; auto. apply i_t0 in E. lia. }
  constructor; cbn; auto.
  - now apply NoDup_dset.
  - destruct i_main0 as (st & sn & M). exists st, sn. rewrite dget_dset_other; auto. destruct i_ctr0. lia.
  - intros k t. rewrite dget_dset. destruct (eqb_spec (d_thread (w_dbg w)) k) as [<-|].
    + intros X; injection X as <-. cbn. destruct i_ctr0. repeat split; try lia; try discriminate. constructor.
    + intros X. apply i_t0 in X. destruct X as (? & ? & ? & ?). repeat split; auto; lia.
  - intros k1 k2 t1 t2 h1 h2. rewrite !dget_dset.
    assert (G : forall k t h', dget (w_threads w) k = Some t -> t_host t = Some h' -> h_uuid h' = h_uuid h -> False).
    { intros k t h' A B C. unfold find_thread in Hf. apply dget_In in A. apply (in_map snd) in A.
      apply (find_none _ _ Hf) in A. cbn in A. unfold host_is in A. rewrite B in A. apply N.eqb_neq in A. auto. }
    destruct (eqb_spec (d_thread (w_dbg w)) k1) as [<-|], (eqb_spec (d_thread (w_dbg w)) k2) as [<-|];
      intros X1 X2 X3 X4 X5; eauto.
    + injection X1 as <-. cbn in X3. injection X3 as <-. exfalso. eapply G; eauto.
    + injection X2 as <-. cbn in X4. injection X4 as <-. exfalso. eapply G; eauto.
  - intros k t f. rewrite dget_dset. destruct (eqb_spec (d_thread (w_dbg w)) k) as [<-|]; [|apply i_stack0].
    intros X; injection X as <-. cbn. tauto.
  - intros k1 k2 t1 t2 f. rewrite !dget_dset.
    destruct (eqb_spec (d_thread (w_dbg w)) k1) as [<-|], (eqb_spec (d_thread (w_dbg w)) k2) as [<-|];
      intros X1 X2 X3 X4; auto; try (injection X1 as <-); try (injection X2 as <-); cbn in *; try tauto. eauto.
  - destruct i_ctr0 as (A1 & A2 & A3). repeat split; lia.
Qed.

(** [add_var] on a live frame. *)
Lemma inv_add_var w sfid k ds f : WInv w -> dget (w_frames w) sfid = Some f ->
  let '(vid, w') := add_var sfid k ds w in
  WInv w' /\ vid = d_var (w_dbg w) /\ dget (w_vars w') vid = Some (mkVar sfid k ds) /\
  dget (w_frames w') sfid = Some (f_with_vars (f_vars f ++ [vid]) f) /\
  (forall x, x <> vid -> dget (w_vars w') x = dget (w_vars w) x) /\
  (forall x, x <> sfid -> dget (w_frames w') x = dget (w_frames w) x) /\
  w_threads w' = w_threads w /\ w_heap w' = w_heap w /\ w_persist w' = w_persist w /\
  d_var (w_dbg w') = d_var (w_dbg w) + 1 /\ dkeys (w_frames w') = dkeys (w_frames w) /\
  dkeys (w_vars w') = dkeys (w_vars w) ++ [vid] /\ d_out (w_dbg w') = d_out (w_dbg w).
Proof.
  intros I Hf. destruct I. unfold add_var, next_variable_id, wframes, wvars, wss, wd, w_threads, w_frames, w_vars in *. cbn -[dget dset eqb]. rewrite Hf.
  set (vid := d_var (w_dbg w)).
  assert (fresh : dget (s_vars (w_ss w)) vid = None).
  { destruct (dget (s_vars (w_ss w)) vid) eqn:E; auto. apply i_v0 in E. unfold vid in E. lia. }
  assert (nin : forall k0 f0, dget (s_frames (w_ss w)) k0 = Some f0 -> ~ In vid (f_vars f0)).
  { intros k0 f0 A B. destruct (i_fv0 _ _ _ A B) as (x & C & _). congruence. }
  cbn -[dget dset eqb]. split.
  - constructor; unfold w_threads, w_frames, w_vars; cbn -[dget dset eqb]; auto.
    + now apply NoDup_dset.
    + now apply NoDup_dset.
    + intros k0 t f0 A B. destruct (i_stack0 _ _ _ A B) as (fr & C). rewrite dget_dset.
      destruct (eqb_spec sfid f0); eauto.
    + intros k0 f0. rewrite dget_dset. destruct (eqb_spec sfid k0) as [<-|].
      * intros X; injection X as <-. cbn. destruct (i_f0 _ _ Hf) as (A1 & A2 & A3 & A4 & A5 & A6 & A7).
        repeat split; auto; try lia.
        -- apply NoDup_app_intro; auto. { repeat constructor; auto. }
           intros x Hx [<-|[]]. eapply nin; eauto.
        -- destruct A4; auto. right. apply in_or_app; auto.
        -- destruct A5; auto. right. apply in_or_app; auto.
        -- destruct A6; auto. right. apply in_or_app; auto.
        -- destruct A7; auto. right. apply in_or_app; auto.
      * intros X. apply i_f0 in X. repeat split; tauto.
    + intros k0 f0 v. rewrite dget_dset. destruct (eqb_spec sfid k0) as [<-|].
      * intros X; injection X as <-. cbn. intros H. apply in_app_or in H. destruct H as [H|[<-|[]]].
        -- destruct (i_fv0 _ _ _ Hf H) as (x & A & B). exists x. split; auto. rewrite dget_dset_other; auto. congruence.
        -- rewrite dget_dset_same. eexists; split; eauto.
      * intros X H. destruct (i_fv0 _ _ _ X H) as (x & A & B). exists x. split; auto. rewrite dget_dset_other; auto. congruence.
    + intros v x. rewrite dget_dset. destruct (eqb_spec vid v) as [<-|].
      * intros X; injection X as <-. cbn. split. { subst vid. destruct i_ctr0 as (_ & _ & ?). lia. }
        rewrite dget_dset_same. eexists; split; eauto. cbn. apply in_or_app. right. now left.
      * intros X. apply i_v0 in X. destruct X as (A & f0 & B & C). split; [lia|]. rewrite dget_dset.
        destruct (eqb_spec sfid (v_frame x)) as [E|]; eauto. rewrite E in Hf. rewrite Hf in B. injection B as <-.
        eexists; split; eauto. cbn. apply in_or_app; auto.
    + destruct i_ctr0 as (A1 & A2 & A3). repeat split; lia.
  - repeat split.
    + apply dget_dset_same.
    + apply dget_dset_same.
    + intros; now apply dget_dset_other.
    + intros; now apply dget_dset_other.
    + apply dkeys_dset_in. now apply dget_Some_key in Hf.
    + rewrite dset_fresh by (now apply dget_None). unfold dkeys. now rewrite map_app.
Qed.

(** Removing a frame with its variables. *)
Lemma del_vars_ok l : forall vs, NoDup l -> NoDup (dkeys vs) -> (forall x, In x l -> exists v, dget vs x = Some v) ->
  exists vs', del_vars l vs = Ok vs' /\ NoDup (dkeys vs') /\
    (forall x, In x l -> dget vs' x = None) /\ (forall x, ~ In x l -> dget vs' x = dget vs x).
Proof.
  induction l as [|a l IH]; intros vs N1 N2 H; cbn.
  - exists vs. repeat split; auto; cbn; tauto.
  - inversion N1 as [|? ? N3 N4]; subst. destruct (H a (or_introl eq_refl)) as (v & Hv). rewrite Hv.
    destruct (IH (ddel vs a)) as (vs' & A & B & C & D); auto.
    { now apply NoDup_ddel. }
    { intros x Hx. destruct (H x (or_intror Hx)) as (v' & Hv'). exists v'. rewrite dget_ddel_other; auto. congruence. }
    exists vs'. repeat split; auto.
    + intros x [<-|Hx]; auto. rewrite D by auto. now apply dget_ddel_same.
    + intros x Hx. rewrite D by tauto. apply dget_ddel_other. intros ->; tauto.
Qed.

Definition drop_frame (tid : N) (t : Thread) (sfid : N) (rest : list N) (vs : dict N Var) (w : World) : World :=
  wvars vs (wframes (ddel (w_frames w) sfid) (set_thread (t_with_stack rest t) w)).

Lemma inv_drop w tid t sfid rest f : WInv w -> dget (w_threads w) tid = Some t -> t_stack t = sfid :: rest ->
  dget (w_frames w) sfid = Some f ->
  exists vs, del_vars (f_vars f) (w_vars w) = Ok vs /\ WInv (drop_frame tid t sfid rest vs w) /\
    (forall x, In x (f_vars f) -> dget vs x = None) /\ (forall x, ~ In x (f_vars f) -> dget vs x = dget (w_vars w) x).
Proof.
  intros I Ht Hs Hf. destruct I. unfold w_threads, w_frames, w_vars in *. destruct (i_f0 _ _ Hf) as (F1 & F2 & F3 & F4).
  destruct (@del_vars_ok (f_vars f) _ F3 i_vnd0) as (vs & A & B & C & D).
  { intros x Hx. destruct (i_fv0 _ _ _ Hf Hx) as (v & X & _). eauto. }
  exists vs. split; auto. split; [|split; auto].
  destruct (i_t0 _ _ Ht) as (T1 & T2 & T3 & T4). rewrite Hs in T4. inversion T4 as [|? ? T5 T6]; subst.
  
  assert (excl : forall k0 t0, dget (s_threads (w_ss w)) k0 = Some t0 -> k0 <> t_id t -> ~ In (f_id f) (t_stack t0)).
  { intros k0 t0 X Y Z. apply Y. eapply i_disj0; eauto. rewrite Hs. now left. }
  assert (vfr : forall v x, dget vs v = Some x -> ~ In v (f_vars f) /\ dget (s_vars (w_ss w)) v = Some x).
  { intros v x X. destruct (in_dec N.eq_dec v (f_vars f)) as [Y|Y]; [rewrite C in X by auto; discriminate|]. rewrite D in X; auto. }
  constructor; unfold drop_frame, set_thread, wthreads, wvars, wframes, wss, w_threads, w_frames, w_vars; cbn -[dset ddel dget eqb]; auto.
  - now apply NoDup_dset.
  - now apply NoDup_ddel.
  - destruct i_main0 as (st & sn & M). exists st, sn. rewrite dget_dset_other; auto. intros E.
    rewrite <- E in Ht. rewrite M in Ht. injection Ht as <-. discriminate.
  - intros k t0. rewrite dget_dset. destruct (eqb_spec (t_id t) k) as [<-|]; [|apply i_t0].
    intros X; injection X as <-. cbn. repeat split; auto; try lia.
  - intros k1 k2 t1 t2 h1 h2. rewrite !dget_dset.
    destruct (eqb_spec (t_id t) k1) as [<-|], (eqb_spec (t_id t) k2) as [<-|]; intros X1 X2 X3 X4 X5; auto;
      try (injection X1 as <-); try (injection X2 as <-); cbn in *; eauto.
  - intros k t0 f0. rewrite dget_dset. destruct (eqb_spec (t_id t) k) as [<-|NE].
    + intros X; injection X as <-. cbn [t_stack t_with_stack]. intros Y. rewrite dget_ddel_other by congruence. eapply i_stack0; eauto. rewrite Hs. now right.
    + intros X Y. rewrite dget_ddel_other; eauto. intros ->. eapply excl; eauto.
  - intros k1 k2 t1 t2 f0. rewrite !dget_dset.
    destruct (eqb_spec (t_id t) k1) as [<-|], (eqb_spec (t_id t) k2) as [<-|]; intros X1 X2 X3 X4; auto;
      try (injection X1 as <-); try (injection X2 as <-); cbn [t_stack t_with_stack] in *; eauto.
    + eapply i_disj0; eauto. rewrite Hs. now right.
    + eapply i_disj0; eauto. rewrite Hs. now right.
  - intros k f0 X. destruct (N.eq_dec k (f_id f)) as [->|NE]; [rewrite dget_ddel_same in X by auto; discriminate|].
    rewrite dget_ddel_other in X by auto. auto.
  - intros k f0 v X Y. destruct (N.eq_dec k (f_id f)) as [->|NE]; [rewrite dget_ddel_same in X by auto; discriminate|].
    rewrite dget_ddel_other in X by auto. destruct (i_fv0 _ _ _ X Y) as (x & P & Q). exists x. split; auto. rewrite D; auto.
    intros Z. destruct (i_fv0 _ _ _ Hf Z) as (x' & P' & Q'). congruence.
  - intros v x X. destruct (vfr _ _ X) as (Y & Z). destruct (i_v0 _ _ Z) as (P & f0 & Q & R). split; auto. exists f0. split; auto.
    rewrite dget_ddel_other; auto. intros E. rewrite E in Q. assert (f0 = f) by congruence. subst. auto.
Qed.
