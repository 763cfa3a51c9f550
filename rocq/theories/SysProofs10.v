(** What each step does to the message queue, the configuration, the thread list. *)
From Verif Require Import PyBase PyDict DbgTypes BpModel BpSpec BpProofs2 BpProofs3 BpProps ThreadModel StratModel SysModel SysSpec SysProofs SysProofs2 SysProofs3 SysProofs4 SysProofs5 SysProofs6 SysProofs7 SysProofs8 SysProofs9.
Set Implicit Arguments.
Local Open Scope N_scope.

Lemma marks_app a b : marks (a ++ b) = marks a ++ marks b.
Proof. unfold marks. apply flat_map_app. Qed.
Lemma tev_app a b : thread_events (a ++ b) = thread_events a ++ thread_events b.
Proof. unfold thread_events. apply flat_map_app. Qed.
Lemma sev_app a b : stopped_events (a ++ b) = stopped_events a ++ stopped_events b.
Proof. unfold stopped_events. apply flat_map_app. Qed.

(** Configuration that the strategy never touches. *)
Definition same_conf (d d' : Dbg) : Prop :=
  d_exc d' = d_exc d /\ d_maps d' = d_maps d /\ d_confdone d' = d_confdone d /\ d_term d' = d_term d /\ (d_bps d = [] -> d_bps d' = []).
Lemma same_conf_refl d : same_conf d d. Proof. repeat split; auto. Qed.
Lemma same_conf_trans a b c : same_conf a b -> same_conf b c -> same_conf a c.
Proof. intros (A1 & A2 & A3 & A4 & A5) (B1 & B2 & B3 & B4 & B5). repeat split; try congruence. auto. Qed.

Lemma quiet_out d d' : quiet d d' -> same_conf d d' /\ exists ms, d_out d' = d_out d ++ ms /\ marks ms = [] /\ thread_events ms = [].
Proof.
  intros (ops & W & ->). revert d. induction W as [|o ops Ho W IH]; intros d; cbn [fold_left].
  - split; [apply same_conf_refl|]. exists []. rewrite app_nil_r. auto.
  - destruct (IH (bstep d o)) as (C2 & m2 & E2 & M2 & T2).
    assert (X : same_conf d (bstep d o) /\ exists ms, d_out (bstep d o) = d_out d ++ ms /\ marks ms = [] /\ thread_events ms = []).
    { destruct o as [| |p line t| | |[[]|]| | | | |]; cbn in Ho; try contradiction.
      - cbn [bstep]. destruct (register_frame p line t d) as (R1 & _ & _ & _ & R5 & R6 & R7 & _). 
        split.
        + unfold register_path_breakpoint. destruct (py_setitem _ line (Some t)) as [fl2|]; [|repeat split; auto].
          destruct (refresh p fl2 (d_bps d)) as ((bps', ev), x) eqn:RF. cbn [fst].
          assert (QA : forall l d0, same_conf d0 (queue_all l d0)).
          { unfold queue_all. induction l as [|z l IHl]; intros d0; cbn [fold_left]; [apply same_conf_refl|]. eapply same_conf_trans; [|apply IHl]. repeat split; auto. }
          eapply same_conf_trans; [|apply QA]. repeat split; auto. cbn. intros E. rewrite E in RF. cbn in RF. injection RF as <- _ _. reflexivity.
        + unfold register_path_breakpoint. destruct (py_setitem _ line (Some t)) as [fl2|]; [|exists []; cbn; now rewrite app_nil_r].
          destruct (refresh p fl2 (d_bps d)) as ((bps', ev), x). cbn [fst]. rewrite queue_all_out. exists (map Some (map OBpEvent ev)). split; auto.
          clear. induction ev as [|e ev IHe]; cbn; auto.
      - split; [repeat split; auto|]. eexists. split; [reflexivity|auto]. }
    destruct X as (C1 & m1 & E1 & M1 & T1). split; [eapply same_conf_trans; eauto|]. exists (m1 ++ m2).
    rewrite E2, E1, app_assoc, marks_app, tev_app, M1, M2, T1, T2. auto.
Qed.

(** One micro step: configuration, messages. *)
Lemma micro_out w w' : WInv w -> micro w w' -> same_conf (w_dbg w) (w_dbg w') /\ exists ms, d_out (w_dbg w') = d_out (w_dbg w) ++ ms /\ marks ms = [].
Proof.
  intros I M. assert (NIL : forall d, d_out d = d_out (w_dbg w) -> exists ms, d_out d = d_out (w_dbg w) ++ ms /\ marks ms = []).
  { intros d E. exists []. rewrite app_nil_r. auto. }
  destruct M as [d Q|k t t' H S|h F|a tid t H N|tid t sfid rest f vs H1 H2 H3 H4|fid k ds g f H S|tid t N H].
  - destruct (quiet_out Q) as (A & ms & B & C & _). split; auto. eauto.
  - split; [apply same_conf_refl|apply NIL; reflexivity].
  - split; [repeat split; auto|]. eexists. split; [reflexivity|reflexivity].
  - split; [repeat split; auto|]. apply NIL; reflexivity.
  - split; [apply same_conf_refl|apply NIL; reflexivity].
  - pose proof (@add_scope fid k ds g w f I H S) as A.
    unfold add_var, next_variable_id in A |- *. cbn -[dset dget] in A |- *.
    match goal with |- context [match ?x with Some _ => _ | None => _ end] => destruct x end; (split; [repeat split; auto|apply NIL; reflexivity]).
  - split; [repeat split; auto|]. eexists. split; [reflexivity|reflexivity].
Qed.
Lemma msteps_out w w' : WInv w -> msteps w w' -> same_conf (w_dbg w) (w_dbg w') /\ exists ms, d_out (w_dbg w') = d_out (w_dbg w) ++ ms /\ marks ms = [].
Proof.
  apply (msteps_rel (fun w w' => same_conf (w_dbg w) (w_dbg w') /\ exists ms, d_out (w_dbg w') = d_out (w_dbg w) ++ ms /\ marks ms = [])).
  - intros. split; [apply same_conf_refl|]. exists []. rewrite app_nil_r. auto.
  - intros a b c _ (C1 & m1 & E1 & M1) (C2 & m2 & E2 & M2). split; [eapply same_conf_trans; eauto|]. exists (m1 ++ m2).
    rewrite E2, E1, app_assoc, marks_app, M1, M2. auto.
  - intros. now apply micro_out.
Qed.

(** Threads and events. *)
Lemma alive_snoc (a : list (bool * N)) (e : bool * N) : alive (a ++ [e]) = if fst e then alive a ++ [snd e] else filter (fun x : N => negb (N.eqb x (snd e))) (alive a).
Proof. unfold alive. rewrite fold_left_app. reflexivity. Qed.
Lemma events_ok_nil : events_ok [].
Proof. intros pre b t post E. destruct pre; discriminate. Qed.
Lemma events_ok_snoc a (b : bool) (t : N) : events_ok a -> (if b then ~ In (true, t) a else In t (alive a)) -> events_ok (a ++ [(b, t)]).
Proof.
  intros H C pre b' t' post E. destruct (@exists_last _ ((b', t') :: post)) as (l & x & X); [discriminate|].
  rewrite X, app_assoc in E. apply app_inj_tail in E. destruct E as (E1 & E2). subst x.
  destruct l as [|y l]; cbn in X.
  - injection X as -> -> ->. rewrite app_nil_r in E1. subst. exact C.
  - injection X as <- ->. apply (H pre b' t' l). exact E1.
Qed.

Lemma dkeys_ddel_filter {V} (d : dict N V) a : NoDup (dkeys d) -> dkeys (ddel d a) = filter (fun k => negb (N.eqb k a)) (dkeys d).
Proof.
  induction d as [|(k, v) d IH]; cbn [ddel dkeys map fst]; intros ND; auto.
  cbn [map fst] in ND. inversion ND as [|? ? X1 X2]; subst. cbn [filter]. destruct (eqb_spec k a) as [->|X].
  - rewrite N.eqb_refl. cbn [negb]. fold (dkeys d). fold (dkeys d) in X1. clear -X1. induction (dkeys d) as [|x l IH]; cbn; auto.
    destruct (N.eqb_spec x a) as [->|]; [exfalso; apply X1; now left|]. cbn. f_equal. apply IH. intros Y; apply X1; now right.
  - apply N.eqb_neq in X. rewrite X. cbn [negb map fst]. f_equal. apply IH. auto.
Qed.

(** The thread list and the events sent agree. *)
Definition tinv (w : World) : Prop :=
  let evs := thread_events (d_out (w_dbg w)) in
  dkeys (w_threads w) = 1 :: alive evs /\ (forall b t, In (b, t) evs -> t < d_thread (w_dbg w)) /\ events_ok evs.
Lemma tinv_same w w' ms : d_out (w_dbg w') = d_out (w_dbg w) ++ ms -> thread_events ms = [] -> d_thread (w_dbg w) <= d_thread (w_dbg w') ->
  dkeys (w_threads w') = dkeys (w_threads w) -> tinv w -> tinv w'.
Proof.
  intros E T D K (A & B & C). unfold tinv. rewrite E, tev_app, T, app_nil_r, K. csplit; auto. intros b t H. specialize (B b t H). lia.
Qed.
Lemma tinv_same0 w w' : d_out (w_dbg w') = d_out (w_dbg w) -> d_thread (w_dbg w) <= d_thread (w_dbg w') ->
  dkeys (w_threads w') = dkeys (w_threads w) -> tinv w -> tinv w'.
Proof. intros E. apply (@tinv_same w w' []); auto. now rewrite app_nil_r. Qed.

Lemma micro_tinv w w' : WInv w -> micro w w' -> tinv w -> tinv w'.
Proof.
  intros I M T. destruct M as [d Q|k t t' H S|h F|a tid t H N|tid t sfid rest f vs H1 H2 H3 H4|fid k ds g f H S|tid t N H].
  - destruct (quiet_out Q) as (A & ms & B & _ & C). destruct (quiet_ctr Q) as (D & _). eapply (@tinv_same w (wd d w)); eauto. cbn. lia.
  - apply (@tinv_same0 w); auto; [cbn; lia|]. apply dkeys_dset_in. now apply dget_Some_key in H.
  - destruct T as (A & B & C). unfold tinv, add_thread, next_thread_id. cbn -[dset]. rewrite tev_app. cbn [thread_events flat_map app].
    assert (FR : dget (w_threads w) (d_thread (w_dbg w)) = None).
    { destruct (dget (w_threads w) (d_thread (w_dbg w))) eqn:E; auto. apply (i_t I) in E. lia. }
    csplit.
    + change (dkeys (dset (w_threads w) (d_thread (w_dbg w)) (mkThread (d_thread (w_dbg w)) (Some h) [] TContinue None)) = 1 :: alive (thread_events (d_out (w_dbg w)) ++ [(true, d_thread (w_dbg w))])). rewrite dset_fresh by (now apply dget_None). rewrite dkeys_app, A, alive_snoc. reflexivity.
    + intros b t X. apply in_app_or in X. destruct X as [X|[X|[]]]; [specialize (B _ _ X); lia|]. injection X as _ <-. lia.
    + apply events_ok_snoc; auto. intros X. specialize (B _ _ X). lia.
  - apply (@tinv_same0 w); auto; [cbn; lia|]. unfold set_thread. cbn -[dset]. apply dkeys_dset_in.
    destruct (i_t I _ H) as (E & _). rewrite E. now apply dget_Some_key in H.
  - apply (@tinv_same0 w); auto; [cbn; lia|]. unfold drop_frame, set_thread. cbn -[dset]. apply dkeys_dset_in.
    destruct (i_t I _ H1) as (E & _). rewrite E. now apply dget_Some_key in H1.
  - pose proof (@add_scope fid k ds g w f I H S) as A. destruct (add_var fid k ds w) as (id, w2). cbv zeta in A.
    destruct A as (_ & Q & _ & _ & _ & O & _ & _ & _ & TH). apply (@tinv_same0 w); auto; [apply (dext_ctr (q_d Q))|now rewrite TH].
  - destruct T as (A & B & C). assert (TA : In tid (alive (thread_events (d_out (w_dbg w))))).
    { apply dget_Some_key in H. rewrite A in H. destruct H as [H|H]; [congruence|auto]. }
    unfold tinv. cbn -[ddel]. rewrite tev_app. cbn [thread_events flat_map app].
    csplit.
    + change (dkeys (ddel (w_threads w) tid) = 1 :: alive (thread_events (d_out (w_dbg w)) ++ [(false, tid)])). rewrite dkeys_ddel_filter by apply (i_tnd I). rewrite A, alive_snoc. cbn [filter fst snd]. destruct (N.eqb_spec 1 tid); [congruence|]. reflexivity.
    + intros b t0 X. apply in_app_or in X. destruct X as [X|[X|[]]]; [specialize (B _ _ X); auto|]. injection X as _ <-. apply (i_t I) in H. lia.
    + apply events_ok_snoc; auto.
Qed.
Lemma msteps_tinv w w' : WInv w -> msteps w w' -> tinv w -> tinv w'.
Proof.
  apply (msteps_rel (fun w w' => tinv w -> tinv w')); auto. intros. eapply micro_tinv; eauto.
Qed.

(** Variables and frames come and go together; ids are not reused. *)
Record vrel (w w' : World) : Prop := {
  vr_new : forall v x, dget (w_vars w') v = Some x -> dget (w_vars w) v = Some x \/ d_var (w_dbg w) <= v;
  vr_keep : forall v x, dget (w_vars w) v = Some x -> live (v_frame x) w' -> dget (w_vars w') v = Some x;
  vr_frame : forall f, live f w' -> live f w \/ d_frame (w_dbg w) <= f;
  vr_task : forall k f f', dget (w_frames w) k = Some f -> dget (w_frames w') k = Some f' -> f_task f' = f_task f /\ f_tv f' = f_tv f /\ f_args f' = f_args f;
  vr_ctr : d_var (w_dbg w) <= d_var (w_dbg w') /\ d_frame (w_dbg w) <= d_frame (w_dbg w') }.
Lemma vrel_refl w : vrel w w.
Proof. constructor; auto; try lia. intros k f f' A B. repeat split; congruence. Qed.
Lemma vrel_trans a b c : WInv a -> vrel a b -> vrel b c -> vrel a c.
Proof.
  intros I [A1 A2 A3 A4 A5] [B1 B2 B3 B4 B5]. constructor.
  - intros v x H. destruct (B1 _ _ H) as [H'|H']; [|right; lia]. destruct (A1 _ _ H'); auto.
  - intros v x H L. apply B2; auto. apply A2; auto. destruct (B3 _ L) as [X|X]; auto.
    destruct (i_v I _ H) as (_ & f & F & _). apply (i_f I) in F. lia.
  - intros f H. destruct (B3 _ H) as [X|X]; [|right; lia]. destruct (A3 _ X); auto.
  - intros k f f' H H'. destruct (B3 k) as [(fb & X)|X]; [exists f'; auto| |apply (i_f I) in H; lia].
    destruct (B4 _ _ _ X H') as (-> & -> & ->). eauto.
  - lia.
Qed.
Lemma vrel_same w w' : w_vars w' = w_vars w -> w_frames w' = w_frames w -> d_var (w_dbg w) <= d_var (w_dbg w') -> d_frame (w_dbg w) <= d_frame (w_dbg w') -> vrel w w'.
Proof.
  intros A B C D. constructor; rewrite ?A, ?B; auto.
  - unfold live. rewrite B. auto.
  - intros k f f' X Y. repeat split; congruence.
Qed.
Lemma vrel_qext w w' : WInv w -> qext w w' -> vrel w w'.
Proof.
  intros I Q. constructor; [apply (q_vn Q)| | | |].
  - intros v x H _. now apply (q_v Q).
  - intros f (fr & H). left. apply dget_Some_key in H. rewrite (q_fk Q) in H. now apply dget_key_ex.
  - intros k f f' H H'. destruct (q_f Q _ H) as (f2 & H2 & _ & E1 & E2 & E3 & _). assert (f2 = f') by congruence. subst f2. auto.
  - split; apply (dext_ctr (q_d Q)).
Qed.

Lemma micro_vrel w w' : WInv w -> micro w w' -> vrel w w'.
Proof.
  intros I M. pose proof (micro_inv M I) as (I' & D'). pose proof (dext_ctr D') as (_ & CF & CV).
  destruct M as [d Q|k t t' H S|h F|a tid t H N|tid t sfid rest f vs H1 H2 H3 H4|fid k ds g f H S|tid t N H].
  - apply vrel_same; auto.
  - apply vrel_same; auto.
  - apply vrel_same; auto.
  - constructor; auto.
    + intros f (fr & X). unfold set_thread in X. cbn -[dget dset] in X. rewrite dget_dset in X.
      destruct (eqb_spec (d_frame (w_dbg w)) f) as [<-|NE]; [right; lia|left; now exists fr].
    + intros k f f' X Y. unfold set_thread in Y. cbn -[dget dset] in Y. rewrite dget_dset in Y.
      destruct (eqb_spec (d_frame (w_dbg w)) k) as [<-|NE]; [apply (i_f I) in X; lia|repeat split; congruence].
  - destruct (@inv_drop w tid t sfid rest f I H1 H2 H3) as (vs' & A & _ & B & C). assert (vs' = vs) by congruence. subst vs'.
    assert (LV : forall x, live x (drop_frame tid t sfid rest vs w) -> x <> sfid /\ live x w).
    { intros x (fr & X). unfold drop_frame, set_thread in X. cbn -[dget ddel] in X. destruct (N.eq_dec x sfid) as [->|NE].
      - rewrite dget_ddel_same in X; [discriminate|apply (i_fnd I)].
      - rewrite dget_ddel_other in X by auto. split; auto. now exists fr. }
    constructor; auto.
    + intros v x X. change (dget vs v = Some x) in X. destruct (in_dec N.eq_dec v (f_vars f)) as [Y|Y]; [rewrite B in X by auto; discriminate|].
      rewrite C in X by auto. auto.
    + intros v x X L. change (dget vs v = Some x). rewrite C; auto. intros Y. destruct (i_fv I _ _ H3 Y) as (x' & X1 & X2).
      apply LV in L. destruct L as (L & _). congruence.
    + intros x L. apply LV in L. tauto.
    + intros k f0 f' X Y. unfold drop_frame, set_thread in Y. cbn -[dget ddel] in Y. destruct (N.eq_dec k sfid) as [->|NE].
      * rewrite dget_ddel_same in Y; [discriminate|apply (i_fnd I)].
      * rewrite dget_ddel_other in Y by auto. change (dget (w_frames w) k = Some f') in Y. repeat split; congruence.
  - pose proof (@add_scope fid k ds g w f I H S) as A. pose proof (@inv_add_var w fid k ds f I H) as B.
    destruct (add_var fid k ds w) as (id, w2). cbv zeta in A.
    destruct A as (_ & Q & _). apply vrel_qext; auto.
  - apply vrel_same; auto.
Qed.
Lemma msteps_vrel w w' : WInv w -> msteps w w' -> vrel w w'.
Proof.
  apply (msteps_rel vrel); [intros; apply vrel_refl|intros; eapply vrel_trans; eauto|apply micro_vrel].
Qed.
