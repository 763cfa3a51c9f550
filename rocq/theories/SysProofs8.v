(** Every step keeps the invariant; which exceptions can end a run. *)
From Verif Require Import PyBase PyDict DbgTypes BpModel BpSpec BpProofs2 BpProofs3 BpProps ThreadModel StratModel SysModel SysSpec SysProofs SysProofs2 SysProofs3 SysProofs4 SysProofs5 SysProofs6 SysProofs7.
Set Implicit Arguments.
Local Open Scope N_scope.

Lemma find_open h (l : list (Host * Node)) x : find (fun p => host_eqb (fst p) h) l = Some x -> In x l /\ h_uuid (fst x) = h_uuid h.
Proof. intros H. apply find_some in H. destruct H as (A & B). split; auto. now apply N.eqb_eq in B. Qed.
Lemma host_open_false h l : host_open h l = false -> forall h' task, In (h', task) l -> h_uuid h' <> h_uuid h.
Proof.
  intros H h' task HI E. assert (host_open h l = true); [|congruence].
  apply existsb_exists. exists (h', task). split; auto. unfold host_eqb. cbn. now apply N.eqb_eq.
Qed.
Lemma close_in h l h' task : In (h', task) (close_host h l) <-> In (h', task) l /\ h_uuid h' <> h_uuid h.
Proof.
  unfold close_host. rewrite filter_In. cbn [fst]. unfold host_eqb. rewrite negb_true_iff, N.eqb_neq. reflexivity.
Qed.
Lemma close_nd h l : NoDup (map (fun p : Host * Node => h_uuid (fst p)) l) -> NoDup (map (fun p : Host * Node => h_uuid (fst p)) (close_host h l)).
Proof.
  induction l as [|p l IH]; cbn; auto. intros ND. inversion ND as [|? ? A B]; subst.
  destruct (negb (host_eqb (fst p) h)); cbn; auto. constructor; auto. intros C. apply A.
  apply in_map_iff in C. destruct C as (q & E & C). apply filter_In in C. apply in_map_iff. exists q. tauto.
Qed.

Definition rq_ok (rq : option (Z * Req)) : Prop :=
  match rq with Some (_, r) => req_wf r /\ needs_strategy r = true | None => True end.

Lemma abort_inv e w y : WInv w -> dwf (w_dbg w) -> rq_ok (y_recv y) -> SInv (abort e w y).
Proof.
  intros I D R. destruct (exit_threads_spec I) as (A1 & A2 & _ & _ & A5 & _). constructor; cbn; auto.
  - eapply dwf_dext; eauto.
  - constructor.
  - contradiction.
Qed.

Lemma thread_not_main w tid t : WInv w -> dget (w_threads w) tid = Some t -> t_host t <> None -> tid <> 1.
Proof. intros I H N ->. destruct (i_main I) as (st & sn & M). rewrite M in H. injection H as <-. now apply N. Qed.
Lemma host_is_host h t : host_is h t = true -> exists h', t_host t = Some h' /\ h_uuid h' = h_uuid h.
Proof. unfold host_is. destruct (t_host t) as [h'|]; [|discriminate]. intros H. apply N.eqb_eq in H. eauto. Qed.

(** The exceptions start_task and end_task let escape. *)
Definition start_error (a : TaskStart) (e : exn) : Prop :=
  (e = AttributeError /\ (ts_role a = None \/ orphan (ts_task a))) \/ exists c, ts_cond a c = CRaise e.

Lemma start_task_spec a w : WInv w -> dwf (w_dbg w) -> (match ts_role a with Some regs => regs_wf regs | None => True end) ->
  exists tid, (match find_thread (ts_host a) w with Some t => tid = t_id t | None => tid = d_thread (w_dbg w) end) /\
  match start_task a w with
  | (w', o, Some tid') => tid' = tid /\ WInv w' /\ only tid w w' /\
      (exists t', host_is (ts_host a) t' = true /\ on_top tid t' (ts_task a) w' /\ (o = Blocks -> t_state t' = TWait)) /\
      (forall e, o = Raises e -> start_error a e)
  | (w', o, None) => WInv w' /\ only tid w w' /\ exists e, o = Raises e /\ start_error a e
  end.
Proof.
  intros I D R. destruct (@enter_frame_spec a w I D R) as (tid & N1 & TID & E). exists tid. split; auto. unfold start_task.
  destruct (enter_frame a w) as (w1, [tid'|e]).
  - destruct E as (-> & I1 & O1 & _ & _ & t' & (T1 & T2) & S1 & F1 & _ & _).
    pose proof (@start_decide_spec a tid t' w1 I1 T1) as E. destruct (start_decide a tid w1) as (w2, o).
    destruct E as (I2 & O2 & FR & _ & _ & _ & (t2 & G1 & G2 & G3) & G4). split; auto. split; auto. split; [eapply only_trans; eauto|]. split.
    + exists t2. split; [now rewrite (host_is_same _ G2)|]. split; auto. split; auto. exists (d_frame (w_dbg w)), (kept w (ts_task a) match find_thread (ts_host a) w with Some t => t_stack t | None => [] end).
      eexists. destruct G2 as (_ & _ & G2). split; [congruence|]. rewrite FR. split; eauto.
    + intros e He. destruct (G4 e He) as (_ & c & Hc). right. eauto.
  - destruct E as (I1 & O1 & -> & E). split; auto. split; auto. eexists; split; [reflexivity|]. left. auto.
Qed.

Lemma only_thread_ok tid w w' h t : WInv w -> (match find_thread h w with Some t => tid = t_id t | None => tid = d_thread (w_dbg w) end) ->
  only tid w w' -> h_uuid t <> h_uuid h -> forall task, open_ok t task w -> open_ok t task w'.
Proof.
  intros I TID O NE task OK. destruct (find_thread h w) as [th|] eqn:F.
  - destruct (find_thread_some _ I F) as (A & B). subst tid. eapply open_only; eauto.
  - destruct OK as (k & tk & A & B). exists k, tk. split; auto. eapply on_top_only; eauto. subst tid.
    destruct B as (B & _). apply (i_t I) in B. lia.
Qed.

Section S.
Variable py_int : pystr -> option Z.
Variable py_repr : heap -> val -> pystr.
Variable type_name : heap -> val -> pystr.
Variable tmpl : pystr -> nat -> heap -> res (list obj * val).
Variable tmpl_args : nat -> nat -> heap -> res (list obj * val).
Variable err_text : exn -> pystr.
Variable parse_repl : pystr -> res ReplCmd.
Notation handle := (handle py_int py_repr type_name tmpl tmpl_args err_text parse_repl).
Notation step := (step py_int py_repr type_name tmpl tmpl_args err_text parse_repl).
Notation run := (run py_int py_repr type_name tmpl tmpl_args err_text parse_repl).

(** Why the strategy was left with an exception. *)
Definition fails_with (y : Sys) (l : label) (e : exn) : Prop :=
  (e = EndStrategy /\ exists tid t, dget (w_threads (y_w y)) tid = Some t /\ t_state t = TEnd) \/
  (exists a, l = LStart a /\ start_error a e).

Lemma before_good r w : good w (wd (before_strategy r (w_dbg w)) w).
Proof.
  assert (R : good w (wd (w_dbg w) w)) by (destruct w; apply good_refl).
  destruct r; cbn [before_strategy]; auto.
  - apply (@good_bstep BClear w); exact Logic.I.
  - eapply good_trans; [apply (@good_bstep BTerm w); exact Logic.I|].
    apply (@good_bstep BClear (wd (set_term true (w_dbg w)) w)); exact Logic.I.
Qed.
Lemma shutdown_good b w : good w (shutdown b w).
Proof.
  unfold shutdown. assert (G : good w (wd (set_confdone true (clear_config (w_dbg w))) w)).
  { eapply good_trans; [apply (@good_bstep BClear w); exact Logic.I|].
    apply (@good_bstep BConfDone (wd (clear_config (w_dbg w)) w)); exact Logic.I. }
  destruct (b && negb _); auto. eapply good_trans; [exact G|]. apply resume_good.
Qed.

Lemma step_inv y l y' : SInv y -> label_wf l -> step y l = Some y' ->
  SInv y' /\ dext (w_dbg (y_w y)) (w_dbg (y_w y')) /\ (forall e, y_phase y' = PDone e -> y_phase y <> PDone e -> fails_with y l e).
Proof.
  intros S W H. pose proof (y_inv S) as I. pose proof (y_dwf S) as D.
  destruct l as [|a|h r addr| | |regs| |seq r| |maps| |hp|lregs]; cbn [SysModel.step] in H.
  - destruct (y_phase y) eqn:P; try discriminate. injection H as <-. csplit; [|apply dext_refl|discriminate].
    constructor; cbn; auto.
    + destruct (i_ctr I) as (A & B & C). apply inv_init; auto.
    + constructor.
    + contradiction.
    + apply (y_rq S).
  - destruct (y_phase y) eqn:P; try discriminate.
    destruct (host_open (ts_host a) (y_open y)) eqn:HO; [discriminate|]. pose proof (host_open_false _ _ HO) as NE.
    destruct (@start_task_spec a (y_w y) I D W) as (tid & TID & E).
    destruct (start_task a (y_w y)) as ((w', o), [tid'|]).
    + destruct E as (-> & I' & O' & (t' & H1 & H2 & H3) & ER).
      assert (D' : dwf (w_dbg w')) by (eapply dwf_dext; [exact D|apply (o_d O')]).
      assert (OK : forall h task, In (h, task) ((ts_host a, ts_task a) :: y_open y) -> open_ok h task w').
      { intros h task [X|X].
        - injection X as <- <-. exists tid, t'. auto.
        - apply (@only_thread_ok tid (y_w y) w' (ts_host a) h I TID O' (NE _ _ X) task). apply (y_ok S); auto. }
      assert (ND : NoDup (map (fun p : Host * Node => h_uuid (fst p)) ((ts_host a, ts_task a) :: y_open y))).
      { cbn. constructor; [|apply (y_nd S)]. intros X. apply in_map_iff in X. destruct X as ((h, k) & X1 & X2). eapply NE; eauto. }
      destruct o; injection H as <-.
      * csplit; [|apply (o_d O')|discriminate]. constructor; cbn; auto. apply (y_rq S).
      * csplit; [|apply (o_d O')|discriminate]. constructor; cbn; auto; [|apply (y_rq S)].
        exists (ts_host a), (ts_task a), t'. auto.
      * destruct (exit_threads_spec I') as (_ & X & _). csplit.
        -- apply abort_inv; auto. apply (y_rq S).
        -- eapply dext_trans; [apply (o_d O')|exact X].
        -- cbn. intros e0 X0 _. injection X0 as <-. right. eauto.
    + destruct E as (I' & O' & e & -> & ER). injection H as <-. destruct (exit_threads_spec I') as (_ & X & _). csplit.
      * apply abort_inv; auto; [|apply (y_rq S)]. eapply dwf_dext; [exact D|apply (o_d O')].
      * eapply dext_trans; [apply (o_d O')|exact X].
      * cbn. intros e0 X0 _. injection X0 as <-. right. eauto.
  - destruct (y_phase y) eqn:P; try discriminate.
    destruct (find _ (y_open y)) as [(h0, task)|] eqn:F; [|discriminate]. apply find_open in F. destruct F as (F1 & F2). cbn in F2.
    assert (OKh : open_ok h task (y_w y)).
    { destruct (y_ok S _ _ F1) as (tid & t & A & B). exists tid, t. split; auto. unfold host_is in *. destruct (t_host t); [|discriminate]. now rewrite <- F2. }
    destruct (@end_task_spec h task r addr (y_w y) I OKh) as (tid & t & (T1 & T2) & OT & E).
    assert (T1' := T1). destruct (host_is_host _ _ T2) as (h1 & HH & HU).
    assert (N1 : tid <> 1) by (eapply thread_not_main; eauto; congruence).
    assert (KEEP : forall w', only tid (y_w y) w' -> forall h' task', In (h', task') (close_host h (y_open y)) -> open_ok h' task' w').
    { intros w' O' h' task' X. apply close_in in X. destruct X as (X1 & X2). eapply open_only; eauto. apply (y_ok S); auto. }
    destruct (end_task h task r addr (y_w y)) as ((w', o), [tid'|]); [|destruct o; contradiction].
    destruct o; [| |contradiction].
    + destruct E as (-> & ->). pose proof (@end_finish_spec tid t task (y_w y) I OT N1) as E2.
      destruct (end_finish tid task (y_w y)) as (w2, [| |e]); [|contradiction|].
      * injection H as <-. destruct E2 as (I2 & O2 & _). csplit; [|apply (o_d O2)|discriminate].
        constructor; cbn; auto.
        -- eapply dwf_dext; [exact D|apply (o_d O2)].
        -- apply close_nd, (y_nd S).
        -- apply (y_rq S).
      * injection H as <-. destruct E2 as (-> & -> & TE). destruct (exit_threads_spec I) as (_ & X & _). csplit; auto.
        -- apply abort_inv; auto. apply (y_rq S).
        -- cbn. intros e0 X0 _. injection X0 as <-. left. eauto.
    + injection H as <-. destruct E as (-> & I2 & O2 & t2 & OT2 & ST2 & TW). csplit; [|apply (o_d O2)|discriminate].
      constructor; cbn; auto.
      * eapply dwf_dext; [exact D|apply (o_d O2)].
      * apply close_nd, (y_nd S).
      * exists t2, h1. destruct ST2 as (_ & ST2 & _). split; auto. split; [congruence|].
        intros h' task' X. apply close_in in X. rewrite HU. tauto.
      * apply (y_rq S).
  - destruct (y_phase y) as [| |tid|tid task|] eqn:P; try discriminate; destruct (waiting tid (y_w y)) eqn:WA; try discriminate.
    + pose proof (y_ph S) as PH. rewrite P in PH. destruct PH as (h & task & t & PH1 & PH2 & PH3 & _).
      unfold start_resume in H. rewrite PH3 in H. destruct (tstate_eqb (t_state t) TEnd) eqn:TE.
      * injection H as <-. destruct (exit_threads_spec I) as (_ & X & _). csplit; auto.
        -- apply abort_inv; auto. apply (y_rq S).
        -- cbn. intros e0 X0 _. injection X0 as <-. left. split; auto. exists tid, t. split; auto. destruct (t_state t); auto; discriminate.
      * injection H as <-. csplit; [|apply dext_refl|discriminate]. constructor; cbn; auto; try apply S.
    + pose proof (y_ph S) as PH. rewrite P in PH. destruct PH as (t & h & PH1 & PH2 & PH3).
      assert (N1 : tid <> 1) by (destruct PH1; eapply thread_not_main; eauto; congruence).
      pose proof (@end_finish_spec tid t task (y_w y) I PH1 N1) as E2.
      destruct (end_finish tid task (y_w y)) as (w2, [| |e]); [|discriminate|]; injection H as <-.
      * destruct E2 as (I2 & O2 & _). csplit; [|apply (o_d O2)|discriminate]. constructor; cbn; auto.
        -- eapply dwf_dext; [exact D|apply (o_d O2)].
        -- apply (y_nd S).
        -- intros h' task' X. destruct PH1 as (PH1 & _). eapply (@open_only tid (y_w y) w2 h' h task' t); eauto.
           ++ unfold host_is. rewrite PH2. apply N.eqb_refl.
           ++ apply (y_ok S); auto.
        -- apply (y_rq S).
      * destruct E2 as (-> & -> & TE). destruct (exit_threads_spec I) as (_ & X & _). csplit; auto.
        -- apply abort_inv; auto. apply (y_rq S).
        -- cbn. intros e0 X0 _. injection X0 as <-. left. destruct PH1. eauto.
  - destruct (y_phase y) eqn:P; try discriminate. destruct (y_open y) as [|p [|]]; try discriminate. injection H as <-.
    destruct (exit_threads_spec I) as (X1 & X2 & _). csplit; [|exact X2|discriminate]. constructor; cbn; auto.
    + eapply dwf_dext; eauto.
    + constructor.
    + contradiction.
    + apply (y_rq S).
  - destruct (y_phase y) eqn:P; try discriminate. destruct (@register_all_ok regs (w_dbg (y_w y)) D W) as (d' & E & X & C & _). rewrite E in H.
    injection H as <-. csplit; [|exact X|discriminate].
    assert (Q : qext (y_w y) (wd d' (y_w y))) by (apply qext_same_ss; auto).
    pose proof (@sinv_q y (wd d' (y_w y)) S (inv_dbg I C) Q (y_recv y) (y_rq S)) as Z. rewrite P in Z. exact Z.
  - destruct (y_phase y) eqn:P; try discriminate. injection H as <-.
    destruct (exit_threads_spec I) as (X1 & X2 & _ & _ & X5 & _). csplit; [|exact X2|discriminate]. constructor; cbn; auto.
    + eapply dwf_dext; eauto.
    + constructor.
    + contradiction.
    + apply (y_rq S).
  - destruct (y_recv y) eqn:R; [discriminate|]. destruct (@before_good r (y_w y) I) as (I1 & Q1).
    set (w1 := wd (before_strategy r (w_dbg (y_w y))) (y_w y)) in *.
    assert (D1 : dwf (w_dbg w1)) by (eapply dwf_dext; [exact D|apply (q_d Q1)]).
    destruct (needs_strategy r && negb (has_strategy y)) eqn:NS; injection H as <-.
    + csplit; [|apply (q_d Q1)|cbn; congruence]. apply andb_true_iff in NS. apply sinv_q; auto. split; [exact W|tauto].
    + destruct (dwf_binv D1) as (ops & B). destruct (@handle_spec py_int py_repr type_name tmpl tmpl_args err_text parse_repl seq r w1 ops I1 B W) as (I2 & Q2 & _).
      assert (Q : qext (y_w y) (handle seq r w1)) by (eapply qext_trans; eauto).
      csplit; [|apply (q_d Q)|cbn; congruence]. apply sinv_q; auto.
  - destruct (y_recv y) as [(seq, r)|] eqn:R; [|discriminate]. destruct (has_strategy y) eqn:HS; [|discriminate]. injection H as <-.
    pose proof (y_rq S) as RW. rewrite R in RW. destruct RW as (RW & _).
    destruct (dwf_binv D) as (ops & B). destruct (@handle_spec py_int py_repr type_name tmpl tmpl_args err_text parse_repl seq r (y_w y) ops I B RW) as (I2 & Q2 & _).
    csplit; [|apply (q_d Q2)|cbn; congruence]. apply sinv_q; auto.
  - destruct (y_recv y); [discriminate|]. injection H as <-.
    destruct (@good_bstep (BConf maps) (y_w y) Logic.I Logic.I I) as (I2 & Q2).
    csplit; [|apply (q_d Q2)|cbn; congruence]. apply (sinv_q S I2 Q2 None); auto.
  - destruct (y_recv y); [discriminate|]. injection H as <-.
    destruct (@shutdown_good (has_strategy y) (y_w y) I) as (I2 & Q2).
    csplit; [|apply (q_d Q2)|cbn; congruence]. apply (sinv_q S I2 Q2 None); auto.
  - injection H as <-. destruct (@good_heap hp (y_w y) I) as (I2 & Q2).
    csplit; [|apply (q_d Q2)|cbn; congruence]. apply (sinv_q S I2 Q2 (y_recv y) (y_rq S)).
  - destruct (y_phase y) eqn:P; try discriminate. destruct (@register_all_ok lregs (w_dbg (y_w y)) D W) as (d' & E & X & C & _). rewrite E in H.
    injection H as <-. csplit; [|exact X|discriminate].
    assert (Q : qext (y_w y) (wd d' (y_w y))) by (apply qext_same_ss; auto).
    pose proof (@sinv_q y (wd d' (y_w y)) S (inv_dbg I C) Q (y_recv y) (y_rq S)) as Z. rewrite P in Z. exact Z.
Qed.

Lemma sinv_init : SInv sys_init.
Proof.
  constructor; cbn; auto.
  - apply inv_init; cbn; lia.
  - exists []. split; [intros o []|reflexivity].
  - constructor.
  - contradiction.
  - split; auto. reflexivity.
Qed.

Lemma run_app y ls1 ls2 y2 : run y (ls1 ++ ls2) y2 <-> exists y1, run y ls1 y1 /\ run y1 ls2 y2.
Proof.
  revert y. induction ls1 as [|l ls1 IH]; intros y; cbn [app].
  - split; [intros H; exists y; split; auto; constructor|]. intros (y1 & A & B). inversion A; subst. exact B.
  - split.
    + intros H. inversion H as [|? ? y0 ? ? A B]; subst. apply IH in B. destruct B as (y1 & B & C). exists y1. split; auto. econstructor; eauto.
    + intros (y1 & A & B). inversion A as [|? ? y0 ? ? C E]; subst. econstructor; [exact C|]. apply IH. eauto.
Qed.

Lemma run_inv ls : forall y y', SInv y -> trace_wf ls -> run y ls y' -> SInv y' /\ dext (w_dbg (y_w y)) (w_dbg (y_w y')).
Proof.
  induction ls as [|l ls IH]; intros y y' S W R.
  - inversion R; subst. split; auto using dext_refl.
  - inversion R as [|? ? y1 ? ? A B]; subst. inversion W as [|? ? W1 W2]; subst.
    destruct (@step_inv y l y1 S W1 A) as (S1 & D1 & _). destruct (IH y1 y' S1 W2 B) as (S2 & D2). split; auto. eapply dext_trans; eauto.
Qed.
Lemma run_sinv ls y : trace_wf ls -> run sys_init ls y -> SInv y.
Proof. intros W R. apply (run_inv sinv_init W R). Qed.
End S.
