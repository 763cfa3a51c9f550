(** Which frames show a task result. *)
From Verif Require Import PyBase PyDict DbgTypes BpModel BpSpec BpProofs2 BpProofs3 BpProps ThreadModel StratModel SysModel SysSpec SysProofs SysProofs2 SysProofs3 SysProofs4 SysProofs5 SysProofs6 SysProofs7 SysProofs8 SysProofs9 SysProofs10 SysProofs11.
Set Implicit Arguments.
Local Open Scope N_scope.

(** Frames of [w'] come from [w] with the same result. *)
Definition rkeep (w w' : World) : Prop := forall k f', dget (w_frames w') k = Some f' ->
  exists f, dget (w_frames w) k = Some f /\ f_result f = f_result f'.
Lemma rkeep_same w w' : w_frames w' = w_frames w -> rkeep w w'.
Proof. intros E k f' H. rewrite E in H. eauto. Qed.
Lemma rkeep_refl w : rkeep w w. Proof. now apply rkeep_same. Qed.
Lemma rkeep_trans a b c : rkeep a b -> rkeep b c -> rkeep a c.
Proof. intros A B k f' H. destruct (B _ _ H) as (f & F & E). destruct (A _ _ F) as (f0 & F0 & E0). exists f0; split; congruence. Qed.
Lemma rkeep_dset w k f fr : dget (w_frames w) k = Some f -> f_result fr = f_result f -> rkeep w (wframes (dset (w_frames w) k fr) w).
Proof.
  intros H E x f' G. cbn -[dget dset] in G. rewrite dget_dset in G. destruct (eqb_spec k x) as [->|]; [injection G as <-|]; eauto.
Qed.
Lemma rkeep_add_var fid k ds w : rkeep w (snd (add_var fid k ds w)).
Proof.
  unfold add_var. destruct (next_variable_id (w_dbg w)) as (vid, d) eqn:E. cbn [snd].
  set (w2 := wvars _ _). assert (F : w_frames w2 = w_frames w) by reflexivity. rewrite F.
  destruct (dget (w_frames w) fid) as [f|] eqn:Hf.
  - intros x f' G. cbn -[dget dset] in G. rewrite dget_dset in G. destruct (eqb_spec fid x) as [->|]; [injection G as <-|]; eauto.
  - apply rkeep_same. reflexivity.
Qed.
Lemma rkeep_container fid v w : rkeep w (snd (container fid v w)).
Proof.
  unfold container. destruct (container_kind (w_heap w) v) as [k|]; [|apply rkeep_refl]. destruct v as [|a]; [apply rkeep_refl|].
  pose proof (rkeep_add_var fid k a w) as R. destruct (add_var fid k a w). exact R.
Qed.
Lemma rkeep_setter fid (id : N) (g : N -> Frame -> Frame) w : (forall f, f_id (g id f) = f_id f /\ f_result (g id f) = f_result f) -> WInv w ->
  rkeep w (match dget (w_frames w) fid with Some f2 => set_frame (g id f2) w | None => w end).
Proof.
  intros G I. destruct (dget (w_frames w) fid) as [f|] eqn:Hf; [|apply rkeep_refl]. destruct (G f) as (G1 & G2).
  destruct (i_f I _ Hf) as (F1 & _). unfold set_frame. rewrite G1, F1. eapply rkeep_dset; eauto.
Qed.

Section H.
Variable py_int : pystr -> option Z.
Variable py_repr : heap -> val -> pystr.
Variable type_name : heap -> val -> pystr.
Variable tmpl : pystr -> nat -> heap -> res (list obj * val).
Variable tmpl_args : nat -> nat -> heap -> res (list obj * val).
Variable err_text : exn -> pystr.
Variable parse_repl : pystr -> res ReplCmd.
Notation handle := (handle py_int py_repr type_name tmpl tmpl_args err_text parse_repl).
Notation process := (process py_int py_repr type_name tmpl tmpl_args err_text parse_repl).
Notation step := (step py_int py_repr type_name tmpl tmpl_args err_text parse_repl).
Notation run := (run py_int py_repr type_name tmpl tmpl_args err_text parse_repl).

Lemma rkeep_children fid l : forall w, rkeep w (fst (list_children py_repr type_name fid l w)).
Proof.
  induction l as [|(name, v) l IH]; intros w; cbn [list_children]; [apply rkeep_refl|].
  set (c := match asdict v (w_heap w) with Some (h', v') => container fid v' (wh h' w) | None => container fid v w end).
  assert (R : rkeep w (snd c)).
  { subst c. destruct (asdict v (w_heap w)) as [(h', v')|]; [|apply rkeep_container].
    eapply rkeep_trans; [apply (@rkeep_same w (wh h' w)); reflexivity|apply rkeep_container]. }
  destruct c as (id, w1). specialize (IH w1). destruct (list_children py_repr type_name fid l w1) as (w2, infos). cbn [fst snd] in *. eapply rkeep_trans; eauto.
Qed.

Lemma rkeep_scopes seq fid w : WInv w -> rkeep w (fst (get_scopes tmpl_args seq fid w)).
Proof.
  intros I. unfold get_scopes. destruct (dget (w_frames w) fid) as [f|] eqn:Hf; [|apply rkeep_refl].
  destruct (tmpl_args (f_args f) (f_tv f) (w_heap w)) as [(objs, targs)|e]; [|apply rkeep_refl].
  destruct (addr_of targs) as [ta|e]; [|apply rkeep_refl].
  set (w1 := wh (w_heap w ++ objs) w). destruct (@good_heap (w_heap w ++ objs) w I) as (I1 & Q1). fold w1 in I1, Q1.
  assert (R1 : rkeep w w1) by now apply rkeep_same.
  assert (ST : forall k ds g w0 f0, scope_setter g -> (forall i f, f_result (g i f) = f_result f) -> WInv w0 -> dget (w_frames w0) fid = Some f0 ->
    let '(id, w2) := add_var fid k ds w0 in rkeep w0 (match dget (w_frames w2) fid with Some f2 => set_frame (g id f2) w2 | None => w2 end)).
  { intros k ds g w0 f0 SS GR I0 F0. pose proof (@rkeep_add_var fid k ds w0) as A. pose proof (@add_var_new fid k ds w0 I0 (ex_intro _ f0 F0)) as B.
    destruct (add_var fid k ds w0) as (id, w2). destruct B as (I2 & _). eapply rkeep_trans; [exact A|]. apply rkeep_setter; auto.
    intros f1. split; auto. apply (SS id f1). }
  pose proof (ST (VKRaw (f_args f)) ta f_with_options w1 f ss_options (fun _ _ => eq_refl) I1 Hf) as A2r.
  pose proof (@add_scope fid (VKRaw (f_args f)) ta f_with_options w1 f I1 Hf ss_options) as A2.
  destruct (add_var fid (VKRaw (f_args f)) ta w1) as (oid, w2a).
  set (w2 := match dget (w_frames w2a) fid with Some f2 => set_frame (f_with_options oid f2) w2a | None => w2a end) in *. cbv zeta in A2.
  clearbody w2. destruct A2 as (I2 & Q2 & R2 & E2 & P2 & O2 & _ & F2 & _ & _).
  set (f2 := f_with_options oid (f_with_vars (f_vars f ++ [oid]) f)) in *.
  set (tvk := match container_kind (w_heap w2) (VRef (f_tv f)) with Some k => k | None => VKList end).
  pose proof (ST tvk (f_tv f) f_with_taskvar w2 f2 ss_taskvar (fun _ _ => eq_refl) I2 F2) as A3r.
  pose proof (@add_scope fid tvk (f_tv f) f_with_taskvar w2 f2 I2 F2 ss_taskvar) as A3.
  destruct (add_var fid tvk (f_tv f) w2) as (tid, w3a).
  set (w3 := match dget (w_frames w3a) fid with Some f3 => set_frame (f_with_taskvar tid f3) w3a | None => w3a end) in *. cbv zeta in A3.
  clearbody w3. destruct A3 as (I3 & Q3 & R3 & E3 & P3 & O3 & _ & F3 & _ & _).
  set (f3 := f_with_taskvar tid (f_with_vars (f_vars f2 ++ [tid]) f2)) in *.
  assert (R13 : rkeep w w3) by (eapply rkeep_trans; [exact R1|eapply rkeep_trans; eauto]).
  match goal with |- context [bind ?a ?b] => destruct (bind a b) as [(name, items)|e] end; [|exact R13].
  set (tvv := match dget (w_vars w3) tid with Some v => v | None => _ end).
  set (am := amalgamate items (var_get (w_heap w3) tvv)).
  set (w4 := wh (w_heap w3 ++ [ODict am true]) w3).
  destruct (@good_heap (w_heap w3 ++ [ODict am true]) w3 I3) as (I4 & Q4). fold w4 in I4, Q4.
  assert (R14 : rkeep w w4) by (eapply rkeep_trans; [exact R13|now apply rkeep_same]).
  pose proof (ST (VKHost name) (length (w_heap w3)) f_with_hostvars w4 f3 ss_hostvars (fun _ _ => eq_refl) I4 F3) as A5r.
  pose proof (@add_scope fid (VKHost name) (length (w_heap w3)) f_with_hostvars w4 f3 I4 F3 ss_hostvars) as A5.
  destruct (add_var fid (VKHost name) (length (w_heap w3)) w4) as (hid, w5a).
  set (w5 := match dget (w_frames w5a) fid with Some f5 => set_frame (f_with_hostvars hid f5) w5a | None => w5a end) in *. cbv zeta in A5.
  clearbody w5. destruct A5 as (I5 & Q5 & R5 & E5 & P5 & O5 & _ & F5 & _ & _).
  assert (R15 : rkeep w w5) by (eapply rkeep_trans; eauto).
  match goal with |- context [bind ?a ?b] => destruct (bind a b) as [(ga, gk)|e] end; [|exact R15].
  pose proof (@rkeep_add_var fid gk ga w5) as A6r. destruct (add_var fid gk ga w5) as (gid, w6). cbn [snd] in A6r.
  assert (R16 : rkeep w w6) by (eapply rkeep_trans; eauto).
  destruct (N.eqb _ 0); [exact R16|]. destruct (dget (w_vars w6) _); exact R16.
Qed.

Lemma rkeep_emit m w : rkeep w (emit m w). Proof. now apply rkeep_same. Qed.
Lemma rkeep_reply w x : rkeep w (fst x) -> rkeep w (fst (reply x)).
Proof. destruct x as (w', [o|e]); auto. Qed.
Lemma rkeep_resume st l : forall w, rkeep w (fst (resume l st w)).
Proof.
  induction l as [|t l IH]; intros w; cbn [resume]; [apply rkeep_refl|]. destruct (dget (w_threads w) t) as [th|]; [|apply rkeep_refl].
  eapply rkeep_trans; [|apply IH]. now apply rkeep_same.
Qed.
Lemma rkeep_ss w w' : w_ss w' = w_ss w -> rkeep w w'.
Proof. intros E. apply rkeep_same. unfold w_frames. now rewrite E. Qed.

Lemma rkeep_process seq r w : WInv w -> rkeep w (fst (process seq r w)).
Proof.
  intros I. assert (ACK : forall c st l, rkeep w (fst (ack c seq (resume l st w)))).
  { intros c st l. pose proof (rkeep_resume st l w). destruct (resume l st w) as (w', [u|e]); auto. }
  destruct r; cbn [SysModel.process]; try (apply rkeep_ss; reflexivity); try (unfold step_over, step_in, step_out; apply ACK); auto using rkeep_refl.
  - apply rkeep_reply. unfold continue_request. destruct single; [pose proof (rkeep_resume TContinue [tid] w); destruct (resume [tid] TContinue w) as (w', [|]) |pose proof (rkeep_resume TContinue (dkeys (w_threads w)) w); destruct (resume (dkeys (w_threads w)) TContinue w) as (w', [|])]; auto.
  - unfold disconnect. match goal with |- context [resume ?l ?st w] => pose proof (rkeep_resume st l w) as X; destruct (resume l st w) as (w', [|]) end; auto.
  - apply rkeep_reply. pose proof (@evaluate_ss py_int py_repr type_name tmpl err_text parse_repl seq expr frame ctx w) as E.
    destruct (evaluate _ _ _ _ _ _ seq expr frame ctx w) as (w', x). apply rkeep_ss. apply E.
  - apply rkeep_reply. now apply rkeep_scopes.
  - destruct (set_breakpoints seq src bps modified (w_dbg w)). now apply rkeep_ss.
  - apply rkeep_reply. unfold set_variable. destruct (dget (w_vars w) ref) as [v|]; [|apply rkeep_refl]. destruct (dget (w_frames w) (v_frame v)) as [f|]; [|apply rkeep_refl].
    destruct (tmpl value (f_tv f) (w_heap w)) as [(objs, x)|e]; [|apply rkeep_refl].
    pose proof (var_set_ss py_int v name x (wh (w_heap w ++ objs) w)) as (A & _).
    destruct (var_set py_int v name x (wh (w_heap w ++ objs) w)) as (w2, [u|e]); cbn [fst] in *.
    + assert (R2 : rkeep w w2) by now apply rkeep_ss. pose proof (rkeep_container (v_frame v) x w2) as C. destruct (container (v_frame v) x w2) as (id, w3). cbn [fst snd] in *. eapply rkeep_trans; eauto.
    + now apply rkeep_ss.
  - apply rkeep_reply. unfold get_stacktrace. apply rkeep_refl.
  - unfold disconnect. match goal with |- context [resume ?l ?st w] => pose proof (rkeep_resume st l w) as X; destruct (resume l st w) as (w', [|]) end; auto.
  - apply rkeep_reply. unfold get_variables. destruct (dget (w_vars w) ref) as [v|]; [|apply rkeep_refl].
    pose proof (rkeep_children (v_frame v) (var_get (w_heap w) v) w) as C. destruct (list_children _ _ _ _ _) as (w', infos). exact C.
Qed.
Lemma rkeep_handle seq r w : WInv w -> rkeep w (handle seq r w).
Proof. intros I. unfold SysModel.handle. pose proof (@rkeep_process seq r w I) as R. destruct (process seq r w) as (w', [u|e]); auto. Qed.

(** ... or are new without result. *)
Definition rres (w w' : World) : Prop := forall k f', dget (w_frames w') k = Some f' ->
  f_result f' = 0 \/ exists f, dget (w_frames w) k = Some f /\ f_result f = f_result f'.
Lemma rkeep_rres w w' : rkeep w w' -> rres w w'. Proof. intros H k f' X. right. eauto. Qed.
Lemma rres_same w w' : w_frames w' = w_frames w -> rres w w'.
Proof. intros E. now apply rkeep_rres, rkeep_same. Qed.
Lemma rres_refl w : rres w w. Proof. now apply rres_same. Qed.
Lemma rres_trans a b c : rres a b -> rres b c -> rres a c.
Proof. intros A B k f' H. destruct (B _ _ H) as [Z|(f & F & E)]; auto. destruct (A _ _ F) as [Z|(f0 & F0 & E0)]; [left; congruence|right; exists f0; split; congruence]. Qed.
Lemma rres_ddel w (NDF : NoDup (dkeys (w_frames w))) k : rres w (wframes (ddel (w_frames w) k) w).
Proof.
  intros x f' G. cbn -[dget ddel] in G. right. exists f'. split; auto. destruct (eqb_spec k x) as [->|NE].
  - pose proof (dget_ddel_same (w_frames w) x NDF) as X. unfold w_frames in X, G. congruence.
  - rewrite dget_ddel_other in G by congruence. exact G.
Qed.
Lemma rres_add_var fid k ds w : rres w (snd (add_var fid k ds w)). Proof. apply rkeep_rres, rkeep_add_var. Qed.
Lemma rres_resume st l w : rres w (fst (resume l st w)). Proof. apply rkeep_rres, rkeep_resume. Qed.
Lemma rres_handle seq r w : WInv w -> rres w (handle seq r w). Proof. intros I. apply rkeep_rres. now apply rkeep_handle. Qed.
Lemma rres_exit w : rres w (exit_threads w).
Proof.
  unfold exit_threads. generalize (dkeys (w_threads w)) as l. intros l. revert w. induction l as [|t l IH]; intros w; cbn [fold_left]; [apply rres_refl|].
  eapply rres_trans; [|apply IH]. destruct (N.eqb t 1); [apply rres_refl|now apply rres_same].
Qed.
Lemma rres_enter a w : WInv w -> dwf (w_dbg w) -> label_wf (LStart a) -> rres w (fst (enter_frame a w)).
Proof.
  intros I D WL. pose proof (i_fnd I) as NDF. unfold enter_frame. destruct (match find_thread (ts_host a) w with Some t => (t_id t, w) | None => add_thread (ts_host a) w end) as (tid, w1) eqn:E1.
  assert (F1 : w_frames w1 = w_frames w).
  { destruct (find_thread (ts_host a) w); [injection E1 as _ <-; auto|]. unfold add_thread in E1. destruct (next_thread_id (w_dbg w)) as (t0, d0). injection E1 as _ <-. reflexivity. }
  assert (R1 : rres w w1) by now apply rres_same. rewrite <- F1 in NDF. clear E1 F1.
  match goal with |- rres w (fst (match ?st with _ => _ end)) => assert (R5 : rres w (fst st)); [|destruct st as (w5, [u|e])] end.
  - destruct (dget (w_threads w1) tid) as [t|]; auto. destruct (t_stack t) as [|last rest]; auto. destruct (n_parent (ts_task a)) as [blk|]; auto.
    destruct (dget (w_frames w1) last) as [lf|]; auto.
    match goal with |- rres w (fst (match ?st with _ => _ end)) => assert (R4 : rres w (fst st)); [|destruct st as (w4, [u|e])] end.
    + match goal with |- context [if ?b then _ else _] => destruct b; auto end.
      match goal with |- context [del_vars ?a ?b] => destruct (del_vars a b) end; cbn [fst]; (eapply rres_trans; [exact R1|]);
        intros x f' G; apply (@rres_ddel w1 NDF last x f'); exact G.
    + cbn [fst] in R4. destruct (n_parent blk); auto. destruct (is_include_role (f_task lf)); auto. destruct (ts_role a) as [regs|]; auto.
      destruct (register_all regs (w_dbg w4)) as (d', [|]); auto.
    + exact R4.
  - cbn [fst] in R5. destruct (next_stackframe_id (w_dbg w5)) as (sfid, d).
    set (w7 := wframes _ _). assert (R7 : rres w w7).
    { eapply rres_trans; [exact R5|]. intros x f' G. cbn -[dget dset] in G. rewrite dget_dset in G. destruct (eqb_spec sfid x) as [->|]; [injection G as <-; left; reflexivity|right; eauto]. }
    destruct (dget (w_threads w7) tid); auto.
  - exact R5.
Qed.
Lemma rres_finish tid task w : NoDup (dkeys (w_frames w)) -> rres w (fst (end_finish tid task w)).
Proof.
  intros NDF. unfold end_finish. destruct (dget (w_threads w) tid) as [t|]; [|apply rres_refl]. destruct (tstate_eqb _ _); [apply rres_refl|]. destruct (is_include task); [apply rres_refl|].
  destruct (t_stack t) as [|sfid rest]; [apply rres_refl|]. set (w1 := set_thread _ w). destruct (dget (w_frames w1) sfid) as [f|]; [|now apply rres_same].
  destruct (del_vars _ _); cbn [fst]; intros x f' G; apply (@rres_ddel w NDF sfid x f'); exact G.
Qed.

(** The result of a frame appears in one way only: a task's result led to a stop. *)
Lemma step_result y l y' k f' : SInv y -> label_wf l -> step y l = Some y' -> dget (w_frames (y_w y')) k = Some f' -> f_result f' <> 0 ->
  (exists f, dget (w_frames (y_w y)) k = Some f /\ f_result f = f_result f') \/
  (exists h r a tid task t rest, l = LEnd h r a /\ y_phase y' = PWaitEnd tid task /\ dget (w_threads (y_w y')) tid = Some t /\ t_stack t = k :: rest).
Proof.
  intros S W H HF NZ. pose proof (y_inv S) as I. pose proof (y_dwf S) as D.
  assert (RR : rres (y_w y) (y_w y') -> exists f, dget (w_frames (y_w y)) k = Some f /\ f_result f = f_result f') by (intros R; destruct (R _ _ HF); [contradiction|auto]).
  assert (AB : forall e w z, rres (y_w y) w -> rres (y_w y) (y_w (abort e w z))) by (intros e w z R; cbn; eapply rres_trans; [exact R|apply rres_exit]).
  destruct l as [|a|h r addr| | |regs| |seq r| |maps| |hp|lregs]; cbn [SysModel.step] in H.
  - destruct (y_phase y); try discriminate. injection H as <-. discriminate.
  - left. apply RR. destruct (y_phase y) eqn:P; try discriminate. destruct (host_open (ts_host a) (y_open y)); [discriminate|].
    assert (R : rres (y_w y) (fst (fst (start_task a (y_w y))))).
    { unfold start_task. pose proof (@rres_enter a (y_w y) I D W) as R. destruct (enter_frame a (y_w y)) as (w', [tid|e]); auto. cbn [fst] in R.
      assert (R2 : rres w' (fst (start_decide a tid w'))).
      { unfold start_decide. destruct (n_path (ts_task a)) as [(p, line)|]; [|apply rres_refl].
        match goal with |- context [match ?c with Ok _ => _ | Err _ => _ end] => destruct c as [id|e]; [|apply rres_refl] end.
        destruct (dget (w_threads w') tid) as [t|]; [|apply rres_refl]. destruct (should_break (ts_task a) id t) as (t', [ev|]); now apply rres_same. }
      destruct (start_decide a tid w'); cbn [fst] in *. eapply rres_trans; eauto. }
    destruct (start_task a (y_w y)) as ((w', o), [tid|]); destruct o; try discriminate; injection H as <-; auto.
  - destruct (y_phase y) eqn:P; try discriminate. destruct (find _ (y_open y)) as [(h0, task)|] eqn:F; [|discriminate].
    apply find_open in F. destruct F as (F1 & F2). cbn in F2.
    assert (OKh : open_ok h task (y_w y)).
    { destruct (y_ok S _ _ F1) as (tid & t & A & B). exists tid, t. split; auto. unfold host_is in *. destruct (t_host t); [|discriminate]. now rewrite <- F2. }
    destruct (@end_task_spec h task r addr (y_w y) I OKh) as (tid & t & (T1 & T2) & OT & E).
    destruct (@thread_for_find h (y_w y) tid t I (conj T1 T2)) as (FT & TID).
    unfold end_task in E, H. rewrite FT in E, H.
    destruct (should_stop_on_exception task r _ _ _ t) as (t', [ev|]) eqn:SE.
    + destruct (t_stack t) as [|sfid rest] eqn:ST; [destruct E|]. change (w_frames (set_thread t' (y_w y))) with (w_frames (y_w y)) in *.
      destruct (dget (w_frames (y_w y)) sfid) as [fr|] eqn:HFR; [|destruct E].
      pose proof (@rres_add_var sfid VKDict addr (set_thread t' (y_w y))) as RA. pose proof (i_stack I _ sfid T1) as ST2.
      destruct (add_var sfid VKDict addr (set_thread t' (y_w y))) as (vid, w2) eqn:EA. cbn [snd] in RA.
      assert (TH2 : w_threads w2 = w_threads (set_thread t' (y_w y))) by (unfold add_var in EA; destruct (next_variable_id _); injection EA as _ <-; reflexivity).
      destruct (dget (w_frames w2) sfid) as [f2|] eqn:F2'.
      * injection H as <-. cbn [y_w y_phase emit wd] in *. cbn -[dget dset] in HF. rewrite dget_dset in HF. destruct (eqb_spec sfid k) as [->|NE].
        -- right. exists h, r, addr, (t_id t), task, t', rest. split; auto. split; auto. split.
           ++ change (dget (w_threads w2) (t_id t) = Some t'). rewrite TH2. cbn -[dget dset]. replace (t_id t') with (t_id t); [apply dget_dset_same|].
              revert SE. unfold should_stop_on_exception. match goal with |- context [match ?c with Some _ => _ | None => _ end = (t', Some ev)] => destruct c as [(m0, x0)|] end; [|discriminate]. intros SE. injection SE as <- _. reflexivity.
           ++ revert SE. unfold should_stop_on_exception. match goal with |- context [match ?c with Some _ => _ | None => _ end = (t', Some ev)] => destruct c as [(m0, x0)|] end; [|discriminate]. intros SE. injection SE as <- _. exact ST.
        -- left. destruct (RA _ _ HF) as [Z|X]; [contradiction|exact X].
      * injection H as <-. left. apply RR. exact RA.
    + left. apply RR. pose proof (@rres_finish (t_id t) task (y_w y) (i_fnd I)) as RF.
      destruct (end_finish (t_id t) task (y_w y)) as (w2, [| |e]); try discriminate; injection H as <-; auto.
  - left. apply RR. destruct (y_phase y) as [| |tid|tid task|] eqn:P; try discriminate; destruct (waiting tid (y_w y)) eqn:WA; try discriminate.
    + destruct (start_resume tid (y_w y)); try discriminate; injection H as <-; auto using rres_refl.
    + pose proof (@rres_finish tid task (y_w y) (i_fnd I)) as RF.
      destruct (end_finish tid task (y_w y)) as (w2, [| |e]); try discriminate; injection H as <-; auto.
  - left. apply RR. destruct (y_phase y); try discriminate. destruct (y_open y) as [|p [|]]; try discriminate. injection H as <-. apply rres_exit.
  - left. apply RR. destruct (y_phase y); try discriminate. destruct (register_all regs (w_dbg (y_w y))) as (d', [u|e]); injection H as <-; [now apply rres_same|].
    apply AB. now apply rres_same.
  - left. apply RR. destruct (y_phase y); try discriminate. injection H as <-. apply rres_exit.
  - left. apply RR. destruct (y_recv y); [discriminate|]. destruct (@before_good r (y_w y) I) as (I1 & Q1).
    destruct (needs_strategy r && negb (has_strategy y)); injection H as <-; [now apply rres_same|]. cbn [y_w].
    eapply rres_trans; [|apply rres_handle; exact I1]. now apply rres_same.
  - left. apply RR. destruct (y_recv y) as [(seq, r)|]; [|discriminate]. destruct (has_strategy y); [|discriminate]. injection H as <-. now apply rres_handle.
  - left. apply RR. destruct (y_recv y); [discriminate|]. injection H as <-. now apply rres_same.
  - left. apply RR. destruct (y_recv y); [discriminate|]. injection H as <-. cbn [y_w]. unfold shutdown. destruct (_ && _); [|now apply rres_same].
    unfold disconnect. eapply rres_trans; [|apply rres_resume]. now apply rres_same.
  - left. apply RR. injection H as <-. now apply rres_same.
  - left. apply RR. destruct (y_phase y); try discriminate. injection H as <-. now apply rres_same.
Qed.
End H.
