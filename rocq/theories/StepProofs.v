(** A thread nobody addresses keeps what it was told to do. *)
From Verif Require Import PyBase PyDict DbgTypes BpModel BpSpec BpProofs BpProofs2 BpProofs3 BpProps ThreadModel ThreadSpec ThreadProps StratModel SysModel SysSpec
  SysProofs SysProofs2 SysProofs3 SysProofs4 SysProofs5 SysProofs6 SysProofs7 SysProofs8 SysProofs9 SysProofs10 SysProofs11 SysProps HistSpec HistProofs HistProps StepSpec.
From Coq Require Import Lia.
Set Implicit Arguments.
Local Open Scope N_scope.

Lemma thr_add_var fid k ds w : w_threads (snd (add_var fid k ds w)) = w_threads w.
Proof. unfold add_var. destruct (next_variable_id (w_dbg w)). cbn [snd]. reflexivity. Qed.
Lemma thr_container fid v w : w_threads (snd (container fid v w)) = w_threads w.
Proof.
  unfold container. destruct (container_kind (w_heap w) v) as [k|]; [|reflexivity]. destruct v as [|a]; [reflexivity|].
  pose proof (thr_add_var fid k a w) as R. destruct (add_var fid k a w). exact R.
Qed.
Lemma thr_setter fid (f : Frame -> Frame) w : w_threads (match dget (w_frames w) fid with Some f2 => set_frame (f f2) w | None => w end) = w_threads w.
Proof. destruct (dget (w_frames w) fid); reflexivity. Qed.

Section H.
Variable py_int : pystr -> option Z.
Variable py_repr : heap -> val -> pystr.
Variable type_name : heap -> val -> pystr.
Variable tmpl : pystr -> nat -> heap -> res (list obj * val).
Variable tmpl_args : nat -> nat -> heap -> res (list obj * val).
Variable err_text : exn -> pystr.
Variable parse_repl : pystr -> res ReplCmd.
Notation handle := (handle py_int py_repr type_name tmpl tmpl_args err_text parse_repl).
Notation process := (process py_int py_repr type_name tmpl tmpl_args err_text parse_repl).
Notation step := (step py_int py_repr type_name tmpl tmpl_args err_text parse_repl).
Notation run := (run py_int py_repr type_name tmpl tmpl_args err_text parse_repl).

Lemma thr_children fid l : forall w, w_threads (fst (list_children py_repr type_name fid l w)) = w_threads w.
Proof.
  induction l as [|(name, v) l IH]; intros w; cbn [list_children]; [reflexivity|].
  set (c := match asdict v (w_heap w) with Some (h', v') => container fid v' (wh h' w) | None => container fid v w end).
  assert (R : w_threads (snd c) = w_threads w).
  { subst c. destruct (asdict v (w_heap w)) as [(h', v')|]; [|apply thr_container]. rewrite thr_container. reflexivity. }
  destruct c as (id, w1). specialize (IH w1). destruct (list_children py_repr type_name fid l w1) as (w2, infos). cbn [fst snd] in *. congruence.
Qed.
Lemma thr_scopes seq fid w : w_threads (fst (get_scopes tmpl_args seq fid w)) = w_threads w.
Proof.
  unfold get_scopes. destruct (dget (w_frames w) fid) as [f|]; [|reflexivity].
  destruct (tmpl_args (f_args f) (f_tv f) (w_heap w)) as [(objs, targs)|e]; [|reflexivity].
  destruct (addr_of targs) as [ta|e]; [|reflexivity].
  set (w1 := wh (w_heap w ++ objs) w). assert (R1 : w_threads w1 = w_threads w) by reflexivity. clearbody w1.
  pose proof (thr_add_var fid (VKRaw (f_args f)) ta w1) as A. destruct (add_var fid (VKRaw (f_args f)) ta w1) as (oid, w2). cbn [snd] in A.
  pose proof (thr_setter fid (f_with_options oid) w2) as B. set (w2' := match dget (w_frames w2) fid with Some f2 => _ | None => _ end) in *. cbv zeta. clearbody w2'.
  match goal with |- context [add_var fid ?k (f_tv f) w2'] => pose proof (thr_add_var fid k (f_tv f) w2') as C; destruct (add_var fid k (f_tv f) w2') as (tid, w3) end. cbn [snd] in C.
  pose proof (thr_setter fid (f_with_taskvar tid) w3) as E. set (w3' := match dget (w_frames w3) fid with Some f3 => _ | None => _ end) in *. clearbody w3'.
  assert (R3 : w_threads w3' = w_threads w) by congruence.
  match goal with |- context [bind ?a ?b] => destruct (bind a b) as [(name, items)|e] end; [|exact R3].
  match goal with |- context [add_var fid (VKHost name) ?ds ?ww] => assert (F : w_threads ww = w_threads w) by exact R3;
    pose proof (thr_add_var fid (VKHost name) ds ww) as G; destruct (add_var fid (VKHost name) ds ww) as (hid, w5) end. cbn [snd] in G.
  pose proof (thr_setter fid (f_with_hostvars hid) w5) as K. set (w5' := match dget (w_frames w5) fid with Some f5 => _ | None => _ end) in *. clearbody w5'.
  assert (R5 : w_threads w5' = w_threads w) by congruence.
  match goal with |- context [bind ?a ?b] => destruct (bind a b) as [(ga, gk)|e] end; [|exact R5].
  pose proof (thr_add_var fid gk ga w5') as L. destruct (add_var fid gk ga w5') as (gid, w6). cbn [snd] in L.
  assert (R6 : w_threads w6 = w_threads w) by congruence.
  destruct (N.eqb _ 0); [exact R6|]. destruct (dget (w_vars w6) _); exact R6.
Qed.
Lemma thr_reply x : w_threads (fst (reply x)) = w_threads (fst x).
Proof. destruct x as (w', [o|e]); reflexivity. Qed.
Lemma thr_resume_other st tid t0 w : t0 <> tid -> dget (w_threads (fst (resume [t0] st w))) tid = dget (w_threads w) tid.
Proof.
  intros N. cbn [resume]. destruct (dget (w_threads w) t0) as [th|]; [|reflexivity]. cbn -[dget dset]. rewrite dget_dset_other; [reflexivity|congruence].
Qed.

(** A request that is not for the thread does not change it. *)
Lemma process_keeps tid seq r w : ~ addresses tid r -> dget (w_threads (fst (process seq r w))) tid = dget (w_threads w) tid.
Proof.
  intros NA. assert (E : forall w', w_threads w' = w_threads w -> dget (w_threads w') tid = dget (w_threads w) tid) by (intros w' ->; reflexivity).
  assert (ACK : forall c st t0, t0 <> tid -> dget (w_threads (fst (ack c seq (resume [t0] st w)))) tid = dget (w_threads w) tid).
  { intros c st t0 N. pose proof (@thr_resume_other st tid t0 w N) as X. destruct (resume [t0] st w) as (w', [u|e]); exact X. }
  destruct r; cbn [SysModel.process addresses] in *; try (now apply E); try tauto; unfold step_over, step_in, step_out; auto.
  - rewrite thr_reply. unfold continue_request. destruct single; [|exfalso; tauto].
    assert (N : tid0 <> tid) by tauto. pose proof (@thr_resume_other TContinue tid tid0 w N) as X. destruct (resume [tid0] TContinue w) as (w', [u|e]); exact X.
  - apply E. rewrite thr_reply. pose proof (@evaluate_ss py_int py_repr type_name tmpl err_text parse_repl seq expr frame ctx w) as X.
    destruct (evaluate _ _ _ _ _ _ seq expr frame ctx w) as (w', x). cbn [fst]. unfold w_threads. now destruct X as (-> & _).
  - apply E. rewrite thr_reply. apply thr_scopes.
  - apply E. destruct (set_breakpoints seq src bps modified (w_dbg w)). reflexivity.
  - apply E. rewrite thr_reply. unfold set_variable. destruct (dget (w_vars w) ref) as [v|]; [|reflexivity]. destruct (dget (w_frames w) (v_frame v)) as [f|]; [|reflexivity].
    destruct (tmpl value (f_tv f) (w_heap w)) as [(objs, x)|e]; [|reflexivity].
    pose proof (var_set_ss py_int v name x (wh (w_heap w ++ objs) w)) as (A & _).
    destruct (var_set py_int v name x (wh (w_heap w ++ objs) w)) as (w2, [u|e]); cbn [fst] in *.
    + pose proof (thr_container (v_frame v) x w2) as C. destruct (container (v_frame v) x w2) as (id, w3). cbn [fst snd] in *. rewrite C. unfold w_threads. now rewrite A.
    + unfold w_threads. now rewrite A.
  - apply E. rewrite thr_reply. unfold get_stacktrace. destruct (dget (w_threads w) tid0); [|reflexivity]. destruct (mapM _ _); reflexivity.
  - apply E. rewrite thr_reply. unfold get_variables. destruct (dget (w_vars w) ref) as [v|]; [|reflexivity].
    pose proof (thr_children (v_frame v) (var_get (w_heap w) v) w) as C. destruct (list_children _ _ _ _ _) as (w', infos). exact C.
Qed.
Lemma handle_keeps tid seq r w : ~ addresses tid r -> dget (w_threads (handle seq r w)) tid = dget (w_threads w) tid.
Proof. intros N. unfold SysModel.handle. pose proof (@process_keeps tid seq r w N) as X. destruct (process seq r w) as (w', [u|e]); exact X. Qed.

(* ---------------------------------------------------------------- one step *)
(** [t'] was told the same as [t], and is of the same host. *)
Definition uuid_host (t : Thread) : option N := match t_host t with Some h => Some (h_uuid h) | None => None end.
Definition as_told (t t' : Thread) : Prop := uuid_host t' = uuid_host t /\ t_state t' = t_state t /\ t_stopped t' = t_stopped t.
Lemma as_told_refl t : as_told t t. Proof. repeat split. Qed.
Lemma as_told_trans a b c : as_told a b -> as_told b c -> as_told a c.
Proof. intros (A1 & A2 & A3) (B1 & B2 & B3). repeat split; congruence. Qed.
Lemma is_uuid h t : host_is h t = true <-> uuid_host t = Some (h_uuid h).
Proof.
  unfold host_is, uuid_host. destruct (t_host t) as [h'|]; [|split; discriminate]. rewrite N.eqb_eq. split; [intros ->; reflexivity|intros X; now injection X].
Qed.
(** The playbook waits for the client to resume thread [tid]. *)
Definition held (tid : N) (y : Sys) : Prop :=
  (y_phase y = PWaitStart tid \/ exists task, y_phase y = PWaitEnd tid task) /\ exists t, dget (w_threads (y_w y)) tid = Some t /\ t_state t = TWait.
Definition over (y : Sys) : Prop := exists e, y_phase y = PDone e.
Definition runs_as (tid : N) (t : Thread) (y : Sys) : Prop :=
  has_strategy y = true /\ exists t', dget (w_threads (y_w y)) tid = Some t' /\ as_told t t'.

Lemma break_none_same task bp t t' : should_break task bp t = (t', None) -> t' = t.
Proof.
  unfold should_break. intros SB. destruct (break_step_over t task); [discriminate|]. destruct (break_step_out t task); [discriminate|]. destruct (break_step_in t); [discriminate|].
  destruct bp as [id|]; [destruct (tstate_eqb (t_state t) TStepOut); [|discriminate]|]; now injection SB as <-.
Qed.
Lemma decide_told a tid t w : WInv w -> dget (w_threads w) tid = Some t ->
  let '(w', o) := start_decide a tid w in o = Returns -> exists t', dget (w_threads w') tid = Some t' /\ as_told t t'.
Proof.
  intros I H. unfold start_decide. destruct (n_path (ts_task a)) as [(path, line)|]; [|intros _; exists t; split; auto using as_told_refl].
  match goal with |- context [match ?x with Ok _ => _ | Err _ => _ end] => destruct x as [id|e] end; [|discriminate].
  rewrite H. destruct (should_break (ts_task a) id t) as (t', [ev|]) eqn:SB; [discriminate|]. intros _. apply break_none_same in SB. subst t'.
  exists t. split; [|apply as_told_refl]. cbn -[dget dset]. destruct (i_t I _ H) as (-> & _). apply dget_dset_same.
Qed.
Lemma finish_told tid task w w' tid0 t : WInv w -> end_finish tid0 task w = (w', Returns) -> dget (w_threads w) tid = Some t ->
  exists t', dget (w_threads w') tid = Some t' /\ as_told t t'.
Proof.
  intros I E HT. unfold end_finish in E. destruct (dget (w_threads w) tid0) as [t0|] eqn:T0; [|discriminate]. destruct (tstate_eqb _ _); [discriminate|].
  destruct (is_include task); [injection E as <-; exists t; split; auto using as_told_refl|]. destruct (t_stack t0) as [|sfid rest]; [discriminate|].
  cbv zeta in E. destruct (dget _ sfid); [|discriminate]. destruct (del_vars _ _) as [vs|]; [|discriminate]. injection E as <-.
  cbn -[dget dset]. destruct (i_t I _ T0) as (-> & _). rewrite dget_dset. destruct (eqb_spec tid0 tid) as [->|NE].
  - assert (t0 = t) by congruence. subst t0. eexists. split; [reflexivity|]. repeat split.
  - exists t. split; auto using as_told_refl.
Qed.

Lemma step_told tid y l y' t : SInv y -> label_wf l -> step y l = Some y' -> leaves_alone tid l -> none_waiting tid y -> has_strategy y = true ->
  t_host t <> None -> dget (w_threads (y_w y)) tid = Some t ->
  none_waiting tid y' /\ (over y' \/ held tid y' \/ runs_as tid t y').
Proof.
  intros S W H LA NW HS HN HT. pose proof (y_inv S) as I. pose proof (y_dwf S) as D.
  assert (RA : forall y1, has_strategy y1 = true -> dget (w_threads (y_w y1)) tid = Some t -> runs_as tid t y1) by (intros y1 A B; split; auto; exists t; split; auto using as_told_refl).
  assert (N1 : tid <> 1) by (eapply thread_not_main; eauto).
  destruct l as [|a|h r addr| | |regs| |seq r| |maps| |hp|lregs]; cbn [SysModel.step leaves_alone] in *; try contradiction.
  - destruct (y_phase y) eqn:P; unfold has_strategy in HS; rewrite P in HS; discriminate.
  - destruct (y_phase y) eqn:P; try discriminate. destruct (host_open (ts_host a) (y_open y)) eqn:HO; [discriminate|].
    destruct (@enter_frame_spec a (y_w y) I D W) as (tid1 & M1 & TID & E). unfold start_task in H.
    destruct (enter_frame a (y_w y)) as (w1, [tid'|e]).
    2:{ injection H as <-. split; [exact NW|]. left. eexists. reflexivity. }
    destruct E as (-> & I1 & O1 & _ & _ & t1 & (T1 & T2) & _ & _ & _ & TS).
    pose proof (@start_decide_spec a tid1 t1 w1 I1 T1) as SD. pose proof (@decide_told a tid1 t1 w1 I1 T1) as DT. destruct (start_decide a tid1 w1) as (w2, o).
    destruct SD as (I2 & O2 & _ & _ & _ & _ & (t2 & G1 & _ & G3) & _).
    destruct (N.eq_dec tid tid1) as [<-|NE].
    + assert (A1 : as_told t t1).
      { destruct (find_thread (ts_host a) (y_w y)) as [t0|] eqn:F.
        - destruct (find_thread_some _ I F) as (F1 & F2). rewrite <- TID in F1. assert (t0 = t) by congruence. subst t0. destruct TS as (TS1 & TS2). split; [|split; auto].
          apply is_uuid in F2, T2. congruence.
        - exfalso. apply (i_t I) in HT. lia. }
      destruct o as [| |e]; injection H as <-; (split; [exact NW|]).
      * right; right. destruct (DT eq_refl) as (t3 & X & Y). split; [reflexivity|]. exists t3. split; auto. eapply as_told_trans; eauto.
      * right; left. split; [left; reflexivity|]. exists t2. split; auto.
      * left. eexists. reflexivity.
    + assert (K : dget (w_threads w2) tid = Some t). { rewrite (o_t O2), (o_t O1); auto. }
      destruct o as [| |e]; injection H as <-; (split; [exact NW|]).
      * right; right. apply RA; auto.
      * right; right. apply RA; auto.
      * left. eexists. reflexivity.
  - destruct (y_phase y) eqn:P; try discriminate.
    destruct (find _ (y_open y)) as [(h0, task)|] eqn:F; [|discriminate]. apply find_open in F. destruct F as (F1 & F2). cbn in F2.
    assert (OKh : open_ok h task (y_w y)).
    { destruct (y_ok S _ _ F1) as (tid1 & t1 & A & B). exists tid1, t1. split; auto. unfold host_is in *. destruct (t_host t1); [|discriminate]. now rewrite <- F2. }
    destruct (@end_task_spec h task r addr (y_w y) I OKh) as (tid1 & t1 & (T1 & T2) & OT & E).
    destruct (end_task h task r addr (y_w y)) as ((w', o), [tid'|]); [|destruct o; contradiction].
    destruct o; [| |contradiction].
    + destruct E as (-> & ->). destruct (end_finish tid1 task (y_w y)) as (w2, [| |e]) eqn:EF; [|discriminate|]; injection H as <-; (split; [exact NW|]).
      * right; right. split; [reflexivity|]. eapply finish_told; eauto.
      * left. eexists. reflexivity.
    + injection H as <-. destruct E as (-> & I2 & O2 & t2 & OT2 & ST2 & TW). split; [exact NW|]. destruct (N.eq_dec tid tid1) as [<-|NE].
      * right; left. split; [right; eexists; reflexivity|]. exists t2. split; auto. apply OT2.
      * right; right. apply RA; auto. cbn [y_w]. now rewrite (o_t O2).
  - destruct (y_phase y) as [| |tid1|tid1 task|] eqn:P; try discriminate; destruct (waiting tid1 (y_w y)) eqn:WA; try discriminate.
    + destruct (start_resume tid1 (y_w y)); try discriminate; injection H as <-; (split; [exact NW|]); [right; right; now apply RA|left; eexists; reflexivity].
    + destruct (end_finish tid1 task (y_w y)) as (w2, [| |e]) eqn:EF; [|discriminate|]; injection H as <-; (split; [exact NW|]).
      * right; right. split; [reflexivity|]. eapply finish_told; eauto.
      * left. eexists. reflexivity.
  - destruct (y_phase y) eqn:P; try discriminate. destruct (register_all regs (w_dbg (y_w y))) as (d', [u|e]); injection H as <-; (split; [exact NW|]).
    + right; right. now apply RA.
    + left. eexists. reflexivity.
  - destruct (y_recv y) eqn:R; [discriminate|]. rewrite HS, andb_false_r in H. injection H as <-. split; [intros q r0 X; discriminate|].
    right; right. apply RA; auto. cbn [y_w]. rewrite handle_keeps; auto.
  - destruct (y_recv y) as [(seq, r)|] eqn:R; [|discriminate]. rewrite HS in H. injection H as <-. split; [intros q r0 X; discriminate|].
    right; right. apply RA; auto. cbn [y_w]. rewrite handle_keeps; eauto.
  - destruct (y_recv y); [discriminate|]. injection H as <-. split; [intros q r0 X; discriminate|]. right; right. now apply RA.
  - injection H as <-. split; [exact NW|]. right; right. now apply RA.
  - destruct (y_phase y) eqn:P; try discriminate. unfold has_strategy in HS. rewrite P in HS. discriminate.
Qed.

(** A thread the playbook waits for stays as it is. *)
Lemma step_held tid y l y' t : SInv y -> label_wf l -> step y l = Some y' -> leaves_alone tid l -> none_waiting tid y ->
  (y_phase y = PWaitStart tid \/ exists task, y_phase y = PWaitEnd tid task) -> dget (w_threads (y_w y)) tid = Some t -> t_state t = TWait ->
  none_waiting tid y' /\ y_phase y' = y_phase y /\ dget (w_threads (y_w y')) tid = Some t.
Proof.
  intros S W H LA NW PH HT TW.
  assert (HS : has_strategy y = true) by (unfold has_strategy; destruct PH as [->|(task & ->)]; reflexivity).
  assert (WA : waiting tid (y_w y) = true) by (unfold waiting; rewrite HT, TW; reflexivity).
  destruct l as [|a|h r addr| | |regs| |seq r| |maps| |hp|lregs]; cbn [SysModel.step leaves_alone] in *; try contradiction;
    try (destruct PH as [PH|(task & PH)]; rewrite PH in H; try rewrite WA in H; discriminate).
  - destruct (y_recv y) eqn:R; [discriminate|]. rewrite HS, andb_false_r in H. injection H as <-. split; [intros q r0 X; discriminate|].
    split; [reflexivity|]. cbn [y_w]. rewrite handle_keeps; auto.
  - destruct (y_recv y) as [(seq, r)|] eqn:R; [|discriminate]. rewrite HS in H. injection H as <-. split; [intros q r0 X; discriminate|].
    split; [reflexivity|]. cbn [y_w]. rewrite handle_keeps; eauto.
  - destruct (y_recv y); [discriminate|]. injection H as <-. split; [intros q r0 X; discriminate|]. auto.
  - injection H as <-. auto.
Qed.
Lemma run_held tid ls : forall y y' t, SInv y -> trace_wf ls -> run y ls y' -> Forall (leaves_alone tid) ls -> none_waiting tid y ->
  (y_phase y = PWaitStart tid \/ exists task, y_phase y = PWaitEnd tid task) -> dget (w_threads (y_w y)) tid = Some t -> t_state t = TWait ->
  none_waiting tid y' /\ y_phase y' = y_phase y /\ dget (w_threads (y_w y')) tid = Some t.
Proof.
  induction ls as [|l ls IH]; intros y y' t S W R LA NW PH HT TW; inversion R as [|? ? y1 ? ? R1 R2]; subst; auto.
  pose proof (Forall_inv W) as W1. pose proof (Forall_inv LA) as LA1. destruct (@step_held tid y l y1 t S) as (A & B & C); eauto.
  destruct (@step_inv py_int py_repr type_name tmpl tmpl_args err_text parse_repl y l y1 S W1 R1) as (S1 & _). apply Forall_inv_tail in W, LA. rewrite <- B. eapply IH; eauto. now rewrite B.
Qed.
Lemma step_over_stays y l y' : over y -> step y l = Some y' -> over y'.
Proof.
  intros (e & P) H. destruct l as [|a|h r addr| | |regs| |seq r| |maps| |hp|lregs]; cbn [SysModel.step] in *; rewrite ?P in H; try discriminate.
  - destruct (y_recv y); [discriminate|]. destruct (_ && _); injection H as <-; exists e; first [reflexivity | exact P].
  - destruct (y_recv y) as [(q, r)|]; [|discriminate]. destruct (has_strategy y); [|discriminate]. injection H as <-. exists e; reflexivity || exists e; exact P.
  - destruct (y_recv y); [discriminate|]. injection H as <-; exists e; first [reflexivity | exact P].
  - destruct (y_recv y); [discriminate|]. injection H as <-; exists e; first [reflexivity | exact P].
  - injection H as <-; exists e; first [reflexivity | exact P].
Qed.
Lemma run_over_stays ls : forall y y', over y -> run y ls y' -> over y'.
Proof. induction ls as [|l ls IH]; intros y y' O R; inversion R as [|? ? y1 ? ? R1 R2]; subst; auto. eapply IH; [|exact R2]. eapply step_over_stays; eauto. Qed.

Lemma run_told tid ls : forall y y' t, SInv y -> trace_wf ls -> run y ls y' -> Forall (leaves_alone tid) ls -> none_waiting tid y ->
  t_host t <> None -> runs_as tid t y -> over y' \/ held tid y' \/ runs_as tid t y'.
Proof.
  induction ls as [|l ls IH]; intros y y' t S W R LA NW HN (HS & t1 & HT & AT); inversion R as [|? ? y1 ? ? R1 R2]; subst; [right; right; split; eauto|].
  pose proof (Forall_inv W) as H1. pose proof (Forall_inv LA) as LA1. apply Forall_inv_tail in W, LA.
  assert (HN1 : t_host t1 <> None). { destruct AT as (U & _). unfold uuid_host in U. destruct (t_host t1); [discriminate|]. destruct (t_host t); [discriminate|congruence]. }
  destruct (@step_inv py_int py_repr type_name tmpl tmpl_args err_text parse_repl y l y1 S H1 R1) as (S1 & _). destruct (@step_told tid y l y1 t1 S) as (NW1 & [O|[HE|RA]]); auto.
  - left. eapply run_over_stays; eauto.
  - right; left. destruct HE as (PH & t2 & T2 & W2). destruct (@run_held tid ls y1 y' t2) as (_ & A & B); auto. split; [now rewrite A|eauto].
  - eapply IH; eauto. destruct RA as (A & t2 & B & C). split; auto. exists t2. split; auto. eapply as_told_trans; eauto.
Qed.
End H.
