(** Properties of the debuggee as a whole: C20, C29, C31, C36. *)
From Verif Require Import PyBase PyDict DbgTypes BpModel BpSpec BpProofs2 BpProofs3 BpProps ThreadModel ThreadSpec StratModel SysModel SysSpec SysProofs SysProofs2 SysProofs3 SysProofs4 SysProofs5 SysProofs6 SysProofs7 SysProofs8 SysProofs9 SysProofs10 SysProofs11 SysDemo.
Set Implicit Arguments.
Local Open Scope N_scope.

(** Resuming, thread by thread. *)
Lemma resume_get st l : forall w, NoDup l -> (forall x, In x l -> In x (dkeys (w_threads w))) ->
  w_frames (fst (resume l st w)) = w_frames w /\ w_vars (fst (resume l st w)) = w_vars w /\ w_heap (fst (resume l st w)) = w_heap w /\
  w_persist (fst (resume l st w)) = w_persist w /\ w_dbg (fst (resume l st w)) = w_dbg w /\
  forall k, dget (w_threads (fst (resume l st w))) k = if in_dec N.eq_dec k l then option_map (set_state st) (dget (w_threads w) k) else dget (w_threads w) k.
Proof.
  induction l as [|a l IH]; intros w ND IN; cbn [resume].
  - cbn [fst]. csplit; auto.
  - inversion ND as [|? ? N1 N2]; subst. destruct (dget_key_ex _ _ (IN a (or_introl eq_refl))) as (t & Ht). rewrite Ht.
    set (w1 := wthreads (dset (w_threads w) a (set_state st t)) w).
    destruct (IH w1 N2) as (A1 & A2 & A3 & A4 & A5 & A6).
    { intros x Hx. change (In x (dkeys (dset (w_threads w) a (set_state st t)))). apply In_dkeys_dset. right. apply IN. now right. }
    csplit; auto. intros k. rewrite A6. change (w_threads w1) with (dset (w_threads w) a (set_state st t)). rewrite !dget_dset.
    destruct (eqb_spec a k) as [->|NE].
    + destruct (in_dec N.eq_dec k l) as [X|X]; [contradiction|]. destruct (in_dec N.eq_dec k (k :: l)) as [Y|Y]; [now rewrite Ht|]. exfalso. apply Y. now left.
    + destruct (in_dec N.eq_dec k l) as [X|X], (in_dec N.eq_dec k (a :: l)) as [Y|Y]; auto.
      * exfalso. apply Y. now right.
      * destruct Y; [congruence|contradiction].
Qed.

(** What each resume request asks for. *)
Definition names_thread (r : Req) : option (N * TState) :=
  match r with
  | RContinue tid true => Some (tid, TContinue)
  | RNext tid => Some (tid, TStepOver)
  | RStepIn tid => Some (tid, TStepIn)
  | RStepOut tid => Some (tid, TStepOut)
  | _ => None
  end.
Definition for_all_threads (r : Req) : option TState :=
  match r with
  | RContinue _ false => Some TContinue
  | RDisconnect (Some true) | RTerminate => Some TEnd
  | RDisconnect _ => Some TContinue
  | _ => None
  end.

Section S.
Variable py_int : pystr -> option Z.
Variable py_repr : heap -> val -> pystr.
Variable type_name : heap -> val -> pystr.
Variable tmpl : pystr -> nat -> heap -> res (list obj * val).
Variable tmpl_args : nat -> nat -> heap -> res (list obj * val).
Variable err_text : exn -> pystr.
Variable parse_repl : pystr -> res ReplCmd.
Notation step := (step py_int py_repr type_name tmpl tmpl_args err_text parse_repl).
Notation run := (run py_int py_repr type_name tmpl tmpl_args err_text parse_repl).

(* ------------------------------------------------------------------ C20 *)
(** In every history the responses queued, in order, are exactly one per request, with
    its command and seq; disconnect queues the end of the stream instead, terminate
    both.  The only exception is the one request whose handler still waits for a play
    to begin, and it gets its answer when one does. *)
Theorem C20_one_response_per_request : forall ls y, trace_wf ls -> run sys_init ls y ->
  marks (d_out (w_dbg (y_w y))) ++ flat_map expects_marks (pending y) = flat_map expects_marks (requests ls).
Proof.
  intros ls y W R. destruct (run_marks sinv_init W R) as (ms & E & K). cbn in E, K. rewrite E. exact K.
Qed.
Theorem C20_waiting_request_is_answered : forall ls y, trace_wf ls -> run sys_init ls y -> pending y <> [] -> has_strategy y = true ->
  exists y', step y LUnblock = Some y' /\ pending y' = [] /\
    marks (d_out (w_dbg (y_w y'))) = marks (d_out (w_dbg (y_w y))) ++ flat_map expects_marks (pending y).
Proof.
  intros ls y W R P HS. pose proof (run_sinv W R) as S.
  assert (EX : exists y', step y LUnblock = Some y').
  { unfold pending in P. cbn. destruct (y_recv y) as [(seq, r)|]; [|congruence]. rewrite HS. eauto. }
  destruct EX as (y' & E). exists y'. split; auto.
  assert (PE : pending y' = []).
  { cbn in E. destruct (y_recv y) as [(seq, r)|]; [|discriminate]. rewrite HS in E. injection E as <-. reflexivity. }
  split; auto. destruct (@step_marks py_int py_repr type_name tmpl tmpl_args err_text parse_repl y LUnblock y' S Logic.I E) as (ms & E1 & K & _).
  rewrite PE in K. cbn [flat_map requests] in K. rewrite !app_nil_r in K. now rewrite E1, marks_app, K.
Qed.

(* ------------------------------------------------------------------ C29 *)
Theorem C29_named_thread_only : forall ls y seq r tid st, trace_wf ls -> run sys_init ls y ->
  pending y = [] -> has_strategy y = true -> names_thread r = Some (tid, st) ->
  exists y', step y (LReq seq r) = Some y' /\
    y_phase y' = y_phase y /\ y_open y' = y_open y /\
    w_frames (y_w y') = w_frames (y_w y) /\ w_vars (y_w y') = w_vars (y_w y) /\ w_heap (y_w y') = w_heap (y_w y) /\ w_persist (y_w y') = w_persist (y_w y) /\
    (forall k, k <> tid -> dget (w_threads (y_w y')) k = dget (w_threads (y_w y)) k) /\
    match dget (w_threads (y_w y)) tid with
    | Some t => (exists o, d_out (w_dbg (y_w y')) = d_out (w_dbg (y_w y)) ++ [Some o] /\ o <> OError (cmd_of r) seq) /\
        exists t', dget (w_threads (y_w y')) tid = Some t' /\ t_id t' = t_id t /\ t_host t' = t_host t /\ t_stack t' = t_stack t /\
          (t_state t' = st \/ (st = TStepIn /\ t_state t' = TStepOver))
    | None => dget (w_threads (y_w y')) tid = None /\ d_out (w_dbg (y_w y')) = d_out (w_dbg (y_w y)) ++ [Some (OError (cmd_of r) seq)]
    end.
Proof.
  intros ls y seq r tid st W R P HS NM. pose proof (run_sinv W R) as S.
  assert (RC : y_recv y = None) by (unfold pending in P; destruct (y_recv y); [discriminate|auto]).
  set (w := y_w y).
  assert (E : exists w', step y (LReq seq r) = Some (mkSys w' (y_phase y) (y_open y) None) /\
     w' = match resume [tid] st w with
          | (w1, Ok _) => emit (match r with RContinue _ _ => OContinue seq false | _ => OAck (cmd_of r) seq end) w1
          | (w1, Err _) => emit (OError (cmd_of r) seq) w1 end).
  { eexists. split; [|reflexivity]. cbn [SysModel.step]. rewrite RC, HS. cbn [negb].
    assert (NB : needs_strategy r && false = false) by apply andb_false_r. rewrite NB.
    assert (BS : wd (before_strategy r (w_dbg w)) w = w) by (unfold w; destruct (y_w y), r; try discriminate; reflexivity).
    fold w. rewrite BS. unfold handle. destruct r as [|t0 [|]| | |t0| | | | | |t0|t0| | | |]; try discriminate; injection NM as <- <-;
      cbn [process]; unfold continue_request, step_over, step_in, step_out, reply, ack; destruct (resume _ _ w) as (w1, [u|e]); reflexivity. }
  destruct E as (w' & E & EW). eexists. split; [exact E|]. cbn [y_w y_phase y_open]. split; auto. split; auto.
  cbn [resume] in EW. destruct (dget (w_threads w) tid) as [t|] eqn:Ht; subst w'.
  - destruct (set_state_same st t) as (A & B & C). csplit; auto.
    + intros k N. cbn -[dget dset]. now apply dget_dset_other.
    + eexists. split; [reflexivity|]. destruct r; discriminate.
    + exists (set_state st t). csplit; auto.
      * cbn -[dget dset]. apply dget_dset_same.
      * destruct r as [|t0 [|]| | |t0| | | | | |t0|t0| | | |]; try discriminate; injection NM as <- <-; cbn; auto;
        destruct (t_stopped t) as [n|]; cbn; auto. destruct (is_include n); cbn; auto.
  - csplit; auto.
Qed.

Theorem C29_all_threads : forall ls y seq r st, trace_wf ls -> run sys_init ls y ->
  pending y = [] -> has_strategy y = true -> for_all_threads r = Some st ->
  exists y', step y (LReq seq r) = Some y' /\
    y_phase y' = y_phase y /\ y_open y' = y_open y /\
    w_frames (y_w y') = w_frames (y_w y) /\ w_vars (y_w y') = w_vars (y_w y) /\ w_heap (y_w y') = w_heap (y_w y) /\ w_persist (y_w y') = w_persist (y_w y) /\
    dkeys (w_threads (y_w y')) = dkeys (w_threads (y_w y)) /\
    forall k t, dget (w_threads (y_w y)) k = Some t ->
      exists t', dget (w_threads (y_w y')) k = Some t' /\ t_id t' = t_id t /\ t_host t' = t_host t /\ t_stack t' = t_stack t /\ t_stopped t' = t_stopped t /\ t_state t' = st.
Proof.
  intros ls y seq r st W R P HS NM. pose proof (run_sinv W R) as S. pose proof (y_inv S) as I.
  assert (RC : y_recv y = None) by (unfold pending in P; destruct (y_recv y); [discriminate|auto]).
  set (w := wd (before_strategy r (w_dbg (y_w y))) (y_w y)).
  assert (ST : st = TContinue \/ st = TEnd) by (destruct r as [|? []|[[]|]| | | | | | | | | | | | |]; try discriminate; injection NM as <-; auto).
  assert (E : exists d', step y (LReq seq r) = Some (mkSys (wd d' (fst (resume (dkeys (w_threads w)) st w))) (y_phase y) (y_open y) None)).
  { cbn [SysModel.step]. rewrite RC, HS. cbn [negb].
    assert (NB : needs_strategy r && false = false) by apply andb_false_r. rewrite NB. fold w. unfold handle.
    pose proof (resume_all_ok st w) as OK.
    destruct r as [|t0 [|]|[[|]|]| | | | | | | | | | | | |]; try discriminate; injection NM as <-;
      cbn [process]; unfold continue_request, disconnect, reply, ack; destruct (resume _ _ w) as (w1, [u|e]); try discriminate; eexists; reflexivity. }
  destruct E as (d' & E). eexists. split; [exact E|]. cbn [y_w y_phase y_open].
  destruct (@resume_get st (dkeys (w_threads w)) w (i_tnd I)) as (A1 & A2 & A3 & A4 & A5 & A6); auto.
  csplit; auto.
  - destruct (@resume_good st (dkeys (w_threads w)) w) as (_ & Q). { destruct (@before_good r (y_w y) I); auto. } apply (q_tk Q).
  - intros k t H. exists (t_with_state st t).
    split.
    + change (dget (w_threads (fst (resume (dkeys (w_threads w)) st w))) k = Some (t_with_state st t)). rewrite A6.
      destruct (in_dec N.eq_dec k (dkeys (w_threads w))) as [X|X]; [|exfalso; apply X; eapply dget_Some_key; exact H].
      change (dget (w_threads w) k) with (dget (w_threads (y_w y)) k). rewrite H. cbn. destruct ST as [->| ->]; reflexivity.
    + destruct t; cbn. auto.
Qed.

(* ------------------------------------------------------------------ C31 *)
Theorem C31_references_resolve : forall ls y, trace_wf ls -> run sys_init ls y ->
  let w := y_w y in
  (forall k t, dget (w_threads w) k = Some t -> NoDup (t_stack t) /\ forall f, In f (t_stack t) -> exists fr, dget (w_frames w) f = Some fr) /\
  (forall k1 k2 t1 t2 f, dget (w_threads w) k1 = Some t1 -> dget (w_threads w) k2 = Some t2 -> In f (t_stack t1) -> In f (t_stack t2) -> k1 = k2) /\
  (forall k f v, dget (w_frames w) k = Some f -> In v (f_vars f) -> exists x, dget (w_vars w) v = Some x /\ v_frame x = k) /\
  (forall k1 k2 f1 f2 v, dget (w_frames w) k1 = Some f1 -> dget (w_frames w) k2 = Some f2 -> In v (f_vars f1) -> In v (f_vars f2) -> k1 = k2) /\
  (forall v x, dget (w_vars w) v = Some x -> exists f, dget (w_frames w) (v_frame x) = Some f /\ In v (f_vars f)) /\
  (forall h task, In (h, task) (y_open y) -> exists t fid rest f, find_thread h w = Some t /\ t_stack t = fid :: rest /\ dget (w_frames w) fid = Some f /\ f_task f = task).
Proof.
  intros ls y W R. pose proof (run_sinv W R) as S. pose proof (y_inv S) as I. cbv zeta. csplit.
  - intros k t H. split; [apply (i_t I _ H)|]. intros f. apply (i_stack I _ _ H).
  - apply (i_disj I).
  - apply (i_fv I).
  - intros k1 k2 f1 f2 v A B C D. destruct (i_fv I _ _ A C) as (x & X1 & X2). destruct (i_fv I _ _ B D) as (x' & X3 & X4). congruence.
  - intros v x H. apply (i_v I _ H).
  - intros h task H. destruct (y_ok S _ _ H) as (tid & t & A & B & fid & rest & f & C & D & E).
    destruct (@thread_for_find h (y_w y) tid t I (conj B A)) as (F & _). exists t, fid, rest, f. auto.
Qed.

(** Starting a task and processing a result never fail for want of a thread, frame or
    variable: the only exceptions are EndStrategy (a client ended the session), an
    exception of the breakpoint's own condition, and the AttributeError of a task
    without role after a role include or without parent (see C32). *)
Theorem C31_start_and_end_do_not_fail : forall ls y l y' e, trace_wf (ls ++ [l]) -> run sys_init ls y -> step y l = Some y' ->
  y_phase y' = PDone e -> y_phase y <> PDone e ->
  (e = EndStrategy /\ exists k t, dget (w_threads (y_w y)) k = Some t /\ t_state t = TEnd) \/
  (exists a, l = LStart a /\ ((exists c, ts_cond a c = CRaise e) \/ (e = AttributeError /\ (ts_role a = None \/ n_parent (ts_task a) = None)))).
Proof.
  intros ls y l y' e W R H P N. apply Forall_app in W. destruct W as (W1 & W2). inversion W2 as [|? ? W3 _]; subst.
  pose proof (run_sinv W1 R) as S. destruct (@step_inv py_int py_repr type_name tmpl tmpl_args err_text parse_repl y l y' S W3 H) as (_ & _ & F).
  destruct (F e P N) as [X|(a & -> & X)]; [left; exact X|right]. exists a. split; auto. destruct X as [X|X]; auto.
Qed.
Theorem C31_progress : forall ls y, trace_wf ls -> run sys_init ls y -> y_phase y = PRun ->
  (forall a, label_wf (LStart a) -> host_open (ts_host a) (y_open y) = false -> exists y', step y (LStart a) = Some y') /\
  (forall h task r addr, In (h, task) (y_open y) -> exists y', step y (LEnd h r addr) = Some y').
Proof.
  intros ls y W R P. pose proof (run_sinv W R) as S. pose proof (y_inv S) as I. split.
  - intros a WL HO. cbn [SysModel.step]. rewrite P, HO. destruct (@start_task_spec a (y_w y) I (y_dwf S) WL) as (tid & _ & E).
    destruct (start_task a (y_w y)) as ((w', o), [tid'|]).
    + destruct o; eauto.
    + destruct E as (_ & _ & e & -> & _). eauto.
  - intros h task r addr HI. cbn [SysModel.step]. rewrite P.
    destruct (find (fun p => host_eqb (fst p) h) (y_open y)) as [(h0, task0)|] eqn:F.
    2:{ apply (find_none _ _ F) in HI. unfold host_eqb in HI. cbn in HI. rewrite N.eqb_refl in HI. discriminate. }
    apply find_open in F. destruct F as (F1 & F2). cbn in F2.
    assert (OKh : open_ok h task0 (y_w y)).
    { destruct (y_ok S _ _ F1) as (tid & t & A & B). exists tid, t. split; auto. unfold host_is in *. destruct (t_host t); [|discriminate]. now rewrite <- F2. }
    destruct (@end_task_spec h task0 r addr (y_w y) I OKh) as (tid & t & (T1 & T2) & OT & E).
    destruct (end_task h task0 r addr (y_w y)) as ((w', o), [tid'|]); [|destruct o; contradiction].
    destruct o; [|eauto|contradiction]. destruct E as (-> & ->). destruct (host_is_host _ _ T2) as (h1 & HH & _).
    assert (N1 : tid <> 1) by (eapply thread_not_main; eauto; congruence).
    pose proof (@end_finish_spec tid t task0 (y_w y) I OT N1) as E2.
    destruct (end_finish tid task0 (y_w y)) as (w2, [| |e]); [eauto|contradiction|eauto].
Qed.

(* ------------------------------------------------------------------ C36 *)
Theorem C36_thread_events : forall ls y, trace_wf ls -> run sys_init ls y ->
  let evs := thread_events (d_out (w_dbg (y_w y))) in
  events_ok evs /\ (has_strategy y = false -> alive evs = []).
Proof.
  intros ls y W R evs. destruct (run_tinv sinv_init W R tinv_init) as (A & B & C). split; auto.
  intros HS. pose proof (run_sinv W R) as S. pose proof (y_ph S) as PH. unfold has_strategy in HS.
  destruct (y_phase y); try discriminate; destruct PH as (_ & PH); unfold only_main in PH; rewrite PH in A; injection A; auto.
Qed.
Theorem C36_threads_lists_the_live_ones : forall ls y seq, trace_wf ls -> run sys_init ls y -> pending y = [] -> has_strategy y = true ->
  exists y' infos hosts, step y (LReq seq RThreads) = Some y' /\
    d_out (w_dbg (y_w y')) = d_out (w_dbg (y_w y)) ++ [Some (OThreads seq infos)] /\
    map ti_id infos = 1 :: alive (thread_events (d_out (w_dbg (y_w y)))) /\
    map ti_name infos = s "main" :: map h_name hosts /\ NoDup (map h_uuid hosts).
Proof.
  intros ls y seq W R P HS. pose proof (run_sinv W R) as S. pose proof (y_inv S) as I.
  assert (RC : y_recv y = None) by (unfold pending in P; destruct (y_recv y); [discriminate|auto]).
  destruct (run_tinv sinv_init W R tinv_init) as (A & _ & _).
  set (infos := map thread_info (dvals (w_threads (y_w y)))).
  exists (mkSys (emit (OThreads seq infos) (y_w y)) (y_phase y) (y_open y) None), infos,
    (flat_map (fun t => match t_host t with Some h => [h] | None => [] end) (dvals (w_threads (y_w y)))).
  split. { cbn [SysModel.step]. rewrite RC, HS. cbn [needs_strategy andb negb before_strategy]. destruct y as [[d x h p] ph o rc]. reflexivity. }
  split; [reflexivity|].
  assert (IDS : forall k t, In (k, t) (w_threads (y_w y)) -> t_id t = k /\ (t_host t = None -> k = 1)).
  { intros k t X. apply In_dget in X; [|apply (i_tnd I)]. apply (i_t I) in X. tauto. }
  split.
  { rewrite <- A. unfold infos, dvals, dkeys. rewrite !map_map. apply map_ext_in. intros (k, t) X. apply IDS in X. cbn. tauto. }
  destruct (i_main I) as (st & sn & M).
  destruct (w_threads (y_w y)) as [|(k, t) rest] eqn:E; [discriminate|]. cbn [dkeys map fst] in A. injection A as -> A.
  assert (t = mkThread 1 None [] st sn). { cbn in M. congruence. } subst t.
  assert (ND : NoDup (1 :: dkeys rest)). { pose proof (i_tnd I) as ND. rewrite E in ND. exact ND. } inversion ND as [|? ? ND1 ND2]; subst.
  assert (HO : forall k t, In (k, t) rest -> exists h, t_host t = Some h).
  { intros k t X. destruct (t_host t) as [h|] eqn:TH; [eauto|]. exfalso. apply ND1. destruct (IDS k t (or_intror X)) as (_ & Y). rewrite <- (Y TH). apply in_map_iff. exists (k, t). auto. }
  assert (HD : forall k1 t1 k2 t2 h1 h2, In (k1, t1) rest -> In (k2, t2) rest -> t_host t1 = Some h1 -> t_host t2 = Some h2 -> h_uuid h1 = h_uuid h2 -> k1 = k2).
  { intros k1 t1 k2 t2 h1 h2 X1 X2. apply (i_host I); rewrite E; apply In_dget; try (right; assumption); pose proof (i_tnd I) as Z; rewrite E in Z; exact Z. }
  unfold infos. clear infos. rewrite ?E. cbn [dvals map snd flat_map t_host thread_info ti_name app]. split.
  - f_equal. change (map snd rest) with (dvals rest). clear -HO. induction rest as [|(k, t) rest IH]; cbn; auto.
    destruct (HO k t (or_introl eq_refl)) as (h & TH). rewrite TH. cbn. f_equal. apply IH. intros k0 t0 X. apply (HO k0 t0). now right.
  - change (map snd rest) with (dvals rest). clear -HO HD ND2. induction rest as [|(k, t) rest IH]; cbn; [constructor|].
    destruct (HO k t (or_introl eq_refl)) as (h & TH). rewrite TH. cbn. inversion ND2 as [|? ? X1 X2]; subst. constructor.
    + intros X. apply in_map_iff in X. destruct X as (h2 & U & X). apply in_flat_map in X. destruct X as (t2 & Y1 & Y2).
      unfold dvals in Y1. apply in_map_iff in Y1. destruct Y1 as ((k2, t2') & Y3 & Y4). cbn in Y3. subst t2'.
      destruct (t_host t2) as [h3|] eqn:TH2; [|contradiction]. destruct Y2 as [->|[]].
      assert (k = k2). { apply (HD k t k2 t2 h h2); auto; [now left|now right]. } subst k2. apply X1. apply in_map_iff. exists (k, t2). auto.
    + apply IH; auto.
      * intros k0 t0 X. apply (HO k0 t0). now right.
      * intros k1 t1 k2 t2 h1 h2 Y1 Y2. apply (HD k1 t1 k2 t2 h1 h2); now right.
Qed.
End S.
(* ------------------------------------------------------------------ the hypotheses are met *)
Example demo_stop_wf : trace_wf demo_stop.
Proof. unfold demo_stop, demo_setup. wf. Qed.
Example demo_stop_run : drun sys_init demo_stop (after demo_stop).
Proof. apply after_run. vm_compute. discriminate. Qed.
(** Five requests, five responses; one of the requests waited for the play. *)
Example C20_met : requests demo_stop <> [] /\ pending (after demo_stop) = [] /\
  marks (d_out (w_dbg (y_w (after demo_stop)))) = [Some (CSetBreakpoints, 1%Z); Some (CSetExceptionBreakpoints, 2%Z); Some (CConfigurationDone, 3%Z); Some (CThreads, 4%Z)].
Proof. vm_compute. repeat split. discriminate. Qed.
Example C20_waiting_met : let ls := firstn 6 demo_setup in trace_wf ls /\ drun sys_init ls (after ls) /\ pending (after ls) = [(4%Z, RThreads)] /\ has_strategy (after ls) = true.
Proof. cbv zeta. csplit; try (vm_compute; reflexivity); [|apply after_run; vm_compute; discriminate]. cbn [firstn demo_setup]. wf. Qed.
Example C29_met : y_phase (after demo_stop) = PWaitStart 2 /\ pending (after demo_stop) = [] /\ has_strategy (after demo_stop) = true /\ dkeys (w_threads (y_w (after demo_stop))) = [1; 2].
Proof. vm_compute. auto. Qed.
(** Continue, both hosts enter the include, host a is inside it. *)
Definition demo_more : list label := demo_stop ++
  [ LReq 5 (RContinue 2 false); LWake; LEnd hostA okr 6; LStart (bt hostA t2); LStart (bt hostB t2); LEnd hostA okr 6; LEnd hostB okr 6; LStart (bt hostA t3) ].
Example demo_more_wf : trace_wf demo_more.
Proof. unfold demo_more, demo_stop, demo_setup. wf. Qed.
Example demo_more_run : drun sys_init demo_more (after demo_more).
Proof. apply after_run. vm_compute. discriminate. Qed.
Example C31_C36_met : y_phase (after demo_more) = PRun /\ y_open (after demo_more) = [(hostA, t3)] /\
  option_map t_stack (dget (w_threads (y_w (after demo_more))) 2) = Some [4; 2] /\
  thread_events (d_out (w_dbg (y_w (after demo_more)))) = [(true, 2); (true, 3)].
Proof. vm_compute. auto. Qed.

Print Assumptions C20_one_response_per_request.
Print Assumptions C20_waiting_request_is_answered.
Print Assumptions C29_named_thread_only.
Print Assumptions C29_all_threads.
Print Assumptions C31_references_resolve.
Print Assumptions C31_start_and_end_do_not_fail.
Print Assumptions C31_progress.
Print Assumptions C36_thread_events.
Print Assumptions C36_threads_lists_the_live_ones.
