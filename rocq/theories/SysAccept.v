(** C78: which requests are carried out and which are refused. *)
From Verif Require Import PyBase PyDict Digits DbgTypes BpModel BpSpec BpProofs BpProofs2 BpProofs3 BpProps ThreadModel ThreadSpec StratModel SysModel SysSpec SysProofs SysProofs2 SysProofs3 SysProofs4 SysProofs5 SysProofs6 SysProofs7 SysProofs8 SysProofs9 SysProofs10 SysProofs11 SysProofs12 SysProofs13 SysVars SysVars2 SysVars3 SysDemo.
Set Implicit Arguments.
Local Open Scope N_scope.
Ltac csplit := repeat match goal with |- _ /\ _ => split end.

(** Item assignment in Python accepts this object, seen through a reference of kind [k]. *)
Definition accepts (py_int : pystr -> option Z) (h : heap) (k : vkind) (a : nat) (name : pystr) : Prop :=
  match k with
  | VKList => exists l i, nth_error h a = Some (OList l true) /\ py_int name = Some i /\ (- Z.of_nat (length l) <= i < Z.of_nat (length l))%Z
  | VKRaw raw => is_mut_dict h a /\ is_mut_dict h raw
  | _ => is_mut_dict h a
  end.

Section S.
Variable py_int : pystr -> option Z.
Variable py_repr : heap -> val -> pystr.
Variable type_name : heap -> val -> pystr.
Variable tmpl : pystr -> nat -> heap -> res (list obj * val).
Variable tmpl_args : nat -> nat -> heap -> res (list obj * val).
Variable err_text : exn -> pystr.
Variable parse_repl : pystr -> res ReplCmd.
Notation handle := (handle py_int py_repr type_name tmpl tmpl_args err_text parse_repl).
Notation step := (step py_int py_repr type_name tmpl tmpl_args err_text parse_repl).
Notation run := (run py_int py_repr type_name tmpl tmpl_args err_text parse_repl).
Notation says y y' ms := (d_out (w_dbg (y_w y')) = d_out (w_dbg (y_w y)) ++ ms).

Lemma wd_same w : wd (w_dbg w) w = w.
Proof. destruct w; reflexivity. Qed.
Lemma req_step y seq r : pending y = [] -> has_strategy y = true ->
  step y (LReq seq r) = Some (mkSys (handle seq r (wd (before_strategy r (w_dbg (y_w y))) (y_w y))) (y_phase y) (y_open y) None).
Proof.
  intros P HS. assert (RC : y_recv y = None) by (unfold pending in P; destruct (y_recv y); [discriminate|auto]).
  cbn [SysModel.step]. rewrite RC, HS. now rewrite andb_false_r.
Qed.

Definition resumes (r : Req) (tid : N) (o : Out) (seq : Z) : Prop :=
  (r = RContinue tid true /\ o = OContinue seq false) \/ (r = RNext tid /\ o = OAck CNext seq) \/
  (r = RStepIn tid /\ o = OAck CStepIn seq) \/ (r = RStepOut tid /\ o = OAck CStepOut seq).

(** A resume request for one thread is accepted if the thread exists, and refused otherwise. *)
Theorem C78_resume : forall y seq r tid o, pending y = [] -> has_strategy y = true -> resumes r tid o seq ->
  exists y', step y (LReq seq r) = Some y' /\ (In tid (dkeys (w_threads (y_w y))) -> says y y' [Some o]) /\
    (~ In tid (dkeys (w_threads (y_w y))) -> says y y' [Some (OError (cmd_of r) seq)]).
Proof.
  intros y seq r tid o P HS RE. rewrite (req_step _ _ _ P HS). eexists. split; [reflexivity|]. cbn [y_w].
  assert (K : forall (tid : N) (d : dict N Thread), (In tid (dkeys d) -> exists t, dget d tid = Some t) /\ (~ In tid (dkeys d) -> dget d tid = None)).
  { intros i d. split; intros H; [destruct (dget d i) eqn:E; [eauto|]; apply dget_None in E; contradiction|now apply dget_None]. }
  destruct (K tid (w_threads (y_w y))) as (K1 & K2).
  destruct RE as [(-> & ->)|[(-> & ->)|[(-> & ->)|(-> & ->)]]]; cbn [before_strategy cmd_of]; rewrite wd_same; unfold SysModel.handle; cbn [process];
    unfold continue_request, step_over, step_in, step_out; cbn [resume]; split; intros H; try (destruct (K1 H) as (t & ->)); try rewrite (K2 H); reflexivity.
Qed.
(** continue for all threads is never refused. *)
Theorem C78_continue_all : forall y seq tid, pending y = [] -> has_strategy y = true ->
  exists y', step y (LReq seq (RContinue tid false)) = Some y' /\ says y y' [Some (OContinue seq true)].
Proof.
  intros y seq tid P HS. rewrite (req_step _ _ _ P HS). eexists. split; [reflexivity|]. cbn [y_w before_strategy]. rewrite wd_same. unfold SysModel.handle. cbn [process].
  unfold continue_request. pose proof (resume_all_ok TContinue (y_w y)) as OK. pose proof (resume_out TContinue (dkeys (w_threads (y_w y))) (y_w y)) as D.
  destruct (resume _ _ _) as (w1, [u|e]); [|discriminate]. cbn in *. now rewrite D.
Qed.
(** stackTrace is accepted if the thread exists and every task on its stack has a place in
    a file. *)
Theorem C78_stack_trace : forall ls y seq tid, trace_wf ls -> run sys_init ls y -> pending y = [] -> has_strategy y = true ->
  exists y', step y (LReq seq (RStackTrace tid)) = Some y' /\
    match dget (w_threads (y_w y)) tid with
    | None => says y y' [Some (OError CStackTrace seq)]
    | Some t =>
      ((forall i f, In i (t_stack t) -> dget (w_frames (y_w y)) i = Some f -> n_path (f_task f) <> None) ->
        exists fis, says y y' [Some (OFrames seq fis (N.of_nat (length fis)))] /\ map fi_id fis = t_stack t) /\
      (forall i f, In i (t_stack t) -> dget (w_frames (y_w y)) i = Some f -> n_path (f_task f) = None -> says y y' [Some (OError CStackTrace seq)])
    end.
Proof.
  intros ls y seq tid W R P HS. pose proof (run_sinv W R) as S. pose proof (y_inv S) as I.
  rewrite (req_step _ _ _ P HS). eexists. split; [reflexivity|]. cbn [y_w before_strategy]. rewrite wd_same. unfold SysModel.handle. cbn [process]. unfold get_stacktrace.
  destruct (dget (w_threads (y_w y)) tid) as [t|] eqn:T; [|reflexivity]. set (w := y_w y) in *.
  assert (SK : forall i, In i (t_stack t) -> exists f, dget (w_frames w) i = Some f /\ f_id f = i).
  { intros i H. destruct (i_stack I _ _ T H) as (f & F). exists f. split; auto. apply (i_f I _ F). }
  remember (fun id => match dget (w_frames w) id with None => Err KeyError | Some f => frame_to_dap (w_dbg w) f end) as g eqn:EG.
  split.
  - intros OK. assert (M : exists fis, mapM g (t_stack t) = Ok fis /\ map fi_id fis = t_stack t).
    { clear T. induction (t_stack t) as [|i l IH]; [exists []; auto|]. destruct IH as (fis & E1 & E2); [intros; apply SK; now right|intros; eapply OK; eauto; now right|].
      destruct (SK i (or_introl eq_refl)) as (f & F & ID). pose proof (OK i f (or_introl eq_refl) F) as NP. assert (G : exists fi, g i = Ok fi /\ fi_id fi = i).
      { subst g. rewrite F. unfold frame_to_dap. destruct (n_path (f_task f)) as [(p, ln)|]; [|congruence]. eexists. split; [reflexivity|exact ID]. }
      destruct G as (fi & G & GI). exists (fi :: fis). rewrite mapM_cons, G. cbn. rewrite E1, E2, GI. auto. }
    destruct M as (fis & E1 & E2). exists fis. split; auto. rewrite E1. reflexivity.
  - intros i f H F NP. assert (M : exists e, mapM g (t_stack t) = Err e).
    { clear T. induction (t_stack t) as [|j l IH]; [contradiction|]. rewrite mapM_cons. destruct (g j) as [fi|e] eqn:G; [|cbn; eauto]. destruct H as [->|H].
      - exfalso. subst g. unfold frame_to_dap in G. rewrite F, NP in G. discriminate.
      - destruct IH as (e & ->); auto; [intros; apply SK; now right|]. cbn. eauto. }
    destruct M as (e & ->). reflexivity.
Qed.
(** Ending the session is never refused. *)
Theorem C78_end : forall y seq term, pending y = [] -> has_strategy y = true ->
  (exists y', step y (LReq seq RTerminate) = Some y' /\ says y y' [Some (OAck CTerminate seq); None]) /\
  (exists y', step y (LReq seq (RDisconnect term)) = Some y' /\ says y y' [None]).
Proof.
  intros y seq term P HS. rewrite !(req_step _ _ _ P HS). split; (eexists; split; [reflexivity|]); cbn [y_w before_strategy];
    match goal with |- context [SysModel.handle _ _ _ _ _ _ _ _ _ ?x] => set (w := x) end; unfold SysModel.handle; cbn [process]; unfold disconnect;
    match goal with |- context [resume _ ?st _] => pose proof (resume_all_ok st w) as OK; pose proof (resume_out st (dkeys (w_threads w)) w) as D end;
    destruct (resume _ _ _) as (w1, [u|e]); try discriminate; cbn in *; rewrite D.
  - now rewrite <- app_assoc.
  - reflexivity.
Qed.
(** Whether a play runs or not, configurationDone and setExceptionBreakpoints are accepted
    and requests the debugger does not know are refused. *)
Theorem C78_without_play : forall y seq fs n, pending y = [] ->
  (exists y', step y (LReq seq RConfigurationDone) = Some y' /\ says y y' [Some (OAck CConfigurationDone seq)]) /\
  (exists y', step y (LReq seq (RSetException fs)) = Some y' /\ says y y' [Some (OAck CSetExceptionBreakpoints seq)]) /\
  (exists y', step y (LReq seq (ROther n)) = Some y' /\ says y y' [Some (OError (COther n) seq)] /\ y' = mkSys (emit (OError (COther n) seq) (y_w y)) (y_phase y) (y_open y) None).
Proof.
  intros y seq fs n P. assert (RC : y_recv y = None) by (unfold pending in P; destruct (y_recv y); [discriminate|auto]).
  csplit; cbn [SysModel.step needs_strategy andb]; rewrite RC; (eexists; split; [reflexivity|]); cbn [y_w before_strategy]; rewrite ?wd_same; try reflexivity. split; reflexivity.
Qed.

Lemma set_key_ok h a k x : (exists h', obj_set_key h a k x = Ok h') <-> is_mut_dict h a.
Proof.
  unfold obj_set_key, is_mut_dict. destruct (nth_error h a) as [[l []|l m|l]|] eqn:N; try (split; [intros (? & Q)|intros (? & Q)]; discriminate).
  destruct (set_nth_in _ _ (ODict (dset l k x) true) N) as (h' & ->). split; eauto.
Qed.
Lemma set_key_dict h a k x h' b : obj_set_key h a k x = Ok h' -> (is_mut_dict h' b <-> is_mut_dict h b).
Proof.
  unfold obj_set_key, is_mut_dict. destruct (nth_error h a) as [[l []|l m|l]|] eqn:N; try discriminate.
  destruct (set_nth h a (ODict (dset l k x) true)) as [h1|] eqn:E; [|discriminate]. intros Q. injection Q as <-.
  destruct (set_nth_some _ _ _ E) as (_ & A2 & A3 & A4). destruct (Nat.eq_dec b a) as [->|NE]; [|now rewrite A4].
  rewrite A3, N. split; intros (? & Q); eauto.
Qed.
Lemma py_setitem_ok {A} (l : list A) i x : (exists l', py_setitem l i x = Some l') <-> (- Z.of_nat (length l) <= i < Z.of_nat (length l))%Z.
Proof.
  assert (N : forall (l : list A) n, (exists l', set_nth l n x = Some l') <-> (n < length l)%nat).
  { induction l0 as [|y l0 IH]; intros [|n]; cbn; try (split; [intros (? & Q); discriminate|lia]).
    - split; [lia|eauto].
    - specialize (IH n). destruct (set_nth l0 n x) as [l'|].
      + split; [|eauto]. intros _. assert (n < length l0)%nat by (apply IH; eauto). lia.
      + split; [intros (? & Q); discriminate|]. intros H. destruct (proj2 IH) as (? & Q); [lia|discriminate]. }
  unfold py_setitem. destruct (i <? 0)%Z eqn:E1.
  - destruct (i + Z.of_nat (length l) <? 0)%Z eqn:E2; [split; [intros (? & Q); discriminate|lia]|]. rewrite N. lia.
  - rewrite N. lia.
Qed.
Lemma var_set_ok v name x w : snd (var_set py_int v name x w) = Ok tt <-> accepts py_int (w_heap w) (v_kind v) (v_ds v) name.
Proof.
  unfold var_set, accepts. destruct (v_kind v) as [| |raw|host].
  - destruct (py_int name) as [i|]; [|split; [discriminate|intros (l & j & _ & Q & _); discriminate]].
    unfold obj_set_index. destruct (nth_error (w_heap w) (v_ds v)) as [[l m|l []|l]|] eqn:N; try (split; [discriminate|intros (l0 & j & Q & _); discriminate]).
    pose proof (py_setitem_ok l i x) as (P1 & P2). destruct (py_setitem l i x) as [l'|] eqn:E.
    + destruct (set_nth_in _ _ (OList l' true) N) as (h' & ->). split; [|reflexivity]. intros _. exists l, i. csplit; auto; apply P1; eauto.
    + split; [discriminate|]. intros (l0 & j & Q & Q2 & B). injection Q as <-. injection Q2 as <-. destruct (P2 B) as (? & X). discriminate.
  - rewrite <- (set_key_ok (w_heap w) (v_ds v) (kstr name) x). destruct (obj_set_key _ _ _ _) as [h|e]; split; eauto; [discriminate|]. intros (? & Q); discriminate.
  - rewrite <- (set_key_ok (w_heap w) (v_ds v) (kstr name) x). destruct (obj_set_key (w_heap w) (v_ds v) (kstr name) x) as [h|e] eqn:E.
    + rewrite <- (set_key_dict _ _ _ _ raw E), <- (set_key_ok h raw (kstr name) x). destruct (obj_set_key h raw (kstr name) x) as [h2|e2].
      * split; auto. intros _. split; eauto.
      * split; [discriminate|]. intros (_ & ? & Q). discriminate.
    + split; [discriminate|]. intros ((? & Q) & _). discriminate.
  - rewrite <- (set_key_ok (w_heap w) (v_ds v) (kstr name) x). destruct (obj_set_key _ _ _ _) as [h|e]; split; eauto; [discriminate|]. intros (? & Q); discriminate.
Qed.
(** setVariable is accepted exactly if the reference is known, the value can be evaluated and
    Python's item assignment accepts the object and the name; otherwise it is refused. *)
Theorem C78_set_variable : forall ls y seq ref name value, trace_wf ls -> run sys_init ls y -> pending y = [] -> has_strategy y = true ->
  exists y', step y (LReq seq (RSetVariable ref name value)) = Some y' /\
   ((exists v f objs x, dget (w_vars (y_w y)) ref = Some v /\ dget (w_frames (y_w y)) (v_frame v) = Some f /\
       tmpl value (f_tv f) (w_heap (y_w y)) = Ok (objs, x) /\ accepts py_int (w_heap (y_w y) ++ objs) (v_kind v) (v_ds v) name) <->
    exists i, says y y' [Some (OSetVar seq i)]) /\
   ((forall i, ~ says y y' [Some (OSetVar seq i)]) -> says y y' [Some (OError CSetVariable seq)]).
Proof.
  intros ls y seq ref name value W R P HS. pose proof (run_sinv W R) as S. pose proof (y_inv S) as I.
  destruct (dget (w_vars (y_w y)) ref) as [v|] eqn:V.
  2:{ rewrite (req_step _ _ _ P HS). eexists. split; [reflexivity|]. cbn [y_w before_strategy]. rewrite wd_same. unfold SysModel.handle. cbn [process]. unfold set_variable. rewrite V. cbn.
      split; [|reflexivity]. split; [intros (? & ? & ? & ? & Q & _); discriminate|]. intros (i & Q). apply app_inv_head in Q. discriminate. }
  destruct (i_v I _ V) as (_ & f & F & _). destruct (tmpl value (f_tv f) (w_heap (y_w y))) as [(objs, x)|e] eqn:T.
  2:{ rewrite (req_step _ _ _ P HS). eexists. split; [reflexivity|]. cbn [y_w before_strategy]. rewrite wd_same. unfold SysModel.handle. cbn [process]. unfold set_variable. rewrite V, F, T. cbn.
      split; [|reflexivity]. split; [intros (v0 & f0 & ? & ? & Q & Q2 & Q3 & _); congruence|]. intros (i & Q). apply app_inv_head in Q. discriminate. }
  destruct (@set_step py_int py_repr type_name tmpl tmpl_args err_text parse_repl y seq ref name value v f objs x S P HS V F T) as (y' & o & E & O & _ & _ & _ & _ & _ & _ & K).
  exists y'. split; auto. pose proof (var_set_ok v name x (wh (w_heap (y_w y) ++ objs) (y_w y))) as OK. cbn [wh w_heap] in OK.
  destruct (snd (var_set py_int v name x _)) as [[]|e].
  - destruct K as (i & ->). split; [|intros N; destruct (N i O)]. split; [intros _; eauto|]. intros _. exists v, f, objs, x. csplit; auto. now apply OK.
  - destruct K as (-> & _). split; auto. split.
    + intros (v0 & f0 & objs0 & x0 & Q1 & Q2 & Q3 & A). assert (v0 = v) by congruence. subst v0. assert (f0 = f) by congruence. subst f0. rewrite T in Q3. injection Q3 as <- <-.
      apply OK in A. discriminate.
    + intros (i & Q). rewrite O in Q. apply app_inv_head in Q. discriminate.
Qed.

(** A request about a frame or a reference that does not exist is refused. *)
Theorem C78_unknown : forall ls y seq r c, trace_wf ls -> run sys_init ls y -> pending y = [] -> has_strategy y = true ->
  (exists fid, r = RScopes fid /\ c = CScopes /\ ~ frame_lives fid y) \/
  (exists fid e ctx, r = REvaluate e (Some fid) (Some ctx) /\ In ctx eval_contexts /\ fid <> 0 /\ c = CEvaluate /\ ~ frame_lives fid y) \/
  (exists ref, r = RVariables ref /\ c = CVariables /\ ~ In ref (dkeys (w_vars (y_w y)))) \/
  (exists ref n v, r = RSetVariable ref n v /\ c = CSetVariable /\ ~ In ref (dkeys (w_vars (y_w y)))) ->
  exists y', step y (LReq seq r) = Some y' /\ says y y' [Some (OError c seq)] /\ y_w y' = emit (OError c seq) (y_w y).
Proof.
  intros ls y seq r c W R P HS H. rewrite (req_step _ _ _ P HS). eexists. split; [reflexivity|]. cbn [y_w].
  enough (E : handle seq r (wd (before_strategy r (w_dbg (y_w y))) (y_w y)) = emit (OError c seq) (y_w y)) by (rewrite E; split; reflexivity).
  destruct H as [(fid & -> & -> & N)|[(fid & e & ctx & -> & CX & NZ & -> & N)|[(ref & -> & -> & N)|(ref & n & v & -> & -> & N)]]];
    cbn [before_strategy]; rewrite wd_same; unfold SysModel.handle; cbn [process]; apply dget_None in N.
  - unfold get_scopes. rewrite N. reflexivity.
  - unfold evaluate. cbn [frame_truthy]. rewrite (proj2 (N.eqb_neq _ _) NZ), N. destruct (_ && _); [reflexivity|].
    assert (CI : ctx_in (Some ctx) [s "repl"; s "watch"; s "clipboard"; s "variables"] = true) by (apply ctx_in_spec; eauto). now rewrite CI.
  - unfold get_variables. rewrite N. reflexivity.
  - unfold set_variable. rewrite N. reflexivity.
Qed.

(** The set-option and set-hostvar commands of the debug console are accepted exactly if the
    scopes were fetched, the expression evaluates and the dicts are modifiable. *)
Theorem C78_set_option : forall y seq rest fid f n e, pending y = [] -> has_strategy y = true -> fid <> 0 -> dget (w_frames (y_w y)) fid = Some f ->
  parse_repl rest = Ok (RcSetOption n e) ->
  exists y', step y (LReq seq (REvaluate (s "!" ++ rest) (Some fid) (Some (s "repl")))) = Some y' /\
    ((exists v objs x, dget (w_vars (y_w y)) (f_options f) = Some v /\ tmpl e (f_tv f) (w_heap (y_w y)) = Ok (objs, x) /\
        accepts py_int (w_heap (y_w y) ++ objs) (v_kind v) (v_ds v) n) <-> says y y' [Some (OEvaluate seq [] None)]) /\
    (~ says y y' [Some (OEvaluate seq [] None)] -> says y y' [Some (OError CEvaluate seq)]).
Proof.
  intros y seq rest fid f n e P HS NZ F PR.
  pose proof (@eval_step py_int py_repr type_name tmpl tmpl_args err_text parse_repl y seq (s "!" ++ rest) (Some fid) (Some (s "repl")) P HS) as G.
  unfold StratModel.evaluate in G. cbn [frame_truthy] in G. rewrite (proj2 (N.eqb_neq _ _) NZ) in G.
  assert (CM : ctx_in (Some (s "repl")) [s "repl"] && startswith (s "!" ++ rest) (s "!") = true) by reflexivity. rewrite CM, F in G.
  change (skipn 1 (s "!" ++ rest)) with rest in G. rewrite PR in G.
  assert (NE : forall y', says y y' [Some (OError CEvaluate seq)] -> ~ says y y' [Some (OEvaluate seq [] None)]).
  { intros y' A B. rewrite A in B. apply app_inv_head in B. discriminate. }
  destruct (tmpl e (f_tv f) (w_heap (y_w y))) as [(objs, x)|er] eqn:T.
  - cbn [set_vars] in G. change (w_vars (wh (w_heap (y_w y) ++ objs) (y_w y))) with (w_vars (y_w y)) in G. destruct (dget (w_vars (y_w y)) (f_options f)) as [v|] eqn:V.
    + pose proof (var_set_ok v n x (wh (w_heap (y_w y) ++ objs) (y_w y))) as OK. cbn [wh w_heap] in OK.
      destruct (var_set py_int v n x _) as (w1, [[]|e1]); cbn [snd] in OK; destruct G as (y' & E & _ & _ & _ & O); exists y'; split; auto.
      * split; [|now intros []]. split; auto. intros _. exists v, objs, x. csplit; auto. now apply OK.
      * split; [|auto]. split; [|intros B; destruct (NE _ O B)]. intros (v0 & objs0 & x0 & Q1 & Q2 & A). injection Q1 as <-. injection Q2 as <- <-. apply OK in A. discriminate.
    + destruct G as (y' & E & _ & _ & _ & O). exists y'. split; auto. split; auto. split; [|intros B; destruct (NE _ O B)]. intros (v0 & _ & _ & Q & _). discriminate.
  - destruct G as (y' & E & _ & _ & _ & O). exists y'. split; auto. split; auto. split; [|intros B; destruct (NE _ O B)]. intros (v0 & o0 & x0 & _ & Q & _). discriminate.
Qed.
Theorem C78_set_hostvar : forall y seq rest fid f n e vt vh host, pending y = [] -> has_strategy y = true -> fid <> 0 -> dget (w_frames (y_w y)) fid = Some f ->
  parse_repl rest = Ok (RcSetHostvar n e) ->
  dget (w_vars (y_w y)) (f_taskvar f) = Some vt -> v_kind vt = VKDict -> dget (w_vars (y_w y)) (f_hostvars f) = Some vh -> v_kind vh = VKHost host ->
  exists y', step y (LReq seq (REvaluate (s "!" ++ rest) (Some fid) (Some (s "repl")))) = Some y' /\
    ((exists objs x, tmpl e (f_tv f) (w_heap (y_w y)) = Ok (objs, x) /\ is_mut_dict (w_heap (y_w y) ++ objs) (v_ds vt) /\ is_mut_dict (w_heap (y_w y) ++ objs) (v_ds vh)) <->
     says y y' [Some (OEvaluate seq [] None)]) /\
    (~ says y y' [Some (OEvaluate seq [] None)] -> says y y' [Some (OError CEvaluate seq)]).
Proof.
  intros y seq rest fid f n e vt vh host P HS NZ F PR V1 K1 V2 K2.
  pose proof (@eval_step py_int py_repr type_name tmpl tmpl_args err_text parse_repl y seq (s "!" ++ rest) (Some fid) (Some (s "repl")) P HS) as G.
  unfold StratModel.evaluate in G. cbn [frame_truthy] in G. rewrite (proj2 (N.eqb_neq _ _) NZ) in G.
  assert (CM : ctx_in (Some (s "repl")) [s "repl"] && startswith (s "!" ++ rest) (s "!") = true) by reflexivity. rewrite CM, F in G.
  change (skipn 1 (s "!" ++ rest)) with rest in G. rewrite PR in G.
  assert (NE : forall y', says y y' [Some (OError CEvaluate seq)] -> ~ says y y' [Some (OEvaluate seq [] None)]).
  { intros y' A B. rewrite A in B. apply app_inv_head in B. discriminate. }
  destruct (tmpl e (f_tv f) (w_heap (y_w y))) as [(objs, x)|er] eqn:T.
  2:{ destruct G as (y' & E & _ & _ & _ & O). exists y'. split; auto. split; auto. split; [|intros B; destruct (NE _ O B)]. intros (o0 & x0 & Q & _). discriminate. }
  cbn [set_vars] in G. change (w_vars (wh (w_heap (y_w y) ++ objs) (y_w y))) with (w_vars (y_w y)) in G. rewrite V1 in G. unfold var_set at 1 in G. rewrite K1 in G.
  cbn [wh w_heap] in G. set (h := w_heap (y_w y) ++ objs) in *. pose proof (set_key_ok h (v_ds vt) (kstr n) x) as (S1 & S2).
  destruct (obj_set_key h (v_ds vt) (kstr n) x) as [h1|e1] eqn:SK.
  2:{ destruct G as (y' & E & _ & _ & _ & O). exists y'. split; auto. split; auto. split; [|intros B; destruct (NE _ O B)]. intros (o0 & x0 & Q & M & _).
      assert (o0 = objs) by congruence. subst o0. destruct (S2 M) as (? & ?). discriminate. }
  match type of G with context [dget (w_vars ?w1) (f_hostvars f)] => change (w_vars w1) with (w_vars (y_w y)) in G end. rewrite V2 in G.
  unfold var_set in G. rewrite K2 in G. cbn [wh w_heap] in G. pose proof (set_key_ok h1 (v_ds vh) (kstr n) x) as (S3 & S4). pose proof (set_key_dict _ _ _ _ (v_ds vh) SK) as D.
  destruct (obj_set_key h1 (v_ds vh) (kstr n) x) as [h2|e2].
  - destruct G as (y' & E & _ & _ & _ & O). exists y'. split; auto. split; [|now intros []]. split; auto. intros _. exists objs, x. split; auto. split; [apply S1; eauto|]. apply D, S3. eauto.
  - destruct G as (y' & E & _ & _ & _ & O). exists y'. split; auto. split; auto. split; [|intros B; destruct (NE _ O B)]. intros (o0 & x0 & Q & _ & M).
    assert (o0 = objs) by congruence. subst o0. apply D in M. destruct (S4 M) as (? & ?). discriminate.
Qed.

(** The breakpoints, filters, path mappings, known lines and flags of the debugger, and every
    thread, are the same. *)
Definition untouched (w w' : World) : Prop :=
  w_threads w' = w_threads w /\ dkeys (w_frames w') = dkeys (w_frames w) /\
  d_bps (w_dbg w') = d_bps (w_dbg w) /\ d_exc (w_dbg w') = d_exc (w_dbg w) /\ d_maps (w_dbg w') = d_maps (w_dbg w) /\ d_src (w_dbg w') = d_src (w_dbg w) /\
  d_confdone (w_dbg w') = d_confdone (w_dbg w) /\ d_term (w_dbg w') = d_term (w_dbg w).
Lemma un_refl w : untouched w w.
Proof. unfold untouched. csplit; auto. Qed.
Lemma un_trans w1 w2 w3 : untouched w1 w2 -> untouched w2 w3 -> untouched w1 w3.
Proof. unfold untouched. intuition congruence. Qed.
Lemma un_ss w w' : w_ss w' = w_ss w -> w_dbg w' = w_dbg w -> untouched w w'.
Proof. unfold untouched, w_threads, w_frames. intros -> ->. csplit; auto. Qed.
Lemma un_emit o w : untouched w (emit o w).
Proof. unfold untouched. csplit; auto. Qed.
Lemma un_add fid k a w : untouched w (snd (add_var fid k a w)).
Proof.
  unfold untouched, add_var. cbn -[dkeys dset dget]. csplit; auto. destruct (dget _ fid) as [f|] eqn:E; auto. cbn -[dkeys dset dget] in *. apply dkeys_dset_in.
  eapply dget_Some_key; eauto.
Qed.
Lemma un_heap h w : untouched w (wh h w).
Proof. unfold untouched. csplit; auto. Qed.
Lemma un_frame f f0 w : dget (w_frames w) (f_id f) = Some f0 -> untouched w (set_frame f w).
Proof. intros H. unfold untouched. cbn -[dkeys dset dget]. csplit; auto. apply dkeys_dset_in. eapply dget_Some_key; eauto. Qed.
Lemma un_upd (g : Frame -> Frame) fid w : (forall f, f_id (g f) = f_id f) -> (forall f, dget (w_frames w) fid = Some f -> f_id f = fid) ->
  untouched w (match dget (w_frames w) fid with Some f => set_frame (g f) w | None => w end).
Proof. intros G F. destruct (dget (w_frames w) fid) as [f|] eqn:E; [|apply un_refl]. apply (@un_frame (g f) f). rewrite G, (F _ eq_refl). exact E. Qed.
Definition fok (fid : N) (w : World) : Prop := forall f, dget (w_frames w) fid = Some f -> f_id f = fid.
Lemma fok_add fid k a w : fok fid w -> fok fid (snd (add_var fid k a w)).
Proof.
  unfold fok, add_var. cbn -[dset dget]. intros H f. destruct (dget (w_frames _) fid) as [f0|] eqn:E; cbn -[dset dget] in *; [|intros X; change (dget (w_frames w) fid = Some f) in X; congruence].
  rewrite dget_dset_same. intros Q. injection Q as <-. exact (H _ eq_refl).
Qed.
Lemma fok_upd (g : Frame -> Frame) fid w : (forall f, f_id (g f) = f_id f) -> fok fid w ->
  fok fid (match dget (w_frames w) fid with Some f => set_frame (g f) w | None => w end).
Proof.
  intros G H. destruct (dget (w_frames w) fid) as [f|] eqn:E; auto. intros f'. cbn -[dset dget]. rewrite G, (H _ E), dget_dset_same. intros Q. injection Q as <-. now rewrite G, (H _ E).
Qed.
Lemma scope_step (g : Frame -> Frame) fid k a w : (forall f, f_id (g f) = f_id f) -> fok fid w ->
  let w1 := snd (add_var fid k a w) in let w2 := match dget (w_frames w1) fid with Some f => set_frame (g f) w1 | None => w1 end in
  untouched w w2 /\ fok fid w2.
Proof.
  intros G H w1 w2. pose proof (un_add fid k a w) as U1. pose proof (fok_add k a H) as F1. fold w1 in U1, F1. split; [|now apply fok_upd].
  eapply un_trans; [exact U1|]. now apply un_upd.
Qed.
Lemma scopes_untouched seq fid w : WInv w -> untouched w (fst (get_scopes tmpl_args seq fid w)).
Proof.
  intros I. unfold get_scopes. destruct (dget (w_frames w) fid) as [f|] eqn:F; [|apply un_refl].
  destruct (tmpl_args (f_args f) (f_tv f) (w_heap w)) as [(objs, targs)|e]; [|apply un_refl]. destruct (addr_of targs) as [ta|e]; [|apply un_refl].
  assert (F1 : fok fid (wh (w_heap w ++ objs) w)) by (intros f0 Q; exact (proj1 (i_f I _ Q))).
  pose proof (un_heap (w_heap w ++ objs) w) as U1. set (w1 := wh (w_heap w ++ objs) w) in *. clearbody w1.
  destruct (add_var fid (VKRaw (f_args f)) ta w1) as (oid, w2a) eqn:A2.
  pose proof (@scope_step (f_with_options oid) fid (VKRaw (f_args f)) ta w1 (fun _ => eq_refl) F1) as X2. rewrite A2 in X2. cbn [snd] in X2.
  set (w2 := match dget (w_frames w2a) fid with Some f2 => set_frame (f_with_options oid f2) w2a | None => w2a end) in *. clearbody w2. destruct X2 as (U2 & F2).
  set (tvk := match container_kind (w_heap w2) (VRef (f_tv f)) with Some k => k | None => VKList end).
  destruct (add_var fid tvk (f_tv f) w2) as (tid, w3a) eqn:A3.
  pose proof (@scope_step (f_with_taskvar tid) fid tvk (f_tv f) w2 (fun _ => eq_refl) F2) as X3. rewrite A3 in X3. cbn [snd] in X3.
  set (w3 := match dget (w_frames w3a) fid with Some f3 => set_frame (f_with_taskvar tid f3) w3a | None => w3a end) in *. clearbody w3. destruct X3 as (U3 & F3).
  pose proof (un_trans U1 (un_trans U2 U3)) as U13.
  match goal with |- context [bind ?a ?b] => destruct (bind a b) as [(name, items)|e] end; [|exact U13].
  set (am := amalgamate items _). pose proof (un_heap (w_heap w3 ++ [ODict am true]) w3) as U4. set (w4 := wh (w_heap w3 ++ [ODict am true]) w3) in *.
  assert (F4 : fok fid w4) by exact F3. clearbody w4.
  destruct (add_var fid (VKHost name) (length (w_heap w3)) w4) as (hid, w5a) eqn:A5.
  pose proof (@scope_step (f_with_hostvars hid) fid (VKHost name) (length (w_heap w3)) w4 (fun _ => eq_refl) F4) as X5. rewrite A5 in X5. cbn [snd] in X5.
  set (w5 := match dget (w_frames w5a) fid with Some f5 => set_frame (f_with_hostvars hid f5) w5a | None => w5a end) in *. clearbody w5. destruct X5 as (U5 & F5).
  pose proof (un_trans U13 (un_trans U4 U5)) as U15.
  match goal with |- context [bind ?a ?b] => destruct (bind a b) as [(ga, gk)|e] end; [|exact U15].
  pose proof (un_add fid gk ga w5) as U6. destruct (add_var fid gk ga w5) as (gid, w6). cbn [snd] in U6. pose proof (un_trans U15 U6) as U16.
  destruct (N.eqb _ 0); [exact U16|]. destruct (dget (w_vars w6) _); exact U16.
Qed.
(** A refused request changes no breakpoint, filter, thread or flag. *)
Theorem C78_refused_harmless : forall ls y seq r y' c seq', trace_wf (ls ++ [LReq seq r]) -> run sys_init ls y -> step y (LReq seq r) = Some y' ->
  says y y' [Some (OError c seq')] ->
  c = cmd_of r /\ seq' = seq /\ untouched (y_w y) (y_w y') /\ y_phase y' = y_phase y /\ y_open y' = y_open y /\ pending y' = pending y.
Proof.
  intros ls y seq r y' c seq' W R E O. apply Forall_app in W. destruct W as (W1 & W2). inversion W2 as [|? ? W3 _]; subst. pose proof (run_sinv W1 R) as S. pose proof (y_inv S) as I.
  cbn [SysModel.step] in E. unfold pending. destruct (y_recv y) as [q|] eqn:RC; [discriminate|].
  destruct (needs_strategy r && negb (has_strategy y)) eqn:NS.
  { exfalso. injection E as <-. cbn in O. assert (X : d_out (before_strategy r (w_dbg (y_w y))) = d_out (w_dbg (y_w y))) by (destruct r; reflexivity).
    rewrite X in O. rewrite <- (app_nil_r (d_out _)) in O at 1. apply app_inv_head in O. discriminate. }
  injection E as <-. cbn [y_phase y_open y_recv y_w] in *.
  assert (NB : (exists tm, r = RDisconnect tm) \/ r = RTerminate \/ wd (before_strategy r (w_dbg (y_w y))) (y_w y) = y_w y) by (destruct r; eauto; right; right; apply wd_same).
  assert (OU : forall w o, untouched (y_w y) w -> untouched (y_w y) (emit o w)) by (intros; eapply un_trans; [eassumption|apply un_emit]).
  enough (H : c = cmd_of r /\ seq' = seq /\ untouched (y_w y) (handle seq r (wd (before_strategy r (w_dbg (y_w y))) (y_w y)))) by tauto.
  assert (BAD : forall r0 w' (o : Out), d_out (w_dbg w') = d_out (w_dbg (y_w y)) -> d_out (w_dbg (emit o w')) = d_out (w_dbg (y_w y)) ++ [Some (OError c seq')] ->
     untouched (y_w y) w' -> o = OError (cmd_of r0) seq -> c = cmd_of r0 /\ seq' = seq /\ untouched (y_w y) (emit o w')).
  { intros r0 w' o A B U ->. cbn in B. rewrite A in B. apply app_inv_head in B. injection B as <- <-. auto. }
  assert (BAD2 : forall w' (o : Out), d_out (w_dbg w') = d_out (w_dbg (y_w y)) -> d_out (w_dbg (emit o w')) = d_out (w_dbg (y_w y)) ++ [Some (OError c seq')] -> o = OError c seq').
  { intros w' o A B. cbn in B. rewrite A in B. apply app_inv_head in B. now injection B. }
  destruct NB as [(tm & ->)|[->|NB]].
  - exfalso. set (w := wd _ _) in O. unfold SysModel.handle in O. cbn [process] in O. unfold disconnect in O.
    match type of O with context [resume _ ?st _] => pose proof (resume_all_ok st w) as OK; pose proof (resume_out st (dkeys (w_threads w)) w) as D end.
    destruct (resume _ _ _) as (w1, [u|e]); try discriminate. cbn in D, O. rewrite D in O. apply app_inv_head in O. discriminate.
  - exfalso. set (w := wd _ _) in O. unfold SysModel.handle in O. cbn [process] in O. unfold disconnect in O.
    match type of O with context [resume _ ?st _] => pose proof (resume_all_ok st w) as OK; pose proof (resume_out st (dkeys (w_threads w)) w) as D end.
    destruct (resume _ _ _) as (w1, [u|e]); try discriminate. cbn in D, O. rewrite D, <- app_assoc in O. apply app_inv_head in O. discriminate.
  - rewrite NB in O |- *. clear NB. unfold SysModel.handle in *. destruct r; cbn [process cmd_of] in *.
    + exfalso. cbn in O. apply app_inv_head in O. discriminate.
    + unfold continue_request in *. destruct single.
      * cbn [resume] in *. destruct (dget (w_threads (y_w y)) tid) as [t|]; cbn [reply] in *; [exfalso; apply BAD2 in O; [discriminate|reflexivity]|]. apply (@BAD (RContinue tid true) _ _ eq_refl O); auto. apply un_refl.
      * exfalso. pose proof (resume_all_ok TContinue (y_w y)) as OK. pose proof (resume_out TContinue (dkeys (w_threads (y_w y))) (y_w y)) as D.
        destruct (resume _ _ _) as (w1, [u|e]); try discriminate. cbn [reply fst] in *. apply BAD2 in O; [discriminate|auto].
    + exfalso. unfold disconnect in O. match type of O with context [resume _ ?st _] => pose proof (resume_all_ok st (y_w y)) as OK; pose proof (resume_out st (dkeys (w_threads (y_w y))) (y_w y)) as D end.
      destruct (resume _ _ _) as (w1, [u|e]); try discriminate. cbn in D, O. rewrite D in O. apply app_inv_head in O. discriminate.
    + pose proof (@evaluate_ss py_int py_repr type_name tmpl err_text parse_repl seq expr frame ctx (y_w y)) as G.
      destruct (evaluate py_int py_repr type_name tmpl err_text parse_repl seq expr frame ctx (y_w y)) as (w', [o|e]); destruct G as (A & B & C); cbn [reply] in *.
      * destruct C as (v & ty & ->). exfalso. apply BAD2 in O; [discriminate|now rewrite B].
      * apply (@BAD (REvaluate expr frame ctx) w' _); auto; [now rewrite B|now apply un_ss].
    + unfold step_over in *. cbn [resume] in *. destruct (dget (w_threads (y_w y)) tid) as [t|]; cbn [ack] in *; [exfalso; apply BAD2 in O; [discriminate|reflexivity]|]. apply (@BAD (RNext tid) _ _ eq_refl O); auto. apply un_refl.
    + pose proof (@get_scopes_spec tmpl_args seq frame (y_w y) I) as G. pose proof (@scopes_untouched seq frame (y_w y) I) as U.
      destruct (get_scopes tmpl_args seq frame (y_w y)) as (w', [o|e]); cbn [reply fst] in *; destruct G as (_ & _ & OO & _ & _ & _ & K).
      * destruct K as (? & ? & ? & ? & ? & ? & ? & ? & ? & ? & _ & -> & _). exfalso. apply BAD2 in O; [discriminate|auto].
      * apply (@BAD (RScopes frame) w' _); auto.
    + exfalso. cbn in O. apply app_inv_head in O. discriminate.
    + exfalso. destruct (dwf_binv (y_dwf S)) as (ops & B). destruct (@set_bps_dext (w_dbg (y_w y)) ops seq src bps modified B W3) as (infos & E & X). rewrite E in O. cbn [w_dbg wd] in O.
      rewrite X in O. apply app_inv_head in O. discriminate.
    + pose proof (@set_variable_spec py_int py_repr type_name tmpl seq ref name value (y_w y) I) as G. unfold set_variable in *.
      destruct (dget (w_vars (y_w y)) ref) as [v|]; [|apply (@BAD (RSetVariable ref name value) _ _ eq_refl O); auto; apply un_refl].
      destruct (dget (w_frames (y_w y)) (v_frame v)) as [f|]; [|apply (@BAD (RSetVariable ref name value) _ _ eq_refl O); auto; apply un_refl].
      destruct (tmpl value (f_tv f) (w_heap (y_w y))) as [(objs, x)|e]; [|apply (@BAD (RSetVariable ref name value) _ _ eq_refl O); auto; apply un_refl].
      pose proof (@var_set_ss py_int v name x (wh (w_heap (y_w y) ++ objs) (y_w y))) as (A & B).
      destruct (var_set py_int v name x _) as (w2, [u|e]); cbn [fst] in *.
      * destruct (container (v_frame v) x w2) as (id, w3). destruct G as (_ & _ & OO & _). cbn [reply] in O. exfalso. apply BAD2 in O; [discriminate|auto].
      * cbn [reply] in *. apply (@BAD (RSetVariable ref name value) w2 _); auto; [now rewrite B|]. eapply un_trans; [apply (un_heap (w_heap (y_w y) ++ objs))|now apply un_ss].
    + unfold get_stacktrace in *. destruct (dget (w_threads (y_w y)) tid) as [t|]; cbn [reply] in *; [|apply (@BAD (RStackTrace tid) _ _ eq_refl O); auto; apply un_refl].
      destruct (bind _ _) as [o|e] eqn:BE; cbn [reply] in *; [|apply (@BAD (RStackTrace tid) _ _ eq_refl O); auto; apply un_refl].
      exfalso. apply BAD2 in O; [|reflexivity]. subst o. unfold bind in BE. destruct (mapM _ _); discriminate.
    + unfold step_in in *. cbn [resume] in *. destruct (dget (w_threads (y_w y)) tid) as [t|]; cbn [ack] in *; [exfalso; apply BAD2 in O; [discriminate|reflexivity]|]. apply (@BAD (RStepIn tid) _ _ eq_refl O); auto. apply un_refl.
    + unfold step_out in *. cbn [resume] in *. destruct (dget (w_threads (y_w y)) tid) as [t|]; cbn [ack] in *; [exfalso; apply BAD2 in O; [discriminate|reflexivity]|]. apply (@BAD (RStepOut tid) _ _ eq_refl O); auto. apply un_refl.
    + exfalso. unfold disconnect in O. match type of O with context [resume _ ?st _] => pose proof (resume_all_ok st (y_w y)) as OK; pose proof (resume_out st (dkeys (w_threads (y_w y))) (y_w y)) as D end.
      destruct (resume _ _ _) as (w1, [u|e]); try discriminate. cbn in D, O. rewrite D, <- app_assoc in O. apply app_inv_head in O. discriminate.
    + exfalso. cbn [get_threads reply] in O. apply BAD2 in O; [discriminate|reflexivity].
    + unfold get_variables in *. pose proof (@get_variables_spec py_repr type_name seq ref (y_w y) I) as G. unfold get_variables in G. destruct (dget (w_vars (y_w y)) ref) as [v|]; [|apply (@BAD (RVariables ref) _ _ eq_refl O); auto; apply un_refl].
      destruct (list_children _ _ _ _ _) as (w', infos). destruct G as (_ & _ & _ & _ & OO & _). exfalso. cbn [reply] in O. apply BAD2 in O; [discriminate|auto].
    + apply (@BAD (ROther _) _ _ eq_refl O); auto. apply un_refl.
Qed.
End S.

(** Each theorem, on a stopped session: requests that are accepted and that are refused. *)
Definition reply_of (ls : list label) (r : Req) : option (list (option Out)) :=
  match dstep (after ls) (LReq 50 r) with
  | Some y' => Some (skipn (length (d_out (w_dbg (y_w (after ls))))) (d_out (w_dbg (y_w y'))))
  | None => None end.
Example C78_resume_met : pending (after demo_vars) = [] /\ has_strategy (after demo_vars) = true /\ In 2 (dkeys (w_threads (y_w (after demo_vars)))) /\ ~ In 9 (dkeys (w_threads (y_w (after demo_vars)))) /\
  reply_of demo_vars (RNext 2) = Some [Some (OAck CNext 50)] /\ reply_of demo_vars (RNext 9) = Some [Some (OError CNext 50)] /\
  reply_of demo_vars (RContinue 2 true) = Some [Some (OContinue 50 false)] /\ reply_of demo_vars (RContinue 9 false) = Some [Some (OContinue 50 true)].
Proof.
  assert (E : dkeys (w_threads (y_w (after demo_vars))) = [1; 2]) by (vm_compute; reflexivity). rewrite E. csplit; try (vm_compute; reflexivity); [cbn; auto|].
  cbn. intros [H|[H|[]]]; discriminate.
Qed.
Example C78_stack_trace_met : reply_of demo_vars (RStackTrace 9) = Some [Some (OError CStackTrace 50)] /\
  exists l, reply_of demo_vars (RStackTrace 2) = Some [Some (OFrames 50 l 1)] /\ map fi_id l = [1].
Proof. split; [vm_compute; reflexivity|]. eexists. split; vm_compute; reflexivity. Qed.
Example C78_set_variable_met :
  (exists i, reply_of demo_list (RSetVariable 7 (s "1") (s "new")) = Some [Some (OSetVar 50 i)]) /\
  reply_of demo_list (RSetVariable 7 (s "x") (s "new")) = Some [Some (OError CSetVariable 50)] /\
  reply_of demo_list (RSetVariable 7 (s "1") (s "bad")) = Some [Some (OError CSetVariable 50)] /\
  reply_of demo_list (RSetVariable 99 (s "1") (s "new")) = Some [Some (OError CSetVariable 50)].
Proof. split; [eexists|]; csplit; vm_compute; reflexivity. Qed.
(** Before the scopes were fetched the console's set-option is refused. *)
Example C78_set_option_met : reply_of demo_stop (REvaluate (s "!so") (Some 1) (Some (s "repl"))) = Some [Some (OError CEvaluate 50)] /\
  reply_of demo_vars (REvaluate (s "!so") (Some 1) (Some (s "repl"))) = Some [Some (OEvaluate 50 [] None)] /\
  reply_of demo_vars (REvaluate (s "!sh") (Some 1) (Some (s "repl"))) = Some [Some (OEvaluate 50 [] None)].
Proof. csplit; vm_compute; reflexivity. Qed.
Example C78_unknown_met : ~ frame_lives 9 (after demo_vars) /\ reply_of demo_vars (RScopes 9) = Some [Some (OError CScopes 50)] /\
  reply_of demo_vars (REvaluate (s "x") (Some 9) (Some (s "watch"))) = Some [Some (OError CEvaluate 50)] /\ reply_of demo_vars (RVariables 99) = Some [Some (OError CVariables 50)].
Proof.
  assert (E : dkeys (w_frames (y_w (after demo_vars))) = [1]) by (vm_compute; reflexivity).
  split; [unfold frame_lives; rewrite E; intros [H|[]]; discriminate|]. csplit; vm_compute; reflexivity.
Qed.
Print Assumptions C78_resume.
Print Assumptions C78_continue_all.
Print Assumptions C78_stack_trace.
Print Assumptions C78_end.
Print Assumptions C78_without_play.
Print Assumptions C78_set_variable.
Print Assumptions C78_unknown.
Print Assumptions C78_set_option.
Print Assumptions C78_set_hostvar.
Print Assumptions C78_refused_harmless.
