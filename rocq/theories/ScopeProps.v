(** C82: what the client sees and changes at a stop is what the task runs with. *)
From Verif Require Import PyBase PyDict Digits DbgTypes BpModel BpSpec BpProofs BpProofs2 BpProofs3 BpProps ThreadModel ThreadSpec StratModel SysModel SysSpec SysProofs SysProofs2 SysProofs3 SysProofs4 SysProofs5 SysProofs6 SysProofs7 SysProofs8 SysProofs9 SysProofs10 SysProofs11 SysProofs12 SysProofs13 SysProps SysVars SysVars2 SysVars3 SysVars4 SysDemo HistSpec HistProps StackSpec StackProofs StackProps LeadSpec LeadProofs LeadProps ScopeSpec ScopeProofs.
Set Implicit Arguments.
Local Open Scope N_scope.
Ltac csplit := repeat match goal with |- _ /\ _ => split end.

(** Everything that is not an edit leaves the existing objects alone. *)
Definition kept_data (w w' : World) : Prop := hext (w_heap w) (w_heap w') /\ w_persist w' = w_persist w.
Lemma kd_refl w : kept_data w w. Proof. split; [apply hext_refl|reflexivity]. Qed.
Lemma kd_trans a b c : kept_data a b -> kept_data b c -> kept_data a c.
Proof. intros (A & B) (C & D). split; [eapply hext_trans; eauto|congruence]. Qed.
Lemma kd_same w w' : w_heap w' = w_heap w -> w_persist w' = w_persist w -> kept_data w w'.
Proof. intros A B. split; [rewrite A; apply hext_refl|exact B]. Qed.
Lemma kd_app l w w' : w_heap w' = w_heap w ++ l -> w_persist w' = w_persist w -> kept_data w w'.
Proof. intros A B. split; [rewrite A; apply hext_app|exact B]. Qed.

Lemma micro_data w w' : micro w w' -> w_heap w' = w_heap w /\ w_persist w' = w_persist w.
Proof.
  intros M. destruct M as [d Q|k t t' H S|h F|a tid t H N|tid t sfid rest f vs H1 H2 H3 H4|fid k ds g f H S|tid t N H]; try (split; reflexivity).
  unfold add_var. cbn -[dset dget]. match goal with |- context [dget ?a ?b] => destruct (dget a b) end; cbn -[dset dget]; auto;
  match goal with |- context [match ?x with Some _ => _ | None => _ end] => destruct x end; split; reflexivity.
Qed.
Lemma msteps_data w w' : WInv w -> msteps w w' -> kept_data w w'.
Proof.
  apply (msteps_rel kept_data); [intros; apply kd_refl|intros; eapply kd_trans; eauto|]. intros. destruct (micro_data H0). now apply kd_same.
Qed.

Lemma resume_data l st : forall w, kept_data w (fst (resume l st w)).
Proof.
  induction l as [|k l IH]; intros w; cbn -[dget dset]; [apply kd_refl|]. destruct (dget (w_threads w) k); [|apply kd_refl].
  eapply kd_trans; [|apply IH]. apply kd_same; reflexivity.
Qed.
Lemma add_var_data fid k a w : kept_data w (snd (add_var fid k a w)).
Proof. unfold add_var. cbn -[dget dset]. apply kd_same; reflexivity. Qed.
Lemma set_opt_data (g : N -> Frame -> Frame) id fid w : kept_data w (match dget (w_frames w) fid with Some f => set_frame (g id f) w | None => w end).
Proof. destruct (dget _ _); [apply kd_same; reflexivity|apply kd_refl]. Qed.

Lemma tail_eq A (a b c d : list A) : a ++ b = c ++ d -> length b = length d -> b = d.
Proof.
  revert c. induction a as [|x a IH]; intros [|z c] E L; cbn in E; auto.
  - exfalso. apply (f_equal (@length A)) in E. cbn in E. rewrite app_length in E. lia.
  - exfalso. apply (f_equal (@length A)) in E. cbn in E. rewrite app_length in E. lia.
  - injection E as _ E. eauto.
Qed.
Lemma container_data fid v w : kept_data w (snd (container fid v w)).
Proof.
  unfold container. destruct (container_kind _ _); [|apply kd_refl]. destruct v; [apply kd_refl|].
  pose proof (add_var_data fid v0 a w) as X. destruct (add_var fid v0 a w). exact X.
Qed.
Lemma asdict_data v h h' v' : asdict v h = Some (h', v') -> hext h h'.
Proof. unfold asdict. destruct v; [discriminate|]. destruct (nth_error _ _) as [[]|]; try discriminate. intros H; injection H as <- _. apply hext_app. Qed.

Section S.
Variable py_int : pystr -> option Z.
Variable py_repr : heap -> val -> pystr.
Variable type_name : heap -> val -> pystr.
Variable tmpl : pystr -> nat -> heap -> res (list obj * val).
Variable tmpl_args : nat -> nat -> heap -> res (list obj * val).
Variable err_text : exn -> pystr.
Variable parse_repl : pystr -> res ReplCmd.
Notation process := (process py_int py_repr type_name tmpl tmpl_args err_text parse_repl).
Notation handle := (handle py_int py_repr type_name tmpl tmpl_args err_text parse_repl).
Notation step := (step py_int py_repr type_name tmpl tmpl_args err_text parse_repl).
Notation run := (run py_int py_repr type_name tmpl tmpl_args err_text parse_repl).
Notation out y := (d_out (w_dbg (y_w y))).
Notation answered := (answered step).

Lemma children_data fid l : forall w, kept_data w (fst (list_children py_repr type_name fid l w)).
Proof.
  induction l as [|(name, v) l IH]; intros w; cbn [list_children]; [apply kd_refl|].
  set (p := match asdict v (w_heap w) with Some _ => _ | None => _ end).
  assert (X : kept_data w (snd p)).
  { subst p. destruct (asdict v (w_heap w)) as [(h', v')|] eqn:E; [|apply container_data].
    eapply kd_trans; [|apply container_data]. split; [exact (asdict_data _ _ E)|reflexivity]. }
  destruct p as (id, w1). cbn [snd] in X. specialize (IH w1). destruct (list_children _ _ fid l w1) as (w2, infos). cbn [fst] in *. eapply kd_trans; eauto.
Qed.
Lemma scopes_data seq fid w : kept_data w (fst (get_scopes tmpl_args seq fid w)).
Proof.
  unfold get_scopes. destruct (dget (w_frames w) fid) as [f|]; [|apply kd_refl]. destruct (tmpl_args _ _ _) as [(objs, targs)|]; [|apply kd_refl].
  destruct (addr_of targs) as [ta|]; [|apply kd_refl].
  pose proof (add_var_data fid (VKRaw (f_args f)) ta (wh (w_heap w ++ objs) w)) as A1. destruct (add_var fid (VKRaw (f_args f)) ta _) as (oid, w2).
  assert (K2 : kept_data w w2) by (eapply kd_trans; [apply (@kd_app objs w (wh (w_heap w ++ objs) w)); reflexivity|exact A1]). clear A1.
  pose proof (kd_trans K2 (set_opt_data f_with_options oid fid w2)) as K2'. cbv zeta. set (w2' := match dget (w_frames w2) fid with Some _ => _ | None => w2 end) in *. clearbody w2'.
  match goal with |- context [add_var fid ?k (f_tv f) w2'] => pose proof (add_var_data fid k (f_tv f) w2') as A3; destruct (add_var fid k (f_tv f) w2') as (tid, w3) end.
  pose proof (kd_trans (kd_trans K2' A3) (set_opt_data f_with_taskvar tid fid w3)) as K3. set (w3' := match dget (w_frames w3) fid with Some _ => _ | None => w3 end) in *. clearbody w3'.
  match goal with |- context [match ?x with Ok _ => _ | Err _ => _ end] => destruct x as [(name, items)|e] end; [|exact K3].
  match goal with |- context [add_var fid (VKHost name) ?n ?ww] => pose proof (add_var_data fid (VKHost name) n ww) as A5; assert (K4 : kept_data w ww) by (eapply kd_trans; [exact K3|]; eapply kd_app; reflexivity); destruct (add_var fid (VKHost name) n ww) as (hid, w5) end.
  pose proof (kd_trans (kd_trans K4 A5) (set_opt_data f_with_hostvars hid fid w5)) as K5. set (w5' := match dget (w_frames w5) fid with Some _ => _ | None => w5 end) in *. clearbody w5'.
  match goal with |- context [match ?x with Ok _ => _ | Err _ => _ end] => destruct x as [(ga, gk)|e] end; [|exact K5].
  pose proof (kd_trans K5 (add_var_data fid gk ga w5')) as K6. destruct (add_var fid gk ga w5') as (gid, w6). cbn [snd] in K6.
  destruct (N.eqb _ 0); [exact K6|]. match goal with |- context [match ?x with Some _ => _ | None => _ end] => destruct x end; exact K6.
Qed.
Lemma safe_data e tv w : kept_data w (fst (safe_evaluate py_repr type_name tmpl err_text e tv w)).
Proof. unfold safe_evaluate. destruct (tmpl _ _ _) as [(objs, v)|]; [|apply kd_refl]. eapply kd_app; reflexivity. Qed.

Lemma reply_data w x : kept_data w (fst x) -> kept_data w (fst (reply x)).
Proof. destruct x as (w', [o|e]); cbn [fst reply]; auto. Qed.
Lemma ack_data w c seq x : kept_data w (fst x) -> kept_data w (fst (ack c seq x)).
Proof. destruct x as (w', [o|e]); cbn [fst ack]; auto. Qed.
Lemma process_data seq r w : ~ edits r -> kept_data w (fst (process seq r w)).
Proof.
  intros N. destruct r; cbn [SysModel.process]; try (apply ack_data, resume_data); try (apply kd_same; reflexivity).
  - apply reply_data. unfold continue_request. destruct single.
    + pose proof (resume_data [tid] TContinue w) as X. destruct (resume _ _ _) as (w', [u|e]); exact X.
    + pose proof (resume_data (dkeys (w_threads w)) TContinue w) as X. destruct (resume _ _ _) as (w', [u|e]); exact X.
  - unfold disconnect. match goal with |- context [resume ?a ?b w] => pose proof (resume_data a b w) as X; destruct (resume a b w) as (w', [u|e]); exact X end.
  - apply reply_data. unfold evaluate. destruct (frame_truthy frame) as [fid|]; [|apply kd_refl].
    rewrite (@not_command expr ctx N). destruct (ctx_in _ _); [|apply kd_refl]. destruct (dget _ _) as [f|]; [|apply kd_refl].
    pose proof (safe_data expr (f_tv f) w) as X. destruct (safe_evaluate _ _ _ _ _ _ _) as (w', (v, ty)). exact X.
  - apply reply_data, scopes_data.
  - destruct (set_breakpoints _ _ _ _ _) as (d, x). apply kd_same; reflexivity.
  - exfalso. apply N. exact I.
  - apply reply_data. apply kd_refl.
  - pose proof (@ack_data w CTerminate seq (disconnect true w) (resume_data _ _ w)) as X. destruct (ack _ _ _) as (w', [u|e]); exact X.
  - apply reply_data. unfold get_variables. destruct (dget _ _) as [v|]; [|apply kd_refl].
    pose proof (children_data (v_frame v) (var_get (w_heap w) v) w) as X. destruct (list_children _ _ _ _ _) as (w', infos). exact X.
Qed.
Lemma handle_data seq r w : ~ edits r -> kept_data w (handle seq r w).
Proof.
  intros N. pose proof (@process_data seq r w N) as X. unfold SysModel.handle. destruct (process seq r w) as (w', [u|e]); cbn [fst] in X; auto.
Qed.
Lemma shutdown_data b w : kept_data w (shutdown b w).
Proof.
  unfold shutdown. cbv zeta. set (w1 := wd _ w). assert (K : kept_data w w1) by (apply kd_same; reflexivity). destruct (b && _); auto.
  eapply kd_trans; [exact K|apply resume_data].
Qed.

(** The request the debuggee has taken and not answered, if any, is not an edit. *)
Definition no_edit_pending (y : Sys) : Prop := forall q r, In (q, r) (pending y) -> ~ edits r.
Lemma step_data y l y' : SInv y -> label_wf l -> step y l = Some y' -> hands_off l -> no_edit_pending y -> kept_data (y_w y) (y_w y') /\ no_edit_pending y'.
Proof.
  intros S W H HO NE. pose proof (y_inv S) as I. destruct (strategy_label l) eqn:SL.
  - destruct (@step_micro py_int py_repr type_name tmpl tmpl_args err_text parse_repl y l y' S W H SL) as (M & R). split; [now apply msteps_data|]. unfold no_edit_pending, pending in *. now rewrite R.
  - destruct l; try discriminate; cbn [SysModel.step hands_off] in H, HO.
    + destruct (y_phase y); try discriminate. injection H as <-. split; [apply kd_same; reflexivity|exact NE].
    + destruct (y_recv y) eqn:RC; [discriminate|]. destruct (needs_strategy r && negb (has_strategy y)); injection H as <-; cbn [y_w].
      * split; [apply kd_same; reflexivity|]. intros q r' [X|[]]. injection X as _ <-. exact HO.
      * split; [|intros q r' []]. eapply kd_trans; [|apply handle_data; exact HO]. apply kd_same; reflexivity.
    + destruct (y_recv y) as [(q, r)|] eqn:RC; [|discriminate]. destruct (has_strategy y); [|discriminate]. injection H as <-. split; [|intros q' r' []].
      apply handle_data. apply (NE q r). unfold pending. rewrite RC. now left.
    + destruct (y_recv y) eqn:RC; [discriminate|]. injection H as <-. split; [apply kd_same; reflexivity|intros q r []].
    + destruct (y_recv y) eqn:RC; [discriminate|]. injection H as <-. split; [apply shutdown_data|intros q r []].
    + contradiction.
Qed.
Lemma run_data ls : forall y y', SInv y -> trace_wf ls -> run y ls y' -> Forall hands_off ls -> no_edit_pending y -> kept_data (y_w y) (y_w y').
Proof.
  induction ls as [|l ls IH]; intros y y' S W R HO NE.
  - inversion R; subst. apply kd_refl.
  - inversion R as [|? ? y1 ? ? A B]; subst. inversion W; subst. inversion HO; subst.
    destruct (@step_inv py_int py_repr type_name tmpl tmpl_args err_text parse_repl y l y1 S H1 A) as (S1 & _ & _).
    destruct (@step_data y l y1 S H1 A H3 NE) as (K & NE1). eapply kd_trans; eauto.
Qed.

(** C82.  Starting and ending tasks, stopping, looking at the stack and at variables,
    stepping, breakpoints and everything else the client can do except setVariable and
    console commands leave every object of the playbook as it is and hand Ansible no
    variable, in any session and for any length of time. *)
Theorem C82_looking_changes_nothing ls y ls2 y2 : trace_wf ls -> run sys_init ls y -> trace_wf ls2 -> run y ls2 y2 ->
  (forall q r, In (q, r) (pending y) -> ~ edits r) -> Forall hands_off ls2 ->
  (forall a, (a < length (w_heap (y_w y)))%nat -> nth_error (w_heap (y_w y2)) a = nth_error (w_heap (y_w y)) a) /\
  w_persist (y_w y2) = w_persist (y_w y).
Proof.
  intros W R W2 R2 NE HO. pose proof (@run_sinv py_int py_repr type_name tmpl tmpl_args err_text parse_repl _ _ W R) as S.
  destruct (run_data S W2 R2 HO NE) as ((l & X) & P). split; auto. intros a L. rewrite X. now apply nth_error_app1.
Qed.

(** At a stop, the frames of the stopped thread are those of the task started last on its
    host and of the includes around it. *)
Lemma stop_frames ls y tid : trace_wf ls -> run sys_init ls y -> stopped_on tid y ->
  exists h a below t, acting ls = Some h /\ starts h ls = Some (a, below) /\ dget (w_threads (y_w y)) tid = Some t /\
    stk (y_w y) (t_stack t) (a :: below).
Proof.
  intros W R ST. pose proof (@run_sinv py_int py_repr type_name tmpl tmpl_args err_text parse_repl _ _ W R) as S. pose proof (y_inv S) as I.
  destruct (@stop_inv py_int py_repr type_name tmpl tmpl_args err_text parse_repl ls y tid W R ST) as (h & task & evs & ev & A & ((t & h' & T1 & T2 & T3) & IT) & _).
  pose proof (@run_K py_int py_repr type_name tmpl tmpl_args err_text parse_repl h ls y W R (stopped_strategy ST)) as [K1 K2 K3].
  assert (OW : owned h tid t (y_w y)) by (split; eauto).
  assert (G : exists a L, starts h ls = Some (a, L) /\ ts_task a = task).
  { destruct IT as [(h2 & X1 & X2)|X]; [eapply K2; eauto|eapply K3; eauto]. }
  assert (BZ : busy h y = true).
  { unfold busy. destruct IT as [(h2 & X1 & X2)|X].
    - apply orb_true_iff. left. apply existsb_open. eauto.
    - rewrite X, T1, T2, T3, N.eqb_refl. apply orb_true_r. }
  destruct G as (a & L & G & _). rewrite G, BZ in K1. cbn [Kt] in K1. destruct K1 as (k & t0 & OW0 & K1).
  destruct (@owned_uniq _ _ _ _ _ _ I OW0 OW) as (-> & ->). exists h, a, L, t. auto.
Qed.
Lemma mapM_ids d w S L : WInv w -> stk w S L -> (forall b, In b L -> n_path (ts_task b) <> None) ->
  exists fis, mapM (fun id => match dget (w_frames w) id with None => Err KeyError | Some f => frame_to_dap d f end) S = Ok fis /\
    Forall2 (fun fi b => shows (d_maps d) fi (ts_task b) /\ frame_of w (fi_id fi) b) fis L.
Proof.
  intros I H. induction H as [|id n S L (f & F & E & E') H IH]; intros P.
  - exists []. split; [reflexivity|constructor].
  - destruct IH as (fis & M & A). { intros x X. apply P. now right. }
    rewrite mapM_cons, F. unfold frame_to_dap at 1. specialize (P n (or_introl eq_refl)). rewrite E. destruct (n_path (ts_task n)) as [(p, line)|] eqn:NP; [|congruence].
    cbn [bind]. rewrite M. eexists. split; [reflexivity|]. constructor; auto. split.
    + split; [reflexivity|]. exists p. split; [cbn [fi_line]; congruence|]. apply to_client_spec.
    + cbn [fi_id]. replace (f_id f) with id by (symmetry; apply (i_f I _ F)). exists f. auto.
Qed.
Lemma trace_step y tid t seq : pending y = [] -> has_strategy y = true -> dget (w_threads (y_w y)) tid = Some t ->
  forall fis, mapM (fun id => match dget (w_frames (y_w y)) id with None => Err KeyError | Some f => frame_to_dap (w_dbg (y_w y)) f end) (t_stack t) = Ok fis ->
  exists y', answered y seq (RStackTrace tid) y' (OFrames seq fis (N.of_nat (length fis))) /\
    w_ss (y_w y') = w_ss (y_w y) /\ w_heap (y_w y') = w_heap (y_w y) /\ w_persist (y_w y') = w_persist (y_w y) /\ y_phase y' = y_phase y /\ y_open y' = y_open y /\ pending y' = [].
Proof.
  intros P HS T fis M. assert (RC : y_recv y = None) by (unfold pending in P; destruct (y_recv y); [discriminate|auto]).
  unfold ScopeSpec.answered. cbn [SysModel.step]. rewrite RC, HS. cbn [needs_strategy andb negb before_strategy].
  assert (WW : wd (w_dbg (y_w y)) (y_w y) = y_w y) by (destruct (y_w y); reflexivity). rewrite WW. unfold SysModel.handle. cbn [SysModel.process]. unfold get_stacktrace. rewrite T, M.
  eexists. split; [split; [reflexivity|reflexivity]|]. csplit; reflexivity.
Qed.
Lemma run_one ls y l y1 : trace_wf ls -> run sys_init ls y -> step y l = Some y1 -> label_wf l -> trace_wf (ls ++ [l]) /\ run sys_init (ls ++ [l]) y1.
Proof.
  intros W R H L. split; [apply Forall_app; split; auto|]. apply run_app. exists y. split; auto. econstructor; [exact H|constructor].
Qed.

(** C82.  At a stop, a stackTrace request for the stopped thread lists the task started last
    on the host and the open includes around it; a scopes request for any of these frames
    then gives references to the very objects Ansible runs that task with: its templated
    options backed by its own, its variables, its host's, the global ones; and a
    variables request for these shows their entries as they are.  None of this changes
    anything. *)
Theorem C82_stop_shows_what_runs ls y tid seq : trace_wf ls -> run sys_init ls y -> stopped_on tid y -> pending y = [] ->
  exists h a below, acting ls = Some h /\ starts h ls = Some (a, below) /\
  ((forall b, In b (a :: below) -> n_path (ts_task b) <> None) ->
   exists y1 fis, answered y seq (RStackTrace tid) y1 (OFrames seq fis (N.of_nat (length fis))) /\
   Forall2 (fun fi b => shows (mappings ls) fi (ts_task b) /\
     forall seq2 ta tv name mine ga, ran_with tmpl_args (w_heap (y_w y)) b ta tv name mine ga ->
     exists y2 pre so st sh sg ha am gk, answered y1 seq2 (RScopes (fi_id fi)) y2 (OScopes seq2 (pre ++ [so; st; sh; sg])) /\
       map si_name [so; st; sh; sg] = [s "Module Options"; s "Task Variables"; s "Host Variables"; s "Global Variables"] /\
       stands_for (y_w y2) (si_ref so) (fi_id fi) (VKRaw (ts_args b)) ta /\
       stands_for (y_w y2) (si_ref st) (fi_id fi) VKDict (ts_tv b) /\
       stands_for (y_w y2) (si_ref sh) (fi_id fi) (VKHost name) ha /\
       stands_for (y_w y2) (si_ref sg) (fi_id fi) gk ga /\
       nth_error (w_heap (y_w y2)) ha = Some (ODict am true) /\
       (forall n, dget am (kstr n) = match dget mine (kstr n) with Some x => Some x | None => first_named n tv end) /\
       longer (w_heap (y_w y)) (w_heap (y_w y2)) /\ w_persist (y_w y2) = w_persist (y_w y) /\
       forall seq3 sc d l m, In (sc, d) [(so, ta); (st, ts_tv b); (sh, ha)] -> nth_error (w_heap (y_w y2)) d = Some (ODict l m) ->
         (forall k x, In (k, VRef x) l -> (x < length (w_heap (y_w y2)))%nat) ->
         exists y3 infos, answered y2 seq3 (RVariables (si_ref sc)) y3 (OVars seq3 infos) /\
           map vi_name infos = map (fun kv => k_txt (fst kv)) l /\
           Forall2 (fun kv i => shown py_repr type_name (w_heap (y_w y2)) (fi_id fi) (y_w y3) (snd kv) i) l infos) fis (a :: below)).
Proof.
  intros W R ST P. pose proof (@run_sinv py_int py_repr type_name tmpl tmpl_args err_text parse_repl _ _ W R) as S. pose proof (y_inv S) as I.
  destruct (stop_frames W R ST) as (h & a & below & t & A & G & T & K). exists h, a, below. csplit; auto. intros NP.
  pose proof (stopped_strategy ST) as HS.
  destruct (@mapM_ids (w_dbg (y_w y)) (y_w y) _ _ I K NP) as (fis & M & F2).
  destruct (@trace_step y tid t seq P HS T fis M) as (y1 & AN & E1 & E2 & E3 & E4 & E5 & E6). exists y1, fis. split; auto.
  destruct (@run_one ls y _ y1 W R (proj1 AN) Logic.I) as (W1 & R1).
  assert (HS1 : has_strategy y1 = true) by (unfold has_strategy in *; now rewrite E4).
  assert (FR : w_frames (y_w y1) = w_frames (y_w y)) by (unfold w_frames; now rewrite E1).
  clear K NP M AN G. induction F2 as [|fi b fis L (SH & f & F & FT & FV & FA) F2 IH]; [constructor|]. constructor; auto.
  split. { rewrite <- (@mappings_are py_int py_repr type_name tmpl tmpl_args err_text parse_repl ls y W R). exact SH. }
  intros seq2 ta tv name mine ga ENV.
  assert (ENV1 : task_env tmpl_args (w_heap (y_w y1)) f ta tv name mine ga) by (unfold task_env; rewrite E2, FV, FA; exact ENV).
  assert (F1 : dget (w_frames (y_w y1)) (fi_id fi) = Some f) by now rewrite FR.
  destruct (@C35_scopes py_int py_repr type_name tmpl tmpl_args err_text parse_repl _ y1 seq2 (fi_id fi) f ta tv name mine ga W1 R1 E6 HS1 F1 ENV1)
    as (y2 & pre & so & st & sh & sg & ha & am & gk & ST2 & O2 & NM & ND & RF & _ & D1 & D2 & D3 & D4 & HA & _ & AM & _).
  destruct (@run_one _ y1 _ y2 W1 R1 ST2 Logic.I) as (W2 & R2).
  assert (NZ : forall sc, In sc [so; st; sh; sg] -> si_ref sc <> 0) by (intros sc X; apply RF; apply in_or_app; now right).
  assert (KD : kept_data (y_w y1) (y_w y2)).
  { eapply (@step_data y1 (LReq seq2 (RScopes (fi_id fi))) y2); eauto; [exact (@run_sinv py_int py_repr type_name tmpl tmpl_args err_text parse_repl _ _ W1 R1)|exact Logic.I|cbn; tauto|].
    intros q r X. rewrite E6 in X. contradiction. }
  exists y2, pre, so, st, sh, sg, ha, am, gk. csplit; auto.
  - split; auto.
  - rewrite map_app in NM. exact (tail_eq _ _ _ _ NM eq_refl).
  - split; [apply NZ; cbn; auto|congruence].
  - split; [apply NZ; cbn; auto|congruence].
  - split; [apply NZ; cbn; auto|congruence].
  - split; [apply NZ; cbn; auto|congruence].
  - rewrite <- E2. apply KD.
  - rewrite <- E3. apply KD.
  - intros seq3 sc d l m X HD OKR.
    assert (P2 : pending y2 = []) by (cbn [SysModel.step] in ST2; destruct (y_recv y1); [discriminate|]; destruct (_ && _) eqn:Z; [rewrite HS1 in Z; cbn in Z; discriminate|]; injection ST2 as <-; reflexivity).
    assert (HS2 : has_strategy y2 = true) by (cbn [SysModel.step] in ST2; destruct (y_recv y1); [discriminate|]; destruct (_ && _); injection ST2 as <-; exact HS1).
    rewrite FA in D1. rewrite FV in D2.
    assert (SF : exists k, stands_for (y_w y2) (si_ref sc) (fi_id fi) k d /\ k <> VKList).
    { destruct X as [X|[X|[X|[]]]]; injection X as <- <-; eexists; (split; [split; [apply NZ; cbn; auto|eassumption]|discriminate]). }
    destruct SF as (k & SF & KL).
    pose proof (@C77_variables py_int py_repr type_name tmpl tmpl_args err_text parse_repl _ y2 seq3 (si_ref sc) (fi_id fi) k d (ODict l m) _ W2 R2 P2 HS2 SF HD KL eq_refl) as C.
    destruct C as (y3 & infos & ST3 & O3 & NM3 & SH3 & _).
    { intros n x X2. apply in_map_iff in X2. destruct X2 as ((k0, v0) & X3 & X4). cbn in X3. injection X3 as _ ->. eauto. }
    exists y3, infos. split; [split; auto|]. split; [now rewrite NM3, map_map|].
    clear -SH3. revert infos SH3. induction l as [|kv l IH]; intros infos H; inversion H; subst; constructor; auto.
Qed.

(** A stop at a task's end: the frame has the result. *)
Lemma step_rkeep y l y' : SInv y -> label_wf l -> step y l = Some y' -> strategy_label l = false -> l <> LPlay -> rkeep (y_w y) (y_w y').
Proof.
  intros S W H SL NP. pose proof (y_inv S) as I. destruct l; try discriminate; try congruence; cbn [SysModel.step] in H.
  - destruct (y_recv y); [discriminate|]. destruct (@before_good r (y_w y) I) as (I1 & Q1).
    destruct (needs_strategy r && negb (has_strategy y)); injection H as <-; [now apply rkeep_same|]. cbn [y_w].
    eapply rkeep_trans; [|apply rkeep_handle; exact I1]. now apply rkeep_same.
  - destruct (y_recv y) as [(seq, r)|]; [|discriminate]. destruct (has_strategy y); [|discriminate]. injection H as <-. now apply rkeep_handle.
  - destruct (y_recv y); [discriminate|]. injection H as <-. now apply rkeep_same.
  - destruct (y_recv y); [discriminate|]. injection H as <-. unfold shutdown. cbv zeta. set (w1 := wd _ (y_w y)). assert (K : rkeep (y_w y) w1) by now apply rkeep_same.
    cbn [y_w]. destruct (_ && _); auto. eapply rkeep_trans; [exact K|apply rkeep_resume].
  - injection H as <-. now apply rkeep_same.
Qed.
Lemma stop_result ls : forall y tid, trace_wf ls -> run sys_init ls y -> stopped_on tid y ->
  exists t fid rest f, dget (w_threads (y_w y)) tid = Some t /\ t_stack t = fid :: rest /\ dget (w_frames (y_w y)) fid = Some f /\
    match ended ls with
    | Some addr => f_result f <> 0 /\ dget (w_vars (y_w y)) (f_result f) = Some (mkVar fid VKDict addr)
    | None => f_result f = 0
    end.
Proof.
  induction ls as [|l ls IH] using rev_ind; intros y tid W R ST.
  - inversion R; subst. destruct ST as [ST|(? & ST)]; discriminate.
  - apply Forall_app in W. destruct W as (W1 & W2). inversion W2 as [|? ? W3 _]; subst.
    apply run_snoc in R. destruct R as (y1 & R1 & HS). pose proof (@run_sinv py_int py_repr type_name tmpl tmpl_args err_text parse_repl _ _ W1 R1) as S1.
    unfold ended. rewrite fold_left_app. cbn [fold_left]. fold (ended ls).
    assert (DEC : strategy_label l = false /\ l <> LPlay \/ l = LPlay \/ strategy_label l = true).
    { destruct l; cbn; auto; left; split; auto; discriminate. }
    destruct DEC as [(SL & NP)|[-> |SL]].
    + destruct (@step_other py_int py_repr type_name tmpl tmpl_args err_text parse_repl y1 l y S1 W3 HS SL NP) as (Q & P & _).
      destruct (IH y1 tid W1 R1) as (t & fid & rest & f & T & SK & F & RES); [unfold stopped_on in *; now rewrite <- P|].
      destruct (q_t Q _ T) as (t' & T' & (_ & _ & ST')). destruct (q_f Q _ F) as (f' & F' & _).
      destruct (@step_rkeep y1 l y S1 W3 HS SL NP _ _ F') as (f0 & F0 & ER). assert (f0 = f) by congruence. subst f0.
      exists t', fid, rest, f'. csplit; auto; try congruence.
      assert (EN : ended_step (ended ls) l = ended ls) by (destruct l; try discriminate; reflexivity). rewrite EN.
      destruct (ended ls); [|congruence]. destruct RES as (NZ & V). split; [congruence|]. rewrite <- ER. now apply (q_v Q).
    + cbn in HS. destruct (y_phase y1); try discriminate. injection HS as <-. destruct ST as [ST|(? & ST)]; discriminate.
    + destruct l as [|a|h1 r addr| | |regs| |seq r| |maps| |hp|lregs]; try discriminate; cbn [ended_step].
      * cbn [SysModel.step] in HS. destruct (y_phase y1); try discriminate. destruct (host_open _ _); [discriminate|].
        pose proof (y_inv S1) as I. pose proof (y_dwf S1) as D. destruct (@enter_frame_spec a (y_w y1) I D W3) as (tid0 & N1 & TID & EF). unfold start_task in HS.
        destruct (enter_frame a (y_w y1)) as (w1, [tid1|e]).
        2:{ injection HS as <-. destruct ST as [ST|(? & ST)]; discriminate. }
        destruct EF as (-> & I1 & O1 & _ & _ & t1 & (T1 & T2) & S2 & F1 & _).
        pose proof (@start_decide_spec a tid0 t1 w1 I1 T1) as X. destruct (start_decide a tid0 w1) as (w2, o2).
        destruct X as (I2 & O2 & FR & _ & _ & _ & (t2 & G1 & (_ & G2 & G3) & _) & _).
        assert (Y : y_w y = w2 /\ tid = tid0).
        { destruct o2; try discriminate; injection HS as <-; destruct ST as [ST|(? & ST)]; try discriminate. injection ST as <-. auto. }
        destruct Y as (-> & ->). exists t2, (d_frame (w_dbg (y_w y1))). eexists. eexists. csplit; [exact G1|rewrite G3; exact S2|rewrite FR; exact F1|reflexivity].
      * assert (PH : exists task, y_phase y = PWaitEnd tid task).
        { destruct ST as [ST|ST]; auto. exfalso. cbn [SysModel.step] in HS. destruct (y_phase y1); try discriminate. destruct (find _ _) as [(h0, task0)|]; [|discriminate].
          destruct (end_task _ _ _ _ _) as ((w2, [| |e]), [k|]); try discriminate; try (destruct (end_finish _ _ _) as (w3, [| |e]); try discriminate); injection HS as <-; discriminate. }
        destruct PH as (task & PH).
        destruct (@C35_exception_stop_gives_result py_int py_repr type_name tmpl tmpl_args err_text parse_repl ls y1 h1 r addr y tid task W1 R1 HS PH) as (t & fid & rest & f & A & B & C & _ & D & E).
        exists t, fid, rest, f. auto 10.
      * exfalso. cbn [SysModel.step] in HS. destruct (y_phase y1); try discriminate; destruct (waiting _ _); try discriminate.
        -- destruct (start_resume _ _); try discriminate; injection HS as <-; destruct ST as [ST|(? & ST)]; discriminate.
        -- destruct (end_finish _ _ _) as (w2, [| |e]); try discriminate; injection HS as <-; destruct ST as [ST|(? & ST)]; discriminate.
      * exfalso. cbn [SysModel.step] in HS. destruct (y_phase y1); try discriminate. destruct (y_open y1) as [|? [|]]; try discriminate. injection HS as <-. destruct ST as [ST|(? & ST)]; discriminate.
      * exfalso. cbn [SysModel.step] in HS. destruct (y_phase y1); try discriminate. destruct (register_all _ _) as (d, [u|e]); injection HS as <-; destruct ST as [ST|(? & ST)]; discriminate.
      * exfalso. cbn [SysModel.step] in HS. destruct (y_phase y1); try discriminate. injection HS as <-. destruct ST as [ST|(? & ST)]; discriminate.
      * exfalso. cbn [SysModel.step] in HS. destruct (y_phase y1); try discriminate. injection HS as <-. destruct ST as [ST|(? & ST)]; discriminate.
Qed.

Lemma answered_state y seq r y' o : has_strategy y = true -> answered y seq r y' o -> pending y' = [] /\ y_phase y' = y_phase y /\ y_open y' = y_open y /\ has_strategy y' = true.
Proof.
  intros HS (H & _). cbn [SysModel.step] in H. destruct (y_recv y); [discriminate|]. rewrite HS in H. cbn [negb] in H. rewrite andb_false_r in H. injection H as <-.
  csplit; try reflexivity. exact HS.
Qed.

(** The first frame of the answer to stackTrace. *)
Lemma first_frame y tid seq y1 fi fis n t : SInv y -> pending y = [] -> has_strategy y = true -> answered y seq (RStackTrace tid) y1 (OFrames seq (fi :: fis) n) ->
  dget (w_threads (y_w y)) tid = Some t -> exists rest, t_stack t = fi_id fi :: rest /\ w_ss (y_w y1) = w_ss (y_w y) /\ w_heap (y_w y1) = w_heap (y_w y).
Proof.
  intros S P HS A1 T. pose proof (y_inv S) as I. destruct A1 as (A1 & O1). cbn [SysModel.step] in A1. assert (RC : y_recv y = None) by (unfold pending in P; destruct (y_recv y); [discriminate|auto]). rewrite RC, HS in A1. cbn [needs_strategy andb negb before_strategy] in A1.
  assert (WW : wd (w_dbg (y_w y)) (y_w y) = y_w y) by (destruct (y_w y); reflexivity). rewrite WW in A1. unfold SysModel.handle in A1. cbn [SysModel.process] in A1. unfold get_stacktrace in A1. rewrite T in A1.
  destruct (t_stack t) as [|id S'].
  { cbn in A1. injection A1 as <-. cbn in O1. apply app_inv_head in O1. discriminate. }
  rewrite mapM_cons in A1. destruct (dget (w_frames (y_w y)) id) as [f|] eqn:F.
  2:{ cbn in A1. injection A1 as <-. cbn in O1. apply app_inv_head in O1. discriminate. }
  unfold frame_to_dap at 1 in A1. destruct (n_path (f_task f)) as [(p, line)|]; cbn [bind] in A1.
  2:{ cbn in A1. injection A1 as <-. cbn in O1. apply app_inv_head in O1. discriminate. }
  destruct (mapM _ S') as [fis'|e]; cbn [bind] in A1; cbn in A1; injection A1 as <-; cbn in O1; apply app_inv_head in O1; [|discriminate].
  injection O1 as <- <- _. cbn [fi_id y_w]. exists S'. csplit; try reflexivity. now replace (f_id f) with id by (symmetry; apply (i_f I _ F)).
Qed.

(** C82.  At a stop after a task's result has come, the scopes of the first frame begin
    with Module Result, which stands for this very result;
    at a stop before a task runs they do not have it. *)
Theorem C82_stop_shows_the_result ls y tid seq y1 fi fis n seq2 y2 scs h a below ta tv hname mine ga : trace_wf ls -> run sys_init ls y -> stopped_on tid y -> pending y = [] ->
  acting ls = Some h -> starts h ls = Some (a, below) -> ran_with tmpl_args (w_heap (y_w y)) a ta tv hname mine ga ->
  answered y seq (RStackTrace tid) y1 (OFrames seq (fi :: fis) n) -> answered y1 seq2 (RScopes (fi_id fi)) y2 (OScopes seq2 scs) ->
  match ended ls with
  | Some addr => exists sc rest, scs = sc :: rest /\ si_name sc = s "Module Result" /\ stands_for (y_w y2) (si_ref sc) (fi_id fi) VKDict addr
  | None => forall sc, In sc scs -> si_name sc <> s "Module Result"
  end.
Proof.
  intros W R ST P AC SS ENV A1 A2. pose proof (@run_sinv py_int py_repr type_name tmpl tmpl_args err_text parse_repl _ _ W R) as S. pose proof (y_inv S) as I. pose proof (stopped_strategy ST) as HS.
  destruct (stop_result W R ST) as (t & fid & rest & f & T & SK & F & RES).
  destruct (first_frame S P HS A1 T) as (rest' & SK' & E1 & E2). assert (fid = fi_id fi) by congruence. subst fid.
  destruct (stop_frames W R ST) as (h' & a' & below' & t' & AC' & SS' & T' & K). assert (h' = h) by congruence. subst h'. assert (a' = a /\ below' = below) by (split; congruence). destruct H as (-> & ->).
  assert (t' = t) by congruence. subst t'. rewrite SK in K. inversion K as [|id ? S' L' (f' & F' & FT & FV & FA) K' X1 X2]; subst. assert (f' = f) by congruence. subst f'.
  destruct (answered_state HS A1) as (P1 & PH1 & _ & HS1).
  destruct (@run_one ls y _ y1 W R (proj1 A1) Logic.I) as (WW1 & R1).
  assert (ENV1 : task_env tmpl_args (w_heap (y_w y1)) f ta tv hname mine ga) by (unfold task_env; rewrite E2, FV, FA; exact ENV).
  assert (F1 : dget (w_frames (y_w y1)) (fi_id fi) = Some f) by (unfold w_frames; now rewrite E1).
  destruct (@C35_scopes py_int py_repr type_name tmpl tmpl_args err_text parse_repl _ y1 seq2 (fi_id fi) f ta tv hname mine ga WW1 R1 P1 HS1 F1 ENV1)
    as (y2' & pre & so & st & sh & sg & ha & am & gk & ST2 & O2 & NM & ND & RF & _ & D1 & D2 & D3 & D4 & HA & _ & AM & PRE).
  destruct A2 as (A2 & A2o). assert (y2' = y2) by congruence. subst y2'. rewrite O2 in A2o. apply app_inv_head in A2o. injection A2o as <-.
  rewrite map_app in NM. pose proof (tail_eq _ _ _ _ NM eq_refl) as N1. rewrite N1 in NM. apply app_inv_tail in NM.
  destruct (ended ls) as [addr|].
  - destruct RES as (NZ & V). rewrite (proj2 (N.eqb_neq _ _) NZ) in NM. destruct pre as [|sc [|]]; try discriminate. injection NM as NM.
    exists sc, [so; st; sh; sg]. csplit; auto. split; [apply RF; now left|]. rewrite (proj1 PRE sc eq_refl).
    destruct (@step_other py_int py_repr type_name tmpl tmpl_args err_text parse_repl y1 (LReq seq2 (RScopes (fi_id fi))) y2 (@run_sinv py_int py_repr type_name tmpl tmpl_args err_text parse_repl _ _ WW1 R1) Logic.I A2 eq_refl ltac:(discriminate)) as (Q & _).
    apply (q_v Q). unfold w_vars. rewrite E1. exact V.
  - rewrite RES in NM. cbn in NM. destruct pre; [|discriminate]. cbn [app]. intros sc X E. apply (in_map si_name) in X. rewrite N1, E in X.
    cbn in X. repeat destruct X as [X|X]; try discriminate X; auto; vm_compute in X; discriminate.
Qed.

Lemma change_reaches ls y tid seq1 y1 fi fis n seq2 y2 scs sc seq3 name value y3 i ls2 y4 ta tv hname mine ga h a below :
  trace_wf ls -> run sys_init ls y -> stopped_on tid y -> pending y = [] -> acting ls = Some h -> starts h ls = Some (a, below) ->
  answered y seq1 (RStackTrace tid) y1 (OFrames seq1 (fi :: fis) n) ->
  ran_with tmpl_args (w_heap (y_w y)) a ta tv hname mine ga ->
  answered y1 seq2 (RScopes (fi_id fi)) y2 (OScopes seq2 scs) -> In sc scs ->
  answered y2 seq3 (RSetVariable (si_ref sc) name value) y3 (OSetVar seq3 i) ->
  trace_wf ls2 -> run y3 ls2 y4 -> Forall hands_off ls2 ->
  exists objs x, tmpl value (ts_tv a) (w_heap (y_w y2)) = Ok (objs, x) /\
    (forall d o, (si_name sc = s "Module Options" /\ d = ts_args a \/ si_name sc = s "Task Variables" /\ d = ts_tv a \/
                  si_name sc = s "Global Variables" /\ d = ga /\ (exists l m, o = ODict l m)) ->
       nth_error (w_heap (y_w y)) d = Some o -> exists o', nth_error (w_heap (y_w y4)) d = Some o' /\ key_set name x o o') /\
    w_persist (y_w y4) = w_persist (y_w y) ++ (if eqb (si_name sc) (s "Host Variables") then [(hname, name, x)] else []).
Proof.
  intros W R ST P AC SS A1 ENV A2 IN A3 W2 R4 HO.
  pose proof (@run_sinv py_int py_repr type_name tmpl tmpl_args err_text parse_repl _ _ W R) as S. pose proof (y_inv S) as I. pose proof (stopped_strategy ST) as HS.
  destruct (stop_frames W R ST) as (h' & a' & below' & t & AC' & SS' & T & K). assert (h' = h) by congruence. subst h'. assert (a' = a /\ below' = below) by (split; congruence). destruct H as (-> & ->).
  pose proof A1 as A1x.
  destruct (answered_state HS A1) as (P1 & PH1 & _ & HS1).
  assert (FI : frame_of (y_w y) (fi_id fi) a /\ w_ss (y_w y1) = w_ss (y_w y) /\ w_heap (y_w y1) = w_heap (y_w y) /\ w_persist (y_w y1) = w_persist (y_w y)).
  { destruct A1 as (A1 & O1). cbn [SysModel.step] in A1. assert (RC : y_recv y = None) by (unfold pending in P; destruct (y_recv y); [discriminate|auto]). rewrite RC, HS in A1. cbn [needs_strategy andb negb before_strategy] in A1.
    assert (WW : wd (w_dbg (y_w y)) (y_w y) = y_w y) by (destruct (y_w y); reflexivity). rewrite WW in A1. unfold SysModel.handle in A1. cbn [SysModel.process] in A1. unfold get_stacktrace in A1. rewrite T in A1.
    inversion K as [|id ? S' L' FO K' E1 E2]; subst. destruct FO as (f & F & FO). rewrite <- E1, mapM_cons, F in A1.
    unfold frame_to_dap at 1 in A1. destruct (n_path (f_task f)) as [(p, line)|]; cbn [bind] in A1.
    2:{ cbn in A1. injection A1 as <-. cbn in O1. apply app_inv_head in O1. discriminate. }
    destruct (mapM _ S') as [fis'|e]; cbn [bind] in A1; cbn in A1; injection A1 as <-; cbn in O1; apply app_inv_head in O1; [|discriminate].
    injection O1 as <- <- _. cbn [fi_id y_w]. csplit; try reflexivity. replace (f_id f) with id by (symmetry; apply (i_f I _ F)). exists f. auto. }
  destruct FI as ((f & F & FT & FV & FA) & E1 & E2 & E3).
  destruct (@run_one ls y _ y1 W R (proj1 A1) Logic.I) as (WW1 & R1).
  destruct (@run_one _ y1 _ y2 WW1 R1 (proj1 A2) Logic.I) as (WW2 & R2).
  destruct (@run_one _ y2 _ y3 WW2 R2 (proj1 A3) Logic.I) as (WW3 & R3).
  destruct (answered_state HS1 A2) as (P2 & PH2 & _ & HS2). destruct (answered_state HS2 A3) as (P3 & PH3 & _ & HS3).
  assert (ENV1 : task_env tmpl_args (w_heap (y_w y1)) f ta tv hname mine ga) by (unfold task_env; rewrite E2, FV, FA; exact ENV).
  assert (F1 : dget (w_frames (y_w y1)) (fi_id fi) = Some f) by (unfold w_frames; now rewrite E1).
  destruct (@C35_scopes py_int py_repr type_name tmpl tmpl_args err_text parse_repl _ y1 seq2 (fi_id fi) f ta tv hname mine ga WW1 R1 P1 HS1 F1 ENV1)
    as (y2' & pre & so & st & sh & sg & ha & am & gk & ST2 & O2 & NM & ND & RF & _ & D1 & D2 & D3 & D4 & HA & _ & AM & PRE & GKD & GK).
  destruct A2 as (A2 & A2o). assert (y2' = y2) by congruence. subst y2'. rewrite O2 in A2o. apply app_inv_head in A2o. injection A2o as <-.
  assert (KD2 : kept_data (y_w y1) (y_w y2)).
  { apply (@step_data y1 (LReq seq2 (RScopes (fi_id fi))) y2); [exact (@run_sinv py_int py_repr type_name tmpl tmpl_args err_text parse_repl _ _ WW1 R1)|exact Logic.I|exact A2|cbn; tauto|].
    intros q r X. rewrite P1 in X. contradiction. }
  assert (KD4 : kept_data (y_w y3) (y_w y4)).
  { apply (@run_data ls2 y3 y4); auto; [exact (@run_sinv py_int py_repr type_name tmpl tmpl_args err_text parse_repl _ _ WW3 R3)|]. intros q r X. rewrite P3 in X. contradiction. }
  destruct (@C34_setvariable_takes_effect py_int py_repr type_name tmpl tmpl_args err_text parse_repl _ y2 seq3 (si_ref sc) name value y3 i WW2 R2 P2 HS2 (proj1 A3) (proj2 A3))
    as (v & f2 & objs & x & V & VF & TM & _ & VO & RAW & PE & _).
  assert (N1 : map si_name [so; st; sh; sg] = [s "Module Options"; s "Task Variables"; s "Host Variables"; s "Global Variables"]) by (rewrite map_app in NM; exact (tail_eq _ _ _ _ NM eq_refl)).
  assert (N0 : forall p, In p pre -> si_name p = s "Module Result" /\ si_ref p = f_result f /\ f_result f <> 0).
  { intros p X. pose proof (in_map si_name _ _ X) as X2. rewrite map_app, N1 in NM. apply app_inv_tail in NM. rewrite NM in X2. destruct (N.eqb_spec (f_result f) 0) as [Z|Z]; [contradiction|]. destruct X2 as [X2|[]].
    split; auto. split; auto. destruct pre as [|q [|]]; try discriminate NM. destruct X as [->|[]]. now apply PRE. }
  cbn [map] in N1. injection N1 as N1 N2 N3 N4.
  assert (FR2 : dget (w_frames (y_w y2)) (fi_id fi) = Some f2 -> f_tv f2 = ts_tv a).
  { intros X. pose proof (@step_vrel py_int py_repr type_name tmpl tmpl_args err_text parse_repl y1 (LReq seq2 (RScopes (fi_id fi))) y2 (@run_sinv py_int py_repr type_name tmpl tmpl_args err_text parse_repl _ _ WW1 R1) Logic.I A2) as VR.
    destruct (vr_task VR _ F1 X) as (_ & Y & _). congruence. }
  assert (OD2 : forall d o, nth_error (w_heap (y_w y)) d = Some o -> nth_error (w_heap (y_w y2) ++ objs) d = Some o).
  { intros d o OD. rewrite <- E2 in OD. pose proof (hext_nth _ (proj1 KD2) OD) as X. rewrite nth_error_app1; auto. apply nth_error_Some. congruence. }
  assert (PER : w_persist (y_w y2) = w_persist (y_w y)) by (rewrite (proj2 KD2); exact E3).
  exists objs, x. apply in_app_or in IN. rewrite (proj2 KD4), PE, PER.
  destruct IN as [IN|[<-|[<-|[<-|[<-|[]]]]]].
  - destruct (N0 _ IN) as (NN & NR & NZ). rewrite NN, NR in *.
    destruct (i_f (y_inv (@run_sinv py_int py_repr type_name tmpl tmpl_args err_text parse_repl _ _ WW1 R1)) _ F1) as (_ & _ & _ & _ & _ & _ & [HR|HR]); [congruence|].
    destruct (@stop_result ls y tid W R ST) as (t0 & fid0 & rest0 & f0 & T0 & SK0 & FF0 & RES0).
    destruct (first_frame S P HS A1x T0) as (rest' & SK' & _). assert (fid0 = fi_id fi) by congruence. subst fid0. assert (f0 = f) by congruence. subst f0.
    destruct (ended ls) as [addr|]; [|congruence]. destruct RES0 as (_ & V0).
    destruct (@step_other py_int py_repr type_name tmpl tmpl_args err_text parse_repl y1 (LReq seq2 (RScopes (fi_id fi))) y2 (@run_sinv py_int py_repr type_name tmpl tmpl_args err_text parse_repl _ _ WW1 R1) Logic.I A2 eq_refl ltac:(discriminate)) as (Q & _).
    assert (V2 : dget (w_vars (y_w y2)) (f_result f) = Some (mkVar (fi_id fi) VKDict addr)) by (apply (q_v Q); unfold w_vars; rewrite E1; exact V0).
    rewrite V2 in V. injection V as <-. cbn [v_frame v_kind v_ds] in *. rewrite (FR2 VF) in TM. csplit; auto.
    intros d o D. exfalso. destruct D as [(D & _)|[(D & _)|(D & _)]]; vm_compute in D; discriminate.
  - rewrite D1 in V. injection V as <-. cbn [v_frame v_kind v_ds] in *. rewrite (FR2 VF) in TM. rewrite N1. csplit; auto.
    intros d o D OD. destruct D as [(_ & ->)|[(D & _)|(D & _)]]; try (exfalso; vm_compute in D; discriminate).
    destruct (RAW _ eq_refl) as (o0 & o' & X1 & X2 & X3). rewrite FA in X1, X2. exists o'. split; [exact (hext_nth _ (proj1 KD4) X2)|]. apply OD2 in OD. congruence.
  - rewrite D2 in V. injection V as <-. cbn [v_frame v_kind v_ds assigned] in *. rewrite (FR2 VF) in TM. rewrite N2. csplit; auto.
    intros d o D OD. destruct D as [(D & _)|[(_ & ->)|(D & _)]]; try (exfalso; vm_compute in D; discriminate).
    destruct VO as (o0 & o' & X1 & X2 & X3). rewrite FV in X1, X2. exists o'. split; [exact (hext_nth _ (proj1 KD4) X2)|]. apply OD2 in OD. congruence.
  - rewrite D3 in V. injection V as <-. cbn [v_frame v_kind v_ds] in *. rewrite (FR2 VF) in TM. rewrite N3. csplit; auto.
    intros d o D. exfalso. destruct D as [(D & _)|[(D & _)|(D & _)]]; vm_compute in D; discriminate.
  - rewrite D4 in V. injection V as <-. cbn [v_frame v_kind v_ds] in *. rewrite (FR2 VF) in TM. rewrite N4.
    assert (NH : forall q, gk <> VKHost q).
    { intros q E. destruct (GKD) as [E'|E']; rewrite E' in E; discriminate. }
    csplit; auto.
    + intros d o D OD. destruct D as [(D & _)|[(D & _)|(_ & -> & l & m & ->)]]; try (exfalso; vm_compute in D; discriminate).
      assert (E : gk = VKDict) by (apply (GK l m); rewrite E2; exact OD). subst gk. cbn [assigned] in VO.
      destruct VO as (o0 & o' & X1 & X2 & X3). exists o'. split; [exact (hext_nth _ (proj1 KD4) X2)|]. apply OD2 in OD. congruence.
    + destruct gk; auto. exfalso. eapply NH. reflexivity.
Qed.

(** C82.  The client takes the first frame of the stopped thread, asks for its scopes, and
    sets an entry of Module Options, Task Variables or Global Variables: whatever happens
    afterwards, as long as nothing else edits, the options (the task's variables, the
    global variables) the task was started with and runs with have this entry, with the
    value the expression has in the task's variables, and are otherwise as before. *)
Theorem C82_change_reaches_the_task ls y tid seq1 y1 fi fis n seq2 y2 scs sc seq3 name value y3 i ls2 y4 ta tv hname mine ga h a below :
  trace_wf ls -> run sys_init ls y -> stopped_on tid y -> pending y = [] -> acting ls = Some h -> starts h ls = Some (a, below) ->
  answered y seq1 (RStackTrace tid) y1 (OFrames seq1 (fi :: fis) n) ->
  ran_with tmpl_args (w_heap (y_w y)) a ta tv hname mine ga ->
  answered y1 seq2 (RScopes (fi_id fi)) y2 (OScopes seq2 scs) -> In sc scs ->
  answered y2 seq3 (RSetVariable (si_ref sc) name value) y3 (OSetVar seq3 i) ->
  trace_wf ls2 -> run y3 ls2 y4 -> Forall hands_off ls2 ->
  exists objs x, tmpl value (ts_tv a) (w_heap (y_w y2)) = Ok (objs, x) /\
    forall d o, (si_name sc = s "Module Options" /\ d = ts_args a \/ si_name sc = s "Task Variables" /\ d = ts_tv a \/
                 si_name sc = s "Global Variables" /\ d = ga /\ (exists l m, o = ODict l m)) ->
      nth_error (w_heap (y_w y)) d = Some o -> exists o', nth_error (w_heap (y_w y4)) d = Some o' /\ key_set name x o o'.
Proof.
  intros H1 H2 H3 H4 H5 H6 H7 H8 H9 H10 H11 H12 H13 H14.
  destruct (@change_reaches ls y tid seq1 y1 fi fis n seq2 y2 scs sc seq3 name value y3 i ls2 y4 ta tv hname mine ga h a below H1 H2 H3 H4 H5 H6 H7 H8 H9 H10 H11 H12 H13 H14) as (objs & x & A & B & _). eauto.
Qed.

(** C82.  If it sets an entry of Host Variables, exactly this variable of this host is handed
    to Ansible's variable manager; setting an entry of another scope hands it nothing. *)
Theorem C82_host_change_is_handed_over ls y tid seq1 y1 fi fis n seq2 y2 scs sc seq3 name value y3 i ls2 y4 ta tv hname mine ga h a below :
  trace_wf ls -> run sys_init ls y -> stopped_on tid y -> pending y = [] -> acting ls = Some h -> starts h ls = Some (a, below) ->
  answered y seq1 (RStackTrace tid) y1 (OFrames seq1 (fi :: fis) n) ->
  ran_with tmpl_args (w_heap (y_w y)) a ta tv hname mine ga ->
  answered y1 seq2 (RScopes (fi_id fi)) y2 (OScopes seq2 scs) -> In sc scs ->
  answered y2 seq3 (RSetVariable (si_ref sc) name value) y3 (OSetVar seq3 i) ->
  trace_wf ls2 -> run y3 ls2 y4 -> Forall hands_off ls2 ->
  exists objs x, tmpl value (ts_tv a) (w_heap (y_w y2)) = Ok (objs, x) /\
    w_persist (y_w y4) = w_persist (y_w y) ++ (if eqb (si_name sc) (s "Host Variables") then [(hname, name, x)] else []).
Proof.
  intros H1 H2 H3 H4 H5 H6 H7 H8 H9 H10 H11 H12 H13 H14.
  destruct (@change_reaches ls y tid seq1 y1 fi fis n seq2 y2 scs sc seq3 name value y3 i ls2 y4 ta tv hname mine ga h a below H1 H2 H3 H4 H5 H6 H7 H8 H9 H10 H11 H12 H13 H14) as (objs & x & A & _ & B). eauto.
Qed.

(** C82.  When the client then resumes the thread with continue, next, stepIn or stepOut,
    the playbook goes on to run the task, with the objects as they are. *)
Theorem C82_resumed_task_runs ls y tid seq r st : trace_wf ls -> run sys_init ls y -> y_phase y = PWaitStart tid -> pending y = [] ->
  names_thread r = Some (tid, st) \/ r = RContinue tid false ->
  exists y1 y2, step y (LReq seq r) = Some y1 /\ step y1 LWake = Some y2 /\ y_phase y2 = PRun /\ y_open y2 = y_open y /\
    w_heap (y_w y2) = w_heap (y_w y) /\ w_persist (y_w y2) = w_persist (y_w y).
Proof.
  intros W R PH P NT. assert (HS : has_strategy y = true) by (unfold has_strategy; now rewrite PH).
  pose proof (@run_sinv py_int py_repr type_name tmpl tmpl_args err_text parse_repl _ _ W R) as S. pose proof (y_ph S) as Q. rewrite PH in Q. destruct Q as (h & task & t & _ & _ & (T & _)).
  assert (X : exists y1 t1, step y (LReq seq r) = Some y1 /\ y_phase y1 = y_phase y /\ y_open y1 = y_open y /\ w_heap (y_w y1) = w_heap (y_w y) /\ w_persist (y_w y1) = w_persist (y_w y) /\
    dget (w_threads (y_w y1)) tid = Some t1 /\ t_state t1 <> TWait /\ t_state t1 <> TEnd).
  { destruct NT as [NT| ->].
    - destruct (@C29_named_thread_only py_int py_repr type_name tmpl tmpl_args err_text parse_repl ls y seq r tid st W R P HS NT) as (y1 & ST1 & A & B & _ & _ & C & D & _ & E).
      rewrite T in E. destruct E as (_ & t1 & T1 & _ & _ & _ & E). exists y1, t1. csplit; auto.
      + destruct E as [E|(_ & E)]; rewrite E; [|discriminate]. destruct r as [|? []| | | | | | | | | | | | | |]; try discriminate; injection NT as _ <-; discriminate.
      + destruct E as [E|(_ & E)]; rewrite E; [|discriminate]. destruct r as [|? []| | | | | | | | | | | | | |]; try discriminate; injection NT as _ <-; discriminate.
    - destruct (@C29_all_threads py_int py_repr type_name tmpl tmpl_args err_text parse_repl ls y seq (RContinue tid false) TContinue W R P HS eq_refl) as (y1 & ST1 & A & B & _ & _ & C & D & _ & E).
      destruct (E _ _ T) as (t1 & T1 & _ & _ & _ & _ & X). exists y1, t1. csplit; auto; rewrite X; discriminate. }
  destruct X as (y1 & t1 & ST1 & E1 & E2 & E3 & E4 & T1 & N1 & N2).
  exists y1, (mkSys (y_w y1) PRun (y_open y1) (y_recv y1)). csplit; auto.
  cbn [SysModel.step]. rewrite E1, PH. unfold waiting. rewrite T1. unfold start_resume. rewrite T1. destruct (t_state t1); try contradiction; reflexivity.
Qed.
End S.
Print Assumptions C82_looking_changes_nothing.
Print Assumptions C82_stop_shows_what_runs.
Print Assumptions C82_stop_shows_the_result.
Print Assumptions C82_change_reaches_the_task.
Print Assumptions C82_host_change_is_handed_over.
Print Assumptions C82_resumed_task_runs.

(* ------------------------------------------------------------------ the hypotheses are met *)
(** Host a is stopped before t1; the client looks at the stack and at the scopes, sets the
    task's option a to 9, resumes; the task runs and fails. *)
Definition demo_look : list label := demo_stop ++ [LReq 5 (RStackTrace 2); LReq 6 (RScopes 1)].
Definition demo_set : list label := demo_look ++ [LReq 7 (RSetVariable 1 (s "a") (s "9"))].
Definition demo_after : list label := [LReq 8 (RNext 2); LWake; LEnd hostA failr 6].
Example demo_set_wf : trace_wf (demo_set ++ demo_after).
Proof. unfold demo_set, demo_look, demo_stop, demo_setup, demo_after. wf. Qed.
Example C82_stop_met : drun sys_init demo_stop (after demo_stop) /\ stopped_on 2 (after demo_stop) /\ pending (after demo_stop) = [] /\
  acting demo_stop = Some 100 /\ starts 100 demo_stop = Some (bt hostA t1, []) /\ ended demo_stop = None /\
  exists ta tv name mine ga, ran_with demo_args (w_heap (y_w (after demo_stop))) (bt hostA t1) ta tv name mine ga.
Proof.
  split; [apply after_run; vm_compute; discriminate|]. split; [left; vm_compute; reflexivity|]. csplit; try reflexivity.
  do 5 eexists. unfold ran_with. split; [eexists; vm_compute; reflexivity|].
  split; [eexists; vm_compute; reflexivity|]. split.
  - do 3 eexists. split; [vm_compute; reflexivity|]. split; [vm_compute; reflexivity|]. split; [eexists; vm_compute; reflexivity|]. do 2 eexists. split; vm_compute; reflexivity.
  - vm_compute. reflexivity.
Qed.
Example C82_change_met : exists y1 fi n y2 sc scs y3 i,
  ScopeSpec.answered dstep (after demo_stop) 5 (RStackTrace 2) y1 (OFrames 5 [fi] n) /\
  ScopeSpec.answered dstep y1 6 (RScopes (fi_id fi)) y2 (OScopes 6 (sc :: scs)) /\ si_name sc = s "Module Options" /\
  ScopeSpec.answered dstep y2 7 (RSetVariable (si_ref sc) (s "a") (s "9")) y3 (OSetVar 7 i) /\
  drun y3 demo_after (after (demo_set ++ demo_after)) /\ Forall hands_off demo_after /\
  nth_error (w_heap (y_w (after demo_stop))) (ts_args (bt hostA t1)) = Some (ODict [(kstr (s "a"), VPrim (s "1") (s "int"))] true) /\
  nth_error (w_heap (y_w (after (demo_set ++ demo_after)))) (ts_args (bt hostA t1)) = Some (ODict [(kstr (s "a"), VPrim (s "9") (s "str"))] true).
Proof.
  exists (after (demo_stop ++ [LReq 5 (RStackTrace 2)])). do 2 eexists. exists (after demo_look). do 2 eexists. exists (after demo_set). eexists.
  split; [split; vm_compute; reflexivity|]. split; [split; vm_compute; reflexivity|]. split; [vm_compute; reflexivity|]. split; [split; vm_compute; reflexivity|].
  split; [apply exec_run; vm_compute; reflexivity|]. split; [repeat constructor; cbn; tauto|]. split; vm_compute; reflexivity.
Qed.
(** The stop at the failed result, and its scopes. *)
Example C82_result_met : drun sys_init (demo_set ++ demo_after) (after (demo_set ++ demo_after)) /\ stopped_on 2 (after (demo_set ++ demo_after)) /\ ended (demo_set ++ demo_after) = Some 6%nat /\
  exists y1 fi n y2 sc scs, ScopeSpec.answered dstep (after (demo_set ++ demo_after)) 9 (RStackTrace 2) y1 (OFrames 9 [fi] n) /\
  ScopeSpec.answered dstep y1 10 (RScopes (fi_id fi)) y2 (OScopes 10 (sc :: scs)) /\ si_name sc = s "Module Result".
Proof.
  split; [apply after_run; vm_compute; discriminate|]. split; [right; eexists; vm_compute; reflexivity|]. split; [reflexivity|].
  exists (after (demo_set ++ demo_after ++ [LReq 9 (RStackTrace 2)])). do 2 eexists. exists (after (demo_set ++ demo_after ++ [LReq 9 (RStackTrace 2); LReq 10 (RScopes 1)])). do 2 eexists.
  split; [split; vm_compute; reflexivity|]. split; [split; vm_compute; reflexivity|]. vm_compute; reflexivity.
Qed.
Example C82_resume_met : y_phase (after demo_set) = PWaitStart 2 /\ pending (after demo_set) = [] /\ names_thread (RNext 2) = Some (2, TStepOver).
Proof. csplit; vm_compute; reflexivity. Qed.
