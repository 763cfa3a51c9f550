(** The debugger object of a running session is the one of its history. *)
From Verif Require Import PyBase PyDict DbgTypes BpModel BpSpec BpProofs BpProofs2 BpProofs3 BpProps ThreadModel StratModel
  SysModel SysSpec SysProofs SysProofs2 SysProofs6 SysProofs7 SysProofs8 HistSpec.
From Coq Require Import Lia.
Set Implicit Arguments.
Local Open Scope N_scope.

(** [d'] is [d] after calls whose part that matters is [h]. *)
Definition via (h : list bop) (d d' : Dbg) : Prop :=
  exists ops, hist_wf ops /\ d' = fold_left bstep ops d /\ filter is_call ops = h.
Lemma via_refl d : via [] d d.
Proof. exists []. repeat split. intros o []. Qed.
Lemma via_trans h1 h2 d1 d2 d3 : via h1 d1 d2 -> via h2 d2 d3 -> via (h1 ++ h2) d1 d3.
Proof.
  intros (o1 & W1 & -> & <-) (o2 & W2 & -> & <-). exists (o1 ++ o2). rewrite fold_left_app, filter_app. repeat split.
  intros o H. apply in_app_or in H. destruct H; auto.
Qed.
Lemma via_nil_trans h d1 d2 d3 : via h d1 d2 -> via [] d2 d3 -> via h d1 d3.
Proof. intros A B. rewrite <- (app_nil_r h). eapply via_trans; eauto. Qed.
Lemma via_one d o : op_wf o -> via (filter is_call [o]) d (bstep d o).
Proof. intros W. exists [o]. repeat split. intros x [<-|[]]. exact W. Qed.
Lemma via_msg d m : told m = [] -> via [] d (queue_opt m d).
Proof. intros H. exact (@via_one d (BMsg m) H). Qed.

(** Nothing of the history is touched. *)
Definition nv (w w' : World) : Prop := via [] (w_dbg w) (w_dbg w').
Lemma nv_refl w : nv w w. Proof. apply via_refl. Qed.
Lemma nv_same w w' : w_dbg w' = w_dbg w -> nv w w'.
Proof. unfold nv. intros ->. apply via_refl. Qed.
Lemma nv_trans w1 w2 w3 : nv w1 w2 -> nv w2 w3 -> nv w1 w3.
Proof. unfold nv. intros. exact (via_trans H H0). Qed.
Lemma nv_emit o w : told (Some o) = [] -> nv w (emit o w).
Proof. intros H. unfold nv. cbn. now apply via_msg. Qed.
Lemma nv_add_var a k ds w : nv w (snd (add_var a k ds w)).
Proof. unfold add_var, nv. cbn. exact (@via_one (w_dbg w) BVar Logic.I). Qed.
Lemma nv_add_thread h w : nv w (snd (add_thread h w)).
Proof.
  unfold add_thread, nv. cbn. eapply via_nil_trans; [exact (@via_one (w_dbg w) BThread Logic.I)|]. now apply via_msg.
Qed.
Lemma nv_container a v w : nv w (snd (container a v w)).
Proof.
  unfold container. destruct (container_kind (w_heap w) v) as [k|]; [|apply nv_refl]. destruct v as [x y|b]; [apply nv_refl|].
  pose proof (nv_add_var a k b w) as H. destruct (add_var a k b w). exact H.
Qed.
Lemma nv_resume st l : forall w, nv w (fst (resume l st w)).
Proof.
  induction l as [|x l IH]; intros w; cbn [resume]; [apply nv_refl|]. destruct (dget (w_threads w) x); [|apply nv_refl].
  eapply nv_trans; [|apply IH]. now apply nv_same.
Qed.
Lemma nv_children py_repr type_name a l : forall w, nv w (fst (list_children py_repr type_name a l w)).
Proof.
  induction l as [|(n, v) l IH]; intros w; cbn [list_children]; [apply nv_refl|].
  assert (H : nv w (snd match asdict v (w_heap w) with Some (h', v') => container a v' (wh h' w) | None => container a v w end)).
  { destruct (asdict v (w_heap w)) as [(h', v')|]; [|apply nv_container]. eapply nv_trans; [|apply nv_container]. now apply nv_same. }
  destruct (match asdict v (w_heap w) with Some (h', v') => container a v' (wh h' w) | None => container a v w end) as (id, w1).
  specialize (IH w1). destruct (list_children py_repr type_name a l w1). cbn in *. eapply nv_trans; eauto.
Qed.
Lemma nv_var_set py_int v n x w : nv w (fst (var_set py_int v n x w)).
Proof.
  unfold var_set. destruct (v_kind v).
  - destruct (py_int n); [|apply nv_refl]. destruct (obj_set_index _ _ _ _); now apply nv_same.
  - destruct (obj_set_key _ _ _ _); now apply nv_same.
  - destruct (obj_set_key _ _ _ _) as [h|]; [|apply nv_refl]. destruct (obj_set_key h _ _ _); now apply nv_same.
  - destruct (obj_set_key _ _ _ _); now apply nv_same.
Qed.
Lemma nv_var_remove v n w : nv w (fst (var_remove v n w)).
Proof.
  unfold var_remove. destruct (v_kind v); try apply nv_refl.
  - destruct (obj_del_key _ _ _); now apply nv_same.
  - destruct (obj_del_key _ _ _) as [h|]; [|apply nv_refl]. destruct (obj_del_key h _ _); now apply nv_same.
  - destruct (obj_del_key _ _ _); now apply nv_same.
Qed.
Lemma nv_set_vars py_int ids n x : forall w, nv w (fst (set_vars py_int ids n x w)).
Proof.
  induction ids as [|i r IH]; intros w; cbn [set_vars]; [apply nv_refl|]. destruct (dget (w_vars w) i) as [v|]; [|apply nv_refl].
  pose proof (nv_var_set py_int v n x w) as H. destruct (var_set py_int v n x w) as (w', [u|e]); auto.
  eapply nv_trans; [exact H|apply IH].
Qed.
Lemma nv_exit w : nv w (exit_threads w).
Proof.
  unfold exit_threads. generalize (dkeys (w_threads w)). intros l. revert w. induction l as [|x l IH]; intros w; cbn [fold_left]; [apply nv_refl|].
  eapply nv_trans; [|apply IH]. destruct (N.eqb x 1); [apply nv_refl|]. unfold nv. cbn. now apply via_msg.
Qed.
Lemma nv_end_finish tid task w : nv w (fst (end_finish tid task w)).
Proof.
  unfold end_finish. destruct (dget (w_threads w) tid) as [t|]; [|apply nv_refl]. destruct (tstate_eqb _ _); [apply nv_refl|].
  destruct (is_include task); [apply nv_refl|]. destruct (t_stack t); [apply nv_refl|]. cbv zeta.
  destruct (dget _ n) as [f|]; [|now apply nv_same]. destruct (del_vars _ _); now apply nv_same.
Qed.
Lemma nv_end_task h task r a w : nv w (fst (fst (end_task h task r a w))).
Proof.
  unfold end_task. destruct (find_thread h w) as [t|]; [|apply nv_refl].
  destruct (should_stop_on_exception _ _ _ _ _ _) as (t', [ev|]); [|apply nv_refl]. cbv zeta.
  destruct (t_stack t); [now apply nv_same|]. destruct (dget _ n); [|now apply nv_same].
  pose proof (nv_add_var n VKDict a (set_thread t' w)) as H. destruct (add_var n VKDict a (set_thread t' w)) as (vid, w2). cbn [fst snd] in *.
  eapply nv_trans; [|now apply nv_emit]. eapply nv_trans; [exact H|]. destruct (dget (w_frames w2) n); now apply nv_same.
Qed.
Lemma nv_decide a tid w : nv w (fst (start_decide a tid w)).
Proof.
  unfold start_decide. destruct (n_path (ts_task a)) as [(p, line)|]; [|apply nv_refl]. cbv zeta.
  match goal with |- nv _ (fst match ?x with _ => _ end) => destruct x end; [|apply nv_refl].
  destruct (dget (w_threads w) tid); [|apply nv_refl]. destruct (should_break _ _ _) as (t', [ev|]); [|now apply nv_same].
  eapply nv_trans; [|now apply nv_emit]. now apply nv_same.
Qed.

Lemma via_regs l : forall d, dwf d -> regs_wf l -> exists d', register_all l d = (d', Ok tt) /\ via (loaded l) d d'.
Proof.
  induction l as [|((p, line), t) l IH]; intros d D W; cbn [register_all loaded map].
  - exists d. split; [reflexivity|apply via_refl].
  - destruct (dwf_binv D) as (ops & B). assert (L : (0 <= line)%Z) by (eapply W; left; reflexivity).
    destruct (@reg_ok d ops p line t B L) as (d1 & E & _). rewrite E.
    pose proof (@dext_one d (BReg p line t) L) as X. pose proof (@via_one d (BReg p line t) L) as Y. cbn [bstep] in X, Y. rewrite E in X, Y. cbn [fst] in X, Y.
    destruct (IH d1 (dwf_dext D X)) as (d2 & E2 & X2). { intros p0 l0 t0 H. eapply W. right. exact H. }
    exists d2. split; auto. exact (via_trans Y X2).
Qed.

Lemma del_vars_err l : forall vs e, del_vars l vs = Err e -> e = KeyError.
Proof. induction l as [|x l IH]; intros vs e; cbn; [discriminate|]. destruct (dget vs x); eauto. congruence. Qed.

(** Entering a task registers the role, if one is being entered. *)
Lemma via_enter a y : WInv (y_w y) -> dwf (w_dbg (y_w y)) -> match ts_role a with Some regs => regs_wf regs | None => True end ->
  via (calls y (LStart a)) (w_dbg (y_w y)) (w_dbg (fst (enter_frame a (y_w y)))).
Proof.
  intros I D R. cbn [calls]. unfold loads_role. set (w := y_w y) in *.
  assert (NK : snd (enter_frame a w) <> Err KeyError).
  { destruct (@enter_frame_spec a w I D R) as (tid & _ & _ & SP). destruct (enter_frame a w) as (w', [k|e]); cbn; [discriminate|].
    destruct SP as (_ & _ & -> & _). discriminate. }
  unfold enter_frame in *.
  assert (FIN : forall w5 tid, nv w5 (fst (let '(sfid, d) := next_stackframe_id (w_dbg w5) in
     let w6 := wd d w5 in
     let w7 := wframes (dset (w_frames w6) sfid (mkFrame sfid (ts_task a) (ts_tv a) (ts_args a) [] 0 0 0 0)) w6 in
     match dget (w_threads w7) tid with
     | Some t => (set_thread (t_with_stack (sfid :: t_stack t) t) w7, Ok tid)
     | None => (w7, Err EUnmodelled) end))).
  { intros w5 tid. cbn. destruct (dget (w_threads _) tid); unfold nv; cbn; exact (@via_one (w_dbg w5) BFrame Logic.I). }
  destruct (find_thread (ts_host a) w) as [t|] eqn:F.
  - destruct (find_thread_some _ I F) as (G & _). rewrite G in *. destruct (t_stack t) as [|last rest] eqn:S.
    { apply FIN. }
    destruct (n_parent (ts_task a)) as [blk|].
    2:{ destruct (dget (w_frames w) last); cbn [fst]; apply via_refl. }
    destruct (dget (w_frames w) last) as [lf|]; [|cbn [fst]; apply via_refl].
    match type of NK with context [match (if ?c then ?x else (w, Ok tt)) with _ => _ end] => set (popped := if c then x else (w, Ok tt)) in * end.
    assert (P : exists w4 x, popped = (w4, x) /\ w_dbg w4 = w_dbg w /\ forall e, x = Err e -> e = KeyError).
    { subst popped. destruct (match n_parent blk with None => true | Some _ => _ end); [|exists w, (Ok tt); repeat split; discriminate].
      cbv zeta. destruct (del_vars _ _) as [vs|e] eqn:DV; eexists; eexists; (split; [reflexivity|]); (split; [reflexivity|]); try discriminate.
      apply del_vars_err in DV. congruence. }
    destruct P as (w4 & x & EP & E4 & EX). rewrite EP in *. destruct x as [u|e].
    + destruct (n_parent blk) as [p|].
      * rewrite andb_true_r. change (an_include_role (f_task lf)) with (is_include_role (f_task lf)). destruct (is_include_role (f_task lf)).
        -- destruct (ts_role a) as [regs|].
           ++ destruct (@via_regs regs (w_dbg w4)) as (d' & E & V); [now rewrite E4|exact R|]. rewrite E. rewrite E4 in V.
              eapply via_nil_trans; [exact V|]. apply (FIN (wd d' w4)).
           ++ cbn [fst]. rewrite E4. apply via_refl.
        -- rewrite <- E4. apply (FIN w4).
      * rewrite andb_false_r. rewrite <- E4. apply (FIN w4).
    + exfalso. apply NK. cbn. f_equal. now apply EX.
  - pose proof (nv_add_thread (ts_host a) w) as H. destruct (add_thread (ts_host a) w) as (tid, w1) eqn:AT. cbn [snd] in H.
    assert (T : exists t, dget (w_threads w1) tid = Some t /\ t_stack t = []).
    { unfold add_thread in AT. cbn -[dset] in AT. injection AT as <- <-. cbn -[dset dget]. rewrite dget_dset, eqb_refl. eexists. split; reflexivity. }
    destruct T as (t & T & S). rewrite T, S. eapply via_nil_trans; [exact H|apply (FIN w1)].
Qed.

Section H.
Variable py_int : pystr -> option Z.
Variable py_repr : heap -> val -> pystr.
Variable type_name : heap -> val -> pystr.
Variable tmpl : pystr -> nat -> heap -> res (list obj * val).
Variable tmpl_args : nat -> nat -> heap -> res (list obj * val).
Variable err_text : exn -> pystr.
Variable parse_repl : pystr -> res ReplCmd.
Notation handle := (handle py_int py_repr type_name tmpl tmpl_args err_text parse_repl).
Notation process := (process py_int py_repr type_name tmpl tmpl_args err_text parse_repl).
Notation step := (step py_int py_repr type_name tmpl tmpl_args err_text parse_repl).
Notation run := (run py_int py_repr type_name tmpl tmpl_args err_text parse_repl).

Lemma nv_reply w x : nv w (fst x) -> (forall o, snd x = Ok o -> told (Some o) = []) -> nv w (fst (reply x)).
Proof. destruct x as (w', [o|e]); cbn [fst snd reply]; intros H T; auto. eapply nv_trans; [exact H|]. apply nv_emit. now apply T. Qed.
Lemma nv_ack w c seq x : nv w (fst x) -> nv w (fst (ack c seq x)).
Proof. destruct x as (w', [o|e]); cbn; intros H; auto. eapply nv_trans; [exact H|]. now apply nv_emit. Qed.
Lemma nv_none w : nv w (queue_none w).
Proof. unfold nv, queue_none. cbn. now apply via_msg. Qed.

Lemma nv_scopes seq f w : nv w (fst (get_scopes tmpl_args seq f w)) /\ forall o, snd (get_scopes tmpl_args seq f w) = Ok o -> told (Some o) = [].
Proof.
  unfold get_scopes.
  destruct (dget (w_frames w) f) as [fr|]; [|split; [apply nv_refl|discriminate]].
  destruct (tmpl_args _ _ _) as [(objs, ta)|]; [|split; [apply nv_refl|discriminate]]. destruct (addr_of ta) as [k|]; [|split; [apply nv_refl|discriminate]]. cbv zeta.
  assert (AV : forall w0 w1 k0 ds, nv w w0 -> w_dbg w1 = w_dbg w0 -> forall id w2, add_var f k0 ds w1 = (id, w2) -> nv w w2).
  { intros w0 w1 k0 ds A B id w2 C. pose proof (nv_add_var f k0 ds w1) as X. rewrite C in X. cbn in X.
    eapply nv_trans; [exact A|]. eapply nv_trans; [|exact X]. now apply nv_same. }
  assert (SF : forall g w0, nv w w0 -> nv w match dget (w_frames w0) f with Some fx => set_frame (g fx) w0 | None => w0 end).
  { intros g w0 A. eapply nv_trans; [exact A|]. destruct (dget (w_frames w0) f); now apply nv_same. }
  destruct (add_var f (VKRaw (f_args fr)) k _) as (oid, w2) eqn:A2. apply (AV w) in A2; [|apply nv_refl|reflexivity].
  apply (SF (f_with_options oid)) in A2. set (w2' := match dget (w_frames w2) f with Some _ => _ | None => _ end) in *. clearbody w2'. clear w2.
  destruct (add_var f _ (f_tv fr) w2') as (tid, w3) eqn:A3. apply (AV w2') in A3; [|exact A2|reflexivity].
  apply (SF (f_with_taskvar tid)) in A3. set (w3' := match dget (w_frames w3) f with Some _ => _ | None => _ end) in *. clearbody w3'. clear w3.
  match goal with |- context [match ?x with Ok _ => _ | Err _ => _ end] => destruct x as [(name, items)|e] end; [|split; [exact A3|discriminate]].
  destruct (add_var f (VKHost name) _ _) as (hid, w5) eqn:A5. apply (AV w3') in A5; [|exact A3|reflexivity].
  apply (SF (f_with_hostvars hid)) in A5. set (w5' := match dget (w_frames w5) f with Some _ => _ | None => _ end) in *. clearbody w5'. clear w5.
  match goal with |- context [match ?x with Ok _ => _ | Err _ => _ end] => destruct x as [(ga, gk)|e] end; [|split; [exact A5|discriminate]].
  destruct (add_var f gk ga w5') as (gid, w6) eqn:A6. apply (AV w5') in A6; [|exact A5|reflexivity].
  destruct (N.eqb _ 0). { split; [exact A6|]. intros o E. injection E as <-. reflexivity. }
  destruct (dget (w_vars w6) _). { split; [exact A6|]. intros o E. injection E as <-. reflexivity. }
  split; [exact A6|discriminate].
Qed.

Lemma nv_safe e tv w : nv w (fst (safe_evaluate py_repr type_name tmpl err_text e tv w)).
Proof. unfold safe_evaluate. destruct (tmpl _ _ _) as [(o, v)|]; now apply nv_same. Qed.

Lemma nv_evaluate seq e f c w : let x := evaluate py_int py_repr type_name tmpl err_text parse_repl seq e f c w in
  nv w (fst x) /\ forall o, snd x = Ok o -> told (Some o) = [].
Proof.
  cbv zeta. unfold evaluate.
  assert (TXT : forall t ty, nv w (fst (w, Ok (OEvaluate seq t ty))) /\ forall o, snd (w, Ok (OEvaluate seq t ty)) = Ok o -> told (Some o) = []).
  { intros t ty. split; [apply nv_refl|]. intros o E. injection E as <-. reflexivity. }
  assert (SV : forall x tv, let z := (let '(w', (v, ty)) := safe_evaluate py_repr type_name tmpl err_text x tv w in (w', Ok (OEvaluate seq v ty))) in
     nv w (fst z) /\ forall o, snd z = Ok o -> told (Some o) = []).
  { intros x tv. cbv zeta. pose proof (nv_safe x tv w) as H. destruct (safe_evaluate _ _ _ _ _ _ _) as (w', (v, ty)). split; [exact H|].
    intros o E. injection E as <-. reflexivity. }
  assert (FT : forall z : World * res unit, nv w (fst z) -> let u := match z with (w', Ok _) => (w', Ok (OEvaluate seq [] None)) | (w', Err ex) => (w', Err ex) end in
     nv w (fst u) /\ forall o, snd u = Ok o -> told (Some o) = []).
  { intros (w', [u|ex]) H; cbn in *; (split; [exact H|]); [|discriminate]. intros o E. injection E as <-. reflexivity. }
  destruct (frame_truthy f) as [fid|]; [|apply TXT]. destruct (ctx_in c _ && startswith e _).
  - destruct (dget (w_frames w) fid) as [fr|]; [|split; [apply nv_refl|discriminate]].
    destruct (parse_repl _) as [[x|n|n x|n x|t]|]; [apply SV| | | |apply TXT|split; [apply nv_refl|discriminate]].
    + destruct (dget (w_vars w) _) as [v|]; [|split; [apply nv_refl|discriminate]]. apply FT, nv_var_remove.
    + destruct (tmpl _ _ _) as [(o, v)|]; [|split; [apply nv_refl|discriminate]]. apply FT. eapply nv_trans; [|apply nv_set_vars]. now apply nv_same.
    + destruct (tmpl _ _ _) as [(o, v)|]; [|split; [apply nv_refl|discriminate]]. apply FT. eapply nv_trans; [|apply nv_set_vars]. now apply nv_same.
  - destruct (ctx_in c _); [|apply TXT]. destruct (dget (w_frames w) fid) as [fr|]; [|split; [apply nv_refl|discriminate]]. apply SV.
Qed.

(** Requests other than setBreakpoints and setExceptionBreakpoints. *)
Definition plain (r : Req) : Prop := match r with RSetBreakpoints _ _ _ | RSetException _ => False | _ => True end.
Lemma nv_process seq r w : plain r -> nv w (fst (process seq r w)).
Proof.
  intros P. destruct r; try contradiction; cbn [SysModel.process].
  - unfold nv. cbn. eapply via_nil_trans; [apply (@via_msg (w_dbg w) (Some (OAck CConfigurationDone seq))); reflexivity|].
    match goal with |- via _ ?d _ => exact (@via_one d BConfDone Logic.I) end.
  - unfold continue_request. destruct single; match goal with |- context [resume ?l ?st w] => pose proof (nv_resume st l w) as H; destruct (resume l st w) as (w', [u|e]) end;
      cbn in *; auto; (eapply nv_trans; [exact H|]); now apply nv_emit.
  - unfold disconnect. match goal with |- context [resume ?l ?st w] => pose proof (nv_resume st l w) as H; destruct (resume l st w) as (w', [u|e]) end;
      cbn in *; auto. eapply nv_trans; [exact H|apply nv_none].
  - match goal with |- nv _ (fst (reply ?x)) => destruct (nv_evaluate seq expr frame ctx w) as (A & B) end. now apply nv_reply.
  - apply nv_ack, nv_resume.
  - destruct (nv_scopes seq frame w) as (A & B). now apply nv_reply.
  - apply nv_reply.
    + unfold set_variable. destruct (dget (w_vars w) _) as [v|]; [|apply nv_refl]. destruct (dget (w_frames w) _); [|apply nv_refl].
      destruct (tmpl _ _ _) as [(objs, x)|]; [|apply nv_refl]. cbv zeta.
      pose proof (nv_var_set py_int v name x (wh (w_heap w ++ objs) w)) as H. destruct (var_set py_int v name x (wh (w_heap w ++ objs) w)) as (w2, [u|e]); cbn [fst] in H.
      * pose proof (nv_container (v_frame v) x w2) as H2. destruct (container (v_frame v) x w2) as (id, w3). cbn [fst snd] in *. eapply nv_trans; [|exact H2].
        eapply nv_trans; [|exact H]. now apply nv_same.
      * cbn. eapply nv_trans; [|exact H]. now apply nv_same.
    + intros o. unfold set_variable. destruct (dget (w_vars w) _) as [v|]; [|discriminate]. destruct (dget (w_frames w) _); [|discriminate].
      destruct (tmpl _ _ _) as [(objs, x)|]; [|discriminate]. cbv zeta. destruct (var_set _ _ _ _ _) as (w2, [u|e]); [|discriminate].
      destruct (container _ _ _). cbn. intros E. injection E as <-. reflexivity.
  - apply nv_reply; [apply nv_refl|]. intros o. unfold get_stacktrace. cbn [snd]. destruct (dget _ _); [|discriminate]. destruct (mapM _ _); [|discriminate].
    cbn [bind]. intros E. injection E as <-. reflexivity.
  - apply nv_ack, nv_resume.
  - apply nv_ack, nv_resume.
  - assert (H : nv w (fst (ack CTerminate seq (disconnect true w)))) by apply nv_ack, nv_resume.
    destruct (ack CTerminate seq (disconnect true w)) as (w', [u|e]); cbn in *; auto. eapply nv_trans; [exact H|apply nv_none].
  - apply nv_reply; [apply nv_refl|]. intros o E. injection E as <-. reflexivity.
  - apply nv_reply.
    + unfold get_variables. destruct (dget (w_vars w) _) as [v|]; [|apply nv_refl].
      pose proof (nv_children py_repr type_name (v_frame v) (var_get (w_heap w) v) w) as H. destruct (list_children _ _ _ _ _). exact H.
    + intros o. unfold get_variables. destruct (dget (w_vars w) _) as [v|]; [|discriminate]. destruct (list_children _ _ _ _ _). cbn. intros E. injection E as <-. reflexivity.
  - apply nv_refl.
Qed.
Lemma nv_handle seq r w : plain r -> nv w (handle seq r w).
Proof.
  intros P. unfold SysModel.handle. pose proof (@nv_process seq r w P) as H. destruct (process seq r w) as (w', [u|e]); cbn in *; auto.
  eapply nv_trans; [exact H|]. now apply nv_emit.
Qed.
Lemma via_handle seq r w : label_wf (LReq seq r) ->
  via (match r with RSetBreakpoints src bps md => [BSet seq src bps md] | RSetException fs => [BExc seq fs] | _ => [] end) (w_dbg w) (w_dbg (handle seq r w)).
Proof.
  intros W. destruct r; try (apply (@nv_handle seq); exact Logic.I).
  - exact (@via_one (w_dbg w) (BExc seq filters) Logic.I).
  - pose proof (@via_one (w_dbg w) (BSet seq src bps modified) W) as H. cbn [bstep filter is_call] in H.
    unfold SysModel.handle. cbn [SysModel.process]. destruct (set_breakpoints seq src bps modified (w_dbg w)) as (d, [u|e]); exact H.
Qed.

Lemma via_before r y : via (match r with RDisconnect _ | RTerminate => [BClear] | _ => [] end) (w_dbg (y_w y)) (before_strategy r (w_dbg (y_w y))) .
Proof.
  destruct r; try apply via_refl; cbn [before_strategy].
  - exact (@via_one (w_dbg (y_w y)) BClear Logic.I).
  - eapply (via_trans (h1 := [])); [exact (@via_one (w_dbg (y_w y)) BTerm Logic.I)|].
    match goal with |- via _ ?d _ => exact (@via_one d BClear Logic.I) end.
Qed.

Lemma step_via y l y' : SInv y -> label_wf l -> step y l = Some y' -> via (calls y l) (w_dbg (y_w y)) (w_dbg (y_w y')).
Proof.
  intros S W H. pose proof (y_inv S) as I. pose proof (y_dwf S) as D.
  destruct l as [|a|h r addr| | |regs| |seq r| |maps| |hp|lregs]; cbn [SysModel.step] in H.
  - destruct (y_phase y); try discriminate. injection H as <-. apply via_refl.
  - destruct (y_phase y); try discriminate. destruct (host_open _ _); try discriminate.
    pose proof (@via_enter a y I D W) as E. unfold start_task in H. destruct (enter_frame a (y_w y)) as (w1, [tid|e]); cbn [fst] in E.
    + pose proof (nv_decide a tid w1) as E2. destruct (start_decide a tid w1) as (w2, o). cbn [fst] in E2.
      destruct o; injection H as <-; (eapply via_nil_trans; [exact E|]); auto. cbn. exact (nv_trans E2 (nv_exit w2)).
    + injection H as <-. eapply via_nil_trans; [exact E|]. apply (nv_exit w1).
  - change (nv (y_w y) (y_w y')). destruct (y_phase y); try discriminate. destruct (find _ (y_open y)) as [(h0, task)|]; try discriminate. 
    pose proof (nv_end_task h task r addr (y_w y)) as E. destruct (end_task h task r addr (y_w y)) as ((w1, o), tid). cbn [fst] in E.
    destruct o; destruct tid as [tid|]; try discriminate.
    + pose proof (nv_end_finish tid task w1) as E2. destruct (end_finish tid task w1) as (w2, [| |e]); cbn [fst] in E2; try discriminate; injection H as <-; cbn [y_w abort].
      * exact (nv_trans E E2).
      * exact (nv_trans (nv_trans E E2) (nv_exit w2)).
    + injection H as <-. exact E.
    + injection H as <-. exact (nv_trans E (nv_exit w1)).
    + injection H as <-. exact (nv_trans E (nv_exit w1)).
  - change (nv (y_w y) (y_w y')). destruct (y_phase y) as [| |tid|tid task|e]; try discriminate; destruct (waiting tid (y_w y)); try discriminate.
    + destruct (start_resume tid (y_w y)); try discriminate; injection H as <-; [apply nv_refl|apply nv_exit].
    + pose proof (nv_end_finish tid task (y_w y)) as E2. destruct (end_finish tid task (y_w y)) as (w2, [| |e]); cbn [fst] in E2; try discriminate; injection H as <-; cbn [y_w abort].
      * exact E2.
      * exact (nv_trans E2 (nv_exit w2)).
  - destruct (y_phase y); try discriminate. destruct (y_open y) as [|p [|]]; try discriminate. injection H as <-. apply nv_exit.
  - destruct (y_phase y); try discriminate. destruct (@via_regs regs (w_dbg (y_w y)) D W) as (d' & E & V). rewrite E in H. injection H as <-. exact V.
  - destruct (y_phase y); try discriminate. injection H as <-. apply nv_exit.
  - destruct (y_recv y); [discriminate|]. pose proof (@via_before r y) as B. set (w1 := wd (before_strategy r (w_dbg (y_w y))) (y_w y)) in *.
    change (before_strategy r (w_dbg (y_w y))) with (w_dbg w1) in B.
    destruct (needs_strategy r && negb (has_strategy y)) eqn:NS; injection H as <-.
    + destruct r; try discriminate; exact B.
    + pose proof (@via_handle seq r w1 W) as V. pose proof (via_trans B V) as Z. destruct r; exact Z.
  - destruct (y_recv y) as [(seq, r)|] eqn:R; [|discriminate]. destruct (has_strategy y); [|discriminate]. injection H as <-.
    pose proof (y_rq S) as RW. rewrite R in RW. cbn [y_w]. apply nv_handle. destruct RW as (_ & N). destruct r; try exact Logic.I; discriminate.
  - destruct (y_recv y); [discriminate|]. injection H as <-. exact (@via_one (w_dbg (y_w y)) (BConf maps) Logic.I).
  - destruct (y_recv y); [discriminate|]. injection H as <-. cbn [y_w calls]. unfold shutdown.
    assert (E : via [BClear] (w_dbg (y_w y)) (set_confdone true (clear_config (w_dbg (y_w y))))).
    { eapply via_nil_trans; [exact (@via_one (w_dbg (y_w y)) BClear Logic.I)|]. match goal with |- via _ ?d _ => exact (@via_one d BConfDone Logic.I) end. }
    destruct (has_strategy y && _); [|exact E]. eapply via_nil_trans; [exact E|]. unfold disconnect. apply nv_resume.
  - injection H as <-. apply via_refl.
  - destruct (y_phase y); try discriminate. destruct (@via_regs lregs (w_dbg (y_w y)) D W) as (d' & E & V). rewrite E in H. injection H as <-. exact V.
Qed.

Lemma run_via ls : forall y y', SInv y -> trace_wf ls -> run y ls y' -> via (history step y ls) (w_dbg (y_w y)) (w_dbg (y_w y')).
Proof.
  induction ls as [|l ls IH]; intros y y' S W R; inversion R; subst; cbn [history]; [apply via_refl|].
  inversion W; subst. match goal with H : step y l = Some _ |- _ => rewrite H; rename H into E end. eapply via_trans; [eapply step_via; eauto|].
  apply IH; auto. eapply step_inv; eauto.
Qed.
End H.
