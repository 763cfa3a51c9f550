(** No thread is told to end unless the client asked for it. *)
From Verif Require Import PyBase PyDict DbgTypes BpModel BpSpec BpProofs BpProofs2 BpProofs3 BpProps ThreadModel ThreadSpec ThreadProps StratModel SysModel SysSpec
  SysProofs SysProofs2 SysProofs3 SysProofs4 SysProofs5 SysProofs6 SysProofs7 SysProofs8 SysProps StepSpec StepProofs PlayModel PlaySpec.
Set Implicit Arguments.
Local Open Scope N_scope.

Definition nend (w : World) : Prop := forall k t, dget (w_threads w) k = Some t -> t_state t <> TEnd.
Definition ne (w : World) : Prop := NoDup (dkeys (w_threads w)) /\ nend w.
Definition keepn (w w' : World) : Prop := ne w -> ne w'.
Lemma keepn_same w w' : w_threads w' = w_threads w -> keepn w w'.
Proof. intros E N. unfold ne, nend. now rewrite E. Qed.
Lemma keepn_trans a b c : keepn a b -> keepn b c -> keepn a c.
Proof. unfold keepn. auto. Qed.
Lemma keepn_dset w k t : t_state t <> TEnd -> keepn w (wthreads (dset (w_threads w) k t) w).
Proof.
  intros S (ND & N). split; [now apply NoDup_dset|]. intros k0 t0 H. cbn [w_threads wthreads wss w_ss s_threads] in H. rewrite dget_dset in H.
  destruct (eqb k k0); [injection H as <-; exact S|]. eapply N. exact H.
Qed.
Lemma keepn_stack w k t x : dget (w_threads w) k = Some t -> keepn w (set_thread (t_with_stack x t) w).
Proof. intros H N. apply keepn_dset; auto. cbn. apply N in H. exact H. Qed.
Lemma keepn_del w k : keepn w (wthreads (ddel (w_threads w) k) w).
Proof.
  intros (ND & N). split; [now apply NoDup_ddel|]. intros k0 t0 H. cbn [w_threads wthreads wss w_ss s_threads] in H. apply dget_In, In_ddel in H. apply In_dget in H; auto. eapply N. exact H.
Qed.
Lemma enter_keepn a w : keepn w (fst (enter_frame a w)).
Proof.
  unfold enter_frame.
  destruct (match find_thread (ts_host a) w with Some t => (t_id t, w) | None => add_thread (ts_host a) w end) as (tid, w1) eqn:E1.
  assert (K1 : keepn w w1).
  { destruct (find_thread (ts_host a) w); [injection E1 as _ <-; intros N; exact N|]. unfold add_thread in E1. destruct (next_thread_id (w_dbg w)) as (i, d). injection E1 as _ <-.
    eapply keepn_trans; [apply (@keepn_dset w i (mkThread i (Some (ts_host a)) [] TContinue None)); discriminate|]. apply keepn_same. reflexivity. }
  match goal with |- keepn _ (fst match ?x with _ => _ end) => destruct x as (w5, o) eqn:E2 end.
  assert (K2 : keepn w1 w5).
  { destruct (dget (w_threads w1) tid) as [t|] eqn:T; [|injection E2 as <- _; intros N; exact N]. destruct (t_stack t) as [|last rest]; [injection E2 as <- _; intros N; exact N|].
    destruct (n_parent (ts_task a)) as [blk|]; [|injection E2 as <- _; intros N; exact N]. destruct (dget (w_frames w1) last) as [lf|]; [|injection E2 as <- _; intros N; exact N].
    cbv zeta in E2.
    match type of E2 with match ?x with _ => _ end = _ => destruct x as (w4, o4) eqn:E3 end.
    assert (K3 : keepn w1 w4).
    { match type of E3 with (if ?b then _ else _) = _ => destruct b end; [|injection E3 as <- _; intros N; exact N].
      match type of E3 with match ?x with _ => _ end = _ => destruct x as [vs|e] end; injection E3 as <- _; (eapply keepn_trans; [apply (@keepn_stack w1 tid t rest T)|]; apply keepn_same; reflexivity). }
    destruct o4 as [u|e]; [|injection E2 as <- _; exact K3].
    destruct (n_parent blk); [|injection E2 as <- _; exact K3]. destruct (is_include_role (f_task lf)); [|injection E2 as <- _; exact K3].
    destruct (ts_role a) as [regs|]; [|injection E2 as <- _; exact K3]. destruct (register_all regs (w_dbg w4)) as (d', [u2|e2]); injection E2 as <- _; (eapply keepn_trans; [exact K3|]; apply keepn_same; reflexivity). }
  assert (K : keepn w w5) by (eapply keepn_trans; eauto).
  destruct o as [u|e]; [|exact K]. destruct (next_stackframe_id (w_dbg w5)) as (sfid, d). cbn zeta.
  match goal with |- context [dget (w_threads ?x) tid] => set (w7 := x) end.
  assert (K7 : keepn w5 w7) by (apply keepn_same; reflexivity).
  destruct (dget (w_threads w7) tid) as [t|] eqn:T; cbn [fst].
  - eapply keepn_trans; [exact K|]. eapply keepn_trans; [exact K7|]. eapply keepn_stack. exact T.
  - eapply keepn_trans; eauto.
Qed.
Lemma break_state task bp t : t_state t <> TEnd -> t_state (fst (should_break task bp t)) <> TEnd.
Proof.
  intros N. unfold should_break. destruct (break_step_over t task); [discriminate|]. destruct (break_step_out t task); [discriminate|]. destruct (break_step_in t); [discriminate|].
  destruct bp as [id|]; [|exact N]. destruct (tstate_eqb (t_state t) TStepOut); [exact N|discriminate].
Qed.
Lemma exc_state task r a b c t : t_state t <> TEnd -> t_state (fst (should_stop_on_exception task r a b c t)) <> TEnd.
Proof. intros N. unfold should_stop_on_exception. match goal with |- context [match ?x with Some _ => _ | None => _ end] => destruct x as [(?, ?)|] end; [discriminate|exact N]. Qed.
Lemma decide_keepn a tid w : keepn w (fst (start_decide a tid w)).
Proof.
  unfold start_decide. destruct (n_path (ts_task a)) as [(path, line)|]; [|intros N; exact N].
  match goal with |- context [match ?x with Ok _ => _ | Err _ => _ end] => destruct x as [id|e] end; [|intros N; exact N].
  destruct (dget (w_threads w) tid) as [t|] eqn:T; [|intros N; exact N]. intros N.
  pose proof (@break_state (ts_task a) id t (proj2 N _ _ T)) as B. destruct (should_break (ts_task a) id t) as (t', [ev|]); cbn [fst] in *.
  - apply (@keepn_same (set_thread t' w)); [reflexivity|]. now apply keepn_dset.
  - now apply keepn_dset.
Qed.
Lemma start_keepn a w : keepn w (fst (fst (start_task a w))).
Proof.
  unfold start_task. pose proof (@enter_keepn a w) as K. destruct (enter_frame a w) as (w', [tid|e]); [|exact K].
  pose proof (@decide_keepn a tid w') as D. destruct (start_decide a tid w') as (w'', o). cbn [fst] in *. eapply keepn_trans; eauto.
Qed.
Lemma end_keepn h task r addr w : keepn w (fst (fst (end_task h task r addr w))).
Proof.
  intros (ND & N0). pose proof (conj ND N0 : ne w) as N. unfold end_task. destruct (find_thread h w) as [t|] eqn:F; [|exact N].
  assert (NT : t_state t <> TEnd). { apply find_some in F. destruct F as (F & _). apply in_map_iff in F. destruct F as ((k, t0) & E & F). cbn in E. subst t0. apply In_dget in F; auto. eapply N0; eauto. }
  pose proof (@exc_state task r (should_stop_on_error (w_dbg w)) (should_stop_on_unreachable (w_dbg w)) (should_stop_on_skipped (w_dbg w)) t NT) as X.
  destruct (should_stop_on_exception _ _ _ _ _ t) as (t', [ev|]); cbn [fst] in X; [|exact N].
  assert (K : ne (set_thread t' w)) by now apply keepn_dset.
  destruct (t_stack t) as [|sfid rest]; [exact K|]. destruct (dget (w_frames (set_thread t' w)) sfid) as [f|]; [|exact K].
  pose proof (thr_add_var sfid VKDict addr (set_thread t' w)) as A. destruct (add_var sfid VKDict addr (set_thread t' w)) as (vid, w2). cbn [snd] in A. cbn [fst].
  eapply keepn_same; [|exact K]. rewrite <- A. destruct (dget (w_frames w2) sfid); reflexivity.
Qed.
Lemma finish_keepn tid task w : keepn w (fst (end_finish tid task w)).
Proof.
  intros N. unfold end_finish. destruct (dget (w_threads w) tid) as [t|] eqn:T; [|exact N]. destruct (tstate_eqb _ _); [exact N|]. destruct (is_include task); [exact N|].
  destruct (t_stack t) as [|sfid rest]; [exact N|]. assert (K : ne (set_thread (t_with_stack rest t) w)) by (eapply keepn_stack; eauto).
  destruct (dget (w_frames (set_thread (t_with_stack rest t) w)) sfid) as [f|]; [|exact K].
  match goal with |- context [del_vars ?x ?y] => destruct (del_vars x y) as [vs|e] end; (eapply keepn_same; [|exact K]; reflexivity).
Qed.
Lemma exit_keepn w : keepn w (exit_threads w).
Proof.
  unfold exit_threads. generalize (dkeys (w_threads w)). intros l. revert w. induction l as [|x l IH]; intros w; cbn [fold_left]; [intros N; exact N|].
  eapply keepn_trans; [|apply IH]. destruct (N.eqb x 1); [intros N; exact N|]. eapply keepn_trans; [apply (@keepn_del w x)|]. apply keepn_same. reflexivity.
Qed.
Lemma set_state_not st t : st <> TEnd -> t_state (set_state st t) <> TEnd.
Proof. intros N. unfold set_state. destruct st; try congruence; destruct (t_stopped t); try discriminate. destruct (is_include n); discriminate. Qed.
Lemma resume_keepn st l : st <> TEnd -> forall w, keepn w (fst (resume l st w)).
Proof.
  intros N. induction l as [|x l IH]; intros w; cbn [resume]; [intros K; exact K|]. destruct (dget (w_threads w) x) as [t|]; [|intros K; exact K].
  eapply keepn_trans; [|apply IH]. apply keepn_dset. now apply set_state_not.
Qed.
Definition ends_play (r : Req) : Prop := r = RTerminate \/ r = RDisconnect (Some true).

Section S.
Variable py_int : pystr -> option Z.
Variable py_repr : heap -> val -> pystr.
Variable type_name : heap -> val -> pystr.
Variable tmpl : pystr -> nat -> heap -> res (list obj * val).
Variable tmpl_args : nat -> nat -> heap -> res (list obj * val).
Variable err_text : exn -> pystr.
Variable parse_repl : pystr -> res ReplCmd.
Notation step := (step py_int py_repr type_name tmpl tmpl_args err_text parse_repl).
Notation run := (run py_int py_repr type_name tmpl tmpl_args err_text parse_repl).
Notation handle := (handle py_int py_repr type_name tmpl tmpl_args err_text parse_repl).
Notation process := (process py_int py_repr type_name tmpl tmpl_args err_text parse_repl).

Lemma process_keepn seq r w : ~ ends_play r -> ne w -> nend (fst (process seq r w)).
Proof.
  intros NE N.
  assert (OTHER : (forall k, ~ addresses k r) -> nend (fst (process seq r w))).
  { intros NA k t H. rewrite process_keeps in H by apply NA. eapply (proj2 N); eauto. }
  assert (ACK : forall c tid st, st <> TEnd -> nend (fst (ack c seq (resume [tid] st w)))).
  { intros c tid st NS. pose proof (@resume_keepn st [tid] NS w N) as (_ & K). destruct (resume [tid] st w) as (w', [u|e]); exact K. }
  destruct r as [|tid single|term| |tid| | | | | |tid|tid| | | |]; try (apply OTHER; intros k X; exact X).
  - cbn [SysModel.process]. unfold nend. rewrite thr_reply. unfold continue_request. destruct single.
    + pose proof (@resume_keepn TContinue [tid] ltac:(discriminate) w N) as (_ & K). destruct (resume [tid] TContinue w) as (w', [u|e]); exact K.
    + pose proof (@resume_keepn TContinue (dkeys (w_threads w)) ltac:(discriminate) w N) as (_ & K). destruct (resume _ TContinue w) as (w', [u|e]); exact K.
  - cbn [SysModel.process]. unfold disconnect. assert (ST : (if match term with Some true => true | _ => false end then TEnd else TContinue) = TContinue).
    { destruct term as [[|]|]; auto. exfalso. apply NE. now right. }
    rewrite ST. pose proof (@resume_keepn TContinue (dkeys (w_threads w)) ltac:(discriminate) w N) as (_ & K). destruct (resume _ TContinue w) as (w', [u|e]); exact K.
  - apply ACK. discriminate.
  - apply ACK. discriminate.
  - apply ACK. discriminate.
  - exfalso. apply NE. now left.
Qed.
Lemma handle_keepn seq r w : ~ ends_play r -> ne w -> nend (handle seq r w).
Proof. intros E N. unfold SysModel.handle. pose proof (@process_keepn seq r w E N) as X. destruct (process seq r w) as (w', [u|e]); exact X. Qed.

Lemma ends_dec r : ends_play r \/ ~ ends_play r.
Proof. unfold ends_play. destruct r as [| |[[|]|]| | | | | | | | | | | | |]; auto; right; intros [X|X]; discriminate. Qed.
(** A state in which nobody has asked to end. *)
Definition calm (ls : list label) (y : Sys) : Prop :=
  ne (y_w y) /\ forall seq r, y_recv y = Some (seq, r) -> In (LReq seq r) ls.
Lemma step_calm ls y l y' : SInv y -> label_wf l -> step y l = Some y' -> ~ asked_to_end (ls ++ [l]) -> calm ls y -> calm (ls ++ [l]) y'.
Proof.
  intros S WF E NA (N & RV).
  destruct (@step_inv py_int py_repr type_name tmpl tmpl_args err_text parse_repl y l y' S WF E) as (S' & _). pose proof (i_tnd (y_inv S')) as ND'. clear S'.
  assert (OLD : forall seq r, y_recv y = Some (seq, r) -> In (LReq seq r) (ls ++ [l])) by (intros; apply in_or_app; auto).
  assert (NE : forall seq r, In (LReq seq r) (ls ++ [l]) -> ~ ends_play r). { intros seq r H X. apply NA. exists seq, r. split; auto. }
  destruct l as [|a|h r addr| | |regs| |seq r| |maps| |hp|lregs]; cbn [SysModel.step] in E.
  - destruct (y_phase y); try discriminate. injection E as <-. split; auto. split; [exact ND'|]. intros k t H. cbn in H. destruct k as [|p]; [discriminate|]. destruct p; try discriminate. injection H as <-. discriminate.
  - destruct (y_phase y); try discriminate. destruct (host_open _ _); try discriminate. pose proof (@start_keepn a (y_w y) N) as K.
    destruct (start_task a (y_w y)) as ((w', o), tid). cbn [fst] in K. destruct o as [| |e]; [|destruct tid; [|discriminate]|]; injection E as <-; split; auto. now apply exit_keepn.
  - destruct (y_phase y); try discriminate. destruct (find _ (y_open y)) as [(h0, task)|]; try discriminate.
    pose proof (@end_keepn h task r addr (y_w y) N) as K. destruct (end_task h task r addr (y_w y)) as ((w', o), tid). cbn [fst] in K.
    destruct o as [| |e]; [| |injection E as <-; split; auto; now apply exit_keepn]; (destruct tid as [tid|]; [|discriminate]).
    + pose proof (@finish_keepn tid task w' K) as F. destruct (end_finish tid task w') as (w'', [| |e]); try discriminate; injection E as <-; split; auto. now apply exit_keepn.
    + injection E as <-. split; auto.
  - destruct (y_phase y) as [| |tid|tid task|e]; try discriminate; destruct (waiting tid (y_w y)); try discriminate.
    + destruct (start_resume tid (y_w y)); try discriminate; injection E as <-; split; auto. now apply exit_keepn.
    + pose proof (@finish_keepn tid task (y_w y) N) as F. destruct (end_finish tid task (y_w y)) as (w'', [| |e]); try discriminate; injection E as <-; split; auto. now apply exit_keepn.
  - destruct (y_phase y); try discriminate. destruct (y_open y) as [|p [|q l]]; try discriminate. injection E as <-. split; auto. now apply exit_keepn.
  - destruct (y_phase y); try discriminate. destruct (register_all regs (w_dbg (y_w y))) as (d, [u|e]); injection E as <-; split; auto. apply exit_keepn. exact N.
  - destruct (y_phase y); try discriminate. injection E as <-. split; auto. now apply exit_keepn.
  - destruct (y_recv y); [discriminate|]. destruct (_ && _); injection E as <-; split.
    + exact N.
    + intros q r0 X. injection X as <- <-. apply in_or_app. right. now left.
    + split; [exact ND'|]. apply handle_keepn; [|exact N]. apply (NE seq). apply in_or_app. right. now left.
    + intros q r0 X. discriminate.
  - destruct (y_recv y) as [(seq, r)|] eqn:R; [|discriminate]. destruct (has_strategy y); [|discriminate]. injection E as <-. split; [|intros q r0 X; discriminate].
    split; [exact ND'|]. apply handle_keepn; [|exact N]. apply (NE seq). now apply OLD.
  - destruct (y_recv y); [discriminate|]. injection E as <-. split; [exact N|intros q r0 X; discriminate].
  - destruct (y_recv y); [discriminate|]. injection E as <-. split; [|intros q r0 X; discriminate].
    cbn [y_w]. unfold shutdown. match goal with |- ne (if ?b then _ else _) => destruct b end; [|exact N]. apply resume_keepn; [discriminate|]. exact N.
  - injection E as <-. split; auto.
  - destruct (y_phase y); try discriminate. injection E as <-. split; auto.
Qed.
Lemma asked_app ls l : asked_to_end ls -> asked_to_end (ls ++ [l]).
Proof. intros (seq & r & H & X). exists seq, r. split; auto. apply in_or_app. auto. Qed.
Lemma run_calm ls : forall ls0 y y', SInv y -> trace_wf ls -> run y ls y' -> ~ asked_to_end (ls0 ++ ls) -> calm ls0 y -> calm (ls0 ++ ls) y'.
Proof.
  induction ls as [|l ls IH]; intros ls0 y y' S W R NA C; inversion R as [|? ? y1 ? ? R1 R2]; subst; [now rewrite app_nil_r|].
  pose proof (Forall_inv W) as W1. apply Forall_inv_tail in W.
  destruct (@step_inv py_int py_repr type_name tmpl tmpl_args err_text parse_repl y l y1 S W1 R1) as (S1 & _).
  change (l :: ls) with ([l] ++ ls) in *. rewrite app_assoc in *. apply (IH (ls0 ++ [l]) y1 y' S1 W R2); [exact NA|]. eapply step_calm; [exact S|exact W1|exact R1| |exact C].
  intros (seq & r & H & X). apply NA. exists seq, r. split; auto. apply in_or_app. now left.
Qed.
Lemma init_calm : calm [] sys_init.
Proof. split; [|intros q r X; discriminate]. split; [repeat constructor; auto|]. intros k t H. cbn in H. destruct k as [|p]; [discriminate|]. destruct p; try discriminate. injection H as <-. discriminate. Qed.
Lemma asked_dec ls : asked_to_end ls \/ ~ asked_to_end ls.
Proof.
  induction ls as [|l ls [IH|IH]].
  - right. intros (q & r & X & _). destruct X.
  - left. destruct IH as (q & r & H & X). exists q, r. split; auto. now right.
  - destruct l; try (right; intros (q & r0 & [H|H] & X); [discriminate|apply IH; exists q, r0; auto]).
    destruct (ends_dec r) as [E|E]; [left; exists seq, r; split; auto; now left|]. right. intros (q & r0 & [H|H] & X); [injection H as -> ->; auto|apply IH; exists q, r0; auto].
Qed.
End S.
