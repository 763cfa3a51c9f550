(** Every request: bookkeeping and the answer. *)
From Verif Require Import PyBase PyDict DbgTypes BpModel BpSpec BpProofs2 BpProofs3 BpProps ThreadModel StratModel SysModel SysSpec SysProofs SysProofs2 SysProofs3 SysProofs4.
Set Implicit Arguments.
Local Open Scope N_scope.

Definition req_wf (r : Req) : Prop :=
  match r with RSetBreakpoints _ bps _ => forall sb, In sb bps -> (0 <= sb_line sb)%Z | _ => True end.

Lemma resume_ok st l : forall w, (forall x, In x l -> exists t, dget (w_threads w) x = Some t) -> snd (resume l st w) = Ok tt.
Proof.
  induction l as [|a l IH]; intros w H; cbn [resume]; auto.
  destruct (H a (or_introl eq_refl)) as (t & E). rewrite E. apply IH. intros x Hx. cbn -[dset dget]. rewrite dget_dset.
  destruct (eqb_spec a x); eauto. apply H. now right.
Qed.
Lemma resume_all_ok st w : snd (resume (dkeys (w_threads w)) st w) = Ok tt.
Proof. apply resume_ok. intros x Hx. now apply dget_key_ex. Qed.

Lemma good_wd_msg w m : told m = [] -> good w (wd (queue_opt m (w_dbg w)) w).
Proof. intros H. apply (@good_bstep (BMsg m) w); auto. Qed.
Lemma good_queue_none w : good w (queue_none w).
Proof. now apply good_wd_msg. Qed.

Lemma set_bps_dext d ops seq src l md : binv d ops -> (forall sb, In sb l -> (0 <= sb_line sb)%Z) ->
  exists infos, set_breakpoints seq src l md d = (bstep d (BSet seq src l md), Ok tt) /\
    d_out (bstep d (BSet seq src l md)) = d_out d ++ [Some (OBps seq infos)].
Proof.
  intros B H. destruct (@set_ok d ops seq src l md B H) as (d' & infos & E & O & _). exists infos. cbn [bstep]. rewrite E. auto.
Qed.

Set Default Proof Using "Type".
Section H.
Variable py_int : pystr -> option Z.
Variable py_repr : heap -> val -> pystr.
Variable type_name : heap -> val -> pystr.
Variable tmpl : pystr -> nat -> heap -> res (list obj * val).
Variable tmpl_args : nat -> nat -> heap -> res (list obj * val).
Variable err_text : exn -> pystr.
Variable parse_repl : pystr -> res ReplCmd.
Notation process := (process py_int py_repr type_name tmpl tmpl_args err_text parse_repl).
Notation handle := (handle py_int py_repr type_name tmpl tmpl_args err_text parse_repl).

(** The shape of an answer. *)
Definition answered (seq : Z) (r : Req) (w w' : World) (x : res unit) : Prop :=
  match x with
  | Ok _ => match r with
            | RDisconnect _ => d_out (w_dbg w') = d_out (w_dbg w) ++ [None]
            | RTerminate => d_out (w_dbg w') = d_out (w_dbg w) ++ [Some (OAck CTerminate seq); None]
            | _ => exists o, d_out (w_dbg w') = d_out (w_dbg w) ++ [Some o] /\ resp_of o = Some (cmd_of r, seq)
            end
  | Err _ => d_out (w_dbg w') = d_out (w_dbg w) /\ match r with RDisconnect _ | RTerminate => False | _ => True end
  end.

Lemma reply_answered seq r w x : match r with RDisconnect _ | RTerminate => False | _ => True end ->
  d_out (w_dbg (fst x)) = d_out (w_dbg w) ->
  match snd x with Ok o => resp_of o = Some (cmd_of r, seq) | Err _ => True end ->
  answered seq r w (fst (reply x)) (snd (reply x)).
Proof.
  destruct x as (w', [o|e]); cbn [reply fst snd answered]; intros N H1 H2.
  - assert (exists o0, d_out (w_dbg (emit o w')) = d_out (w_dbg w) ++ [Some o0] /\ resp_of o0 = Some (cmd_of r, seq)).
    { exists o. split; auto. cbn. now rewrite H1. }
    destruct r; auto; contradiction.
  - split; auto.
Qed.
Lemma ack_answered seq r w c x : match r with RDisconnect _ | RTerminate => False | _ => True end -> cmd_of r = c ->
  d_out (w_dbg (fst x)) = d_out (w_dbg w) ->
  answered seq r w (fst (ack c seq x)) (snd (ack c seq x)).
Proof.
  destruct x as (w', [o|e]); cbn [ack fst snd answered]; intros N E H1.
  - assert (exists o0, d_out (w_dbg (emit (OAck c seq) w')) = d_out (w_dbg w) ++ [Some o0] /\ resp_of o0 = Some (cmd_of r, seq)).
    { exists (OAck c seq). split; [cbn; now rewrite H1|cbn; now subst]. }
    destruct r; auto; contradiction.
  - split; auto.
Qed.
Lemma reply_good w x : good w (fst x) -> match snd x with Ok o => told (Some o) = [] | Err _ => True end -> good w (fst (reply x)).
Proof.
  destruct x as (w', [o|e]); cbn [fst snd reply]; intros G T; auto.
  eapply good_trans; [exact G|]. now apply good_emit.
Qed.
Lemma ack_good w c seq x : good w (fst x) -> good w (fst (ack c seq x)).
Proof.
  destruct x as (w', [o|e]); cbn [fst snd ack]; intros G; auto.
  eapply good_trans; [exact G|]. now apply good_emit.
Qed.

Lemma process_spec seq r w ops : WInv w -> binv (w_dbg w) ops -> req_wf r ->
  WInv (fst (process seq r w)) /\ qext w (fst (process seq r w)) /\ answered seq r w (fst (process seq r w)) (snd (process seq r w)).
Proof.
  intros I B W.
  assert (KEY : forall (w' : World) x, process seq r w = (w', x) -> good w w' -> answered seq r w w' x ->
     WInv (fst (process seq r w)) /\ qext w (fst (process seq r w)) /\ answered seq r w (fst (process seq r w)) (snd (process seq r w))).
  { intros w' x E G A. rewrite E. cbn [fst snd]. destruct (G I). auto. }
  assert (KR : forall y, process seq r w = reply y -> match r with RDisconnect _ | RTerminate => False | _ => True end ->
     good w (fst y) -> d_out (w_dbg (fst y)) = d_out (w_dbg w) ->
     match snd y with Ok o => resp_of o = Some (cmd_of r, seq) /\ told (Some o) = [] | Err _ => True end ->
     WInv (fst (process seq r w)) /\ qext w (fst (process seq r w)) /\ answered seq r w (fst (process seq r w)) (snd (process seq r w))).
  { intros y E N G O T. rewrite E. destruct (@reply_good w y G) as (G1 & G2); auto. { destruct (snd y); tauto. }
    split; auto. split; auto. apply reply_answered; auto. destruct (snd y); tauto. }
  assert (KA : forall c st t, process seq r w = ack c seq (resume [t] st w) -> match r with RDisconnect _ | RTerminate => False | _ => True end -> cmd_of r = c ->
     WInv (fst (process seq r w)) /\ qext w (fst (process seq r w)) /\ answered seq r w (fst (process seq r w)) (snd (process seq r w))).
  { intros c st t E N C. rewrite E. destruct (@ack_good w c seq _ (@resume_good st [t] w) I) as (G1 & G2). split; auto. split; auto.
    apply ack_answered; auto. apply resume_out. }
  destruct r as [|tid single|term|e fr c|tid|fr|fs|src l md|ref name value|tid|tid|tid| | |ref|n].
  - eapply KEY; [reflexivity| |].
    + eapply good_trans; [apply (@good_bstep (BMsg (Some (OAck CConfigurationDone seq))) w); [reflexivity|exact Logic.I]|].
      apply (@good_bstep BConfDone (wd (queue_msg (OAck CConfigurationDone seq) (w_dbg w)) w)); exact Logic.I.
    + cbn. eexists; split; reflexivity.
  - apply (KR (continue_request seq tid single w)); [reflexivity|exact Logic.I| | |]; unfold continue_request; destruct single.
    + pose proof (@resume_good TContinue [tid] w). destruct (resume [tid] TContinue w) as (w', [u|er]); auto.
    + pose proof (@resume_good TContinue (dkeys (w_threads w)) w). destruct (resume (dkeys (w_threads w)) TContinue w) as (w', [u|er]); auto.
    + pose proof (resume_out TContinue [tid] w). destruct (resume [tid] TContinue w) as (w', [u|er]); auto.
    + pose proof (resume_out TContinue (dkeys (w_threads w)) w). destruct (resume (dkeys (w_threads w)) TContinue w) as (w', [u|er]); auto.
    + destruct (resume [tid] TContinue w) as (w', [u|er]); cbn; auto.
    + destruct (resume (dkeys (w_threads w)) TContinue w) as (w', [u|er]); cbn; auto.
  - set (st := if match term with Some true => true | _ => false end then TEnd else TContinue).
    pose proof (@resume_good st (dkeys (w_threads w)) w) as G. pose proof (resume_out st (dkeys (w_threads w)) w) as O.
    pose proof (resume_all_ok st w) as K.
    destruct (resume (dkeys (w_threads w)) st w) as (w', x) eqn:E. cbn [snd fst] in *. subst x.
    apply (KEY (queue_none w') (Ok tt)).
    + cbn [SysModel.process]. unfold disconnect. fold st. rewrite E. reflexivity.
    + eapply good_trans; [exact G|apply (@good_queue_none _)].
    + cbn. now rewrite O.
  - pose proof (evaluate_ss py_int py_repr type_name tmpl err_text parse_repl seq e fr c w) as V.
    destruct (evaluate py_int py_repr type_name tmpl err_text parse_repl seq e fr c w) as (w', x) eqn:E. destruct V as (V1 & V2 & V3).
    apply (KR (w', x)); [cbn [SysModel.process]; now rewrite E|exact Logic.I| | |]; cbn [fst snd].
    + now apply good_ss.
    + now rewrite V2.
    + destruct x as [o|er]; auto. destruct V3 as (v & t & ->). auto.
  - apply (KA CNext TStepOver tid); reflexivity || exact Logic.I.
  - pose proof (@get_scopes_spec tmpl_args seq fr w I) as V. destruct (get_scopes tmpl_args seq fr w) as (w', x) eqn:E.
    destruct V as (V1 & V2 & V3 & V4 & V5 & V6 & V7).
    apply (KR (w', x)); [cbn [SysModel.process]; now rewrite E|exact Logic.I| | |]; cbn [fst snd]; auto.
    + intros _. auto.
    + destruct x as [o|er]; auto. destruct V7 as (f & o1 & o2 & o3 & o4 & v1 & v2 & v3 & v4 & pre & _ & -> & _). auto.
  - eapply KEY; [reflexivity| |].
    + apply (@good_bstep (BExc seq fs) w); exact Logic.I.
    + cbn. eexists; split; reflexivity.
  - destruct (@set_bps_dext (w_dbg w) ops seq src l md B W) as (infos & E & O).
    apply (KEY (wd (bstep (w_dbg w) (BSet seq src l md)) w) (Ok tt)).
    + cbn [SysModel.process]. rewrite E. reflexivity.
    + apply good_bstep; [exact W|exact Logic.I].
    + eexists; split; [exact O|reflexivity].
  - pose proof (@set_variable_spec py_int py_repr type_name tmpl seq ref name value w I) as V.
    destruct (set_variable py_int py_repr type_name tmpl seq ref name value w) as (w', x) eqn:E. destruct V as (V1 & V2 & V3 & V4).
    apply (KR (w', x)); [cbn [SysModel.process]; now rewrite E|exact Logic.I| | |]; cbn [fst snd]; auto.
    + intros _. auto.
    + destruct x as [o|er]; auto. destruct V4 as (v & i & _ & -> & _). auto.
  - apply (KR (get_stacktrace seq tid w)); [reflexivity|exact Logic.I|apply good_refl|reflexivity|].
    unfold get_stacktrace. cbn [snd]. destruct (dget (w_threads w) tid) as [t|]; cbn; auto.
    match goal with |- context [mapM ?a ?b] => destruct (mapM a b) end; cbn; auto.
  - apply (KA CStepIn TStepIn tid); reflexivity || exact Logic.I.
  - apply (KA CStepOut TStepOut tid); reflexivity || exact Logic.I.
  - pose proof (@resume_good TEnd (dkeys (w_threads w)) w) as G. pose proof (resume_out TEnd (dkeys (w_threads w)) w) as O.
    pose proof (resume_all_ok TEnd w) as K.
    destruct (resume (dkeys (w_threads w)) TEnd w) as (w', x) eqn:E. cbn [snd fst] in *. subst x.
    apply (KEY (queue_none (emit (OAck CTerminate seq) w')) (Ok tt)).
    + cbn [SysModel.process]. unfold disconnect. rewrite E. reflexivity.
    + eapply good_trans; [exact G|]. eapply good_trans; [apply (@good_emit (OAck CTerminate seq) w'); reflexivity|apply (@good_queue_none _)].
    + cbn. rewrite O, <- app_assoc. reflexivity.
  - apply (KR (get_threads seq w)); [reflexivity|exact Logic.I|apply good_refl|reflexivity|cbn; auto].
  - pose proof (@get_variables_spec py_repr type_name seq ref w I) as V.
    destruct (get_variables py_repr type_name seq ref w) as (w', x) eqn:E.
    apply (KR (w', x)); [cbn [SysModel.process]; now rewrite E|exact Logic.I| | |]; cbn [fst snd]; auto.
    + destruct x as [o|er]; [|destruct V as (-> & _); apply good_refl]. intros _. destruct V as (V1 & V2 & _). auto.
    + destruct x as [o|er]; [|destruct V as (-> & _); reflexivity]. destruct V as (V1 & V2 & V3 & V4 & V5 & _). auto.
    + destruct x as [o|er]; auto. destruct V as (V1 & V2 & V3 & V4 & V5 & v & infos & _ & -> & _). auto.
  - eapply KEY; [reflexivity|apply good_refl|]. cbn. auto.
Qed.

Lemma handle_spec seq r w ops : WInv w -> binv (w_dbg w) ops -> req_wf r ->
  WInv (handle seq r w) /\ qext w (handle seq r w) /\
  responses (d_out (w_dbg (handle seq r w))) = responses (d_out (w_dbg w)) ++ expects_answer (seq, r).
Proof.
  intros I B W. destruct (@process_spec seq r w ops I B W) as (I' & Q & A). unfold SysModel.handle.
  destruct (process seq r w) as (w', [u|e]); cbn [fst snd answered] in *.
  - split; auto. split; auto. unfold expects_answer, responses. destruct r; cbn [fst snd];
      try (destruct A as (o & -> & E); rewrite flat_map_app; cbn; rewrite E; reflexivity);
      rewrite A, flat_map_app; reflexivity.
  - destruct A as (A & N). destruct (@good_emit (OError (cmd_of r) seq) w' eq_refl I') as (I2 & Q2). split; auto. split; [eapply qext_trans; eauto|].
    unfold responses. cbn. rewrite A, flat_map_app. cbn. destruct r; try contradiction; reflexivity.
Qed.
End H.
