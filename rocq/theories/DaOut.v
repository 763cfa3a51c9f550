(** C67: the messages the debug adapter itself sends to the client: the capabilities, the acknowledgements of
    attach, launch and disconnect, its error reports, the terminated event, the request to start the playbook. *)
From Verif Require Import PyBase PyDict JsonModel JsonSpec JsonProofs JsonGrammar JsonProps MsgBase MsgTables MsgModel MsgSpec MsgProofs MsgProofs2 AdapterModel AdapterSpec AdapterProofs AdapterProofs2 AdapterProps DbgTypes BpModel BpSpec BpProps WireSpec WireProofs OutSpec OutModel OutProofs OutProps ArgsModel.

(** * Model *)
Inductive DaMsg (Fl : Type) :=
| MInitialize (q : Z)
| MAttach (q : Z)
| MLaunch (q : Z)
| MDisconnect (q : Z)
| MError (cmd : pystr) (q : Z) (tb : pystr)
| MTerminated
| MRun (launch_file : pystr) (a : LaunchArgs Fl).
Arguments MInitialize {Fl} q. Arguments MAttach {Fl} q. Arguments MLaunch {Fl} q. Arguments MDisconnect {Fl} q.
Arguments MError {Fl} cmd q tb. Arguments MTerminated {Fl}. Arguments MRun {Fl} launch_file a.

Definition filter_obj (id label descr : pystr) (dflt : bool) : pval :=
  mk C_ExceptionBreakpointsFilter [(s "filter", PStr id); (s "label", PStr label); (s "description", PStr descr); (s "default", PBool dflt)].
(** _debug_adapter.py:397-432 *)
Definition capabilities : pval :=
  mk C_Capabilities
    [(s "exception_breakpoints_filters", PList
       [filter_obj f_error (s "Uncaught Failures") (s "Break when the play will fail due to an unhandled failure.") true;
        filter_obj f_unreachable (s "Unreachable Hosts") (s "Break when the play will fail due to an unreachable host error.") true;
        filter_obj f_skipped (s "Skipped Tasks") (s "Break when the preceding task was skipped") false]);
     (s "supports_clipboard_context", PBool true); (s "supports_conditional_breakpoints", PBool true);
     (s "supports_configuration_done_request", PBool true); (s "supports_set_variable", PBool true);
     (s "supports_suspend_debuggee", PBool false); (s "supports_terminate_debuggee", PBool true);
     (s "supports_terminate_request", PBool true)].
(** list.extend of a JSON value: _debug_adapter.py:536 *)
Definition py_extend (l : list pval) (j : json) : res (list pval) :=
  match j with
  | JArr js => Ok (l ++ map lift js)
  | JStr t => Ok (l ++ map (fun c => PStr [c]) t)
  | JObj d => Ok (l ++ map (fun kv => PStr (fst kv)) d)
  | _ => Err TypeError
  end.
Section M.
Context {Fl : Type}.
Definition da_obj (m : DaMsg Fl) : res pval :=
  let rs q := (s "request_seq", PInt q) in
  match m with
  | MInitialize q => Ok (mk C_InitializeResponse [rs q; (s "capabilities", capabilities)]) (* 394-434 *)
  | MAttach q => Ok (mk C_AttachResponse [rs q]) (* 454 *)
  | MLaunch q => Ok (mk C_LaunchResponse [rs q]) (* 575 *)
  | MDisconnect q => Ok (mk C_DisconnectResponse [rs q]) (* 325 *)
  | MError cmd q tb => Ok (mk C_ErrorResponse [(s "command", PEnum E_Command cmd); rs q; (* 331-336 *)
                             (s "message", PStr (s "Critical DAServer exception received" ++ 10%N :: tb))])
  | MTerminated => Ok (mk C_TerminatedEvent []) (* 349 *)
  | MRun file a => (* 535-546 *)
    bind (py_extend [PStr file; lift (la_playbook a)] (la_args a)) (fun args =>
    Ok (mk C_RunInTerminalRequest [(s "cwd", lift (la_cwd a)); (s "kind", PStr (if la_external a then s "external" else s "integrated"));
                                   (s "args", PList args); (s "title", PStr (s "Ansible Debug Console")); (s "env", lift (la_env a))]))
  end.

(** * What they say *)
Definition filter_tells (j : json) (f : pystr * pystr * bool) : Prop :=
  let '(id, label, dflt) := f in
  member j "filter" = JStr id /\ member j "label" = JStr label /\ member j "default" = JBool dflt /\ member j "supportsCondition" = JBool false.
Definition da_tells (j : json) (n : Z) (m : DaMsg Fl) : Prop :=
  member j "seq" = JInt n /\
  match m with
  | MInitialize q => response j (s "initialize") q true /\
      items filter_tells (body j "exceptionBreakpointFilters")
        [(s "on_error", s "Uncaught Failures", true); (s "on_unreachable", s "Unreachable Hosts", true); (s "on_skipped", s "Skipped Tasks", false)] /\
      (* what this adapter can do, and what it cannot *)
      Forall (fun k => at_ j [s "body"; k] = JBool true)
        [s "supportsConfigurationDoneRequest"; s "supportsConditionalBreakpoints"; s "supportsSetVariable"; s "supportTerminateDebuggee";
         s "supportsTerminateRequest"; s "supportsClipboardContext"] /\
      Forall (fun k => at_ j [s "body"; k] = JBool false)
        [s "supportsFunctionBreakpoints"; s "supportsHitConditionalBreakpoints"; s "supportsEvaluateForHovers"; s "supportsStepBack";
         s "supportsRestartFrame"; s "supportsGotoTargetsRequest"; s "supportsStepInTargetsRequest"; s "supportsCompletionsRequest";
         s "supportSuspendDebuggee"]
  | MAttach q => response j (s "attach") q true
  | MLaunch q => response j (s "launch") q true
  | MDisconnect q => response j (s "disconnect") q true
  | MError cmd q tb => response j cmd q false /\ member j "message" = JStr (s "Critical DAServer exception received" ++ 10%N :: tb)
  | MTerminated => event j "terminated"
  | MRun file a => member j "type" = JStr (s "request") /\ member j "command" = JStr (s "runInTerminal") /\
      arg j "cwd" = la_cwd a /\ arg j "env" = la_env a /\ arg j "kind" = JStr (if la_external a then s "external" else s "integrated") /\
      arg j "title" = JStr (s "Ansible Debug Console") /\
      exists l, la_args a = JArr l /\ arg j "args" = JArr (JStr file :: la_playbook a :: l)
  end.
(** the values are of the types the launch configuration asks for *)
Definition da_ok (m : DaMsg Fl) : Prop :=
  match m with
  | MError cmd _ tb => In cmd (members E_Command) /\ Forall scalar tb
  | MRun file a => Forall scalar file /\ wfj (la_playbook a) /\ (exists l, la_args a = JArr l) /\ wfj (la_args a) /\
      (exists t, la_cwd a = JStr t) /\ wfj (la_cwd a) /\ (exists d, la_env a = JObj d) /\ wfj (la_env a)
  | _ => True
  end.
End M.

(** * Proofs *)
Lemma okeq' {x y : json} {v} : enc v = Ok x -> enc v = Ok y -> y = x.
Proof. congruence. Qed.
Ltac m P := unfold num, text, member, body, arg in *; match goal with |- at_ _ ?p = _ => eapply okeq'; [|apply (P p); reflexivity]; try reflexivity end.
Ltac args := repeat (lazymatch goal with |- Forall (arg_ok _) _ => first [apply Forall_nil|apply Forall_cons] end);
  repeat match goal with |- arg_ok ?c (?k, ?v) => unfold arg_ok; cbn [fst]; 
    let f := eval vm_compute in (find_field c k) in change (find_field c k) with f; cbn [snd wta popt pn funp] end;
  try exact I.
Ltac good := apply mk_good; [reflexivity|vm_compute; reflexivity|vm_compute; reflexivity|args].
Ltac seqd := match goal with |- context [set_seq (mk ?c ?k) ?n] => change (set_seq (mk c k) n) with (mk c ((s "seq", PInt n) :: k)) end.
Ltac start W := match goal with |- context [enc (mk ?c ?k)] => assert (W : wt (UObj c) (mk c k)) end.
Ltac fin W j P := destruct (mk_members _ _ W) as (j & E & Wf & _); pose proof (path_val_ok _ _ _ W E) as P; exists j; split; [exact E|]; split; [exact Wf|];
   split; [m P|].
Ltac resp P := split; [m P|split; [m P|split; m P]].
Ltac evt P := split; m P.

Lemma wt_lift j : wfj j -> jsonval (lift j).
Proof.
  induction j as [| | | |l IH|d IH] using json_ind2; cbn [wfj lift jsonval]; auto.
  - induction IH as [|x l Hx IH1 IH2]; cbn; auto. intros [H1 H2]. auto.
  - rewrite map_map. cbn [fst]. intros [H0 H]. split; [exact H0|]. clear H0. induction IH as [|[k x] l Hx IH1 IH2]; cbn; auto. cbn in H. destruct H as (A & B & C). cbn [snd] in *. auto.
Qed.
Lemma wt_id j : wfj j -> wt UId (lift j).
Proof. intros H. apply wt_lift in H. destruct (lift j); exact H. Qed.
Lemma filter_good id label descr dflt : asciib id = true -> asciib label = true -> asciib descr = true ->
  wt (UObj C_ExceptionBreakpointsFilter) (filter_obj id label descr dflt) /\
  forall j, enc (filter_obj id label descr dflt) = Ok j -> filter_tells j (id, label, dflt).
Proof.
  intros A B C. assert (W : wt (UObj C_ExceptionBreakpointsFilter) (filter_obj id label descr dflt)) by (good; now apply asciib_scalar).
  split; [exact W|]. intros j E. pose proof (path_val_ok _ _ _ W E) as P. repeat split; m P.
Qed.
Lemma cap_good : wt (UObj C_Capabilities) capabilities.
Proof. good. cbn [fold_right]. do 3 (split; [apply filter_good; reflexivity|]). exact I. Qed.
Definition filter_table : list (pystr * pystr * bool * pystr) :=
  [(s "on_error", s "Uncaught Failures", true, s "Break when the play will fail due to an unhandled failure.");
   (s "on_unreachable", s "Unreachable Hosts", true, s "Break when the play will fail due to an unreachable host error.");
   (s "on_skipped", s "Skipped Tasks", false, s "Break when the preceding task was skipped")].

Lemma da_tells_ok {Fl} (m0 : DaMsg Fl) n : da_ok m0 ->
  match da_obj m0 with Ok v => exists j, enc (set_seq v n) = Ok j /\ wfj j /\ da_tells j n m0 | Err _ => False end.
Proof.
  intros H. destruct m0 as [q|q|q|q|cmd q tb| |file a]; cbn [da_obj].
  - seqd. start W; [good; exact cap_good|]. fin W j P. split; [resp P|].
    assert (Hc := P [s "body"] _ eq_refl). pose proof (path_val_ok _ _ _ cap_good Hc) as PC.
    assert (B : forall k, at_ j [s "body"; k] = at_ (at_ j [s "body"]) [k]).
    { intros k. change [s "body"; k] with ([s "body"] ++ [k]). apply at_app. }
    split.
    { unfold body. rewrite B. assert (F := PC [s "exceptionBreakpointFilters"] _ eq_refl).
      set (jf := at_ _ [s "exceptionBreakpointFilters"]) in *. clearbody jf.
      match type of F with enc ?x = _ => change x with (PList (map (fun y : pystr * pystr * bool * pystr => let '(a, b, c, d) := y in filter_obj a b d c) filter_table)) in F end.
      apply enc_arr in F as (js & -> & F). exists js. split; [reflexivity|]. unfold filter_table in F.
      inversion F as [|j1 ? l1 ? F1 G1]; subst. inversion G1 as [|j2 ? l2 ? F2 G2]; subst. inversion G2 as [|j3 ? l3 ? F3 G3]; subst. inversion G3; subst.
      constructor; [|constructor; [|constructor; [|constructor]]]; eapply filter_good; eauto; reflexivity. }
    split; repeat (constructor; [rewrite B; m PC|]); constructor.
  - seqd. start W; [good|]. fin W j P. resp P.
  - seqd. start W; [good|]. fin W j P. resp P.
  - seqd. start W; [good|]. fin W j P. resp P.
  - destruct H as [H1 H2]. seqd. start W. { good; [now split|]. apply Forall_app. split; [apply asciib_scalar; reflexivity|]. constructor; [vm_compute; auto|exact H2]. }
    fin W j P. split; [resp P|m P].
  - seqd. start W; [good|]. fin W j P. evt P.
  - destruct H as (Hf & Hp & (l & Hl) & Ha & (cwd & Hc) & Hcw & (env & He) & Hew).
    rewrite Hl in *. cbn [py_extend bind]. seqd. start W.
    { rewrite Hc, He in *. good.
      - exact Hcw.
      - destruct (la_external a); apply asciib_scalar; reflexivity.
      - cbn [fold_right app]. split; [exact Hf|]. split; [now apply wt_id|]. apply wt_list_map. intros x Hx. apply wt_id.
        clear -Ha Hx. cbn [wfj] in Ha. induction l as [|y l IH]; [destruct Hx|]. destruct Ha as [A B]. destruct Hx as [->|Hx]; auto.
      - apply asciib_scalar; reflexivity.
      - exact (wt_lift _ Hew). }
    fin W j P. split; [m P|]. split; [m P|].
    split; [m P; exact (enc_lift (la_cwd a))|].
    split; [m P; exact (enc_lift (la_env a))|].
    split; [m P; now destruct (la_external a)|]. split; [m P|]. exists l. split; [exact Hl|]. m P.
    exact (enc_lift (JArr (JStr file :: la_playbook a :: l))).
Qed.

(** * C67 *)
Section C67.
Context {Fl : Type}.
(** every message the adapter itself sends can be sent, and is JSON that says what the adapter did *)
Theorem C67_bytes : forall (m0 : DaMsg Fl) c, da_ok m0 ->
  exists v payload j, da_obj m0 = Ok v /\
    AdapterModel.queue_msg c v = (Ok (seq_out c), mkConn (out c ++ frame_spec payload) (inb c) (seq_in c) (seq_out c + 1)) /\
    json_text payload j /\ da_tells j (seq_out c) m0.
Proof.
  intros m0 c H. pose proof (da_tells_ok m0 (seq_out c) H) as X. destruct (da_obj m0) as [v|]; [|destruct X]. destruct X as (j & A & W & B).
  exists v, (dumps j), j. split; [reflexivity|]. split; [|split; [now apply C05_writes_json|exact B]].
  unfold AdapterModel.queue_msg. rewrite (@frame_of_ok _ _ A (@wfj_cpj _ W)). cbn [out inb seq_in seq_out]. unfold frame_bytes, header, frame_spec. now rewrite <- !app_assoc.
Qed.
(** every advertised exception filter is effective in the debuggee, and each switches its own kind of stop only *)
Theorem C67_filters_effective : forall q, exists f1 f2 f3 v j,
  da_obj (@MInitialize Fl q) = Ok v /\ enc v = Ok j /\
  items (fun x f => member x "filter" = JStr f) (body j "exceptionBreakpointFilters") [f1; f2; f3] /\
  forall ops seq fs, (forall f, In f fs -> In f [f1; f2; f3]) ->
    (should_stop_on_error (brun (ops ++ [BExc seq fs])) = true <-> In f1 fs) /\
    (should_stop_on_unreachable (brun (ops ++ [BExc seq fs])) = true <-> In f2 fs) /\
    (should_stop_on_skipped (brun (ops ++ [BExc seq fs])) = true <-> In f3 fs).
Proof.
  intros q. pose proof (da_tells_ok (@MInitialize Fl q) 0 I) as X. cbn [da_obj] in X. destruct X as (j & A & W & B).
  exists (s "on_error"), (s "on_unreachable"), (s "on_skipped"). eexists. exists j. split; [reflexivity|]. split; [exact A|].
  destruct B as (_ & _ & (js & E & F) & _). split.
  - exists js. split; [exact E|]. repeat match goal with H : Forall2 _ _ (_ :: _) |- _ => let T := fresh in inversion H as [|? ? ? ? T ?]; subst; clear H; destruct T as [T _]; constructor; [exact T|] end.
    match goal with H : Forall2 _ _ [] |- _ => inversion H; subst end. constructor.
  - intros ops seq fs _. unfold should_stop_on_error, should_stop_on_unreachable, should_stop_on_skipped. rewrite !C19_exception_filters. unfold last_filters. rewrite fold_left_app. cbn [fold_left]. tauto.
Qed.
(** from the launch request to the terminal: the playbook is started as the launch configuration asked *)
Theorem C67_launch_terminal : forall (py_float : option json -> res Fl) d a file c,
  launch_from_json py_float d = Ok a -> Forall scalar file -> wfj (JObj d) ->
  (forall x, dget d (s "args") = Some x -> exists l, x = JArr l) -> (forall x, dget d (s "cwd") = Some x -> exists t, x = JStr t) ->
  (forall x, dget d (s "env") = Some x -> exists l, x = JObj l) ->
  exists v payload j playbook, da_obj (MRun file a) = Ok v /\
    AdapterModel.queue_msg c v = (Ok (seq_out c), mkConn (out c ++ frame_spec payload) (inb c) (seq_in c) (seq_out c + 1)) /\ json_text payload j /\
    member j "seq" = JInt (seq_out c) /\ member j "type" = JStr (s "request") /\ member j "command" = JStr (s "runInTerminal") /\
    (* the command line: the launch script, the playbook, its arguments *)
    dget d (s "playbook") = Some playbook /\
    (exists l, arg j "args" = JArr (JStr file :: playbook :: l) /\ match dget d (s "args") with Some x => x = JArr l | None => l = [] end) /\
    (* its directory, environment and terminal *)
    arg j "cwd" = match dget d (s "cwd") with Some x => x | None => JStr [] end /\
    arg j "env" = match dget d (s "env") with Some x => x | None => JObj [] end /\
    arg j "kind" = (match dget d (s "console") with Some (JStr t) => if eqb t (s "externalTerminal") then JStr (s "external") else JStr (s "integrated") | _ => JStr (s "integrated") end).
Proof.
  intros pf d a file c HL Hf Hd HA HC HE. unfold launch_from_json in HL.
  assert (WG : forall k x, wfj x -> wfj (get_or d k x)).
  { intros k x Hx. unfold get_or. destruct (dget d k) as [y|] eqn:E; [|exact Hx]. cbn [wfj] in Hd. destruct Hd as [_ Hd]. apply dget_In in E.
    clear -Hd E. induction d as [|[k' z] d IH]; [destruct E|]. cbn in Hd. destruct Hd as (_ & A & B). destruct E as [E|E]; [injection E as -> ->; exact A|auto]. }
  destruct (truthy (get_or d (s "playbook") JNull)) eqn:TP; [|discriminate]. cbn [negb] in HL.
  match type of HL with bind ?x _ = _ => destruct x as [ext|] eqn:EC; [|discriminate] end. cbn [bind] in HL.
  match type of HL with bind ?x _ = _ => destruct x as [maps|] eqn:EM; [|discriminate] end. cbn [bind] in HL.
  match type of HL with bind ?x _ = _ => destruct x as [tm|] eqn:ET; [|discriminate] end. cbn [bind] in HL. injection HL as <-.
  set (a := mkLaunch _ _ _ _ _ _ _ _ _).
  assert (OK : da_ok (MRun file a)).
  { cbn. split; [exact Hf|]. split; [now apply WG|]. split; [|split; [now apply WG|split; [|split; [apply WG; cbn; constructor|split; [|apply WG; cbn; split; constructor]]]]].
    - unfold get_or. destruct (dget d (s "args")) eqn:E; eauto.
    - unfold get_or. destruct (dget d (s "cwd")) eqn:E; eauto.
    - unfold get_or. destruct (dget d (s "env")) eqn:E; eauto. }
  destruct (C67_bytes (MRun file a) c OK) as (v & payload & j & E1 & E2 & E3 & T). unfold da_tells in T. cbn [la_playbook la_cwd la_env la_args la_external a] in T.
  destruct T as (T0 & T1 & T2 & T3 & T4 & T5 & T6 & l & T7 & T8).
  exists v, payload, j, (get_or d (s "playbook") JNull). do 6 (split; [assumption|]).
  split; [unfold get_or in *; destruct (dget d (s "playbook")); [reflexivity|discriminate]|].
  split; [exists l; split; [exact T8|]; unfold get_or in T7; destruct (dget d (s "args")); [exact T7|now injection T7]|].
  split; [exact T3|]. split; [exact T4|]. rewrite T5. unfold get_or in EC. destruct (dget d (s "console")) as [[| | |t| |]|]; try discriminate EC.
  - destruct (eqb t (s "integratedTerminal")) eqn:Ei; [injection EC as <-; apply eqb_eq in Ei as ->; reflexivity|].
    destruct (eqb t (s "externalTerminal")); [injection EC as <-; reflexivity|discriminate].
  - injection EC as <-. reflexivity.
Qed.
End C67.
Print Assumptions C67_bytes.
Print Assumptions C67_filters_effective.
Print Assumptions C67_launch_terminal.

(** a launch request with an argument, a directory and an external terminal *)
Definition demo_launch : dict pystr json :=
  [(s "playbook", JStr (s "main.yml")); (s "args", JArr [JStr (s "-v")]); (s "cwd", JStr (s "/work")); (s "console", JStr (s "externalTerminal"))].
Definition demo_args : LaunchArgs unit := mkLaunch (JStr (s "main.yml")) (JArr [JStr (s "-v")]) (JStr (s "/work")) (JObj []) true tt [] JNull (JStr (s "info")).
Definition demo_file : pystr := s "/tmp/ansibug-launch-1".
Example C67_launch_met : launch_from_json (fun _ => Ok tt) demo_launch = Ok demo_args /\ da_ok (MRun demo_file demo_args).
Proof.
  split; [vm_compute; reflexivity|]. cbn [da_ok la_playbook la_args la_cwd la_env demo_args wfj fold_right map].
  assert (A : forall t, asciib t = true -> Forall scalar t) by (intros t; apply asciib_scalar).
  split; [apply A; reflexivity|]. split; [apply A; reflexivity|]. split; [eexists; reflexivity|]. split; [split; [apply A; reflexivity|exact I]|].
  split; [eexists; reflexivity|]. split; [apply A; reflexivity|]. split; [eexists; reflexivity|]. split; [constructor|exact I].
Qed.
Example C67_launch_example :
  match da_obj (MRun demo_file demo_args) with Ok v => match enc (set_seq v 4) with Ok j => dumps j | Err _ => [] end | Err _ => [] end =
  s "{""seq"": 4, ""type"": ""request"", ""command"": ""runInTerminal"", ""arguments"": {""kind"": ""external"", ""title"": ""Ansible Debug Console"", ""cwd"": ""/work"", ""args"": [""/tmp/ansibug-launch-1"", ""main.yml"", ""-v""], ""env"": {}}}".
Proof. vm_compute. reflexivity. Qed.
Example C67_error_met : da_ok (@MError unit (s "launch") 2 (s "Traceback")).
Proof. split; [vm_compute; tauto|apply asciib_scalar; reflexivity]. Qed.
