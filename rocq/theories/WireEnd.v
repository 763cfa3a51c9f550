(** C65 from bytes to the debugger's state. *)
From Verif Require Import PyBase PyDict JsonModel JsonSpec JsonProofs JsonGrammar JsonProps MsgBase MsgTables MsgModel MsgSpec AdapterModel Utf8
  DbgTypes ThreadModel ThreadSpec StratModel SysModel SysSpec SysProofs SysProps SysDemo WireSpec WireModel WireProofs WireProps WireAccept.
Set Implicit Arguments.

(** C65 from the bytes of a message body: a well-formed request is decoded and acted on as its members say. *)
Theorem C65_bytes : forall code l raw j q r, utf8_encode l = Ok raw -> Forall scalar l -> json_text l j -> unreserved j ->
  says true j q r -> no_structured_extras j ->
  exists v r', decode_body raw = Ok v /\ req_of code v = Some (q, r') /\ blank r' = blank r.
Proof.
  intros code l raw j q r HE HSc HL HT HA HX. destruct (@C65_request_accepted true l j q r HL HT HA HX) as (v & Hv).
  destruct (C65_request_meaning code HL HT Hv HA) as (r' & H1 & H2). exists v, r'. split; auto.
  assert (HB : Forall (fun b => (b < 256)%N) raw) by (destruct (C59_encodable HSc) as (b & Eb & Hb); congruence).
  apply C59_body_exact; [exact HB|]. exists l, j. auto.
Qed.

Lemma blank_names r r' : blank r' = blank r -> names_thread r' = names_thread r /\ for_all_threads r' = for_all_threads r /\ cmd_of r' = cmd_of r.
Proof. destruct r, r'; cbn [blank]; intros E; try discriminate; try (injection E as; subst; auto); auto. Qed.

Section S.
Variable code : pval -> N.
Variable py_int : pystr -> option Z.
Variable py_repr : heap -> val -> pystr.
Variable type_name : heap -> val -> pystr.
Variable tmpl : pystr -> nat -> heap -> res (list obj * val).
Variable tmpl_args : nat -> nat -> heap -> res (list obj * val).
Variable err_text : exn -> pystr.
Variable parse_repl : pystr -> res ReplCmd.
Notation step := (step py_int py_repr type_name tmpl tmpl_args err_text parse_repl).
Notation run := (run py_int py_repr type_name tmpl tmpl_args err_text parse_repl).

(** The message with command "continue" (singleThread missing, null or true), "next", "stepIn" (no targetId) or
    "stepOut", as bytes, resumes the thread its arguments.threadId names, in the mode of the command, and no other. *)
Definition resumes (cmd : pystr) (st : TState) : Prop :=
  (cmd = s "continue" /\ st = TContinue) \/ (cmd = s "next" /\ st = TStepOver) \/ (cmd = s "stepIn" /\ st = TStepIn) \/ (cmd = s "stepOut" /\ st = TStepOut).
Theorem C65_resumes_named_thread : forall ls y l raw j q tid cmd st,
  trace_wf ls -> run sys_init ls y -> pending y = [] -> has_strategy y = true ->
  utf8_encode l = Ok raw -> Forall scalar l -> json_text l j -> unreserved j -> no_structured_extras j ->
  member j "seq" = JInt q -> member j "type" = JStr (s "request") -> member j "command" = JStr cmd -> resumes cmd st ->
  arg j "threadId" = JInt (Z.of_N tid) -> (arg j "singleThread" = JNull \/ arg j "singleThread" = JBool true) -> arg j "targetId" = JNull ->
  exists v r y', decode_body raw = Ok v /\ req_of code v = Some (q, r) /\ step y (LReq q r) = Some y' /\
    (forall k, k <> tid -> dget (w_threads (y_w y')) k = dget (w_threads (y_w y)) k) /\
    (forall t, dget (w_threads (y_w y)) tid = Some t ->
       exists t', dget (w_threads (y_w y')) tid = Some t' /\ (t_state t' = st \/ (st = TStepIn /\ t_state t' = TStepOver))).
Proof.
  intros ls y l raw j q tid cmd st W R P HS HE HSc HL HT HX Hq Hty Hcm HR Ht H1 Hta.
  assert (HA : exists r, says true j q r /\ names_thread r = Some (tid, st)).
  { destruct HR as [[-> ->]|[[-> ->]|[[-> ->]|[-> ->]]]].
    - exists (RContinue tid true). split; [|reflexivity]. split; [auto|]. constructor; [split; auto|exact Ht|]. destruct H1 as [H1|H1]; [right|left]; auto.
    - exists (RNext tid). split; [|reflexivity]. split; [auto|]. constructor; [split; auto|exact Ht].
    - exists (RStepIn tid). split; [|reflexivity]. split; [auto|]. constructor; [split; auto|exact Ht|exact Hta].
    - exists (RStepOut tid). split; [|reflexivity]. split; [auto|]. constructor; [split; auto|exact Ht]. }
  destruct HA as (r & HA & HN). destruct (C65_bytes code HE HSc HL HT HA HX) as (v & r' & Hv & Hr & Hb).
  destruct (blank_names _ _ Hb) as (HN' & _). rewrite HN in HN'.
  destruct (@C29_named_thread_only py_int py_repr type_name tmpl tmpl_args err_text parse_repl ls y q r' tid st W R P HS HN') as (y' & Hs & _ & _ & _ & _ & _ & _ & Hk & Hm).
  exists v, r', y'. repeat split; auto. intros t Hg. rewrite Hg in Hm. destruct Hm as (_ & t' & A & _ & _ & _ & B). eauto.
Qed.
End S.

(** What the protocol description says about a continue request without singleThread (all threads resume) is
    not what happens: only the named thread does. *)
Definition continue_text : list N := s "{""seq"":5,""type"":""request"",""command"":""continue"",""arguments"":{""threadId"":2}}".
Theorem C65_continue_default_refuted :
  ~ (forall code l j v q r, json_text l j -> unreserved j -> unpack_msg j = Ok v -> says false j q r ->
       exists r', req_of code v = Some (q, r') /\ blank r' = blank r).
Proof.
  intros H.
  destruct (loads continue_text) as [j|] eqn:E; [|vm_compute in E; discriminate].
  assert (Hj : j = JObj [(s "seq", JInt 5); (s "type", JStr (s "request")); (s "command", JStr (s "continue")); (s "arguments", JObj [(s "threadId", JInt 2)])])
    by (vm_compute in E; injection E as <-; vm_compute; reflexivity).
  destruct (unpack_msg j) as [v|] eqn:Eu; [|subst j; vm_compute in Eu; discriminate].
  destruct (H (fun _ => 0%N) continue_text j v 5%Z (RContinue 2 false)) as (r' & H1 & H2).
  - now apply C05_json_exact.
  - subst j. vm_compute. repeat split; auto; intros Hx; repeat (destruct Hx as [Hx|Hx]; [discriminate|]); exact Hx.
  - exact Eu.
  - subst j. split; [reflexivity|]. constructor; [split; reflexivity|reflexivity|right; split; reflexivity].
  - subst j. vm_compute in Eu. injection Eu as <-. vm_compute in H1. injection H1 as <-. discriminate.
Qed.

(** Non-vacuity: a request with every kind of member. *)
Definition sbp_text : list N := s "{""seq"": 9, ""type"": ""request"", ""command"": ""setBreakpoints"", ""arguments"": {""source"": {""name"": ""m.yml"", ""path"": ""/p/m.yml""}, ""lines"": [3, 8], ""breakpoints"": [{""line"": 3}, {""line"": 8, ""condition"": ""x > 1"", ""column"": 2}], ""sourceModified"": false}, ""extra"": [1]}".
Definition sbp_req : Req := RSetBreakpoints (mkSource (Some (s "/p/m.yml")) 7) [mkSB 3 None 1; mkSB 8 (Some (s "x > 1")) 2] false.
Example sbp_says : exists j, json_text sbp_text j /\ unreserved j /\ says true j 9 sbp_req /\ no_structured_extras j.
Proof.
  destruct (loads sbp_text) as [j|] eqn:E; [|vm_compute in E; discriminate]. exists j. split; [now apply C05_json_exact|].
  vm_compute in E. injection E as <-. split; [vm_compute; repeat split; auto; intros Hx; repeat (destruct Hx as [Hx|Hx]; [discriminate|]); exact Hx|].
  split; [|vm_compute; repeat split; auto]. split; [vm_compute; reflexivity|]. constructor.
  - split; vm_compute; reflexivity.
  - split; [eexists; vm_compute; reflexivity|]. right. eexists. split; vm_compute; reflexivity.
  - left. eexists. split; [vm_compute; reflexivity|]. constructor; [|constructor; [|constructor]].
    + split; [eexists; reflexivity|]. split; [vm_compute; reflexivity|]. left. split; vm_compute; reflexivity.
    + split; [eexists; reflexivity|]. split; [vm_compute; reflexivity|]. right. eexists. split; vm_compute; reflexivity.
  - left. vm_compute. reflexivity.
Qed.
Example sbp_decoded : exists v x l, bind (loads sbp_text) unpack_msg = Ok v /\ req_of (fun _ => 0%N) v = Some (9%Z, RSetBreakpoints x l false) /\
  src_path x = Some (s "/p/m.yml") /\ map sb_line l = [3; 8]%Z.
Proof. do 3 eexists. split; [vm_compute; reflexivity|]. repeat split; vm_compute; reflexivity. Qed.
Print Assumptions C65_request_meaning.
Print Assumptions C65_request_accepted.
Print Assumptions C65_bytes.
Print Assumptions C65_resumes_named_thread.
Print Assumptions C65_continue_default_refuted.
