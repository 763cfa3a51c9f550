(** Property theorems C05, C07-C11: the JSON text and the DAP message library. *)
From Verif Require Import PyBase PyDict JsonModel JsonProofs MsgBase MsgTables MsgModel MsgSpec TruthSpec MsgProofs MsgProofs2 MsgProofs3 MsgProofs4.

(** C05.  [wfj]: strings are unicode scalar values, object keys are distinct. *)
Theorem C05_json_roundtrip : forall v, wfj v -> loads (dumps v) = Ok v.
Proof. exact loads_dumps. Qed.
Print Assumptions C05_json_roundtrip.

Definition ex_json : json :=
  JObj [(s "a", JArr [JNull; JBool true; JInt (-120)%Z; JStr [233%N; 128512%N; 34%N; 10%N]]); ([], JObj [])].
Example C05_nonvacuous : wfj ex_json /\ loads (dumps ex_json) = Ok ex_json.
Proof.
  split; [|vm_compute; reflexivity]. cbn. repeat split; try (repeat constructor; cbn; intros H; repeat destruct H as [H|H]; try discriminate; tauto);
  repeat constructor; unfold scalar; lia.
Qed.

(** C07: every well typed message of every registered class survives pack, JSON text, parse, unpack. *)
Lemma wire_roundtrip c kind v : msg_of c kind v \/ launch_of c v ->
  exists j, enc v = Ok j /\ (do j' <- loads (dumps j); unpack_msg j') = Ok v.
Proof.
  intros [H|H].
  - destruct (msg_roundtrip _ _ _ H) as (j & H1 & H2 & H3). exists j. split; auto. rewrite loads_dumps by auto. exact H3.
  - destruct (launch_roundtrip _ _ H) as (j & H1 & H2 & H3). exists j. split; auto. rewrite loads_dumps by auto. exact H3.
Qed.
Theorem C07_message_roundtrip : forall c kind v, msg_of c kind v \/ launch_of c v ->
  exists j, enc v = Ok j /\ (do j' <- loads (dumps j); unpack_msg j') = Ok v.
Proof. exact wire_roundtrip. Qed.
Print Assumptions C07_message_roundtrip.

(** a stackTrace response with a nested frame and source *)
Definition ex_source : pval := PObj C_Source
  (map (fun fd => (fname fd, if eqb (fname fd) (s "path") then PStr (s "/p/main.yml") else
     match fdef fd with FDef v => v | _ => PNull end)) (fields C_Source)).
Definition ex_frame : pval := PObj C_StackFrame
  (map (fun fd => (fname fd,
     if eqb (fname fd) (s "id") then PInt 7 else if eqb (fname fd) (s "name") then PStr (s "task") else
     if eqb (fname fd) (s "source") then ex_source else
     match fdef fd with FDef v => v | _ => PInt 3 end)) (fields C_StackFrame)).
Definition ex_msg : pval := PObj C_StackTraceResponse
  (map (fun fd => (fname fd,
     if eqb (fname fd) (s "stack_frames") then PList [ex_frame; ex_frame] else
     if eqb (fname fd) (s "request_seq") then PInt 12 else
     match fdef fd with FDef v => v | _ => PInt 2 end)) (fields C_StackTraceResponse)).
Ltac wt_solve := cbn; repeat (split; try (intros fd Hin Hname; repeat (destruct Hin as [<-|Hin]; [try (vm_compute in Hname; discriminate)|]); try destruct Hin)).
Example C07_nonvacuous : enc ex_msg <> Err AttributeError /\
  (do j <- enc ex_msg; do j' <- loads (dumps j); unpack_msg j') = Ok ex_msg.
Proof. split; vm_compute; [discriminate|reflexivity]. Qed.
Definition ex_thread_evt : pval := PObj C_ThreadEvent
  [(s "seq", PInt 0); (s "message_type", PEnum E_MessageType (s "event")); (s "event", PEnum E_EventType (s "thread"));
   (s "reason", PStr (s "started")); (s "thread_id", PInt 2)].
Example C07_nonvacuous_hyp : msg_of C_ThreadEvent MEvt ex_thread_evt.
Proof.
  assert (Hs : forall t, asciib t = true -> jsonval (PStr t)) by (intros t H; cbn; now apply asciib_scalar).
  split; [|split; [reflexivity|exists (s "thread"); split; [reflexivity|vm_compute; tauto]]].
  unfold ex_thread_evt. cbn [wt]. split; [reflexivity|]. split; [reflexivity|]. split; [reflexivity|].
  cbn [fold_right fst snd].
  repeat split; try (intros Hm; exfalso; apply Hm; vm_compute; tauto);
    cbn [fields In] in H; repeat (destruct H as [<-|H]; [try (vm_compute in H0; discriminate); cbn; try exact I; try (split; [reflexivity|]); try tauto|]);
    try destruct H; try (repeat constructor; unfold scalar; lia).
Qed.

(** C08: the class of an unpacked message is the one declared for its type and command/event;
    an unsuccessful response is an ErrorResponse whatever its command. *)
Lemma dispatch_exact j v : unpack_msg j = Ok v -> exists d c, j = JObj d /\ class_of v = Some c /\ selected d c.
Proof.
  destruct j; try discriminate. intros H. destruct (dispatch _ _ H) as (c & H1 & H2 & _). eauto 10.
Qed.
Theorem C08_dispatch_exact : forall j v, unpack_msg j = Ok v ->
  exists d c, j = JObj d /\ class_of v = Some c /\ selected d c.
Proof. exact dispatch_exact. Qed.
Print Assumptions C08_dispatch_exact.
Theorem C08_selected_is_used : forall d c, selected d c ->
  (exists x, dget d (s "command") = Some x) \/ (exists x, dget d (s "event") = Some x /\ dget d (s "type") = Some (JStr (s "event"))) ->
  unpack_msg (JObj d) = cls_unpack c (JObj d).
Proof. exact selected_unpack. Qed.
Print Assumptions C08_selected_is_used.
Theorem C08_unknown_type : forall d t, dget d (s "type") = Some (JStr t) ->
  t <> s "request" -> t <> s "response" -> t <> s "event" -> unpack_msg (JObj d) = Err ValueError.
Proof. exact unknown_type. Qed.
Print Assumptions C08_unknown_type.
Theorem C08_unknown_name : forall d kind t,
  (match kind with
   | MReq => dget d (s "type") = Some (JStr (s "request")) /\ dget d (s "command") = Some (JStr t)
   | MResp => dget d (s "type") = Some (JStr (s "response")) /\ dget d (s "command") = Some (JStr t) /\
              t <> s "error" /\ exists su, dget d (s "success") = Some su /\ ~ falsy su
   | MEvt => dget d (s "type") = Some (JStr (s "event")) /\ dget d (s "event") = Some (JStr t)
   end) ->
  (forall c, ~ declares c kind t) -> unpack_msg (JObj d) = Err ValueError.
Proof. exact unknown_name. Qed.
Print Assumptions C08_unknown_name.
Example C08_nonvacuous :
  (exists v, unpack_msg (JObj [(s "seq", JInt 1); (s "type", JStr (s "request")); (s "command", JStr (s "threads"))]) = Ok v /\
     class_of v = Some C_ThreadsRequest) /\
  (exists v, unpack_msg (JObj [(s "seq", JInt 1); (s "type", JStr (s "response")); (s "command", JStr (s "threads")); (s "request_seq", JInt 3); (s "success", JBool false)]) = Ok v /\
     class_of v = Some C_ErrorResponse) /\
  unpack_msg (JObj [(s "type", JStr (s "request")); (s "command", JStr (s "nope"))]) = Err ValueError.
Proof. split; [|split]; [eexists; split; vm_compute; reflexivity..|reflexivity]. Qed.

(** C09: added unknown or null members do not change what is unpacked (classes with generic unpack).
    The full statement has no exception; the code lets a top-level member called "__types" clash with its
    internal type cache, so that key is excluded here and refuted below. *)
Theorem C09_noise_ignored_partial : forall d d' v c, unpack_msg (JObj d) = Ok v -> class_of v = Some c -> custom c = false ->
  noise_members c true (dapmap c) d d' -> NoDup (map fst d') -> unpack_msg (JObj d') = Ok v.
Proof. exact unpack_msg_noise. Qed.
Print Assumptions C09_noise_ignored_partial.
(** launch/attach keep unknown members of arguments (C11); top-level noise is ignored since only these four are read *)
Lemma launch_noise d d' : (forall k, In k [s "type"; s "command"; s "arguments"; s "seq"] -> dget d k = dget d' k) ->
  dget d (s "type") = Some (JStr (s "request")) ->
  dget d (s "command") = Some (JStr (s "launch")) \/ dget d (s "command") = Some (JStr (s "attach")) ->
  forall v, unpack_msg (JObj d) = Ok v -> unpack_msg (JObj d') = Ok v.
Proof.
  intros He Ht Hc v Hv.
  assert (Hd : forall k, In k [s "type"; s "command"; s "arguments"; s "seq"] -> dget d' k = dget d k) by (intros; symmetry; auto).
  assert (Ht' : dget d' (s "type") = Some (JStr (s "request"))) by (rewrite Hd; [auto|cbn; tauto]).
  destruct (dispatch _ _ Hv) as (c & Hcl & Hsel & Hu).
  assert (Hsel' : selected d' c /\ (c = C_LaunchRequest \/ c = C_AttachRequest)).
  { destruct Hsel as [(t & H1 & H2 & H3)|[(t & su & H1 & _)|[(su & H1 & _)|(t & H1 & _)]]]; try (rewrite H1 in Ht; discriminate).
    split; [left; exists t; repeat split; try apply H3; auto; rewrite Hd; [auto|cbn; tauto]|].
    pose proof (decl_reg MReq _ _ H3) as E. destruct Hc as [Hc|Hc]; rewrite Hc in H2; injection H2 as <-; vm_compute in E; injection E as <-; auto. }
  destruct Hsel' as [Hsel' Hcc].
  rewrite (selected_unpack d' c Hsel') by (left; rewrite Hd; [destruct Hc as [-> | ->]; eauto|cbn; tauto]).
  rewrite <- Hu. unfold cls_unpack. cbn [unpack_obj].
  destruct Hcc as [-> | ->]; cbn [unpack1]; unfold launch_unpack, attach_unpack, getitem;
    rewrite !(Hd (s "arguments")), !(Hd (s "seq")) by (cbn; tauto); reflexivity.
Qed.
Theorem C09_launch_attach : forall d d', (forall k, In k [s "type"; s "command"; s "arguments"; s "seq"] -> dget d k = dget d' k) ->
  dget d (s "type") = Some (JStr (s "request")) ->
  dget d (s "command") = Some (JStr (s "launch")) \/ dget d (s "command") = Some (JStr (s "attach")) ->
  forall v, unpack_msg (JObj d) = Ok v -> unpack_msg (JObj d') = Ok v.
Proof. exact launch_noise. Qed.
Print Assumptions C09_launch_attach.
Definition ex_next : list (pystr * json) :=
  [(s "seq", JInt 1); (s "type", JStr (s "request")); (s "command", JStr (s "next")); (s "arguments", JObj [(s "threadId", JInt 2)])].
Example C09_nonvacuous :
  let d' := (s "extra", JArr [JInt 1]) ::
    [(s "seq", JInt 1); (s "type", JStr (s "request")); (s "command", JStr (s "next"));
     (s "arguments", JObj [(s "vendor", JBool true); (s "threadId", JInt 2); (s "granularity", JNull)])] in
  exists v, unpack_msg (JObj ex_next) = Ok v /\ class_of v = Some C_NextRequest /\ noise_members C_NextRequest true (dapmap C_NextRequest) ex_next d'.
Proof.
  eexists; split; [vm_compute; reflexivity|]. split; [reflexivity|].
  apply nm_unknown; [vm_compute; reflexivity|intros _; discriminate|].
  do 3 apply nm_keep. eapply nm_nested; [vm_compute; reflexivity| |apply nm_nil].
  apply nm_unknown; [vm_compute; reflexivity|intros; discriminate|].
  apply nm_keep, nm_null, nm_nil.
Qed.
(** the excluded key: an unknown top-level member "__types" makes a good message fail *)
Theorem C09_types_key_refuted : exists d v, unpack_msg (JObj d) = Ok v /\ unpack_msg (JObj (d ++ [(s "__types", JInt 1)])) = Err AttributeError.
Proof. exists ex_next. eexists. split; vm_compute; reflexivity. Qed.
Print Assumptions C09_types_key_refuted.

(** C10: the full claim (stepIn acts on threadId whatever else is sent) is false: targetId overwrites it. *)
Theorem C10_stepin_target_refuted : exists d a v,
  dget d (s "arguments") = Some (JObj a) /\ dget a (s "threadId") = Some (JInt 2) /\ dget a (s "targetId") = Some (JInt 7) /\
  unpack_msg (JObj d) = Ok v /\ class_of v = Some C_StepInRequest /\ attr v "thread_id" = Some (PInt 7).
Proof.
  exists [(s "seq", JInt 1); (s "type", JStr (s "request")); (s "command", JStr (s "stepIn"));
          (s "arguments", JObj [(s "threadId", JInt 2); (s "targetId", JInt 7)])],
         [(s "threadId", JInt 2); (s "targetId", JInt 7)].
  eexists. repeat split; vm_compute; reflexivity.
Qed.
Print Assumptions C10_stepin_target_refuted.
Theorem C10_stepin_thread_partial : forall d a v t,
  unpack_msg (JObj d) = Ok v -> class_of v = Some C_StepInRequest ->
  NoDup (map fst d) -> ~ In (s "__types") (map fst d) ->
  dget d (s "arguments") = Some (JObj a) -> NoDup (map fst a) ->
  dget a (s "threadId") = Some t ->
  (dget a (s "targetId") = None \/ dget a (s "targetId") = Some JNull) ->
  attr v "thread_id" = Some (lift t).
Proof. exact stepin_thread. Qed.
Print Assumptions C10_stepin_thread_partial.
Example C10_nonvacuous : exists v,
  unpack_msg (JObj [(s "seq", JInt 1); (s "type", JStr (s "request")); (s "command", JStr (s "stepIn"));
          (s "arguments", JObj [(s "granularity", JStr (s "line")); (s "threadId", JInt 2); (s "targetId", JNull)])]) = Ok v /\
  class_of v = Some C_StepInRequest /\ attr v "thread_id" = Some (PInt 2).
Proof. eexists. repeat split; vm_compute; reflexivity. Qed.

(** C11: launch and attach keep every client-defined argument, in order, and only take out the protocol members. *)
Definition without (ks : list pystr) (a : list (pystr * json)) : list (pystr * json) :=
  filter (fun kv => negb (mem (fst kv) ks)) a.
Definition member_or (a : list (pystr * json)) (k : pystr) (dflt : json) : json :=
  match dget a k with Some v => v | None => dflt end.
Lemma filter_notin (a : list (pystr * json)) k : ~ In k (map fst a) -> filter (fun kv => negb (eqb (fst kv) k)) a = a.
Proof.
  induction a as [|[k' v] a IH]; cbn [map fst In filter]; auto. intros H.
  destruct (eqb_spec k' k) as [->|]; [tauto|]. cbn [negb]. rewrite IH; tauto.
Qed.
Lemma ddel_filter (a : list (pystr * json)) k : NoDup (map fst a) -> ddel a k = filter (fun kv => negb (eqb (fst kv) k)) a.
Proof.
  induction a as [|[k' v] a IH]; cbn [map fst ddel filter]; auto. intros Hnd; inversion Hnd; subst.
  destruct (eqb_spec k' k) as [->|]; cbn [negb]; [symmetry; now apply filter_notin|]. now rewrite IH.
Qed.
Lemma filter_filter {A} (f g : A -> bool) l : filter f (filter g l) = filter (fun x => f x && g x) l.
Proof. induction l as [|x l IH]; cbn; auto. destruct (g x); cbn; rewrite ?andb_true_r, ?andb_false_r, IH; auto. Qed.
Lemma without1 k a : without [k] a = filter (fun kv => negb (eqb (fst kv) k)) a.
Proof. apply filter_ext. intros kv. unfold mem. cbn [existsb]. now rewrite orb_false_r. Qed.
Lemma without2 k k' a : without [k; k'] a = filter (fun kv => negb (eqb (fst kv) k') && negb (eqb (fst kv) k)) a.
Proof. apply filter_ext. intros kv. unfold mem. cbn [existsb]. rewrite orb_false_r, negb_orb. apply andb_comm. Qed.
Lemma attach_args d a q : NoDup (map fst a) ->
  dget d (s "type") = Some (JStr (s "request")) -> dget d (s "command") = Some (JStr (s "attach")) ->
  dget d (s "arguments") = Some (JObj a) -> dget d (s "seq") = Some q ->
  unpack_msg (JObj d) = Ok (PObj C_AttachRequest
    [(s "seq", lift q); (s "message_type", PEnum E_MessageType (s "request")); (s "command", PEnum E_Command (s "attach"));
     (s "arguments", lift (JObj (without [s "__restart"] a))); (s "restart", lift (member_or a (s "__restart") JNull))]).
Proof.
  intros Hnd H1 H2 H3 H4. rewrite (attach_unpack_msg d a q H1 H2 H3 H4), ddel_filter by auto.
  rewrite without1. reflexivity.
Qed.
Lemma launch_args d a q : NoDup (map fst a) ->
  dget d (s "type") = Some (JStr (s "request")) -> dget d (s "command") = Some (JStr (s "launch")) ->
  dget d (s "arguments") = Some (JObj a) -> dget d (s "seq") = Some q ->
  unpack_msg (JObj d) = Ok (PObj C_LaunchRequest
    [(s "seq", lift q); (s "message_type", PEnum E_MessageType (s "request")); (s "command", PEnum E_Command (s "launch"));
     (s "arguments", lift (JObj (without [s "noDebug"; s "__restart"] a)));
     (s "no_debug", lift (member_or a (s "noDebug") (JBool false)));
     (s "restart", lift (member_or a (s "__restart") JNull))]).
Proof.
  intros Hnd H1 H2 H3 H4. rewrite (launch_unpack_msg d a q H1 H2 H3 H4).
  rewrite (ddel_filter (ddel a (s "noDebug"))) by (apply (NoDup_ddel a); auto). rewrite ddel_filter, filter_filter by auto.
  rewrite without2. unfold member_or.
  rewrite (dget_filter_key (fun k => negb (eqb k (s "noDebug")))). reflexivity.
Qed.
Theorem C11_attach_arguments : forall d a q, NoDup (map fst a) ->
  dget d (s "type") = Some (JStr (s "request")) -> dget d (s "command") = Some (JStr (s "attach")) ->
  dget d (s "arguments") = Some (JObj a) -> dget d (s "seq") = Some q ->
  unpack_msg (JObj d) = Ok (PObj C_AttachRequest
    [(s "seq", lift q); (s "message_type", PEnum E_MessageType (s "request")); (s "command", PEnum E_Command (s "attach"));
     (s "arguments", lift (JObj (without [s "__restart"] a))); (s "restart", lift (member_or a (s "__restart") JNull))]).
Proof. exact attach_args. Qed.
Print Assumptions C11_attach_arguments.
Theorem C11_launch_arguments : forall d a q, NoDup (map fst a) ->
  dget d (s "type") = Some (JStr (s "request")) -> dget d (s "command") = Some (JStr (s "launch")) ->
  dget d (s "arguments") = Some (JObj a) -> dget d (s "seq") = Some q ->
  unpack_msg (JObj d) = Ok (PObj C_LaunchRequest
    [(s "seq", lift q); (s "message_type", PEnum E_MessageType (s "request")); (s "command", PEnum E_Command (s "launch"));
     (s "arguments", lift (JObj (without [s "noDebug"; s "__restart"] a)));
     (s "no_debug", lift (member_or a (s "noDebug") (JBool false)));
     (s "restart", lift (member_or a (s "__restart") JNull))]).
Proof. exact launch_args. Qed.
Print Assumptions C11_launch_arguments.
Theorem C11_roundtrip : forall c v, launch_of c v ->
  exists j, enc v = Ok j /\ (do j' <- loads (dumps j); unpack_msg j') = Ok v.
Proof. exact (fun c v H => wire_roundtrip c MReq v (or_intror H)). Qed.
Print Assumptions C11_roundtrip.
Example C11_nonvacuous : exists v, launch_of C_LaunchRequest v /\ attr v "arguments" = Some (PDict [(s "playbook", PStr (s "main.yml"))]).
Proof.
  eexists. split; [right; exists (PInt 1), [(s "playbook", PStr (s "main.yml"))], (PBool true), PNull; repeat split; try (cbn; tauto)|reflexivity].
  - repeat constructor. cbn. tauto.
  - cbn. repeat constructor; unfold scalar; lia.
  - cbn. repeat constructor; unfold scalar; lia.
  - cbn. intros [H|[]]; discriminate.
  - cbn. intros [H|[]]; discriminate.
Qed.
