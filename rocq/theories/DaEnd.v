(** C43-C45: races at the end of a session, end of file on stdin, examples. *)
From Verif Require Import PyBase PyDict MsgBase AdapterModel DaModel DaProps DaOnce.
Set Implicit Arguments.
Local Open Scope N_scope.

Fixpoint da_exec (a : DA) (ls : list dalabel) : option (DA * list dev) :=
  match ls with
  | [] => Some (a, [])
  | l :: ls =>
    match dastep a l with
    | None => None
    | Some (a1, e) => match da_exec a1 ls with Some (a2, es) => Some (a2, e ++ es) | None => None end
    end
  end.
Lemma da_exec_run ls : forall a0 h a a' es, darun a0 h a -> da_exec a ls = Some (a', es) -> darun a0 (h ++ es) a'.
Proof.
  induction ls as [|l ls IH]; intros a0 h a a' es R X; cbn in X.
  - injection X as <- <-. now rewrite app_nil_r.
  - destruct (dastep a l) as [(a1, e)|] eqn:ST; [|discriminate]. destruct (da_exec a1 ls) as [(a2, es')|] eqn:E; [|discriminate]. injection X as <- <-.
    rewrite app_assoc. eapply IH; [econstructor; eauto|exact E].
Qed.
Definition calmb (a : DA) (l : dalabel) : bool :=
  negb (busy (other (actor l)) a) && match l with ADeliver (Some _) => negb (instop (a_main a)) | _ => true end.
Fixpoint calm_exec (a : DA) (ls : list dalabel) : bool :=
  match ls with [] => true | l :: ls => calmb a l && match dastep a l with Some (a1, _) => calm_exec a1 ls | None => false end end.
Lemma calmb_ok a l : calmb a l = true -> calm a l.
Proof.
  unfold calmb, calm. intros H. apply andb_prop in H. destruct H as (H1 & H2). apply negb_true_iff in H1. split; auto. destruct l as [| | | | | | | |[n|]| |]; auto. now apply negb_true_iff in H2.
Qed.
Lemma calm_exec_run ls : forall a0 h a a' es, calmrun a0 h a -> calm_exec a ls = true -> da_exec a ls = Some (a', es) -> calmrun a0 (h ++ es) a'.
Proof.
  induction ls as [|l ls IH]; intros a0 h a a' es R C X; cbn in X, C.
  - injection X as <- <-. now rewrite app_nil_r.
  - apply andb_prop in C. destruct C as (C1 & C2). apply calmb_ok in C1.
    destruct (dastep a l) as [(a1, e)|] eqn:ST; [|discriminate]. destruct (da_exec a1 ls) as [(a2, es')|] eqn:E; [|discriminate]. injection X as <- <-.
    rewrite app_assoc. eapply IH; [eapply calmrun_snoc; eauto|exact C2|exact E].
Qed.

(** A whole session: initialize, attach, a request answered by the debuggee, disconnect. *)
Definition session : list dalabel :=
  [AReq KInitialize OkSoFar; AReq KAttach OkSoFar; ARespond; AReq KOtherReq OkSoFar; ADeliver (Some 3); ADeliver None;
   AReq KDisconnect OkSoFar; AClosed false; ARecv; ARecv; ARecv; ARecv; ARecv; ARecv; ARecv; AJoined; ALeave; AMain; AMain; AMain; AMain].
Example session_ends : exists a h, calmrun da_init h a /\ a_main a = MEnd /\
  h = [EReq 1 false; EResp TMain 1; EReq 2 false; EResp TMain 2; EReq 3 false; EResp TRecv 3; EReq 4 true; EStop TRecv false; EResp TRecv 4;
       ENothing; ENothing; ENothing; ENothing; ETerm TRecv; ENothing; EStop TMain false; ENothing; ENothing; ENothing; ENothing; EExit].
Proof.
  destruct (da_exec da_init session) as [(a, h)|] eqn:E; [|vm_compute in E; discriminate].
  exists a, h. assert (C : calm_exec da_init session = true) by (vm_compute; reflexivity).
  split; [exact (calm_exec_run session (calmrun_nil da_init) C E)|]. vm_compute in E. injection E as <- <-. split; reflexivity.
Qed.
(** A disconnect request that cannot be sent on: it and the request before it are answered. *)
Definition before_fail : list dalabel := [AReq KInitialize OkSoFar; AReq KAttach OkSoFar; ARespond; AReq KOtherReq OkSoFar].
Definition after_fail : list dalabel := [AMain; AMain; AMain; AMain; AMain; AClosed false; ARecv; ARecv; ARecv; ARecv; ARecv; ARecv; AMain; AMain; AMain].
Example C44_failed_met : exists h a a1 es h' a', darun da_init h a /\ dastep a (AReq KDisconnect RaisesExn) = Some (a1, es) /\ darun a1 h' a' /\ a_main a' = MEnd /\
  In (EReq 3 false) h /\ ~ In (EResp TMain 3) h /\ ~ In (EResp TRecv 3) h.
Proof.
  destruct (da_exec da_init before_fail) as [(a, h)|] eqn:E; [|vm_compute in E; discriminate].
  destruct (dastep a (AReq KDisconnect RaisesExn)) as [(a1, es)|] eqn:S; [|vm_compute in E; injection E as <- <-; vm_compute in S; discriminate].
  destruct (da_exec a1 after_fail) as [(a', h')|] eqn:E'; [|vm_compute in E; injection E as <- <-; vm_compute in S; injection S as <- <-; vm_compute in E'; discriminate].
  exists h, a, a1, es, h', a'. split; [exact (da_exec_run before_fail (darun_nil da_init) E)|]. split; [exact S|]. split; [exact (da_exec_run after_fail (darun_nil a1) E')|].
  vm_compute in E. injection E as <- <-. vm_compute in S. injection S as <- <-. vm_compute in E'. injection E' as <- <-. split; [reflexivity|]. cbn. intuition discriminate.
Qed.
(** A fatal error with an unanswered request: it and a disconnect request are answered. *)
Definition fatal : list dalabel :=
  [AReq KInitialize OkSoFar; AReq KAttach OkSoFar; ARespond; AReq KOtherReq OkSoFar; ABad; AMain; AMain; AMain; AMain; AClosed false; ARecv; ARecv; ARecv; ARecv; ARecv; ARecv; AMain; AMain; AMain].
Example fatal_ends : exists a h, calmrun da_init h a /\ a_main a = MEnd /\ In (EStop TMain true) h /\ In (EReq 3 false) h /\ answers h 3 = 1%nat /\ terms h = 1%nat.
Proof.
  destruct (da_exec da_init fatal) as [(a, h)|] eqn:E; [|vm_compute in E; discriminate].
  exists a, h. assert (C : calm_exec da_init fatal = true) by (vm_compute; reflexivity).
  split; [exact (calm_exec_run fatal (calmrun_nil da_init) C E)|]. vm_compute in E. injection E as <- <-. vm_compute. intuition.
Qed.

(** C43, order, in full, is false: the receive thread's stop() begins, then a disconnect
    request arrives; the terminated event is sent before its response. *)
Definition late_disconnect : list dalabel :=
  [AReq KAttach OkSoFar; ARespond; AClosed false; ARecv; AReq KDisconnect OkSoFar; ARecv; ARecv; ARecv; ARecv; ARecv; AJoined; ALeave; AMain].
Theorem C43_disconnect_first_refuted : exists h1 h2 a seq t, darun da_init (h1 ++ ETerm t :: h2) a /\ In (EReq seq true) h1 /\ ~ answered h1 seq /\ answered h2 seq.
Proof.
  destruct (da_exec da_init late_disconnect) as [(a, h)|] eqn:E; [|vm_compute in E; discriminate].
  pose proof (da_exec_run late_disconnect (darun_nil da_init) E) as R. cbn in R. vm_compute in E. injection E as <- <-.
  exists [EReq 1 false; EResp TMain 1; EStop TRecv false; ENothing; EReq 2 true; ENothing; ENothing; ENothing], [ENothing; EStop TMain false; EResp TMain 2]. eexists. exists 2, TRecv.
  split; [exact R|]. split; [cbn; intuition|]. split; [|exists TMain; cbn; intuition]. intros (t & H). cbn in H. intuition discriminate.
Qed.
(** C44, "no request is answered twice", is false: the main thread fails (a malformed
    message) while the debuggee is answering a forwarded request. *)
Definition race : list dalabel :=
  [AReq KAttach OkSoFar; ARespond; AReq KOtherReq OkSoFar; ABad; AMain; AMain; ADeliver (Some 2); AMain].
Theorem C44_once_refuted : exists h a seq, darun da_init h a /\ answers h seq = 2%nat.
Proof.
  destruct (da_exec da_init race) as [(a, h)|] eqn:E; [|vm_compute in E; discriminate].
  pose proof (da_exec_run race (darun_nil da_init) E) as R. cbn in R. vm_compute in E. injection E as <- <-. eexists. eexists. exists 2. split; [exact R|]. vm_compute. reflexivity.
Qed.
(** Likewise when the debuggee's connection fails before the attach response is sent. *)
Definition race2 : list dalabel := [AReq KAttach OkSoFar; AClosed true; ARecv; ARecv; ARecv; ARespond].
Theorem C44_attach_twice_refuted : exists h a, darun da_init h a /\ h = [EReq 1 false; EStop TRecv true; ENothing; ENothing; EResp TRecv 1; EResp TMain 1].
Proof.
  destruct (da_exec da_init race2) as [(a, h)|] eqn:E; [|vm_compute in E; discriminate].
  pose proof (da_exec_run race2 (darun_nil da_init) E) as R. cbn in R. vm_compute in E. injection E as <- <-. eexists. eexists. split; [exact R|]. reflexivity.
Qed.

(** * C45: end of file on stdin.
    read() returns no data: receive_data changes nothing, so next_message, which returned
    None before, returns None again, and the loop goes on: the AEof step. *)
Lemma eof_same c : receive_data c [] = c.
Proof. destruct c. unfold receive_data. cbn. now rewrite app_nil_r. Qed.
(** What can happen once the client has gone: end of file, and the other thread. *)
Definition gone (l : dalabel) : Prop := match l with AEof | ADeliver _ | AClosed _ | ARecv => True | _ => False end.
(** C45 is false: if stdin ends before a disconnect request, then whatever the debuggee
    and the scheduler do, the adapter goes on reading, for ever. *)
Theorem C45_eof_refuted ls : forall a a' es, a_main a = MLoop false -> Forall gone ls -> da_exec a ls = Some (a', es) ->
  a_main a' = MLoop false /\ dastep a' AEof = Some (a', []).
Proof.
  induction ls as [|l ls IH]; intros a a' es M F X; cbn [da_exec] in X.
  - injection X as <- <-. split; auto. cbn. now rewrite M.
  - destruct (dastep a l) as [(a1, e)|] eqn:ST; [|discriminate]. destruct (da_exec a1 ls) as [(a2, es')|] eqn:E; [|discriminate]. injection X as <- <-.
    inversion F; subst. eapply IH; [|eauto|exact E].
    destruct l as [k o|seq st| | | | | | |s0|ex|]; cbn in H1; try contradiction; cbn [dastep] in ST.
    + rewrite M in ST. now injection ST as <- _.
    + destruct (a_recv a); try discriminate. destruct s0 as [sq|]; [destruct (mem sq (a_fwd a)); [|discriminate]|]; now injection ST as <- _.
    + destruct (a_recv a); try discriminate. now injection ST as <- _.
    + destruct (a_recv a) as [| |c|]; try discriminate. destruct (stop_step TRecv c a) as [((a0, o), e0)|] eqn:SS; [|discriminate].
      assert (X : a_main a0 = a_main a).
      { unfold stop_step in SS. destruct (c_pc c) as [[|(?, [|]) ?]|[|(?, ?) ?]| | | | |]; try (destruct (a_term a)); injection SS as <- <- <-; reflexivity. }
      destruct o; injection ST as <- _; cbn; congruence.
Qed.
Example eof_case : exists h a ls a' es, darun da_init h a /\ a_main a = MLoop false /\ Forall gone ls /\ da_exec a ls = Some (a', es) /\ length ls = 9%nat /\ a_recv a' = RDone.
Proof.
  destruct (da_exec da_init [AReq KAttach OkSoFar; ARespond]) as [(a, h)|] eqn:E; [|vm_compute in E; discriminate].
  pose proof (da_exec_run [AReq KAttach OkSoFar; ARespond] (darun_nil da_init) E) as R. cbn in R. vm_compute in E. injection E as <- <-.
  exists [EReq 1 false; EResp TMain 1]. eexists. exists [AEof; AClosed false; AEof; ARecv; ARecv; ARecv; ARecv; ARecv; ARecv]. eexists. eexists.
  split; [exact R|]. split; [reflexivity|]. split; [repeat constructor|]. split; [vm_compute; reflexivity|]. split; reflexivity.
Qed.

(** What holds: after a disconnect request has been processed the adapter leaves its loop
    and ends by itself, with nobody's help. *)
Definition left (c : call) : nat :=
  match c_pc c with PDisc l => length l + 6 | PErr l => length l + 5 | PDeb => 4 | PLaunch => 3 | PCheck => 2 | PSend => 1 | PSet => 0 end.
Lemma stop_finishes n : forall a c, a_main a = MStop c None -> c_exp c = false -> recv_ended (a_recv a) = true -> (left c <= n)%nat ->
  (match c_pc c with PErr _ => False | _ => True end) -> exists k a' es, da_exec a (repeat AMain k) = Some (a', es) /\ a_main a' = MEnd.
Proof.
  induction n as [|n IH]; intros a c M X RE L NP.
  - exists 1%nat. cbn. rewrite M. unfold stop_step, left in *. destruct c as [ex [l|l| | | | |]]; cbn in *; try lia; try contradiction. eauto.
  - assert (GO : forall a1 c1 e, stop_step TMain c a = Some (a1, Some c1, e) -> a_recv a1 = a_recv a -> c_exp c1 = false -> (left c1 <= n)%nat -> (match c_pc c1 with PErr _ => False | _ => True end) ->
      exists k a' es, da_exec a (repeat AMain k) = Some (a', es) /\ a_main a' = MEnd).
    { intros a1 c1 e SS R1 X1 L1 N1. destruct (IH (set_main (MStop c1 None) a1) c1 eq_refl X1) as (k & a' & es & G & ME); auto; [cbn; now rewrite R1|].
      exists (S k), a', ([e] ++ es). split; auto. cbn [repeat da_exec dastep]. rewrite M, SS, G. reflexivity. }
    destruct c as [ex pc]. cbn in X. subst ex. unfold left in *. cbn in L, NP.
    destruct pc as [[|(q, [|]) l]|l| | | | |]; try contradiction.
    + eapply GO; [unfold stop_step; cbn; reflexivity|reflexivity|reflexivity|cbn in *; lia|exact Logic.I].
    + eapply GO; [unfold stop_step; cbn; reflexivity|reflexivity|reflexivity|cbn in *; lia|exact Logic.I].
    + eapply GO; [unfold stop_step; cbn; reflexivity|reflexivity|reflexivity|cbn in *; lia|exact Logic.I].
    + destruct (a_deb a) eqn:DB; (eapply GO; [unfold stop_step; cbn; rewrite DB, ?RE; reflexivity|reflexivity|reflexivity|cbn in *; lia|exact Logic.I]).
    + eapply GO; [unfold stop_step; cbn; reflexivity|reflexivity|reflexivity|cbn in *; lia|exact Logic.I].
    + destruct (a_term a) eqn:TM.
      * exists 1%nat. cbn. rewrite M. unfold stop_step. cbn. rewrite TM. eauto.
      * eapply GO; [unfold stop_step; cbn; rewrite TM; reflexivity|reflexivity|reflexivity|cbn in *; lia|exact Logic.I].
    + eapply GO; [unfold stop_step; cbn; reflexivity|reflexivity|reflexivity|cbn in *; lia|exact Logic.I].
    + exists 1%nat. cbn. rewrite M. unfold stop_step. cbn. eauto.
Qed.
Theorem C45_after_disconnect_partial a : a_main a = MLoop true -> recv_ended (a_recv a) = true -> exists k a' es, da_exec a (ALeave :: repeat AMain k) = Some (a', es) /\ a_main a' = MEnd.
Proof.
  intros M RE. destruct (@stop_finishes (left (begin_call false a)) (set_main (MStop (begin_call false a) None) a) (begin_call false a)) as (k & a' & es & G & ME); auto; [exact Logic.I|].
  exists k, a', ([EStop TMain false] ++ es). split; auto. cbn [da_exec dastep]. rewrite M, G. reflexivity.
Qed.
Print Assumptions C43_one_terminated.
Print Assumptions C43_disconnect_first_partial.
Print Assumptions C43_disconnect_answered.
Print Assumptions C43_disconnect_first_refuted.
Print Assumptions C44_all_answered.
Print Assumptions C44_recv_answered.
Print Assumptions C44_failed_request_answered.
Print Assumptions C44_once_per_thread.
Print Assumptions C44_once_partial.
Print Assumptions C44_exactly_once_partial.
Print Assumptions C44_once_refuted.
Print Assumptions C44_attach_twice_refuted.
Print Assumptions C45_eof_refuted.
Print Assumptions C45_after_disconnect_partial.
