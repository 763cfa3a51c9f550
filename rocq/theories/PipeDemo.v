(** A concrete session that meets the hypotheses of C71: the client sets a breakpoint,
    says that it is done and asks for the threads, in pieces that do not fit the
    messages; a play starts and a host stops at the breakpoint. *)
From Verif Require Import PyBase PyDict Digits JsonModel JsonSpec JsonProofs JsonGrammar JsonProps MsgBase MsgTables MsgModel MsgSpec MsgProofs AdapterModel AdapterSpec AdapterProofs Utf8 DbgTypes BpModel BpSpec ThreadModel StratModel SysModel SysSpec
  SysDemo MsgProofs WireSpec WireModel ReadModel OutSpec OutModel OutProps OutEnd PipeModel PipeSpec PipeProps.
From Coq Require Import Lia.
Local Open Scope Z_scope.
Ltac csplit := repeat match goal with |- _ /\ _ => split end.

Definition demo_code (v : pval) : N := 0%N.
Notation dpstep := (pstep demo_code demo_src demo_other demo_tb demo_int demo_repr demo_type demo_tmpl SysDemo.demo_args demo_err demo_parse).
Notation dprun := (prun demo_code demo_src demo_other demo_tb demo_int demo_repr demo_type demo_tmpl SysDemo.demo_args demo_err demo_parse).
Fixpoint pexec (p : Pipe) (ls : list plabel) : option Pipe :=
  match ls with [] => Some p | l :: r => match dpstep p l with Some p' => pexec p' r | None => None end end.
Lemma pexec_snoc ls : forall p0 ls0 p p', dprun p0 ls0 p -> pexec p ls = Some p' -> dprun p0 (ls0 ++ ls) p'.
Proof.
  induction ls as [|l ls IH]; cbn [pexec]; intros p0 ls0 p p' R H.
  - injection H as <-. now rewrite app_nil_r.
  - destruct (dpstep p l) as [p1|] eqn:E; [|discriminate]. change (l :: ls) with ([l] ++ ls). rewrite app_assoc. eapply IH; [|exact H]. econstructor; eauto.
Qed.
Lemma pexec_run p ls p' : pexec p ls = Some p' -> dprun p ls p'.
Proof. intros H. change ls with ([] ++ ls). eapply pexec_snoc; [constructor|exact H]. Qed.

Definition body1 : list N := s "{""seq"": 3, ""type"": ""request"", ""command"": ""setBreakpoints"", ""arguments"": {""source"": {""path"": ""/p.yml""}, ""breakpoints"": [{""line"": 3}]}}".
Definition body2 : list N := s "{""seq"": 4, ""type"": ""request"", ""command"": ""configurationDone""}".
Definition body3 : list N := s "{""seq"": 5, ""type"": ""request"", ""command"": ""threads""}".
Definition demo_in : bytes := frame_spec body1 ++ frame_spec body2 ++ frame_spec body3.
Definition demo_asked : list Req := [RSetBreakpoints (mkSource (Some (s "/p.yml")) 0) [mkSB 3 None 0] false; RConfigurationDone; RThreads].
Ltac body := eexists; match goal with |- exists j, utf8_encode ?l = Ok ?b /\ _ => unify l b end;
  match goal with |- context [utf8_encode ?b] => let E := fresh in destruct (loads b) as [j|] eqn:E; [|vm_compute in E; discriminate]; exists j; split; [vm_compute; reflexivity|];
   split; [apply asciib_scalar; reflexivity|]; split; [now apply C05_json_exact|]; vm_compute in E; injection E as <- end;
  split; [vm_compute; repeat split; auto; intros Hx; repeat (destruct Hx as [Hx|Hx]; [discriminate|]); exact Hx|]; split; [vm_compute; repeat split; auto|].
Example demo_asks : asks 3 demo_in demo_asked.
Proof.
  unfold demo_in, demo_asked. constructor; [|constructor; [|rewrite <- (app_nil_r (frame_spec body3)); constructor; [|constructor]]].
  - body. split; [|split; [wf1|discriminate]]. split; [vm_compute; reflexivity|]. constructor.
    + split; vm_compute; reflexivity.
    + split; [eexists; vm_compute; reflexivity|]. right. eexists. split; vm_compute; reflexivity.
    + left. eexists. split; [vm_compute; reflexivity|]. constructor; [|constructor]. split; [eexists; reflexivity|]. split; [vm_compute; reflexivity|]. left. split; vm_compute; reflexivity.
    + right. vm_compute. auto.
  - body. split; [|split; [exact Logic.I|discriminate]]. split; [vm_compute; reflexivity|]. constructor. split; vm_compute; reflexivity.
  - body. split; [|split; [exact Logic.I|discriminate]]. split; [vm_compute; reflexivity|]. constructor. split; vm_compute; reflexivity.
Qed.
Definition demo_c0 : conn := mkConn [] [] 3 4.
Definition demo_p0 : Pipe := mkPipe demo_c0 [UConfig []] sys_init 0 [] [].
Definition demo_pls : list plabel :=
  [QRead (firstn 200 demo_in); QForward; QReceive; QSend; QRead (skipn 200 demo_in); QForward; QPlaybook LPlay; QPlaybook (LHeap demo_heap); QReceive; QForward; QDeliver; QSend; QReceive; QReceive;
   QPlaybook (LInclude [(s "/p.yml", 3, 1); (s "/p.yml", 4, 1)]); QPlaybook (LStart (bt hostA t1)); QSend; QSend; QDeliver; QSend; QDeliver; QDeliver; QDeliver; QSend; QSend; QDeliver; QDeliver].
Definition demo_p1 : Pipe := match pexec demo_p0 demo_pls with Some p => p | None => demo_p0 end.
Lemma demo_prun : dprun demo_p0 demo_pls demo_p1.
Proof. apply pexec_run. unfold demo_p1. destruct (pexec demo_p0 demo_pls) eqn:E; [reflexivity|]. vm_compute in E. discriminate. Qed.
Lemma okb_writable ms : forallb okb ms = true -> Forall (writable demo_src demo_srcj) ms.
Proof.
  intros H. apply Forall_forall. intros m Hm. rewrite forallb_forall in H. specialize (H m Hm). destruct m as [o|]; [|exact Logic.I]. unfold okb, textsb in H. apply andb_true_iff in H as [H1 H2].
  rewrite forallb_forall in H1, H2. split; apply Forall_forall; intros x Hx.
  - apply asciib_scalar. exact (H1 x Hx).
  - apply demo_src_good. specialize (H2 x Hx). destruct (src_path (bp_source x)); [exact H2|exact Logic.I].
Qed.
(** All the hypotheses of the three theorems. *)
Example C71_met :
  dprun demo_p0 demo_pls demo_p1 /\ trace_wf (playbook demo_pls) /\ asks (seq_in demo_c0) (received demo_pls) demo_asked /\ ~ In RTerminate demo_asked /\
  Forall (writable demo_src demo_srcj) (d_out (w_dbg (y_w (p_sys demo_p1)))) /\ drained demo_p1 /\ names_ok demo_other demo_tb.
Proof.
  split; [exact demo_prun|]. split; [change (playbook demo_pls) with [LPlay; LHeap demo_heap; LInclude [(s "/p.yml", 3, 1); (s "/p.yml", 4, 1)]; LStart (bt hostA t1)]; wf|].
  split; [replace (received demo_pls) with demo_in by (vm_compute; reflexivity); exact demo_asks|].
  split; [intros [H|[H|[H|[]]]]; discriminate|]. split; [apply okb_writable; vm_compute; reflexivity|]. split; [vm_compute; auto|exact C66_names_met].
Qed.
(** What the client reads. *)
Example C71_read : p_written demo_p1 = concat (map frame_spec [
  s "{""seq"": 4, ""type"": ""event"", ""event"": ""initialized""}";
  s "{""seq"": 5, ""type"": ""response"", ""request_seq"": 3, ""success"": true, ""command"": ""setBreakpoints"", ""body"": {""breakpoints"": [{""id"": 1, ""verified"": false, ""message"": ""File has not been loaded by Ansible, cannot detect breakpoints yet."", ""source"": {""name"": null, ""path"": ""/p.yml"", ""sourceReference"": 0, ""presentationHint"": ""normal"", ""origin"": null, ""sources"": [], ""adapterData"": null, ""checksums"": []}, ""line"": 3, ""column"": null, ""endLine"": null, ""endColumn"": null, ""instructionReference"": null, ""offset"": null}]}}";
  s "{""seq"": 6, ""type"": ""response"", ""request_seq"": 4, ""success"": true, ""command"": ""configurationDone""}";
  s "{""seq"": 7, ""type"": ""response"", ""request_seq"": 5, ""success"": true, ""command"": ""threads"", ""body"": {""threads"": [{""id"": 1, ""name"": ""main""}]}}";
  s "{""seq"": 8, ""type"": ""event"", ""event"": ""breakpoint"", ""body"": {""reason"": ""changed"", ""breakpoint"": {""id"": 1, ""verified"": true, ""message"": null, ""source"": {""name"": null, ""path"": ""/p.yml"", ""sourceReference"": 0, ""presentationHint"": ""normal"", ""origin"": null, ""sources"": [], ""adapterData"": null, ""checksums"": []}, ""line"": 3, ""column"": null, ""endLine"": 3, ""endColumn"": null, ""instructionReference"": null, ""offset"": null}}}";
  s "{""seq"": 9, ""type"": ""event"", ""event"": ""thread"", ""body"": {""reason"": ""started"", ""threadId"": 2}}";
  s "{""seq"": 10, ""type"": ""event"", ""event"": ""stopped"", ""body"": {""reason"": ""breakpoint"", ""description"": ""Breakpoint hit"", ""threadId"": 2, ""preserveFocusHint"": false, ""text"": null, ""allThreadsStopped"": false, ""hitBreakpointIds"": [1]}}"
  ]).
Proof. vm_compute. reflexivity. Qed.
