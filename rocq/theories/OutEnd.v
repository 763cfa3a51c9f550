(** C66, end to end: the bytes written for each message of a reachable session. *)
From Verif Require Import PyBase PyDict JsonModel JsonSpec JsonProofs JsonGrammar JsonProps MsgBase MsgTables MsgModel MsgSpec MsgProofs MsgProofs2 AdapterModel AdapterSpec AdapterProofs AdapterProofs2 AdapterProps DbgTypes WireSpec WireProofs OutSpec OutModel OutProofs OutProps.
From Verif Require Import BpModel BpSpec BpProofs2 BpProofs3 BpProps ThreadModel StratModel SysModel SysSpec SysProofs SysProofs2 SysProofs3 SysProofs4 SysProofs5 SysProofs6 SysProofs7 SysProofs8 SysProofs9 SysProofs10 SysProofs11 SysProps.
Ltac csplit := repeat match goal with |- _ /\ _ => split end.

Definition ackopt (m : option Out) : Prop := match m with Some o => ack_ok o | None => True end.
Lemma nomarks_ack ms : marks ms = [] -> Forall ackopt ms.
Proof.
  induction ms as [|m ms IH]; intros H; [constructor|]. cbn [marks flat_map] in H. apply app_eq_nil in H as [H1 H2]. constructor; [|exact (IH H2)].
  destruct m as [o|]; [|exact I]. destruct o; try exact I. cbn in H1. discriminate.
Qed.

Section S.
Variable py_int : pystr -> option Z.
Variable py_repr : heap -> val -> pystr.
Variable type_name : heap -> val -> pystr.
Variable tmpl : pystr -> nat -> heap -> res (list obj * val).
Variable tmpl_args : nat -> nat -> heap -> res (list obj * val).
Variable err_text : exn -> pystr.
Variable parse_repl : pystr -> res ReplCmd.
Notation handle := (handle py_int py_repr type_name tmpl tmpl_args err_text parse_repl).
Notation process := (process py_int py_repr type_name tmpl tmpl_args err_text parse_repl).
Notation step := (step py_int py_repr type_name tmpl tmpl_args err_text parse_repl).
Notation run := (run py_int py_repr type_name tmpl tmpl_args err_text parse_repl).

Lemma last_app {A} (a b : list A) x y : a ++ [x] = b ++ [y] -> x = y.
Proof. intros H. apply app_inj_tail in H. tauto. Qed.


Definition not_ack (o : Out) : Prop := match o with OAck _ _ => False | _ => True end.
Lemma reply_ack w x (W : World) o0 : (forall o, snd x = Ok o -> not_ack o) -> w = reply x -> snd w = Ok tt ->
  d_out (w_dbg (fst w)) = d_out (w_dbg W) ++ [Some o0] -> ack_ok o0.
Proof.
  intros H -> E D. destruct x as (w', [o|e]); [|discriminate]. cbn [fst reply snd] in *. specialize (H o eq_refl).
  cbn in D. apply last_app in D. injection D as ->. destruct o0; try exact I. destruct H.
Qed.
Ltac brk := repeat first [discriminate | match goal with
  | H : snd (_, _) = _ |- _ => cbn [snd] in H
  | H : Ok _ = Ok _ |- _ => injection H as <-; exact I
  | H : snd (match ?x with _ => _ end) = _ |- _ => destruct x
  end].
Lemma handle_ack seq r w ops : WInv w -> binv (w_dbg w) ops -> req_wf r ->
  exists ms, d_out (w_dbg (handle seq r w)) = d_out (w_dbg w) ++ ms /\ Forall ackopt ms.
Proof.
  intros I B W. destruct (@process_spec py_int py_repr type_name tmpl tmpl_args err_text parse_repl seq r w ops I B W) as (I' & Q & A). unfold SysModel.handle.
  destruct (process seq r w) as (w', [u|e]) eqn:EP; cbn [fst snd answered] in *.
  - destruct u. destruct r; cbn [answered] in A;
      try (eexists; split; [exact A|repeat constructor; cbn; tauto]);
      destruct A as (o & A & E); exists [Some o]; (split; [exact A|]); constructor; try constructor; cbn [ackopt];
      try (destruct o; try exact Logic.I; cbn in E; injection E as -> _; cbn; tauto); cbn [SysModel.process] in EP;
      try (eapply reply_ack; [|symmetry; exact EP|reflexivity|exact A]; intros o' Ho).
    + unfold continue_request in Ho. brk.
    + unfold evaluate in Ho. brk.
    + unfold get_scopes in Ho. brk.
    + destruct (set_breakpoints seq src bps modified (w_dbg w)) as (d, x) eqn:ES. injection EP as <- ->.
      unfold set_breakpoints in ES. brk.
      match type of ES with (let '(_, _) := ?z in _) = _ => destruct z as (d1, [infos|]) end; [|discriminate]. injection ES as <-.
      cbn in A. apply last_app in A. injection A as <-. exact Logic.I.
    + unfold set_variable in Ho. brk.
    + unfold get_stacktrace in Ho. cbn [snd] in Ho. destruct (dget _ _); [|discriminate]. destruct (mapM _ _); [|discriminate]. cbn [bind] in Ho. injection Ho as <-. exact Logic.I.
    + unfold get_threads in Ho. brk.
    + unfold get_variables in Ho. brk.
    + discriminate.
  - destruct A as (A & N). eexists. split; [cbn; rewrite A; reflexivity|]. repeat constructor.
Qed.

Lemma step_ack y l y' : SInv y -> label_wf l -> step y l = Some y' -> Forall ackopt (d_out (w_dbg (y_w y))) -> Forall ackopt (d_out (w_dbg (y_w y'))).
Proof.
  intros S W H F. pose proof (y_inv S) as I. pose proof (y_dwf S) as D.
  destruct (strategy_label l) eqn:SL.
  { destruct (@step_micro py_int py_repr type_name tmpl tmpl_args err_text parse_repl y l y' S W H SL) as (M & R). destruct (msteps_out I M) as (_ & ms & E & K).
    rewrite E. apply Forall_app. split; [exact F|now apply nomarks_ack]. }
  destruct l as [|a|h r addr| | |regs| |seq r| |maps| |hp|lregs]; try discriminate; cbn [SysModel.step] in H.
  - destruct (y_phase y); try discriminate. injection H as <-. exact F.
  - destruct (y_recv y) eqn:R; [discriminate|]. destruct (@before_good r (y_w y) I) as (I1 & Q1).
    set (w1 := wd (before_strategy r (w_dbg (y_w y))) (y_w y)) in *.
    assert (D1 : dwf (w_dbg w1)) by (eapply dwf_dext; [exact D|apply (q_d Q1)]).
    assert (O1 : d_out (w_dbg w1) = d_out (w_dbg (y_w y))) by (cbn; apply before_out).
    destruct (needs_strategy r && negb (has_strategy y)) eqn:NS; injection H as <-; cbn [y_w].
    + now rewrite O1.
    + destruct (dwf_binv D1) as (ops & B). destruct (@handle_ack seq r w1 ops I1 B W) as (ms & E & K). rewrite E, O1. apply Forall_app. auto.
  - destruct (y_recv y) as [(seq, r)|] eqn:R; [|discriminate]. destruct (has_strategy y) eqn:HS; [|discriminate]. injection H as <-.
    pose proof (y_rq S) as RW. rewrite R in RW. destruct RW as (RW & _).
    destruct (dwf_binv D) as (ops & B). destruct (@handle_ack seq r (y_w y) ops I B RW) as (ms & E & K). cbn [y_w]. rewrite E. apply Forall_app. auto.
  - destruct (y_recv y) eqn:R; [discriminate|]. injection H as <-. cbn. apply Forall_app. split; [exact F|repeat constructor].
  - destruct (y_recv y) eqn:R; [discriminate|]. injection H as <-. cbn [y_w]. rewrite shutdown_out. exact F.
  - injection H as <-. exact F.
Qed.
Lemma run_ack ls : forall y y', SInv y -> trace_wf ls -> run y ls y' -> Forall ackopt (d_out (w_dbg (y_w y))) -> Forall ackopt (d_out (w_dbg (y_w y'))).
Proof.
  induction ls as [|l ls IH]; intros y y' S W R T.
  - inversion R; subst. auto.
  - inversion R as [|? ? y1 ? ? A B]; subst. inversion W as [|? ? W1 W2]; subst.
    destruct (@step_inv py_int py_repr type_name tmpl tmpl_args err_text parse_repl y l y1 S W1 A) as (S1 & _ & _).
    apply (IH y1 y' S1 W2 B). exact (@step_ack y l y1 S W1 A T).
Qed.

(** ** C66 *)
Section T.
Variable src_obj : Source -> pval.
Variable srcj : Source -> json.
Variable other : N -> pystr.
Variable tb : Cmd -> Z -> pystr.
(** the names of other commands are DAP command names, tracebacks are text *)
Definition names_ok : Prop := (forall n, In (other n) (members E_Command)) /\ (forall c q, Forall scalar (tb c q)).

Theorem C66_message_tells : forall n o, names_ok -> fine src_obj srcj o ->
  exists j, enc (set_seq (out_obj src_obj other tb o) n) = Ok j /\ tells srcj other j n o.
Proof. intros n o [H1 H2] H. destruct (@out_tells src_obj srcj other tb H1 H2 n o H) as (j & A & _ & B). eauto. Qed.

(** the bytes appended to the outgoing buffer *)
Theorem C66_bytes : forall c o, names_ok -> fine src_obj srcj o ->
  exists payload j, AdapterModel.queue_msg c (out_obj src_obj other tb o) = (Ok (seq_out c), mkConn (out c ++ frame_spec payload) (inb c) (seq_in c) (seq_out c + 1)) /\
    json_text payload j /\ tells srcj other j (seq_out c) o.
Proof.
  intros c o [H1 H2] H. destruct (@out_tells src_obj srcj other tb H1 H2 (seq_out c) o H) as (j & A & W & B). exists (dumps j), j.
  split; [|split; [now apply C05_writes_json|exact B]].
  unfold AdapterModel.queue_msg. rewrite (@frame_of_ok _ _ A (@wfj_cpj _ W)). cbn [out inb seq_in seq_out]. unfold frame_bytes, header, frame_spec. now rewrite <- !app_assoc.
Qed.

(** in every session: every message the debuggee ever queued is one of those above *)
Theorem C66_session : forall ls y, trace_wf ls -> run sys_init ls y -> names_ok ->
  Forall (fun m => match m with Some o => Forall (Forall scalar) (out_texts o) /\ Forall (fun b => src_good src_obj srcj (bp_source b)) (out_bps o) | None => True end)
    (d_out (w_dbg (y_w y))) ->
  forall o, In (Some o) (d_out (w_dbg (y_w y))) -> forall c,
  exists payload j, AdapterModel.queue_msg c (out_obj src_obj other tb o) = (Ok (seq_out c), mkConn (out c ++ frame_spec payload) (inb c) (seq_in c) (seq_out c + 1)) /\
    json_text payload j /\ tells srcj other j (seq_out c) o.
Proof.
  intros ls y W R HN HF o Hin c. apply C66_bytes; [exact HN|].
  pose proof (@run_ack ls sys_init y sinv_init W R (Forall_nil _)) as HA. rewrite Forall_forall in HA, HF. specialize (HA _ Hin). specialize (HF _ Hin). destruct HF. repeat split; auto.
Qed.

(** the source of a breakpoint is reported with the path the client used *)
Theorem C66_source_path : forall x, src_good src_obj srcj x -> attr (src_obj x) "path" = Some (match src_path x with Some p => PStr p | None => PNull end) ->
  text_opt (member (srcj x) "path") (src_path x).
Proof.
  intros x [W E] Ha. destruct (src_obj x) as [| | | | | | |c attrs] eqn:Es; try discriminate Ha. assert (Hc : c = C_Source) by (destruct W; auto). subst c.
  destruct (@enc_members C_Source attrs W) as (j & E' & _ & P). rewrite E in E'. injection E' as E'. subst j.
  cbn [attr] in Ha. assert (X := P [s "path"] (s "path") _ ltac:(vm_compute; tauto) Ha). unfold member, text_opt. destruct (src_path x) as [p|]; injection X as X; [right; eauto|left; auto].
Qed.
End T.
End S.
Print Assumptions C66_message_tells.
Print Assumptions C66_bytes.
Print Assumptions C66_session.
Print Assumptions C66_source_path.

(** ** the hypotheses are met *)
From Verif Require Import SysDemo.
Definition demo_src (x : Source) : pval := mk C_Source [(s "path", popt PStr (src_path x))].
Definition demo_srcj (x : Source) : json := match enc (demo_src x) with Ok j => j | Err _ => JNull end.
Definition demo_other (n : N) : pystr := s "attach".
Definition demo_tb (c : Cmd) (q : Z) : pystr := s "Traceback".
Example C66_names_met : names_ok demo_other demo_tb.
Proof. split; [intros n; vm_compute; tauto|intros c q; apply asciib_scalar; reflexivity]. Qed.
(** all the messages of a session with a breakpoint that is hit *)
Definition textsb (o : Out) : bool := forallb asciib (out_texts o).
Lemma demo_src_good x : (match src_path x with Some p => asciib p = true | None => True end) -> src_good demo_src demo_srcj x.
Proof.
  intros H. assert (W : wt (UObj C_Source) (demo_src x)).
  { unfold demo_src. apply mk_good; [reflexivity|vm_compute; reflexivity|vm_compute; reflexivity|]. constructor; [|constructor].
    unfold arg_ok. cbn [fst]. let f := eval vm_compute in (find_field C_Source (s "path")) in change (find_field C_Source (s "path")) with f.
    destruct (src_path x); cbn [popt snd wta]; [now apply asciib_scalar|reflexivity]. }
  split; [exact W|]. destruct (mk_members _ _ W) as (j & E & _). unfold demo_srcj. change (mk C_Source [(s "path", popt PStr (src_path x))]) with (demo_src x) in E. now rewrite E.
Qed.
Definition okb (m : option Out) : bool :=
  match m with Some o => textsb o && forallb (fun b => match src_path (bp_source b) with Some p => asciib p | None => true end) (out_bps o) | None => true end.
Example C66_session_met :
  Forall (fun m => match m with Some o => Forall (Forall scalar) (out_texts o) /\ Forall (fun b => src_good demo_src demo_srcj (bp_source b)) (out_bps o) | None => True end)
    (d_out (w_dbg (y_w (after demo_stop)))) /\
  exists e, find (fun m => match m with Some (OStopped _) => true | _ => false end) (d_out (w_dbg (y_w (after demo_stop)))) = Some (Some (OStopped e)) /\ st_hit e <> [].
Proof.
  split.
  - apply Forall_forall. intros m Hm. assert (H : forallb okb (d_out (w_dbg (y_w (after demo_stop)))) = true) by (vm_compute; reflexivity).
    rewrite forallb_forall in H. specialize (H m Hm). destruct m as [o|]; [|exact I]. unfold okb, textsb in H. apply andb_true_iff in H as [H1 H2]. rewrite forallb_forall in H1, H2. split; apply Forall_forall; intros x Hx.
    + apply asciib_scalar. exact (H1 x Hx).
    + apply demo_src_good. specialize (H2 x Hx). destruct (src_path (bp_source x)); [exact H2|exact I].
  - eexists. split; [vm_compute; reflexivity|discriminate].
Qed.
Example C66_text_example :
  match enc (set_seq (out_obj demo_src demo_other demo_tb (OThread false 3)) 7) with Ok j => dumps j | Err _ => [] end =
  s "{""seq"": 7, ""type"": ""event"", ""event"": ""thread"", ""body"": {""reason"": ""exited"", ""threadId"": 3}}".
Proof. vm_compute. reflexivity. Qed.
