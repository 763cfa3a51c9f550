(** C32: the stack trace is the chain of enclosing includes. *)
From Verif Require Import PyBase PyDict DbgTypes BpModel BpSpec ThreadModel ThreadSpec StratModel SysModel SysSpec SysDemo HistSpec HistProps StackSpec StackProofs.
Local Open Scope N_scope.

Section M.
Variable step : Sys -> label -> option Sys.
Lemma take_maps l st : fst (fold_left take_call (loaded l) st) = fst st.
Proof. unfold loaded. revert st. induction l as [|((p, a), b) l IH]; intros st; [reflexivity|]. cbn [map fold_left]. now rewrite IH. Qed.
Lemma calls_maps y l st : fst (fold_left take_call (calls y l) st) = map_step (fst st) l.
Proof.
  destruct l; cbn [calls map_step]; try reflexivity; try apply take_maps.
  - destruct (loads_role y a); [|reflexivity]. destruct (ts_role a); [apply take_maps|reflexivity].
  - destruct r; reflexivity.
Qed.
End M.
Lemma mappings_are py_int py_repr type_name tmpl tmpl_args err_text parse_repl ls y :
  trace_wf ls -> run py_int py_repr type_name tmpl tmpl_args err_text parse_repl sys_init ls y -> d_maps (w_dbg (y_w y)) = mappings ls.
Proof.
  intros W R. destruct (C68_session_is_history W R) as (_ & -> & _ & _). unfold client_state, mappings.
  change (@nil Mapping) with (fst (@nil Mapping, @nil Active)) at 2. generalize (@nil Mapping, @nil Active) as st.
  clear W. revert R. generalize sys_init as y0. induction ls as [|l ls IH]; intros y0 R st; [reflexivity|].
  inversion R; subst. cbn [history fold_left]. rewrite fold_left_app.
  match goal with H : SysModel.step _ _ _ _ _ _ _ y0 l = Some _ |- _ => rewrite H end.
  rewrite IH by assumption. now rewrite calls_maps.
Qed.

(** For every session, whatever the order of the tasks: the answer shows the host's task
    on top and below it exactly the includes still open by the rule of [trail]. *)
Theorem C32_stack_trace_exact py_int py_repr type_name tmpl tmpl_args err_text parse_repl h ls y tid task seq y' :
  trace_wf ls -> run py_int py_repr type_name tmpl tmpl_args err_text parse_repl sys_init ls y ->
  in_task h task tid y -> step py_int py_repr type_name tmpl tmpl_args err_text parse_repl y (LReq seq (RStackTrace tid)) = Some y' ->
  exists below, trail h ls = Some (task, below) /\
  ((forall n, In n (task :: below) -> n_path n <> None) ->
   exists fis, d_out (w_dbg (y_w y')) = d_out (w_dbg (y_w y)) ++ [Some (OFrames seq fis (N.of_nat (length fis)))] /\
     Forall2 (shows (mappings ls)) fis (task :: below)).
Proof. intros W R. rewrite <- (@mappings_are _ _ _ _ _ _ _ _ _ W R). now apply stack_trace. Qed.
Print Assumptions C32_stack_trace_exact.

(** In every session the tasks shown below the current one are includes this host has
    started since the play began (or the inventory was last refreshed). *)
Definition started_since (h : N) (ls : list label) (n : Node) : Prop :=
  exists pre a post, ls = pre ++ LStart a :: post /\ h_uuid (ts_host a) = h /\ ts_task a = n /\
    ~ In LPlay post /\ ~ In LPlayEnd post /\ ~ In LRefresh post.
Theorem C32_below_are_includes h ls task below : trail h ls = Some (task, below) ->
  started_since h ls task /\ forall n, In n below -> an_include n = true /\ started_since h ls n.
Proof.
  revert task below. induction ls as [|l ls IH] using rev_ind; intros task below; [discriminate|].
  rewrite trail_snoc.
  assert (EXT : forall n, l <> LPlay -> l <> LPlayEnd -> l <> LRefresh -> started_since h ls n -> started_since h (ls ++ [l]) n).
  { intros n N1 N2 N3 (pre & a & post & -> & A & B & C & D & E). exists pre, a, (post ++ [l]). rewrite <- app_assoc. split; [reflexivity|]. split; [exact A|]. split; [exact B|].
    rewrite !in_app_iff. cbn [In]. repeat split; intros [X|[X|[]]]; auto. }
  assert (KEEP : l <> LPlay -> l <> LPlayEnd -> l <> LRefresh -> trail h ls = Some (task, below) ->
    started_since h (ls ++ [l]) task /\ forall n, In n below -> an_include n = true /\ started_since h (ls ++ [l]) n).
  { intros N1 N2 N3 E. destruct (IH _ _ E) as (A & B). split; [auto|]. intros n X. destruct (B n X). auto. }
  destruct l as [|a|h1 r addr| | |regs| |seq r| |maps| |hp|lregs]; cbn [trail_step]; try discriminate; try (apply KEEP; discriminate).
  destruct (N.eqb_spec (h_uuid (ts_host a)) h) as [EH|NH]; [|apply KEEP; discriminate].
  intros E. injection E as <- <-. split.
  - exists ls, a, []. repeat split; auto.
  - intros n X.
    assert (U : In n (unfinished (trail h ls))).
    { unfold still_open in X. destruct (unfinished (trail h ls)) as [|top rest]; [exact X|].
      destruct (directly_in (ts_task a)) as [p|]; [destruct (N.eqb _ _); [exact X|]|]; now right. }
    unfold unfinished in U. destruct (trail h ls) as [(T, L)|] eqn:G; [|destruct U]. destruct (IH _ _ eq_refl) as (A & B).
    assert (Z : In n L \/ (n = T /\ an_include T = true)). { destruct (an_include T); [destruct U as [<-|U]; auto|auto]. }
    destruct Z as [Z|(-> & Z)].
    + destruct (B n Z) as (B1 & B2). split; [exact B1|]. apply EXT; [discriminate|discriminate|discriminate|exact B2].
    + split; [exact Z|]. apply EXT; [discriminate|discriminate|discriminate|exact A].
Qed.
Print Assumptions C32_below_are_includes.

Lemma trail_last h ls : last_task h ls = match trail h ls with Some (n, _) => Some n | None => None end.
Proof.
  induction ls as [|l ls IH] using rev_ind; [reflexivity|]. rewrite trail_snoc. unfold last_task in *. rewrite fold_left_app. cbn [fold_left]. rewrite IH.
  destruct l; cbn [last_step trail_step]; try reflexivity. destruct (N.eqb _ _); reflexivity.
Qed.
Lemma regular_trail h ls : regular h ls -> match trail h ls with Some (n, below) => below = includes_of n | None => True end.
Proof.
  induction ls as [|l ls IH] using rev_ind; intros RG; [exact Logic.I|].
  assert (R1 : regular h ls). { intros pre a post -> EH. eapply (RG pre a (post ++ [l])); auto. now rewrite <- app_assoc. }
  specialize (IH R1). rewrite trail_snoc. destruct l as [|a|h1 r addr| | |regs| |seq r| |maps| |hp|lregs]; cbn [trail_step]; try exact IH; try exact Logic.I.
  destruct (N.eqb_spec (h_uuid (ts_host a)) h) as [EH|NH]; [|exact IH].
  pose proof (RG ls a [] eq_refl EH) as M. rewrite trail_last in M.
  assert (U : unfinished (trail h ls) = open_includes (match trail h ls with Some (n, _) => Some n | None => None end)).
  { unfold unfinished, open_includes. destruct (trail h ls) as [(n, L)|]; [now subst L|reflexivity]. }
  unfold still_open. rewrite U. destruct M as [(-> & [C|(i & p & C1 & C2 & C3)])|(left & -> & C)].
  - now rewrite C.
  - rewrite C2. destruct (includes_of (ts_task a)) as [|i' L]; [discriminate|]. injection C1 as ->. now rewrite C3, N.eqb_refl.
  - destruct (directly_in (ts_task a)) as [p|]; [|reflexivity]. destruct (N.eqb_spec (n_uuid p) (n_uuid left)) as [E|E]; [destruct (C p eq_refl E)|reflexivity].
Qed.
(** As long as the host goes through the tasks one level at a time ([regular]) and every
    task shown has a place in a file, the response lists the task and exactly the
    includes around it, innermost first.  Missing from the full property: tasks listed in
    a block inside an included file, and leaving two includes at once; both fail, below. *)
Theorem C32_stack_trace_partial py_int py_repr type_name tmpl tmpl_args err_text parse_repl h ls y tid task seq y' :
  trace_wf ls -> run py_int py_repr type_name tmpl tmpl_args err_text parse_repl sys_init ls y -> regular h ls ->
  in_task h task tid y -> (forall n, In n (task :: includes_of task) -> n_path n <> None) ->
  step py_int py_repr type_name tmpl tmpl_args err_text parse_repl y (LReq seq (RStackTrace tid)) = Some y' ->
  exists fis, d_out (w_dbg (y_w y')) = d_out (w_dbg (y_w y)) ++ [Some (OFrames seq fis (N.of_nat (length fis)))] /\
    Forall2 (shows (mappings ls)) fis (task :: includes_of task).
Proof.
  intros W R RG IT NP H. destruct (C32_stack_trace_exact _ _ _ _ _ _ _ _ _ _ _ _ _ _ W R IT H) as (below & G & X).
  pose proof (regular_trail h ls RG) as E. rewrite G in E. subst below. now apply X.
Qed.
Print Assumptions C32_stack_trace_partial.

(** A host inside an include, with a further include in it. *)
Definition t_in2 := mkNode (KTask ActIncludeRole) 20 (s "role") (Some (s "/i.yml", 2%Z)) InBlock (Some inc_block).
Definition role_block := mkNode (KBlock false) 21 (s "blk") (Some (s "/r.yml", 1%Z)) InBlock (Some t_in2).
Definition t_deep := mkNode (KTask ActOther) 22 (s "deep") (Some (s "/r.yml", 1%Z)) InBlock (Some role_block).
Definition t_role_start h t := mkTS h t 0 1 (Some []) (fun _ => CBool true).
Definition walk_in : list label :=
  demo_setup ++ [ LStart (bt hostB t2); LEnd hostB okr 6; LStart (bt hostB t3); LEnd hostB okr 6;
                  LStart (bt hostB t_in2); LEnd hostB okr 6; LStart (t_role_start hostB t_deep) ].
(** Checking [regular] on a concrete trace, step by step. *)
Fixpoint all_moves (h : N) (g : option Node) (ls : list label) : Prop :=
  match ls with
  | [] => True
  | l :: r => (match l with LStart a => h_uuid (ts_host a) = h -> moves_one g (ts_task a) | _ => True end) /\ all_moves h (last_step h g l) r
  end.
Lemma all_moves_regular h ls : all_moves h None ls -> regular h ls.
Proof.
  unfold regular, last_task. generalize (@None Node) as g. induction ls as [|l ls IH]; intros g A pre a post E EH.
  - destruct pre; discriminate.
  - destruct A as (A1 & A2). destruct pre as [|x pre]; cbn in E; injection E as -> ->.
    + cbn. auto.
    + cbn [fold_left]. eapply IH; eauto.
Qed.
Example C32_regular_ex : regular 101 walk_in.
Proof.
  apply all_moves_regular. cbn. repeat split; auto; intros _; left; split; auto;
    try (left; reflexivity); right; do 2 eexists; (split; [reflexivity|split; reflexivity]).
Qed.
Example C32_trace_ex : trace_wf walk_in /\ drun sys_init walk_in (after walk_in) /\ in_task 101 t_deep 2 (after walk_in) /\
  (forall n, In n (t_deep :: includes_of t_deep) -> n_path n <> None) /\ includes_of t_deep = [t_in2; t2] /\
  exists y', dstep (after walk_in) (LReq 50 (RStackTrace 2)) = Some y'.
Proof.
  split; [unfold walk_in, demo_setup; wf|]. split; [apply after_run; vm_compute; discriminate|]. split.
  - split; [|left].
    + eexists. exists hostB. split; [vm_compute; reflexivity|]. split; reflexivity.
    + exists hostB. split; [vm_compute; auto|reflexivity].
  - split; [|split; [reflexivity|]].
    + intros n [<-|[<-|[<-|[]]]]; discriminate.
    + eexists. vm_compute. reflexivity.
Qed.

(** The full property, for the demo's parameters: it fails. *)
Definition stack_claim : Prop := forall h ls y tid task seq y',
  trace_wf ls -> drun sys_init ls y ->
  in_task h task tid y -> (forall n, In n (task :: includes_of task) -> n_path n <> None) ->
  dstep y (LReq seq (RStackTrace tid)) = Some y' ->
  exists fis, d_out (w_dbg (y_w y')) = d_out (w_dbg (y_w y)) ++ [Some (OFrames seq fis (N.of_nat (length fis)))] /\
    Forall2 (shows (mappings ls)) fis (task :: includes_of task).

(** The frames of the answer to a stackTrace request for thread 2. *)
Definition trace_of (ls : list label) : option (list Z) :=
  match dstep (after ls) (LReq 50 (RStackTrace 2)) with
  | Some y' => match rev (d_out (w_dbg (y_w y'))) with
               | Some (OFrames _ fis _) :: _ => Some (map fi_line fis)
               | _ => None end
  | None => None
  end.
Lemma claim_length ls task y' : stack_claim -> trace_wf ls -> drun sys_init ls (after ls) -> in_task 101 task 2 (after ls) ->
  (forall n, In n (task :: includes_of task) -> n_path n <> None) ->
  dstep (after ls) (LReq 50 (RStackTrace 2)) = Some y' ->
  exists lines, trace_of ls = Some lines /\ length lines = S (length (includes_of task)).
Proof.
  intros C W R I P H. destruct (C _ _ _ _ _ _ _ W R I P H) as (fis & E & F). unfold trace_of. rewrite H, E, rev_app_distr. cbn.
  exists (map fi_line fis). split; auto. rewrite map_length. change (length fis = length (task :: includes_of task)). clear -F. induction F; cbn; auto.
Qed.

(** The rule on the two traces: nothing is below the task when it should be, and the outer
    include still is when it should not. *)
Example C32_exact_ex : trail 101 walk_in = Some (t_deep, [t_in2; t2]) /\ started_since 101 walk_in t2.
Proof.
  split; [vm_compute; reflexivity|]. apply (C32_below_are_includes 101 walk_in t_deep [t_in2; t2] eq_refl). right; left; reflexivity.
Qed.

(** A task in a block inside an included file: the include's frame is missing. *)
Definition sub_block := mkNode (KBlock false) 30 (s "sub") (Some (s "/i.yml", 3%Z)) InBlock (Some inc_block).
Definition t_sub := mkNode (KTask ActOther) 31 (s "t") (Some (s "/i.yml", 4%Z)) InBlock (Some sub_block).
Definition walk_block : list label :=
  demo_setup ++ [ LStart (bt hostB t2); LEnd hostB okr 6; LStart (bt hostB t3); LEnd hostB okr 6; LStart (bt hostB t_sub) ].
Theorem C32_nested_block_refuted :
  trace_wf walk_block /\ drun sys_init walk_block (after walk_block) /\ in_task 101 t_sub 2 (after walk_block) /\
  includes_of t_sub = [t2] /\ trace_of walk_block = Some [4%Z] /\ ~ stack_claim.
Proof.
  assert (W : trace_wf walk_block) by (unfold walk_block, demo_setup; wf).
  assert (R : drun sys_init walk_block (after walk_block)) by (apply after_run; vm_compute; discriminate).
  assert (I : in_task 101 t_sub 2 (after walk_block)).
  { split; [eexists; exists hostB; split; [vm_compute; reflexivity|split; reflexivity]|left; exists hostB; split; [vm_compute; auto|reflexivity]]. }
  assert (T : trace_of walk_block = Some [4%Z]) by (vm_compute; reflexivity).
  split; [exact W|]. split; [exact R|]. split; [exact I|]. split; [reflexivity|]. split; [exact T|]. intros C.
  destruct (dstep (after walk_block) (LReq 50 (RStackTrace 2))) as [y'|] eqn:E; [|vm_compute in E; discriminate].
  destruct (@claim_length walk_block t_sub y' C W R I) as (lines & E1 & E2); auto.
  { intros n [<-|[<-|[]]]; discriminate. }
  rewrite T in E1. injection E1 as <-. discriminate.
Qed.
Print Assumptions C32_nested_block_refuted.

(** Leaving two includes at once: the outer include is still shown. *)
Definition walk_out : list label := walk_in ++ [ LEnd hostB okr 6; LStart (t_role_start hostB t4) ].
Theorem C32_two_levels_refuted :
  trace_wf walk_out /\ drun sys_init walk_out (after walk_out) /\ in_task 101 t4 2 (after walk_out) /\
  includes_of t4 = [] /\ trace_of walk_out = Some [5%Z; 4%Z] /\ ~ stack_claim.
Proof.
  assert (W : trace_wf walk_out) by (unfold walk_out, walk_in, demo_setup; wf).
  assert (R : drun sys_init walk_out (after walk_out)) by (apply after_run; vm_compute; discriminate).
  assert (I : in_task 101 t4 2 (after walk_out)).
  { split; [eexists; exists hostB; split; [vm_compute; reflexivity|split; reflexivity]|left; exists hostB; split; [vm_compute; auto|reflexivity]]. }
  assert (T : trace_of walk_out = Some [5%Z; 4%Z]) by (vm_compute; reflexivity).
  split; [exact W|]. split; [exact R|]. split; [exact I|]. split; [reflexivity|]. split; [exact T|]. intros C.
  destruct (dstep (after walk_out) (LReq 50 (RStackTrace 2))) as [y'|] eqn:E; [|vm_compute in E; discriminate].
  destruct (@claim_length walk_out t4 y' C W R I) as (lines & E1 & E2); auto.
  { intros n [<-|[]]; discriminate. }
  rewrite T in E1. injection E1 as <-. discriminate.
Qed.
Print Assumptions C32_two_levels_refuted.
