(** Properties of evaluate requests: C54; and the hypotheses of C34 are met. *)
From Verif Require Import PyBase PyDict Digits DbgTypes BpModel BpSpec BpProofs BpProofs2 BpProofs3 BpProps ThreadModel ThreadSpec StratModel SysModel SysSpec SysProofs SysProofs2 SysProofs3 SysProofs4 SysProofs5 SysProofs6 SysProofs7 SysProofs8 SysProofs9 SysProofs10 SysProofs11 SysProofs12 SysProofs13 SysVars SysVars2 SysDemo.
Set Implicit Arguments.
Local Open Scope N_scope.

Lemma obj_del_key_spec h a name : match obj_del_key h a (kstr name) with
  | Ok h' => length h' = length h /\ (forall b, b <> a -> nth_error h' b = nth_error h b) /\ exists o o', nth_error h a = Some o /\ nth_error h' a = Some o' /\ key_removed name o o'
  | Err _ => True end.
Proof.
  unfold obj_del_key. destruct (nth_error h a) as [[l m|l m|l]|] eqn:E; auto. destruct (dhas l (kstr name)) eqn:D.
  - destruct m; auto. destruct (set_nth_in _ _ (ODict (ddel l (kstr name)) true) E) as (h' & H). rewrite H.
    destruct (set_nth_some _ _ _ H) as (_ & A2 & A3 & A4). csplit; auto. do 2 eexists. split; [reflexivity|]. split; [exact A3|].
    exists l, (ddel l (kstr name)), true. csplit; auto; [intros; now apply dget_ddel_other|]. intros ND. split; [now apply NoDup_ddel|now apply dget_ddel_same].
  - csplit; auto. exists (ODict l m), (ODict l m). csplit; auto. exists l, l, m. csplit; auto. intros ND. split; auto.
    unfold dhas in D. destruct (dget l (kstr name)); [discriminate|auto].
Qed.

Section S.
Variable py_int : pystr -> option Z.
Variable py_repr : heap -> val -> pystr.
Variable type_name : heap -> val -> pystr.
Variable tmpl : pystr -> nat -> heap -> res (list obj * val).
Variable tmpl_args : nat -> nat -> heap -> res (list obj * val).
Variable err_text : exn -> pystr.
Variable parse_repl : pystr -> res ReplCmd.
Notation handle := (handle py_int py_repr type_name tmpl tmpl_args err_text parse_repl).
Notation step := (step py_int py_repr type_name tmpl tmpl_args err_text parse_repl).
Notation run := (run py_int py_repr type_name tmpl tmpl_args err_text parse_repl).
Notation evaluate := (evaluate py_int py_repr type_name tmpl err_text parse_repl).

Lemma eval_step y seq e fr c : pending y = [] -> has_strategy y = true ->
  let '(w', r) := evaluate seq e fr c (y_w y) in
  exists y', step y (LReq seq (REvaluate e fr c)) = Some y' /\
   w_ss (y_w y') = w_ss (y_w y) /\ w_heap (y_w y') = w_heap w' /\ w_persist (y_w y') = w_persist w' /\
   d_out (w_dbg (y_w y')) = d_out (w_dbg (y_w y)) ++ [Some (match r with Ok o => o | Err _ => OError CEvaluate seq end)].
Proof.
  intros P HS. assert (RC : y_recv y = None) by (unfold pending in P; destruct (y_recv y); [discriminate|auto]).
  pose proof (@evaluate_ss py_int py_repr type_name tmpl err_text parse_repl seq e fr c (y_w y)) as G.
  destruct (evaluate seq e fr c (y_w y)) as (w', r) eqn:EV. destruct G as (A & B & _).
  cbn [SysModel.step]. rewrite RC, HS. cbn [needs_strategy andb negb before_strategy].
  assert (WW : wd (w_dbg (y_w y)) (y_w y) = y_w y) by (destruct (y_w y); reflexivity). rewrite WW. unfold SysModel.handle. cbn [process]. rewrite EV.
  destruct r as [o|er]; cbn [reply]; eexists; (split; [reflexivity|]); cbn; rewrite B; csplit; auto.
Qed.
Lemma undisturbed_app w w' objs : w_heap w' = w_heap w ++ objs -> w_persist w' = w_persist w -> w_ss w' = w_ss w -> undisturbed w w'.
Proof. intros H P SS. unfold undisturbed, w_threads, w_frames, w_vars. rewrite SS. csplit; auto. intros a L. rewrite H. now apply nth_error_app1. Qed.

Lemma ctx_in_spec c l : ctx_in c l = true <-> exists x, c = Some x /\ In x l.
Proof. unfold ctx_in. destruct c as [x|]; [rewrite mem_In|]; split; intros H; eauto; try discriminate; destruct H as (y & E & HI); [now injection E as ->|discriminate]. Qed.
Lemma not_command e c : ~ is_command e c -> ctx_in c [s "repl"] && startswith e (s "!") = false.
Proof.
  intros N. destruct (_ && _) eqn:E; auto. exfalso. apply N. apply Bool.andb_true_iff in E. destruct E as (A & B). apply ctx_in_spec in A. destruct A as (x & -> & [<-|[]]).
  apply startswith_spec in B. split; auto.
Qed.
Lemma command e c : is_command e c -> ctx_in c [s "repl"] && startswith e (s "!") = true.
Proof. intros (-> & r & ->). reflexivity. Qed.

(** C54: evaluation in a frame answers with a value or with the text of the error, and
    disturbs nothing. *)
Theorem C54_evaluates_in_the_frame y seq expr fid f ctx :
  pending y = [] -> has_strategy y = true -> fid <> 0 -> dget (w_frames (y_w y)) fid = Some f ->
  In ctx eval_contexts -> ~ is_command expr (Some ctx) ->
  exists y', step y (LReq seq (REvaluate expr (Some fid) (Some ctx))) = Some y' /\ undisturbed (y_w y) (y_w y') /\
    d_out (w_dbg (y_w y')) = d_out (w_dbg (y_w y)) ++
      [Some (match tmpl expr (f_tv f) (w_heap (y_w y)) with
             | Ok (objs, v) => let h := w_heap (y_w y) ++ objs in OEvaluate seq (py_repr h v) (Some (type_name h v))
             | Err e => OEvaluate seq (err_text e) None end)].
Proof.
  intros P HS NZ F C NC. pose proof (@eval_step y seq expr (Some fid) (Some ctx) P HS) as E.
  unfold StratModel.evaluate in E. cbn [frame_truthy] in E. rewrite (proj2 (N.eqb_neq _ _) NZ), (not_command NC) in E.
  assert (CI : ctx_in (Some ctx) [s "repl"; s "watch"; s "clipboard"; s "variables"] = true) by (apply ctx_in_spec; eauto).
  rewrite CI, F in E. unfold safe_evaluate in E. destruct (tmpl expr (f_tv f) (w_heap (y_w y))) as [(objs, v)|e]; destruct E as (y' & A & B & H & PP & O); exists y'; csplit; auto.
  - apply (undisturbed_app (y_w y) (y_w y') objs); auto.
  - apply (undisturbed_app (y_w y) (y_w y') []); auto. now rewrite app_nil_r.
Qed.

(** Without a frame, or in another context, the answer says so. *)
Theorem C54_other_requests_not_implemented y seq expr frame ctx :
  pending y = [] -> has_strategy y = true ->
  (frame = None \/ frame = Some 0 \/ forall c, ctx = Some c -> ~ In c eval_contexts) ->
  exists y', step y (LReq seq (REvaluate expr frame ctx)) = Some y' /\ undisturbed (y_w y) (y_w y') /\
    d_out (w_dbg (y_w y')) = d_out (w_dbg (y_w y)) ++
      [Some (OEvaluate seq (s "Evaluation for " ++ (match ctx with Some c => c | None => s "None" end) ++ s " is not implemented") None)].
Proof.
  intros P HS H. pose proof (@eval_step y seq expr frame ctx P HS) as E. unfold StratModel.evaluate in E.
  assert (X : frame_truthy frame = None \/ ctx_in ctx [s "repl"; s "watch"; s "clipboard"; s "variables"] = false).
  { destruct H as [->|[->|H]]; [left; reflexivity|left; reflexivity|]. right. destruct (ctx_in ctx [s "repl"; s "watch"; s "clipboard"; s "variables"]) eqn:CI; auto. apply ctx_in_spec in CI. destruct CI as (c & -> & HI). exfalso. exact (H c eq_refl HI). }
  assert (D : exists y', step y (LReq seq (REvaluate expr frame ctx)) = Some y' /\ w_ss (y_w y') = w_ss (y_w y) /\ w_heap (y_w y') = w_heap (y_w y) /\ w_persist (y_w y') = w_persist (y_w y) /\
    d_out (w_dbg (y_w y')) = d_out (w_dbg (y_w y)) ++ [Some (OEvaluate seq (s "Evaluation for " ++ (match ctx with Some c => c | None => s "None" end) ++ s " is not implemented") None)]).
  { destruct (frame_truthy frame) as [fid|]; [|exact E]. destruct X as [X|X]; [discriminate|].
    assert (X2 : ctx_in ctx [s "repl"] = false).
    { destruct (ctx_in ctx [s "repl"]) eqn:CI; auto. apply ctx_in_spec in CI. destruct CI as (c & -> & [<-|[]]). discriminate X. }
    rewrite X2, X in E. cbn [andb] in E. exact E. }
  destruct D as (y' & A & B & C & PP & O). exists y'. csplit; auto. apply (undisturbed_app (y_w y) (y_w y') []); auto. now rewrite app_nil_r.
Qed.

(** C54: a repl command changes exactly the containers it names. *)
Theorem C54_repl_set_option y seq rest fid f n e v raw y' t ty :
  pending y = [] -> has_strategy y = true -> fid <> 0 -> dget (w_frames (y_w y)) fid = Some f ->
  parse_repl rest = Ok (RcSetOption n e) ->
  dget (w_vars (y_w y)) (f_options f) = Some v -> v_kind v = VKRaw raw ->
  step y (LReq seq (REvaluate (s "!" ++ rest) (Some fid) (Some (s "repl")))) = Some y' ->
  d_out (w_dbg (y_w y')) = d_out (w_dbg (y_w y)) ++ [Some (OEvaluate seq t ty)] ->
  exists objs x, tmpl e (f_tv f) (w_heap (y_w y)) = Ok (objs, x) /\
    (forall a, (a < length (w_heap (y_w y)))%nat -> a <> v_ds v -> a <> raw -> nth_error (w_heap (y_w y')) a = nth_error (w_heap (y_w y)) a) /\
    (forall a, a = v_ds v \/ a = raw -> exists o o', nth_error (w_heap (y_w y) ++ objs) a = Some o /\ nth_error (w_heap (y_w y')) a = Some o' /\ key_set n x o o') /\
    w_persist (y_w y') = w_persist (y_w y) /\ w_ss (y_w y') = w_ss (y_w y).
Proof.
  intros P HS NZ F PR V K E O. pose proof (@eval_step y seq (s "!" ++ rest) (Some fid) (Some (s "repl")) P HS) as G.
  unfold StratModel.evaluate in G. cbn [frame_truthy] in G. rewrite (proj2 (N.eqb_neq _ _) NZ) in G. assert (CM : ctx_in (Some (s "repl")) [s "repl"] && startswith (s "!" ++ rest) (s "!") = true) by reflexivity. rewrite CM, F in G.
  change (skipn 1 (s "!" ++ rest)) with rest in G. rewrite PR in G.
  destruct (tmpl e (f_tv f) (w_heap (y_w y))) as [(objs, x)|er].
  2: { destruct G as (y1 & E1 & _ & _ & _ & O1). rewrite E in E1. injection E1 as <-. rewrite O in O1. apply app_inv_head in O1. discriminate. }
  exists objs, x. cbn [set_vars] in G. change (w_vars (wh (w_heap (y_w y) ++ objs) (y_w y))) with (w_vars (y_w y)) in G. rewrite V in G.
  pose proof (@var_set_spec py_int v n x (wh (w_heap (y_w y) ++ objs) (y_w y))) as VS.
  destruct (var_set py_int v n x (wh (w_heap (y_w y) ++ objs) (y_w y))) as (w2, [[]|er]).
  2: { destruct G as (y1 & E1 & _ & _ & _ & O1). rewrite E in E1. injection E1 as <-. rewrite O in O1. apply app_inv_head in O1. discriminate. }
  destruct G as (y1 & E1 & SS & H & PP & _). rewrite E in E1. injection E1 as <-.
  destruct VS as (VP & VL & VO & (o & o' & N1 & N2 & AS) & VR). rewrite K in *. cbn in VP, VO, VL, VR, N1, AS. rewrite app_nil_r in VP. csplit; auto; [| |congruence].
  - intros a L A1 A2. rewrite H, VO; auto; [now apply nth_error_app1|]. intros r0 R0. injection R0 as <-. auto.
  - intros a [->| ->].
    + exists o, o'. rewrite H. auto.
    + destruct (VR raw eq_refl) as (p & p' & B1 & B2 & B3). exists p, p'. rewrite H. auto.
Qed.

Theorem C54_repl_set_hostvar y seq rest fid f n e vt vh host y' t ty :
  pending y = [] -> has_strategy y = true -> fid <> 0 -> dget (w_frames (y_w y)) fid = Some f ->
  parse_repl rest = Ok (RcSetHostvar n e) ->
  dget (w_vars (y_w y)) (f_taskvar f) = Some vt -> v_kind vt = VKDict ->
  dget (w_vars (y_w y)) (f_hostvars f) = Some vh -> v_kind vh = VKHost host ->
  step y (LReq seq (REvaluate (s "!" ++ rest) (Some fid) (Some (s "repl")))) = Some y' ->
  d_out (w_dbg (y_w y')) = d_out (w_dbg (y_w y)) ++ [Some (OEvaluate seq t ty)] ->
  exists objs x, tmpl e (f_tv f) (w_heap (y_w y)) = Ok (objs, x) /\
    (forall a, (a < length (w_heap (y_w y)))%nat -> a <> v_ds vt -> a <> v_ds vh -> nth_error (w_heap (y_w y')) a = nth_error (w_heap (y_w y)) a) /\
    (forall a, a = v_ds vt \/ a = v_ds vh -> exists o o', nth_error (w_heap (y_w y) ++ objs) a = Some o /\ nth_error (w_heap (y_w y')) a = Some o' /\ key_set n x o o') /\
    w_persist (y_w y') = w_persist (y_w y) ++ [(host, n, x)] /\ w_ss (y_w y') = w_ss (y_w y).
Proof.
  intros P HS NZ F PR V K V2 K2 E O. pose proof (@eval_step y seq (s "!" ++ rest) (Some fid) (Some (s "repl")) P HS) as G.
  unfold StratModel.evaluate in G. cbn [frame_truthy] in G. rewrite (proj2 (N.eqb_neq _ _) NZ) in G. assert (CM : ctx_in (Some (s "repl")) [s "repl"] && startswith (s "!" ++ rest) (s "!") = true) by reflexivity. rewrite CM, F in G.
  change (skipn 1 (s "!" ++ rest)) with rest in G. rewrite PR in G.
  destruct (tmpl e (f_tv f) (w_heap (y_w y))) as [(objs, x)|er].
  2: { destruct G as (y1 & E1 & _ & _ & _ & O1). rewrite E in E1. injection E1 as <-. rewrite O in O1. apply app_inv_head in O1. discriminate. }
  exists objs, x. cbn [set_vars] in G. change (w_vars (wh (w_heap (y_w y) ++ objs) (y_w y))) with (w_vars (y_w y)) in G. rewrite V in G.
  pose proof (@var_set_spec py_int vt n x (wh (w_heap (y_w y) ++ objs) (y_w y))) as VS. pose proof (@var_set_ss py_int vt n x (wh (w_heap (y_w y) ++ objs) (y_w y))) as SS1.
  destruct (var_set py_int vt n x (wh (w_heap (y_w y) ++ objs) (y_w y))) as (w2, [[]|er]).
  2: { destruct G as (y1 & E1 & _ & _ & _ & O1). rewrite E in E1. injection E1 as <-. rewrite O in O1. apply app_inv_head in O1. discriminate. }
  cbn [fst] in SS1. destruct SS1 as (SS1 & _). assert (VV : w_vars w2 = w_vars (y_w y)) by (unfold w_vars; now rewrite SS1). rewrite VV, V2 in G.
  pose proof (@var_set_spec py_int vh n x w2) as VS2. destruct (var_set py_int vh n x w2) as (w3, [[]|er]).
  2: { destruct G as (y1 & E1 & _ & _ & _ & O1). rewrite E in E1. injection E1 as <-. rewrite O in O1. apply app_inv_head in O1. discriminate. }
  destruct G as (y1 & E1 & SS & H & PP & _). rewrite E in E1. injection E1 as <-.
  destruct VS as (VP & VL & VO & (o & o' & N1 & N2 & AS) & _). rewrite K in *. cbn in VP, VO, VL, N1, AS. rewrite app_nil_r in VP.
  destruct VS2 as (WP & WL & WO & (p & p' & M1 & M2 & MS) & _). rewrite K2 in *. cbn in WP, WO, WL, MS.
  csplit; auto; [| |congruence].
  - intros a L A1 A2. rewrite H, WO, VO; auto; try (intros; discriminate). now apply nth_error_app1.
  - destruct (Nat.eq_dec (v_ds vt) (v_ds vh)) as [EQ|NE].
    + assert (KK : exists o o', nth_error (w_heap (y_w y) ++ objs) (v_ds vh) = Some o /\ nth_error (w_heap w3) (v_ds vh) = Some o' /\ key_set n x o o').
      { exists o, p'. rewrite <- EQ at 1. csplit; auto. rewrite EQ in N2. assert (o' = p) by congruence. subst p. eapply key_set_trans; eauto. }
      rewrite H. intros a [->| ->]; [rewrite EQ|]; auto.
    + rewrite H. intros a [->| ->].
      * exists o, o'. csplit; auto. rewrite WO; auto. intros; discriminate.
      * exists p, p'. csplit; auto. rewrite <- VO; auto. intros; discriminate.
Qed.

Theorem C54_repl_remove_option y seq rest fid f n v raw y' t ty :
  pending y = [] -> has_strategy y = true -> fid <> 0 -> dget (w_frames (y_w y)) fid = Some f ->
  parse_repl rest = Ok (RcRemove n) ->
  dget (w_vars (y_w y)) (f_options f) = Some v -> v_kind v = VKRaw raw -> raw <> v_ds v ->
  step y (LReq seq (REvaluate (s "!" ++ rest) (Some fid) (Some (s "repl")))) = Some y' ->
  d_out (w_dbg (y_w y')) = d_out (w_dbg (y_w y)) ++ [Some (OEvaluate seq t ty)] ->
  (forall a, a <> v_ds v -> a <> raw -> nth_error (w_heap (y_w y')) a = nth_error (w_heap (y_w y)) a) /\
  (forall a, a = v_ds v \/ a = raw -> exists o o', nth_error (w_heap (y_w y)) a = Some o /\ nth_error (w_heap (y_w y')) a = Some o' /\ key_removed n o o') /\
  w_persist (y_w y') = w_persist (y_w y) /\ w_ss (y_w y') = w_ss (y_w y).
Proof.
  intros P HS NZ F PR V K NE E O. pose proof (@eval_step y seq (s "!" ++ rest) (Some fid) (Some (s "repl")) P HS) as G.
  unfold StratModel.evaluate in G. cbn [frame_truthy] in G. rewrite (proj2 (N.eqb_neq _ _) NZ) in G. assert (CM : ctx_in (Some (s "repl")) [s "repl"] && startswith (s "!" ++ rest) (s "!") = true) by reflexivity. rewrite CM, F in G.
  change (skipn 1 (s "!" ++ rest)) with rest in G. rewrite PR, V in G.
  unfold var_remove in G. rewrite K in G.
  pose proof (obj_del_key_spec (w_heap (y_w y)) (v_ds v) n) as A. destruct (obj_del_key (w_heap (y_w y)) (v_ds v) (kstr n)) as [h1|er].
  2: { destruct G as (y1 & E1 & _ & _ & _ & O1). rewrite E in E1. injection E1 as <-. rewrite O in O1. apply app_inv_head in O1. discriminate. }
  pose proof (obj_del_key_spec h1 raw n) as B. destruct (obj_del_key h1 raw (kstr n)) as [h2|er].
  2: { destruct G as (y1 & E1 & _ & _ & _ & O1). rewrite E in E1. injection E1 as <-. rewrite O in O1. apply app_inv_head in O1. discriminate. }
  destruct G as (y1 & E1 & SS & H & PP & _). rewrite E in E1. injection E1 as <-. cbn in H, PP.
  destruct A as (A1 & A2 & o & o' & A3 & A4 & A5). destruct B as (B1 & B2 & p & p' & B3 & B4 & B5). rewrite H. csplit; auto.
  - intros a N1 N2. rewrite B2, A2; auto.
  - intros a [->| ->]; [exists o, o'|exists p, p']; csplit; auto; [rewrite B2; auto|rewrite <- A2; auto].
Qed.
End S.
Print Assumptions C54_evaluates_in_the_frame.
Print Assumptions C54_other_requests_not_implemented.
Print Assumptions C54_repl_set_option.
Print Assumptions C54_repl_set_hostvar.
Print Assumptions C54_repl_remove_option.

(** The names shown by a variables request. *)
Definition shown_names (o : option Out) : list pystr := match o with Some (OVars _ l) => map vi_name l | _ => [] end.

(** C34 is false for an entry whose key is not a string: the client sees the entry "7" in
    the global variables, assigns to it, and the dict then holds two entries shown as "7",
    the old one unchanged. *)
Theorem C34_non_string_key_refuted : exists ls y y1 y2 i m1 m3 y3,
  trace_wf ls /\ drun sys_init ls y /\
  dstep y (LReq 7 (RVariables 4)) = Some y1 /\ d_out (w_dbg (y_w y1)) = d_out (w_dbg (y_w y)) ++ [m1] /\
  dstep y1 (LReq 8 (RSetVariable 4 (s "7") (s "new"))) = Some y2 /\ d_out (w_dbg (y_w y2)) = d_out (w_dbg (y_w y1)) ++ [Some (OSetVar 8 i)] /\
  dstep y2 (LReq 9 (RVariables 4)) = Some y3 /\ d_out (w_dbg (y_w y3)) = d_out (w_dbg (y_w y2)) ++ [m3] /\
  shown_names m1 = [s "g"; s "7"] /\ shown_names m3 = [s "g"; s "7"; s "7"].
Proof.
  exists demo_vars, (after demo_vars), (after (demo_vars ++ [LReq 7 (RVariables 4)])), (after (demo_vars ++ [LReq 7 (RVariables 4); LReq 8 (RSetVariable 4 (s "7") (s "new"))])).
  do 3 eexists. exists (after (demo_vars ++ [LReq 7 (RVariables 4); LReq 8 (RSetVariable 4 (s "7") (s "new")); LReq 9 (RVariables 4)])).
  split; [exact demo_vars_wf|]. split; [apply after_run; vm_compute; discriminate|].
  repeat (split; [vm_compute; reflexivity|]). vm_compute; reflexivity.
Qed.

(** The hypotheses of C34 and C54 are met: assignment to a module option, a host variable
    and (after listing the variables) an item of a list; a failing assignment. *)
Definition demo_list : list label := demo_vars ++ [LReq 7 (RVariables 2)].
Example C34_met : trace_wf demo_list /\ drun sys_init demo_list (after demo_list) /\ pending (after demo_list) = [] /\ has_strategy (after demo_list) = true /\
  (forall p, In p [(1, s "a", s "new"); (3, s "x", s "new"); (2, s "l", s "[]"); (7, s "1", s "new")] ->
    let '(ref, name, value) := p in exists y' i, dstep (after demo_list) (LReq 8 (RSetVariable ref name value)) = Some y' /\
      d_out (w_dbg (y_w y')) = d_out (w_dbg (y_w (after demo_list))) ++ [Some (OSetVar 8 i)]) /\
  (exists y', dstep (after demo_list) (LReq 8 (RSetVariable 7 (s "x") (s "new"))) = Some y' /\
      d_out (w_dbg (y_w y')) = d_out (w_dbg (y_w (after demo_list))) ++ [Some (OError CSetVariable 8)]) /\
  (forall v raw, dget (w_vars (y_w (after demo_list))) 1 = Some v -> v_kind v = VKRaw raw -> is_mut_dict (w_heap (y_w (after demo_list))) raw).
Proof.
  split; [unfold demo_list, demo_vars, demo_stop, demo_setup; wf|]. split; [apply after_run; vm_compute; discriminate|]. split; [reflexivity|]. split; [reflexivity|].
  split; [|split].
  - intros p H. repeat destruct H as [<-|H]; try contradiction; do 2 eexists; (split; [vm_compute; reflexivity|vm_compute; reflexivity]).
  - eexists. split; vm_compute; reflexivity.
  - intros v raw A B. assert (E : dget (w_vars (y_w (after demo_list))) 1 = Some (mkVar 1 (VKRaw 1) 7)) by (vm_compute; reflexivity). rewrite E in A. injection A as <-.
    injection B as <-. eexists. vm_compute. reflexivity.
Qed.
Example C54_met : exists f, dget (w_frames (y_w (after demo_vars))) 1 = Some f /\ pending (after demo_vars) = [] /\ has_strategy (after demo_vars) = true /\
  option_map v_kind (dget (w_vars (y_w (after demo_vars))) (f_options f)) = Some (VKRaw 1) /\
  option_map v_kind (dget (w_vars (y_w (after demo_vars))) (f_taskvar f)) = Some VKDict /\
  option_map v_kind (dget (w_vars (y_w (after demo_vars))) (f_hostvars f)) = Some (VKHost (s "a")) /\
  demo_parse (s "so") = Ok (RcSetOption (s "a") (s "v")) /\ demo_parse (s "sh") = Ok (RcSetHostvar (s "x") (s "v")) /\ demo_parse (s "ro") = Ok (RcRemove (s "a")) /\
  forall e, In e [s "!so"; s "!sh"; s "!ro"] -> exists y' t ty, dstep (after demo_vars) (LReq 9 (REvaluate e (Some 1) (Some (s "repl")))) = Some y' /\
     d_out (w_dbg (y_w y')) = d_out (w_dbg (y_w (after demo_vars))) ++ [Some (OEvaluate 9 t ty)].
Proof.
  eexists. split; [vm_compute; reflexivity|]. repeat (split; [vm_compute; reflexivity|]).
  intros e H. repeat destruct H as [<-|H]; try contradiction; do 3 eexists; (split; [vm_compute; reflexivity|vm_compute; reflexivity]).
Qed.
Print Assumptions C34_setvariable_takes_effect.
Print Assumptions C34_failed_setvariable_changes_nothing.
Print Assumptions C34_setvariable_succeeds_or_fails.
Print Assumptions C34_non_string_key_refuted.
