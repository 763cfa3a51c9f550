(** Properties of the variable views: C33, C35. *)
From Verif Require Import PyBase PyDict DbgTypes BpModel BpSpec BpProofs2 BpProofs3 BpProps ThreadModel ThreadSpec StratModel SysModel SysSpec SysProofs SysProofs2 SysProofs3 SysProofs4 SysProofs5 SysProofs6 SysProofs7 SysProofs8 SysProofs9 SysProofs10 SysProofs11 SysProofs12 SysProofs13 SysDemo.
Set Implicit Arguments.
Local Open Scope N_scope.

Lemma refs_app a b : refs (a ++ b) = refs a ++ refs b.
Proof. unfold refs. apply flat_map_app. Qed.
Lemma refs_marks x ms : In x (refs ms) -> exists c seq, In (Some (c, seq)) (marks ms) /\ (c = CScopes \/ c = CVariables \/ c = CSetVariable).
Proof.
  intros H. apply in_flat_map in H. destruct H as (m & A & B). destruct m as [o|]; [|contradiction].
  destruct o; try contradiction; do 2 eexists; (split; [apply in_flat_map; eexists; (split; [exact A|]); cbn; left; reflexivity|auto]).
Qed.
Lemma length_var_get h v : N.of_nat (length (var_get h v)) = var_named h v + var_indexed h v.
Proof.
  assert (E : forall l i, length (enum_from i l) = length l) by (induction l; intros; cbn; auto).
  unfold var_get, var_named, var_indexed. destruct (v_kind v), (nth_error h (v_ds v)) as [[]|]; rewrite ?E, ?map_length; cbn [length]; lia.
Qed.
Lemma live_keys fid y : frame_lives fid y <-> live fid (y_w y).
Proof.
  split.
  - intros H. now apply dget_key_ex.
  - intros (f & H). eapply dget_Some_key; eauto.
Qed.

Section S.
Variable py_int : pystr -> option Z.
Variable py_repr : heap -> val -> pystr.
Variable type_name : heap -> val -> pystr.
Variable tmpl : pystr -> nat -> heap -> res (list obj * val).
Variable tmpl_args : nat -> nat -> heap -> res (list obj * val).
Variable err_text : exn -> pystr.
Variable parse_repl : pystr -> res ReplCmd.
Notation handle := (handle py_int py_repr type_name tmpl tmpl_args err_text parse_repl).
Notation step := (step py_int py_repr type_name tmpl tmpl_args err_text parse_repl).
Notation run := (run py_int py_repr type_name tmpl tmpl_args err_text parse_repl).

Definition told_ref (fid : option N) (w : World) (x : N * N * N) : Prop :=
  exists v, (fid = None \/ fid = Some (v_frame v)) /\ dget (w_vars w) (fst (fst x)) = Some v /\ snd (fst x) = var_named (w_heap w) v /\ snd x = var_indexed (w_heap w) v.

Lemma handle_refs seq r w ops ms x : WInv w -> binv (w_dbg w) ops -> req_wf r ->
  d_out (w_dbg (handle seq r w)) = d_out (w_dbg w) ++ ms -> In x (refs ms) -> fst (fst x) <> 0 -> told_ref (request_frame w r) (handle seq r w) x.
Proof.
  intros I B W E HI NZ. destruct (@handle_out py_int py_repr type_name tmpl tmpl_args err_text parse_repl seq r w ops I B W) as (ms' & E' & K & _ & _).
  rewrite E in E'. apply app_inv_head in E'. subst ms'.
  destruct (refs_marks _ _ HI) as (c & sq & HM & C). rewrite K in HM.
  assert (AD : forall fid w0 w1 i, advertised fid w0 w1 (w_heap w1) i -> vi_ref i <> 0 -> forall o, told_ref (Some fid) (emit o w1) (vi_ref i, vi_named i, vi_indexed i)).
  { intros fid w0 w1 i [(Z & _)|(v & o & (_ & V & F) & _ & N1 & N2 & _)] NZ1 o1; [contradiction|]. exists v. csplit; auto. right. now rewrite F. }
  unfold SysModel.handle in *. destruct r; cbn in HM; repeat (destruct HM as [HM|HM]; try contradiction; try discriminate HM);
    try (injection HM; intros; subst c; destruct C as [C|[C|C]]; discriminate); cbn [process] in *.
  - pose proof (@get_scopes_spec tmpl_args seq frame w I) as G. destruct (get_scopes tmpl_args seq frame w) as (w', [o|e]); cbn [reply] in *.
    + destruct G as (I' & Q & O & _ & _ & _ & f & o1 & o2 & o3 & o4 & v1 & v2 & v3 & v4 & pre & Hf & -> & _ & S1 & S2 & S3 & S4 & _ & _ & _ & _ & _ & P).
      cbn in E. rewrite O in E. apply app_inv_head in E. subst ms. cbn in HI. rewrite app_nil_r, map_app in HI. apply in_app_or in HI.
      assert (SO : forall sc v, scope_ok frame w w' sc v -> forall o, told_ref (Some frame) (emit o w') (si_ref sc, si_named sc, si_indexed sc)).
      { intros sc v ((_ & V & F) & N1 & N2) o. exists v. csplit; auto. right. now rewrite F. }
      destruct HI as [HI|HI].
      * destruct P as [(_ & ->)|(_ & p & pv & -> & _ & RF & V & F & N1 & N2)]; [contradiction|]. destruct HI as [<-|[]]. exists pv. cbn.
        rewrite RF. csplit; auto; [right; now rewrite F|]. apply (q_v Q). exact V.
      * repeat destruct HI as [<-|HI]; try contradiction; eapply SO; eauto.
    + destruct G as (_ & _ & O & _). cbn in E. rewrite O in E. apply app_inv_head in E. subst ms. cbn in HI. contradiction.
  - pose proof (@set_variable_spec py_int py_repr type_name tmpl seq ref name value w I) as G. destruct (set_variable _ _ _ _ seq ref name value w) as (w', [o|e]); cbn [reply] in *.
    + destruct G as (_ & _ & O & v & i & V & -> & A). cbn [request_frame]. rewrite V. cbn [option_map]. cbn in E. rewrite O in E. apply app_inv_head in E. subst ms. cbn in HI. destruct HI as [<-|[]]. eapply AD; eauto.
    + destruct G as (_ & _ & O & _). cbn in E. rewrite O in E. apply app_inv_head in E. subst ms. cbn in HI. contradiction.
  - pose proof (@get_variables_spec py_repr type_name seq ref w I) as G. destruct (get_variables _ _ seq ref w) as (w', [o|e]); cbn [reply] in *.
    + destruct G as (_ & _ & _ & _ & O & v & infos & V & -> & _ & A). cbn [request_frame]. rewrite V. cbn [option_map]. cbn in E. rewrite O in E. apply app_inv_head in E. subst ms. cbn in HI. rewrite app_nil_r in HI.
      apply in_map_iff in HI. destruct HI as (i & <- & HI). rewrite Forall_forall in A. eapply AD; eauto.
    + destruct G as (-> & _). cbn in E. apply app_inv_head in E. subst ms. cbn in HI. contradiction.
Qed.

Lemma step_refs y l y' ms x : SInv y -> label_wf l -> step y l = Some y' ->
  d_out (w_dbg (y_w y')) = d_out (w_dbg (y_w y)) ++ ms -> In x (refs ms) -> fst (fst x) <> 0 -> told_ref (match l with LReq _ r => request_frame (y_w y) r | _ => None end) (y_w y') x.
Proof.
  intros S W H E HI NZ. pose proof (y_inv S) as I. pose proof (y_dwf S) as D.
  destruct (@step_marks py_int py_repr type_name tmpl tmpl_args err_text parse_repl y l y' S W H) as (ms' & E' & K & _).
  rewrite E in E'. apply app_inv_head in E'. subst ms'.
  assert (NONE : pending y' = pending y -> requests [l] = [] -> told_ref (match l with LReq _ r => request_frame (y_w y) r | _ => None end) (y_w y') x).
  { intros P R. rewrite P, R in K. cbn in K. rewrite app_nil_r in K.
    assert (marks ms = []). { apply app_inv_tail with (l := flat_map expects_marks (pending y)). exact K. }
    destruct (refs_marks _ _ HI) as (c & sq & HM & _). rewrite H0 in HM. contradiction. }
  destruct (strategy_label l) eqn:SL.
  { destruct (@step_micro py_int py_repr type_name tmpl tmpl_args err_text parse_repl y l y' S W H SL) as (_ & R). apply NONE; [unfold pending; now rewrite R|destruct l; try discriminate; reflexivity]. }
  destruct l as [|a|h r addr| | |regs| |seq r| |maps| |hp|lregs]; try discriminate; cbn [SysModel.step] in H.
  - destruct (y_phase y); try discriminate. injection H as <-. apply NONE; reflexivity.
  - destruct (y_recv y) eqn:R; [discriminate|]. destruct (@before_good r (y_w y) I) as (I1 & Q1).
    set (w1 := wd (before_strategy r (w_dbg (y_w y))) (y_w y)) in *.
    assert (D1 : dwf (w_dbg w1)) by (eapply dwf_dext; [exact D|apply (q_d Q1)]).
    assert (O1 : d_out (w_dbg w1) = d_out (w_dbg (y_w y))) by (cbn; apply before_out).
    destruct (needs_strategy r && negb (has_strategy y)) eqn:NS; injection H as <-.
    + cbn [y_w] in E. rewrite O1 in E. rewrite <- (app_nil_r (d_out (w_dbg (y_w y)))) in E at 1. apply app_inv_head in E. subst ms. contradiction.
    + destruct (dwf_binv D1) as (ops & B). cbn [y_w] in *. rewrite <- O1 in E. exact (@handle_refs seq r w1 ops ms x I1 B W E HI NZ).
  - destruct (y_recv y) as [(seq, r)|] eqn:R; [|discriminate]. destruct (has_strategy y) eqn:HS; [|discriminate]. injection H as <-.
    pose proof (y_rq S) as RW. rewrite R in RW. destruct RW as (RW & _).
    destruct (dwf_binv D) as (ops & B). cbn [y_w] in *. destruct (@handle_refs seq r (y_w y) ops ms x I B RW E HI NZ) as (v & _ & X). exists v. auto.
  - destruct (y_recv y) eqn:R; [discriminate|]. injection H as <-. apply NONE; [unfold pending; now rewrite R|reflexivity].
  - destruct (y_recv y) eqn:R; [discriminate|]. injection H as <-. apply NONE; [unfold pending; now rewrite R|reflexivity].
  - injection H as <-. apply NONE; reflexivity.
Qed.

Lemma request_frame_some y sq r y' ms x : SInv y -> label_wf (LReq sq r) -> step y (LReq sq r) = Some y' ->
  d_out (w_dbg (y_w y')) = d_out (w_dbg (y_w y)) ++ ms -> In x (refs ms) -> request_frame (y_w y) r <> None.
Proof.
  intros S W H E HI N. pose proof (y_inv S) as I.
  destruct (@step_marks py_int py_repr type_name tmpl tmpl_args err_text parse_repl y _ y' S W H) as (ms' & E' & K & _).
  rewrite E in E'. apply app_inv_head in E'. subst ms'. cbn [SysModel.step] in H. destruct (y_recv y) eqn:RC; [discriminate|].
  destruct (needs_strategy r && negb (has_strategy y)) eqn:NS; injection H as <-.
  { cbn [y_w w_dbg wd] in E. rewrite before_out in E. rewrite <- (app_nil_r (d_out (w_dbg (y_w y)))) in E at 1. apply app_inv_head in E. subst ms. contradiction. }
  destruct (refs_marks _ _ HI) as (c & s0 & HM & C). unfold pending in K. rewrite RC in K. cbn [flat_map y_recv app requests] in K. rewrite !app_nil_r in K. rewrite K in HM.
  destruct r; cbn in HM; repeat (destruct HM as [HM|HM]; try contradiction; try discriminate HM);
    try (injection HM; intros; subst c; destruct C as [C|[C|C]]; discriminate); try discriminate N; cbn [request_frame] in N.
  all: destruct (dget (w_vars (y_w y)) ref) as [v|] eqn:V; [discriminate|].
  all: cbn [y_w before_strategy] in E; unfold SysModel.handle in E; cbn [process] in E.
  all: assert (WW : wd (w_dbg (y_w y)) (y_w y) = y_w y) by (destruct (y_w y); reflexivity); rewrite WW in E.
  - unfold set_variable in E. rewrite V in E. cbn in E. apply app_inv_head in E. subst ms. contradiction.
  - unfold get_variables in E. rewrite V in E. cbn in E. apply app_inv_head in E. subst ms. contradiction.
Qed.

(** What a variables request does. *)
Lemma variables_step y seq ref : SInv y -> pending y = [] -> has_strategy y = true ->
  exists y' o, step y (LReq seq (RVariables ref)) = Some y' /\ d_out (w_dbg (y_w y')) = d_out (w_dbg (y_w y)) ++ [Some o] /\
    match dget (w_vars (y_w y)) ref with
    | Some v => exists infos, o = OVars seq infos /\ map vi_name infos = map fst (var_get (w_heap (y_w y)) v)
    | None => o = OError CVariables seq
    end.
Proof.
  intros S P HS. pose proof (y_inv S) as I.
  assert (RC : y_recv y = None) by (unfold pending in P; destruct (y_recv y); [discriminate|auto]).
  cbn [SysModel.step]. rewrite RC, HS. cbn [needs_strategy andb negb before_strategy].
  assert (WW : wd (w_dbg (y_w y)) (y_w y) = y_w y) by (destruct (y_w y); reflexivity). rewrite WW. unfold SysModel.handle. cbn [process].
  pose proof (@get_variables_spec py_repr type_name seq ref (y_w y) I) as G. destruct (get_variables _ _ seq ref (y_w y)) as (w', [o|e]); cbn [reply].
  - destruct G as (_ & _ & _ & _ & O & v & infos & V & -> & N & _). do 2 eexists. split; [reflexivity|]. split; [cbn; rewrite O; reflexivity|]. rewrite V. eauto.
  - destruct G as (-> & _ & V). do 2 eexists. split; [reflexivity|]. split; [reflexivity|]. rewrite V. auto.
Qed.

(* ------------------------------------------------------------------ C33 *)
(** Let a step of the system send a reference with its advertised numbers of children.
    It belongs to a stack frame and stands for one Python object.  In every later
    state: while the frame lives, a variables request for it is answered with the
    children, exactly as many as advertised if the object is unchanged; once the frame
    is gone the request is answered with an error. *)
Theorem C33_references_resolve_while_frame_lives : forall ls y l y' ms ref named indexed,
  trace_wf (ls ++ [l]) -> run sys_init ls y -> step y l = Some y' ->
  d_out (w_dbg (y_w y')) = d_out (w_dbg (y_w y)) ++ ms -> In (ref, named, indexed) (refs ms) -> ref <> 0 ->
  exists fid addr, frame_lives fid y' /\ (forall sq r, l = LReq sq r -> request_frame (y_w y) r = Some fid) /\
    forall ls2 y2 seq, trace_wf ls2 -> run y' ls2 y2 -> pending y2 = [] -> has_strategy y2 = true ->
    exists y3 o, step y2 (LReq seq (RVariables ref)) = Some y3 /\ d_out (w_dbg (y_w y3)) = d_out (w_dbg (y_w y2)) ++ [Some o] /\
      (frame_lives fid y2 -> exists infos, o = OVars seq infos /\
         (nth_error (w_heap (y_w y2)) addr = nth_error (w_heap (y_w y')) addr -> N.of_nat (length infos) = named + indexed)) /\
      (~ frame_lives fid y2 -> o = OError CVariables seq).
Proof.
  intros ls y l y' ms ref named indexed W R H E HI NZ. apply Forall_app in W. destruct W as (W1 & W2). inversion W2 as [|? ? W3 _]; subst.
  pose proof (run_sinv W1 R) as S. destruct (@step_inv py_int py_repr type_name tmpl tmpl_args err_text parse_repl y l y' S W3 H) as (S' & _ & _).
  destruct (@step_refs y l y' ms (ref, named, indexed) S W3 H E HI NZ) as (v & FR & V & N1 & N2). cbn [fst snd] in *. pose proof (y_inv S') as I'.
  exists (v_frame v), (v_ds v). split. { apply live_keys. destruct (i_v I' _ V) as (_ & f & F & _). now exists f. }
  split. { intros sq r ->. destruct FR as [FR|FR]; auto. exfalso. exact (@request_frame_some y sq r y' ms (ref, named, indexed) S W3 H E HI FR). }
  intros ls2 y2 seq T2 R2 P2 HS2. destruct (@run_inv py_int py_repr type_name tmpl tmpl_args err_text parse_repl ls2 y' y2 S' T2 R2) as (S2 & _).
  pose proof (@run_vrel py_int py_repr type_name tmpl tmpl_args err_text parse_repl ls2 y' y2 S' T2 R2) as VR.
  destruct (@variables_step y2 seq ref S2 P2 HS2) as (y3 & o & A & B & C). exists y3, o. split; auto. split; auto. split.
  - intros L. apply live_keys in L. rewrite (vr_keep VR _ V L) in C. destruct C as (infos & -> & N). exists infos. split; auto.
    intros HE. apply (f_equal (@length _)) in N. rewrite !map_length in N. rewrite N, length_var_get.
    unfold var_named, var_indexed in *. rewrite HE. congruence.
  - intros L. destruct (dget (w_vars (y_w y2)) ref) as [v2|] eqn:V2; auto. exfalso. apply L. apply live_keys.
    destruct (i_v (y_inv S2) _ V2) as (_ & f & F & _). destruct (vr_new VR _ V2) as [X|X].
    + replace v with v2 by congruence. now exists f.
    + destruct (i_v I' _ V) as (X2 & _). lia.
Qed.

(* ------------------------------------------------------------------ C35 *)
Lemma run_refs_bound ls : forall y, trace_wf ls -> run sys_init ls y -> forall r n i, In (r, n, i) (refs (d_out (w_dbg (y_w y)))) -> r < d_var (w_dbg (y_w y)).
Proof.
  induction ls as [|l ls IH] using rev_ind; intros y W R r n i HI.
  - inversion R; subst. contradiction.
  - apply Forall_app in W. destruct W as (W1 & W2). inversion W2 as [|? ? W3 _]; subst.
    apply run_app in R. destruct R as (y1 & R1 & R2). inversion R2 as [|? ? y2 ? ? A B]; subst. inversion B; subst.
    pose proof (run_sinv W1 R1) as S. destruct (@step_inv py_int py_repr type_name tmpl tmpl_args err_text parse_repl y1 l y S W3 A) as (S' & DX & _).
    destruct (@step_marks py_int py_repr type_name tmpl tmpl_args err_text parse_repl y1 l y S W3 A) as (ms & E & _).
    pose proof (dext_ctr DX) as (_ & _ & DV).
    rewrite E, refs_app in HI. apply in_app_or in HI. destruct HI as [HI|HI].
    + specialize (IH y1 W1 R1 r n i HI). lia.
    + destruct (N.eq_dec r 0) as [->|NZ]; [pose proof (i_ctr (y_inv S')); lia|].
      destruct (@step_refs y1 l y ms (r, n, i) S W3 A E HI NZ) as (v & _ & V & _). apply (i_v (y_inv S')) in V. cbn in V. tauto.
Qed.

(** A scopes request for a live frame, whose task variables have the members Ansible
    always gives them, is answered with the four scopes in order, after Module Result
    if the frame has one; all references are distinct and belong to the frame, the four
    are new.  Module Options is the templated arguments backed by the task's own,
    Task Variables the task's variables, Global Variables their "vars"; Host Variables
    is a new dict with the host's variables, completed from the task variables. *)
Theorem C35_scopes : forall ls y seq fid f ta tv name mine ga, trace_wf ls -> run sys_init ls y ->
  pending y = [] -> has_strategy y = true ->
  dget (w_frames (y_w y)) fid = Some f -> task_env tmpl_args (w_heap (y_w y)) f ta tv name mine ga ->
  exists y' pre so st sh sg ha am gk, step y (LReq seq (RScopes fid)) = Some y' /\
    d_out (w_dbg (y_w y')) = d_out (w_dbg (y_w y)) ++ [Some (OScopes seq (pre ++ [so; st; sh; sg]))] /\
    map si_name (pre ++ [so; st; sh; sg]) =
      (if f_result f =? 0 then [] else [s "Module Result"]) ++ [s "Module Options"; s "Task Variables"; s "Host Variables"; s "Global Variables"] /\
    NoDup (map si_ref (pre ++ [so; st; sh; sg])) /\
    (forall sc, In sc (pre ++ [so; st; sh; sg]) -> si_ref sc <> 0 /\ request_frame (y_w y') (RVariables (si_ref sc)) = Some fid) /\
    (forall sc r n i, In sc [so; st; sh; sg] -> In (r, n, i) (refs (d_out (w_dbg (y_w y)))) -> si_ref sc <> r) /\
    dget (w_vars (y_w y')) (si_ref so) = Some (mkVar fid (VKRaw (f_args f)) ta) /\
    dget (w_vars (y_w y')) (si_ref st) = Some (mkVar fid VKDict (f_tv f)) /\
    dget (w_vars (y_w y')) (si_ref sh) = Some (mkVar fid (VKHost name) ha) /\
    dget (w_vars (y_w y')) (si_ref sg) = Some (mkVar fid gk ga) /\
    nth_error (w_heap (y_w y')) ha = Some (ODict am true) /\ nth_error (w_heap (y_w y)) ha = None /\
    (forall n, dget am (kstr n) = match dget mine (kstr n) with Some x => Some x | None => first_named n tv end) /\
    (forall sc, pre = [sc] -> si_ref sc = f_result f) /\
    (gk = VKDict \/ gk = VKList) /\
    (forall l m, nth_error (w_heap (y_w y)) ga = Some (ODict l m) -> gk = VKDict).
Proof.
  intros ls y seq fid f ta tv name mine ga W R P HS Hf ENV. pose proof (run_sinv W R) as S. pose proof (y_inv S) as I.
  assert (RC : y_recv y = None) by (unfold pending in P; destruct (y_recv y); [discriminate|auto]).
  destruct (@get_scopes_ok tmpl_args seq fid (y_w y) f ta tv name mine ga I Hf ENV) as
    (w' & pre & o1 & o2 & o3 & o4 & ha & am & E & I' & Q & O & _ & _ & _ & NM & N1 & N2 & N3 & H1 & H2 & H3 & _ & (gk & N4 & GD) & L1 & L2 & _ & PR).
  assert (FR : forall id v, new_ref fid (y_w y) w' id v -> id <> 0 /\ request_frame w' (RVariables id) = Some fid /\ d_var (w_dbg (y_w y)) <= id).
  { intros id v (A & B & C). pose proof (i_ctr I). csplit; [lia| |lia]. cbn. rewrite B. cbn. now rewrite C. }
  exists (mkSys (emit (OScopes seq (pre ++ [o1; o2; o3; o4])) w') (y_phase y) (y_open y) None), pre, o1, o2, o3, o4, ha, am, gk.
  split. { cbn [SysModel.step]. rewrite RC, HS. cbn [needs_strategy andb negb before_strategy].
    assert (WW : wd (w_dbg (y_w y)) (y_w y) = y_w y) by (destruct (y_w y); reflexivity). rewrite WW. unfold SysModel.handle. cbn [process]. rewrite E. reflexivity. }
  cbn [y_w]. split. { cbn. now rewrite O. }
  assert (PRE : (f_result f = 0 /\ pre = []) \/ (f_result f <> 0 /\ exists p, pre = [p] /\ si_name p = s "Module Result" /\ si_ref p = f_result f /\ request_frame w' (RVariables (si_ref p)) = Some fid /\ si_ref p < d_var (w_dbg (y_w y)))).
  { destruct PR as [X|(NZ & p & pv & -> & PN & PF & PV & PVF)]; [left; exact X|right]. split; auto. exists p. csplit; auto.
    - cbn. rewrite PF, (q_v Q _ PV). cbn. now rewrite PVF.
    - rewrite PF. apply (i_v I _ PV). }
  assert (B1 := proj2 (proj2 (FR _ _ N1))).
  split. { rewrite map_app, NM. destruct PRE as [(-> & ->)|(NZ & p & -> & PN & _)]; [reflexivity|]. cbn [map]. rewrite PN. apply N.eqb_neq in NZ. now rewrite NZ. }
  split. { rewrite map_app. cbn [map]. destruct PRE as [(_ & ->)|(NZ & p & -> & _ & _ & _ & B)]; cbn [map app];
    repeat constructor; cbn; intuition lia. }
  split. { intros sc HI. apply in_app_or in HI. destruct HI as [HI|HI].
    - destruct PRE as [(_ & ->)|(NZ & p & -> & _ & PF & PQ & _)]; [contradiction|]. destruct HI as [<-|[]]. split; [congruence|exact PQ].
    - destruct HI as [<-|[<-|[<-|[<-|[]]]]]; split; eapply FR; eauto. }
  split. { intros sc r n i HI HR X. pose proof (run_refs_bound W R _ _ _ HR) as B. subst r.
    destruct HI as [<-|[<-|[<-|[<-|[]]]]]; lia. }
  split; [apply N1|]. split; [apply N2|]. split; [apply N3|]. split; [apply N4|]. split; [exact H1|]. split; [now apply nth_error_None|]. split; auto. split; [|exact GD].
  intros sc ->. destruct PRE as [(_ & X)|(_ & p & X & _ & PF & _)]; [discriminate|]. injection X as ->. exact PF.
Qed.

(** A frame has a result exactly if its task stopped at its end: the stop gives the
    frame of the stopped task the result dict, and no other step gives a frame one. *)
Theorem C35_exception_stop_gives_result : forall ls y h r addr y' tid task, trace_wf ls -> run sys_init ls y ->
  step y (LEnd h r addr) = Some y' -> y_phase y' = PWaitEnd tid task ->
  exists t fid rest f, dget (w_threads (y_w y')) tid = Some t /\ t_stack t = fid :: rest /\ dget (w_frames (y_w y')) fid = Some f /\
    f_task f = task /\ f_result f <> 0 /\ dget (w_vars (y_w y')) (f_result f) = Some (mkVar fid VKDict addr).
Proof.
  intros ls y h r addr y' tid task W R H PH. pose proof (run_sinv W R) as S. pose proof (y_inv S) as I. cbn [SysModel.step] in H.
  destruct (y_phase y) eqn:P; try discriminate. destruct (find _ (y_open y)) as [(h0, task0)|] eqn:F; [|discriminate].
  apply find_open in F. destruct F as (F1 & F2). cbn in F2.
  assert (OKh : open_ok h task0 (y_w y)).
  { destruct (y_ok S _ _ F1) as (t0 & t & A & B). exists t0, t. split; auto. unfold host_is in *. destruct (t_host t); [|discriminate]. now rewrite <- F2. }
  destruct (@end_task_spec h task0 r addr (y_w y) I OKh) as (tid0 & t & (T1 & T2) & OT & _).
  destruct (@thread_for_find h (y_w y) tid0 t I (conj T1 T2)) as (FT & TID). unfold end_task in H. rewrite FT in H.
  destruct (should_stop_on_exception task0 r _ _ _ t) as (t', [ev|]) eqn:SE.
  2:{ destruct (end_finish (t_id t) task0 (y_w y)) as (w2, [| |e]); try discriminate; injection H as <-; discriminate. }
  destruct OT as (OT1 & fid & rest & f & ST & HF & FTK). rewrite ST in H. change (w_frames (set_thread t' (y_w y))) with (w_frames (y_w y)) in *. rewrite HF in H.
  assert (T' : t' = t_with_state TWait t).
  { revert SE. unfold should_stop_on_exception. match goal with |- context [match ?c with Some _ => _ | None => _ end = (t', Some ev)] => destruct c as [(m0, x0)|] end; [|discriminate]. intros SE. now injection SE. }
  assert (GD : good (y_w y) (set_thread t' (y_w y))).
  { subst t'. assert (X : t_with_state TWait t = set_state TWait t) by reflexivity. rewrite X.
    pose proof (@resume_good TWait [tid0] (y_w y)) as G. cbn [resume] in G. rewrite T1 in G. cbn [fst] in G. unfold set_thread. destruct (set_state_same TWait t) as (Y & _). rewrite Y, TID. exact G. }
  destruct (GD I) as (I1 & Q1).
  pose proof (@add_var_new fid VKDict addr (set_thread t' (y_w y)) I1 (ex_intro _ f HF)) as A.
  destruct (add_var fid VKDict addr (set_thread t' (y_w y))) as (vid, w2). destruct A as (I2 & Q2 & NR & _ & _ & TH & _ & FF & _).
  specialize (FF _ HF). rewrite FF in H. injection H as <-. cbn [y_phase y_w emit wd] in *. injection PH as <- <-.
  exists t', fid, rest, (f_with_result vid (f_with_vars (f_vars f ++ [vid]) f)). csplit; auto.
  - change (dget (w_threads w2) (t_id t) = Some t'). rewrite TH. subst t'. cbn -[dget dset]. apply dget_dset_same.
  - subst t'. exact ST.
  - cbn -[dget dset]. apply dget_dset_same.
  - cbn. destruct NR as (B & _). pose proof (i_ctr I1). lia.
  - cbn -[dget]. apply NR.
Qed.
Theorem C35_result_only_from_exception_stop : forall ls y k f, trace_wf ls -> run sys_init ls y ->
  dget (w_frames (y_w y)) k = Some f -> f_result f <> 0 ->
  exists ls1 h r a ls2 y1 tid task t rest, ls = ls1 ++ LEnd h r a :: ls2 /\ run sys_init (ls1 ++ [LEnd h r a]) y1 /\
    y_phase y1 = PWaitEnd tid task /\ dget (w_threads (y_w y1)) tid = Some t /\ t_stack t = k :: rest.
Proof.
  induction ls as [|l ls IH] using rev_ind; intros y k f W R HF NZ.
  - inversion R; subst. discriminate.
  - pose proof R as R0. apply Forall_app in W. destruct W as (W1 & W2). inversion W2 as [|? ? W3 _]; subst.
    apply run_app in R. destruct R as (y1 & R1 & R2). inversion R2 as [|? ? y2 ? ? A B]; subst. inversion B; subst.
    pose proof (run_sinv W1 R1) as S.
    destruct (@step_result py_int py_repr type_name tmpl tmpl_args err_text parse_repl y1 l y k f S W3 A HF NZ) as [(f0 & F0 & E0)|(h & r & a & tid & task & t & rest & -> & PH & T & ST)].
    + destruct (IH y1 k f0 W1 R1 F0) as (ls1 & h & r & a & ls2 & y3 & tid & task & t & rest & -> & X); [congruence|].
      exists ls1, h, r, a, (ls2 ++ [l]), y3, tid, task, t, rest. split; [now rewrite <- app_assoc|exact X].
    + exists ls, h, r, a, [], y, tid, task, t, rest. csplit; auto.
Qed.
End S.
Print Assumptions C33_references_resolve_while_frame_lives.
Print Assumptions C35_scopes.
Print Assumptions C35_exception_stop_gives_result.
Print Assumptions C35_result_only_from_exception_stop.

(* ------------------------------------------------------------------ the hypotheses are met *)
(** The client lists the scopes of the stopped frame and then the task variables. *)
Definition demo_vars : list label := demo_stop ++ [LReq 6 (RScopes 1)].
Example demo_vars_wf : trace_wf demo_vars.
Proof. unfold demo_vars, demo_stop, demo_setup. wf. Qed.
Example C33_met : exists ms, drun sys_init demo_stop (after demo_stop) /\ dstep (after demo_stop) (LReq 6 (RScopes 1)) = Some (after demo_vars) /\
  d_out (w_dbg (y_w (after demo_vars))) = d_out (w_dbg (y_w (after demo_stop))) ++ ms /\ refs ms = [(1, 1, 0); (2, 4, 0); (3, 5, 0); (4, 2, 0)].
Proof.
  eexists. split; [apply after_run; vm_compute; discriminate|]. split; [vm_compute; reflexivity|]. split; [|shelve]. vm_compute. reflexivity.
  Unshelve. vm_compute. reflexivity.
Qed.
Example C35_met : exists f ta tv name mine ga, dget (w_frames (y_w (after demo_stop))) 1 = Some f /\
  task_env demo_args (w_heap (y_w (after demo_stop))) f ta tv name mine ga /\ pending (after demo_stop) = [] /\ has_strategy (after demo_stop) = true.
Proof.
  do 6 eexists. split; [vm_compute; reflexivity|]. split; [|vm_compute; auto]. unfold task_env. split; [eexists; vm_compute; reflexivity|].
  split; [eexists; vm_compute; reflexivity|]. split.
  - do 3 eexists. split; [vm_compute; reflexivity|]. split; [vm_compute; reflexivity|]. split; [eexists; vm_compute; reflexivity|]. do 2 eexists. split; vm_compute; reflexivity.
  - vm_compute. reflexivity.
Qed.
Definition demo_fail : list label := demo_stop ++ [LReq 5 (RContinue 2 false); LWake].
Example C35_exception_met : exists y', drun sys_init demo_fail (after demo_fail) /\ dstep (after demo_fail) (LEnd hostA failr 6) = Some y' /\ y_phase y' = PWaitEnd 2 t1.
Proof. eexists. split; [apply after_run; vm_compute; discriminate|]. split; vm_compute; reflexivity. Qed.
