(** The request handlers of the strategy. *)
From Verif Require Import PyBase PyDict DbgTypes BpModel BpSpec BpProofs2 BpProofs3 BpProps ThreadModel StratModel SysModel SysProofs SysProofs2.
Set Implicit Arguments.
Local Open Scope N_scope.

Definition live (fid : N) (w : World) : Prop := exists f, dget (w_frames w) fid = Some f.
Lemma live_qext fid w w' : qext w w' -> live fid w -> live fid w'.
Proof. intros Q (f & H). destruct (q_f Q _ H) as (f' & A & _). now exists f'. Qed.

(** An id handed out between [w] and [w'] for an entry of frame [fid]. *)
Definition new_ref (fid : N) (w w' : World) (id : N) (v : Var) : Prop :=
  d_var (w_dbg w) <= id < d_var (w_dbg w') /\ dget (w_vars w') id = Some v /\ v_frame v = fid.

Definition hext (h h' : heap) : Prop := exists l, h' = h ++ l.
Lemma hext_refl h : hext h h. Proof. exists []. now rewrite app_nil_r. Qed.
Lemma hext_trans a b c : hext a b -> hext b c -> hext a c.
Proof. intros (l1 & ->) (l2 & ->). exists (l1 ++ l2). now rewrite app_assoc. Qed.
Lemma hext_app h l : hext h (h ++ l). Proof. now exists l. Qed.
Lemma hext_nth h h' a o : hext h h' -> nth_error h a = Some o -> nth_error h' a = Some o.
Proof. intros (l & ->) H. rewrite nth_error_app1; auto. apply nth_error_Some. congruence. Qed.
#[export] Hint Resolve hext_refl hext_app : core.

Lemma qext_dvar w w' : qext w w' -> d_var (w_dbg w) <= d_var (w_dbg w').
Proof. intros Q. apply (dext_ctr (q_d Q)). Qed.

(** [add_var], seen from outside. *)
Lemma add_var_new fid k ds w : WInv w -> live fid w ->
  let '(id, w') := add_var fid k ds w in
  WInv w' /\ qext w w' /\ new_ref fid w w' id (mkVar fid k ds) /\
  w_heap w' = w_heap w /\ w_persist w' = w_persist w /\ w_threads w' = w_threads w /\
  d_out (w_dbg w') = d_out (w_dbg w) /\
  (forall f, dget (w_frames w) fid = Some f -> dget (w_frames w') fid = Some (f_with_vars (f_vars f ++ [id]) f)) /\
  (forall x, x <> fid -> dget (w_frames w') x = dget (w_frames w) x).
Proof.
  intros I (f & Hf). pose proof (@inv_add_var w fid k ds f I Hf) as H. pose proof (@good_add_var w fid k ds (ex_intro _ f Hf) I) as G.
  destruct (add_var fid k ds w) as (id, w') eqn:E. destruct H as (I' & V & A1 & A2 & A3 & A4 & A5 & A6 & A7 & A8 & A9 & A10 & A11).
  split; auto. split; [apply G|]. split; [split; [lia|auto]|]. repeat split; auto.
  intros f0 H. congruence.
Qed.

Lemma new_ref_ext fid w1 w2 w3 id v : qext w2 w3 -> new_ref fid w1 w2 id v -> new_ref fid w1 w3 id v.
Proof. intros Q (A & B & C). pose proof (qext_dvar Q). repeat split; try lia; auto. now apply (q_v Q). Qed.
Lemma new_ref_later fid w1 w2 w3 id v : qext w1 w2 -> new_ref fid w2 w3 id v -> new_ref fid w1 w3 id v.
Proof. intros Q (A & B & C). pose proof (qext_dvar Q). repeat split; try lia; auto. Qed.

(** What the client is told about a value that has children. *)
Definition advertised (fid : N) (w w' : World) (h : heap) (i : VarInfo) : Prop :=
  (vi_ref i = 0 /\ vi_named i = 0 /\ vi_indexed i = 0) \/
  exists v o, new_ref fid w w' (vi_ref i) v /\ nth_error h (v_ds v) = Some o /\
    vi_named i = var_named h v /\ vi_indexed i = var_indexed h v /\
    ((v_kind v = VKDict /\ exists l m, o = ODict l m) \/ (v_kind v = VKList /\ exists l m, o = OList l m)).

Lemma var_named_ext h h' v o : hext h h' -> nth_error h (v_ds v) = Some o -> var_named h' v = var_named h v /\ var_indexed h' v = var_indexed h v.
Proof. intros X H. unfold var_named, var_indexed. now rewrite (hext_nth _ X H), H. Qed.

Lemma advertised_ext fid w w1 w2 w3 h h' i : qext w w1 -> qext w2 w3 -> hext h h' -> advertised fid w1 w2 h i -> advertised fid w w3 h' i.
Proof.
  intros Q1 Q2 X [H|(v & o & A & B & C & D & E)]; [now left|right].
  exists v, o. destruct (var_named_ext v X B) as (N1 & N2). split; [exact (new_ref_later Q1 (new_ref_ext Q2 A))|].
  split; [eapply hext_nth; eauto|]. split; [congruence|]. split; [congruence|exact E].
Qed.

Ltac csplit := repeat match goal with |- _ /\ _ => split end.
Set Default Proof Using "Type".
Section H.
Variable py_int : pystr -> option Z.
Variable py_repr : heap -> val -> pystr.
Variable type_name : heap -> val -> pystr.
Variable tmpl : pystr -> nat -> heap -> res (list obj * val).
Variable tmpl_args : nat -> nat -> heap -> res (list obj * val).
Variable err_text : exn -> pystr.
Variable parse_repl : pystr -> res ReplCmd.

Lemma container_spec fid v w : WInv w -> live fid w ->
  let '(id, w') := container fid v w in
  WInv w' /\ qext w w' /\ w_heap w' = w_heap w /\ w_persist w' = w_persist w /\ d_out (w_dbg w') = d_out (w_dbg w) /\
  (forall name v0, advertised fid w w' (w_heap w') (child_info py_repr type_name name v0 w' id)).
Proof.
  clear py_int tmpl tmpl_args err_text parse_repl.
  intros I L. unfold container. destruct (container_kind (w_heap w) v) as [k|] eqn:K; destruct v as [tx ty|a]; try discriminate.
  - pose proof (@add_var_new fid k a w I L) as H. destruct (add_var fid k a w) as (id, w').
    destruct H as (I' & Q & R & E1 & E2 & E3 & E4 & E5 & E6). do 5 (split; [assumption|]).
    intros name v0. right. exists (mkVar fid k a). cbn in K. destruct (nth_error (w_heap w) a) as [o|] eqn:N; [|discriminate].
    exists o. unfold child_info. cbn [vi_ref vi_named vi_indexed]. destruct R as (R1 & R2 & R3). unfold new_ref. rewrite R2, E1. cbn [v_ds v_kind].
    repeat split; try lia; auto. destruct o as [l m|l m|l]; try discriminate; injection K as <-; eauto 6.
  - do 5 (split; [auto using qext_refl; fail|]). intros. now left.
  - do 5 (split; [auto using qext_refl; fail|]). intros. now left.
Qed.

Lemma list_children_spec fid l : forall w, WInv w -> live fid w ->
  let '(w', infos) := list_children py_repr type_name fid l w in
  WInv w' /\ qext w w' /\ hext (w_heap w) (w_heap w') /\ w_persist w' = w_persist w /\ d_out (w_dbg w') = d_out (w_dbg w) /\
  map vi_name infos = map fst l /\ Forall (advertised fid w w' (w_heap w')) infos.
Proof.
  induction l as [|(name, v) l IH]; intros w I L; cbn [list_children].
  - csplit; auto using qext_refl, Forall_nil.
  - set (w0 := match asdict v (w_heap w) with Some (h', v') => wh h' w | None => w end).
    set (v1 := match asdict v (w_heap w) with Some (h', v') => v' | None => v end).
    assert (E : (match asdict v (w_heap w) with Some (h', v') => container fid v' (wh h' w) | None => container fid v w end) = container fid v1 w0).
    { subst w0 v1. destruct (asdict v (w_heap w)) as [(h', v')|]; reflexivity. }
    rewrite E. clear E.
    assert (I0 : WInv w0) by (subst w0; destruct (asdict v (w_heap w)) as [(h', v')|]; auto; now apply inv_heap).
    assert (Q0 : qext w w0) by (subst w0; destruct (asdict v (w_heap w)) as [(h', v')|]; [apply (good_heap _ I)|apply qext_refl]).
    assert (X0 : hext (w_heap w) (w_heap w0)).
    { subst w0. unfold asdict. destruct v as [|a]; auto. destruct (nth_error (w_heap w) a) as [[]|]; auto. cbn. auto. }
    assert (P0 : w_persist w0 = w_persist w /\ d_out (w_dbg w0) = d_out (w_dbg w)).
    { subst w0. destruct (asdict v (w_heap w)) as [(h', v')|]; split; reflexivity. }
    clearbody w0 v1. destruct P0 as (P0 & O0).
    pose proof (@container_spec fid v1 w0 I0 (live_qext Q0 L)) as C. destruct (container fid v1 w0) as (id, w1).
    destruct C as (I1 & Q1 & E1 & E2 & E3 & A).
    specialize (IH w1 I1 (live_qext Q1 (live_qext Q0 L))). destruct (list_children py_repr type_name fid l w1) as (w2, infos).
    destruct IH as (I2 & Q2 & X2 & P2 & O2 & N2 & F2). split; auto.
    assert (Q01 : qext w w1) by (eapply qext_trans; eauto).
    split; [eapply qext_trans; eauto|]. split; [rewrite <- E1 in X0; eapply hext_trans; eauto|].
    split; [congruence|]. split; [congruence|]. split; [cbn; now rewrite N2|]. constructor.
    + apply (@advertised_ext fid w w0 w1 w2 (w_heap w1)); auto.
    + eapply Forall_impl; [|exact F2]. intros i H. apply (@advertised_ext fid w w1 w2 w2 (w_heap w2)); auto using qext_refl.
Qed.

Lemma get_variables_spec seq ref w : WInv w ->
  match get_variables py_repr type_name seq ref w with
  | (w', Ok o) => WInv w' /\ qext w w' /\ hext (w_heap w) (w_heap w') /\ w_persist w' = w_persist w /\ d_out (w_dbg w') = d_out (w_dbg w) /\
      exists v infos, dget (w_vars w) ref = Some v /\ o = OVars seq infos /\
         map vi_name infos = map fst (var_get (w_heap w) v) /\ Forall (advertised (v_frame v) w w' (w_heap w')) infos
  | (w', Err e) => w' = w /\ e = KeyError /\ dget (w_vars w) ref = None
  end.
Proof.
  intros I. unfold get_variables. destruct (dget (w_vars w) ref) as [v|] eqn:E; [|csplit; auto].
  destruct (i_v I _ E) as (_ & f & Hf & _).
  pose proof (@list_children_spec (v_frame v) (var_get (w_heap w) v) w I (ex_intro _ f Hf)) as L.
  destruct (list_children py_repr type_name (v_frame v) (var_get (w_heap w) v) w) as (w', infos).
  destruct L as (I' & Q & X & P & O & N & F). csplit; auto. exists v, infos. auto.
Qed.

(** Assigning through a variable changes objects and persisted variables only. *)
Lemma var_set_ss v name x w : w_ss (fst (var_set py_int v name x w)) = w_ss w /\ w_dbg (fst (var_set py_int v name x w)) = w_dbg w.
Proof.
  unfold var_set. destruct (v_kind v).
  - destruct (py_int name); [|auto]. destruct (obj_set_index _ _ _ _); auto.
  - destruct (obj_set_key _ _ _ _); auto.
  - destruct (obj_set_key (w_heap w) _ _ _); auto. destruct (obj_set_key a raw _ _); auto.
  - destruct (obj_set_key _ _ _ _); auto.
Qed.
Lemma var_remove_ss v name w : w_ss (fst (var_remove v name w)) = w_ss w /\ w_dbg (fst (var_remove v name w)) = w_dbg w.
Proof.
  unfold var_remove. destruct (v_kind v); auto.
  - destruct (obj_del_key _ _ _); auto.
  - destruct (obj_del_key (w_heap w) _ _); auto. destruct (obj_del_key a raw _); auto.
  - destruct (obj_del_key _ _ _); auto.
Qed.
Lemma set_vars_ss ids name x : forall w, w_ss (fst (set_vars py_int ids name x w)) = w_ss w /\ w_dbg (fst (set_vars py_int ids name x w)) = w_dbg w.
Proof.
  induction ids as [|i ids IH]; intros w; cbn [set_vars]; auto. destruct (dget (w_vars w) i) as [v|]; auto.
  pose proof (var_set_ss v name x w) as (A & B). destruct (var_set py_int v name x w) as (w', [u|e]); cbn [fst] in *; auto.
  destruct (IH w') as (C & D). split; congruence.
Qed.
Lemma good_ss w w' : w_ss w' = w_ss w -> w_dbg w' = w_dbg w -> good w w'.
Proof.
  intros A B I. destruct w as [d0 s0 h0 p0], w' as [d1 s1 h1 p1]. cbn in A, B. subst d1 s1.
  change (mkW d0 s0 h1 p1) with (wh h1 (wp p1 (mkW d0 s0 h0 p0))).
  apply (good_trans (@good_persist p1 _) (@good_heap h1 _)). exact I.
Qed.

Lemma set_variable_spec seq ref name value w : WInv w ->
  let '(w', r) := set_variable py_int py_repr type_name tmpl seq ref name value w in
  WInv w' /\ qext w w' /\ d_out (w_dbg w') = d_out (w_dbg w) /\
  match r with
  | Ok o => exists v i, dget (w_vars w) ref = Some v /\ o = OSetVar seq i /\ advertised (v_frame v) w w' (w_heap w') i
  | Err _ => w_ss w' = w_ss w
  end.
Proof.
  intros I. unfold set_variable. destruct (dget (w_vars w) ref) as [v|] eqn:E; [|csplit; auto using qext_refl].
  destruct (i_v I _ E) as (_ & f & Hf & _). rewrite Hf.
  destruct (tmpl value (f_tv f) (w_heap w)) as [(objs, x)|e]; [|csplit; auto using qext_refl].
  pose proof (var_set_ss v name x (wh (w_heap w ++ objs) w)) as (A & B).
  destruct (var_set py_int v name x (wh (w_heap w ++ objs) w)) as (w2, [u|e]); cbn [fst] in *.
  - assert (G : good w w2) by (apply good_ss; auto). destruct (G I) as (I2 & Q2).
    assert (L : live (v_frame v) w2) by (apply (live_qext Q2); exists f; auto).
    pose proof (@container_spec (v_frame v) x w2 I2 L) as C. destruct (container (v_frame v) x w2) as (id, w3).
    destruct C as (I3 & Q3 & E1 & E2 & E3 & AD). split; auto. split; [eapply qext_trans; eauto|].
    split. { rewrite E3, B. reflexivity. }
    exists v, (child_info py_repr type_name [] x w3 id). csplit; auto.
    apply (@advertised_ext (v_frame v) w w2 w3 w3 (w_heap w3)); auto using qext_refl.
  - assert (G : good w w2) by (apply good_ss; auto). destruct (G I) as (I2 & Q2). csplit; auto. now rewrite B.
Qed.

Lemma evaluate_ss seq e fr c w : let '(w', r) := evaluate py_int py_repr type_name tmpl err_text parse_repl seq e fr c w in
  w_ss w' = w_ss w /\ w_dbg w' = w_dbg w /\ match r with Ok o => exists v t, o = OEvaluate seq v t | Err _ => True end.
Proof.
  unfold evaluate, safe_evaluate. destruct (frame_truthy fr) as [fid|]; [|csplit; eauto].
  destruct (ctx_in c [s "repl"] && startswith e (s "!")).
  - destruct (dget (w_frames w) fid) as [f|]; [|auto]. destruct (parse_repl (skipn 1 e)) as [[ex|n|n ex|n ex|t]|er]; auto.
    + destruct (tmpl ex (f_tv f) (w_heap w)) as [(objs, v)|er]; csplit; eauto.
    + destruct (dget (w_vars w) (f_options f)) as [v|]; [|auto]. pose proof (var_remove_ss v n w) as (A & B).
      destruct (var_remove v n w) as (w', [u|er]); cbn in *; csplit; eauto.
    + destruct (tmpl ex (f_tv f) (w_heap w)) as [(objs, x)|er]; [|auto].
      pose proof (set_vars_ss [f_options f] n x (wh (w_heap w ++ objs) w)) as (A & B).
      destruct (set_vars py_int [f_options f] n x (wh (w_heap w ++ objs) w)) as (w', [u|er]); cbn [fst] in A, B; csplit; eauto.
    + destruct (tmpl ex (f_tv f) (w_heap w)) as [(objs, x)|er]; [|auto].
      pose proof (set_vars_ss [f_taskvar f; f_hostvars f] n x (wh (w_heap w ++ objs) w)) as (A & B).
      destruct (set_vars py_int [f_taskvar f; f_hostvars f] n x (wh (w_heap w ++ objs) w)) as (w', [u|er]); cbn [fst] in A, B; csplit; eauto.
    + csplit; eauto.
  - destruct (ctx_in c [s "repl"; s "watch"; s "clipboard"; s "variables"]); [|csplit; eauto].
    destruct (dget (w_frames w) fid) as [f|]; [|auto].
    destruct (tmpl e (f_tv f) (w_heap w)) as [(objs, v)|er]; csplit; eauto.
Qed.
End H.
