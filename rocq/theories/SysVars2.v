(** Properties of assignments and evaluation: C34, C54. *)
From Verif Require Import PyBase PyDict Digits DbgTypes BpModel BpSpec BpProofs BpProofs2 BpProofs3 BpProps ThreadModel ThreadSpec StratModel SysModel SysSpec SysProofs SysProofs2 SysProofs3 SysProofs4 SysProofs5 SysProofs6 SysProofs7 SysProofs8 SysProofs9 SysProofs10 SysProofs11 SysProofs12 SysProofs13 SysVars SysDemo.
Set Implicit Arguments.
Local Open Scope N_scope.

Lemma set_nth_some {A} (l : list A) i v l' : set_nth l i v = Some l' -> (i < length l)%nat /\ length l' = length l /\ nth_error l' i = Some v /\ forall k, k <> i -> nth_error l' k = nth_error l k.
Proof.
  revert i l'. induction l as [|x l IH]; intros [|i] l' H; cbn in H; try discriminate.
  - injection H as <-. csplit; auto; cbn; try lia. intros [|k] N; [congruence|reflexivity].
  - destruct (set_nth l i v) as [r|] eqn:E; [|discriminate]. injection H as <-. destruct (IH _ _ E) as (A1 & A2 & A3 & A4). csplit; cbn; auto; try lia.
    intros [|k] N; [reflexivity|]. cbn. apply A4. congruence.
Qed.
Lemma set_nth_in {A} (l : list A) i v x : nth_error l i = Some x -> exists l', set_nth l i v = Some l'.
Proof.
  revert i. induction l as [|y l IH]; intros [|i] H; cbn in *; try discriminate; eauto. destruct (IH _ H) as (l' & ->). eauto.
Qed.

Lemma obj_set_key_spec h a name x : match obj_set_key h a (kstr name) x with
  | Ok h' => length h' = length h /\ (forall b, b <> a -> nth_error h' b = nth_error h b) /\ exists o o', nth_error h a = Some o /\ nth_error h' a = Some o' /\ key_set name x o o'
  | Err _ => ~ is_mut_dict h a end.
Proof.
  unfold obj_set_key, is_mut_dict. destruct (nth_error h a) as [[l [|]|l m|l]|] eqn:E; try (intros (l0 & H); discriminate).
  destruct (set_nth_in _ _ (ODict (dset l (kstr name) x) true) E) as (h' & H). rewrite H.
  destruct (set_nth_some _ _ _ H) as (_ & A2 & A3 & A4). csplit; auto. do 2 eexists. split; [reflexivity|]. split; [exact A3|].
  exists l, (dset l (kstr name) x). csplit; auto; [apply dget_dset_same|intros; now apply dget_dset_other|]. intros k. apply In_dkeys_dset.
Qed.
Lemma obj_set_index_spec h a i x : match obj_set_index h a i x with
  | Ok h' => length h' = length h /\ (forall b, b <> a -> nth_error h' b = nth_error h b) /\ exists o o', nth_error h a = Some o /\ nth_error h' a = Some o' /\ item_set i x o o'
  | Err _ => True end.
Proof.
  unfold obj_set_index. destruct (nth_error h a) as [[l m|l [|]|l]|] eqn:E; auto. destruct (py_setitem l i x) as [l'|] eqn:P; auto.
  destruct (set_nth_in _ _ (OList l' true) E) as (h' & H). rewrite H.
  destruct (set_nth_some _ _ _ H) as (_ & A2 & A3 & A4). csplit; auto. do 2 eexists. split; [reflexivity|]. split; [exact A3|].
  unfold py_setitem in P. destruct (i <? 0)%Z eqn:NEG.
  - destruct (i + Z.of_nat (length l) <? 0)%Z eqn:N2; [discriminate|]. destruct (set_nth_some _ _ _ P) as (B1 & B2 & B3 & B4).
    exists l, l', (Z.to_nat (i + Z.of_nat (length l))). csplit; auto. right. lia.
  - destruct (set_nth_some _ _ _ P) as (B1 & B2 & B3 & B4). exists l, l', (Z.to_nat i). csplit; auto. left. lia.
Qed.

Lemma key_set_again name x o o' : key_set name x o o' -> key_set name x o' o' .
Proof. intros (l & l' & -> & -> & A & B & C). exists l', l'. csplit; auto. intros k. split; [now right|]. intros [->|H]; auto. eapply dget_Some_key; eauto. Qed.
Lemma key_set_trans name x o o' o'' : key_set name x o o' -> key_set name x o' o'' -> key_set name x o o''.
Proof.
  intros (l & l' & -> & -> & A & B & C) (l1 & l2 & E & -> & A' & B' & C'). injection E as <-. exists l, l2. csplit; auto.
  - intros k N. rewrite B', B; auto.
  - intros k. rewrite C', C. tauto.
Qed.

Section S.
Variable py_int : pystr -> option Z.
Variable py_repr : heap -> val -> pystr.
Variable type_name : heap -> val -> pystr.
Variable tmpl : pystr -> nat -> heap -> res (list obj * val).
Variable tmpl_args : nat -> nat -> heap -> res (list obj * val).
Variable err_text : exn -> pystr.
Variable parse_repl : pystr -> res ReplCmd.
Notation handle := (handle py_int py_repr type_name tmpl tmpl_args err_text parse_repl).
Notation step := (step py_int py_repr type_name tmpl tmpl_args err_text parse_repl).
Notation run := (run py_int py_repr type_name tmpl tmpl_args err_text parse_repl).

Lemma var_set_spec v name x w : let '(w', r) := var_set py_int v name x w in
  match r with
  | Ok _ => w_persist w' = w_persist w ++ match v_kind v with VKHost h => [(h, name, x)] | _ => [] end /\ length (w_heap w') = length (w_heap w) /\
      (forall a, a <> v_ds v -> (forall raw, v_kind v = VKRaw raw -> a <> raw) -> nth_error (w_heap w') a = nth_error (w_heap w) a) /\
      (exists o o', nth_error (w_heap w) (v_ds v) = Some o /\ nth_error (w_heap w') (v_ds v) = Some o' /\ assigned py_int (v_kind v) name x o o') /\
      (forall raw, v_kind v = VKRaw raw -> exists o o', nth_error (w_heap w) raw = Some o /\ nth_error (w_heap w') raw = Some o' /\ key_set name x o o')
  | Err _ => w_persist w' = w_persist w /\ (w_heap w' = w_heap w \/ exists raw, v_kind v = VKRaw raw /\ ~ is_mut_dict (w_heap w) raw)
  end.
Proof.
  unfold var_set, assigned. destruct (v_kind v) as [| |raw|host] eqn:K.
  - destruct (py_int name) as [i|] eqn:PI; [|auto]. pose proof (obj_set_index_spec (w_heap w) (v_ds v) i x) as A.
    destruct (obj_set_index (w_heap w) (v_ds v) i x) as [h|e]; [|auto]. destruct A as (A1 & A2 & o & o' & A3 & A4 & A5).
    cbn. rewrite app_nil_r. csplit; auto; [|intros; discriminate]. exists o, o'. csplit; eauto.
  - pose proof (obj_set_key_spec (w_heap w) (v_ds v) name x) as A. destruct (obj_set_key (w_heap w) (v_ds v) (kstr name) x) as [h|e]; [|auto].
    destruct A as (A1 & A2 & o & o' & A3 & A4 & A5). cbn. rewrite app_nil_r. csplit; auto; [|intros; discriminate]. exists o, o'. csplit; eauto.
  - pose proof (obj_set_key_spec (w_heap w) (v_ds v) name x) as A. destruct (obj_set_key (w_heap w) (v_ds v) (kstr name) x) as [h|e]; [|auto].
    destruct A as (A1 & A2 & o & o' & A3 & A4 & A5).
    pose proof (obj_set_key_spec h raw name x) as B. destruct (obj_set_key h raw (kstr name) x) as [h2|e].
    + destruct B as (B1 & B2 & p & p' & B3 & B4 & B5). cbn. rewrite app_nil_r. split; auto. split; [congruence|]. split.
      { intros a N1 N2. rewrite B2, A2; auto. }
      destruct (Nat.eq_dec raw (v_ds v)) as [->|NE].
      * assert (p = o') by congruence. subst p. split.
        -- exists o, p'. csplit; auto. eapply key_set_trans; eauto.
        -- intros raw E. injection E as <-. exists o, p'. csplit; auto. eapply key_set_trans; eauto.
      * split.
        -- exists o, o'. csplit; auto. rewrite B2; auto.
        -- intros raw0 E. injection E as <-. exists p, p'. csplit; auto. rewrite <- A2; auto.
    + split; auto. right. exists raw. split; auto. intros (l & HL). apply B. destruct (Nat.eq_dec raw (v_ds v)) as [->|NE].
      * destruct A5 as (l1 & l2 & _ & -> & _). now exists l2.
      * exists l. rewrite A2; auto.
  - pose proof (obj_set_key_spec (w_heap w) (v_ds v) name x) as A. destruct (obj_set_key (w_heap w) (v_ds v) (kstr name) x) as [h|e]; [|auto].
    destruct A as (A1 & A2 & o & o' & A3 & A4 & A5). cbn. csplit; auto; [|intros; discriminate]. exists o, o'. csplit; eauto.
Qed.

Lemma F2_impl {A B} (P Q : A -> B -> Prop) l m : (forall a b, P a b -> Q a b) -> Forall2 P l m -> Forall2 Q l m.
Proof. intros H F. induction F; auto. Qed.
(** What a variables request shows. *)
Lemma list_children_values fid l : forall w,
  let '(w', infos) := list_children py_repr type_name fid l w in hext (w_heap w) (w_heap w') /\
  Forall2 (fun i (c : pystr * val) => vi_name i = fst c /\ exists hx, hext (w_heap w) hx /\ vi_value i = py_repr hx (snd c) /\ vi_type i = type_name hx (snd c)) infos l.
Proof.
  induction l as [|(name, v) l IH]; intros w; cbn [list_children].
  - split; auto.
  - set (c := match asdict v (w_heap w) with Some (h', v') => container fid v' (wh h' w) | None => container fid v w end).
    assert (HX : hext (w_heap w) (w_heap (snd c))).
    { assert (CH : forall u w0, w_heap (snd (container fid u w0)) = w_heap w0).
      { intros u w0. unfold container. destruct (container_kind (w_heap w0) u) as [k|]; auto. destruct u as [|a]; auto. }
      subst c. unfold asdict. destruct v as [|a]; [rewrite CH; auto|]. destruct (nth_error (w_heap w) a) as [[]|]; rewrite CH; cbn; auto. }
    destruct c as (id, w1). cbn [snd] in HX. specialize (IH w1). destruct (list_children py_repr type_name fid l w1) as (w2, infos). destruct IH as (X2 & F2).
    split; [eapply hext_trans; eauto|]. constructor.
    + cbn. split; auto. exists (w_heap w1). auto.
    + eapply F2_impl; [|exact F2]. cbn. intros i c0 (A & hx & B & C). split; auto. exists hx. split; auto. eapply hext_trans; eauto.
Qed.

Lemma shows y seq ref v : SInv y -> pending y = [] -> has_strategy y = true -> dget (w_vars (y_w y)) ref = Some v ->
  exists y' infos, step y (LReq seq (RVariables ref)) = Some y' /\ d_out (w_dbg (y_w y')) = d_out (w_dbg (y_w y)) ++ [Some (OVars seq infos)] /\
    Forall2 (fun i (c : pystr * val) => vi_name i = fst c /\ exists hx, hext (w_heap (y_w y)) hx /\ vi_value i = py_repr hx (snd c) /\ vi_type i = type_name hx (snd c)) infos (var_get (w_heap (y_w y)) v).
Proof.
  intros S P HS V. pose proof (y_inv S) as I.
  assert (RC : y_recv y = None) by (unfold pending in P; destruct (y_recv y); [discriminate|auto]).
  cbn [SysModel.step]. rewrite RC, HS. cbn [needs_strategy andb negb before_strategy].
  assert (WW : wd (w_dbg (y_w y)) (y_w y) = y_w y) by (destruct (y_w y); reflexivity). rewrite WW. unfold SysModel.handle. cbn [process].
  pose proof (@get_variables_spec py_repr type_name seq ref (y_w y) I) as G. unfold get_variables in *. rewrite V in *.
  pose proof (list_children_values (v_frame v) (var_get (w_heap (y_w y)) v) (y_w y)) as L. destruct (list_children _ _ _ _ _) as (w', infos).
  cbn [reply]. do 2 eexists. split; [reflexivity|]. split; [|apply L]. cbn. destruct G as (_ & _ & _ & _ & O & _). now rewrite O.
Qed.
Lemma Forall2_In_r {A B} (P : A -> B -> Prop) l1 l2 b : Forall2 P l1 l2 -> In b l2 -> exists a, In a l1 /\ P a b.
Proof. induction 1; intros []; subst; [eexists; split; [now left|auto]|]. destruct IHForall2 as (a & A1 & A2); auto. exists a. split; auto. now right. Qed.

Lemma enum_from_nth i l : forall j x, nth_error l j = Some x -> In (digits (N.of_nat (i + j)), x) (enum_from i l).
Proof.
  revert i. induction l as [|y l IH]; intros i [|j] x H; cbn in *; try discriminate.
  - injection H as ->. left. now rewrite Nat.add_0_r.
  - right. replace (i + S j)%nat with (S i + j)%nat by lia. auto.
Qed.

(** The step of a setVariable request. *)
Lemma set_step y seq ref name value v f objs x : SInv y -> pending y = [] -> has_strategy y = true ->
  dget (w_vars (y_w y)) ref = Some v -> dget (w_frames (y_w y)) (v_frame v) = Some f -> tmpl value (f_tv f) (w_heap (y_w y)) = Ok (objs, x) ->
  exists y' o, step y (LReq seq (RSetVariable ref name value)) = Some y' /\ d_out (w_dbg (y_w y')) = d_out (w_dbg (y_w y)) ++ [Some o] /\ SInv y' /\
    pending y' = [] /\ has_strategy y' = true /\
    let w1 := wh (w_heap (y_w y) ++ objs) (y_w y) in
    w_heap (y_w y') = w_heap (fst (var_set py_int v name x w1)) /\ w_persist (y_w y') = w_persist (fst (var_set py_int v name x w1)) /\
    (forall r u, dget (w_vars (y_w y)) r = Some u -> dget (w_vars (y_w y')) r = Some u) /\
    match snd (var_set py_int v name x w1) with Ok _ => exists i, o = OSetVar seq i | Err _ => o = OError CSetVariable seq /\ w_ss (y_w y') = w_ss (y_w y) end.
Proof.
  intros S P HS V F T. pose proof (y_inv S) as I. cbv zeta. set (w1 := wh (w_heap (y_w y) ++ objs) (y_w y)).
  assert (RC : y_recv y = None) by (unfold pending in P; destruct (y_recv y); [discriminate|auto]).
  assert (E : step y (LReq seq (RSetVariable ref name value)) = Some (mkSys (handle seq (RSetVariable ref name value) (y_w y)) (y_phase y) (y_open y) None)).
  { cbn [SysModel.step]. rewrite RC, HS. cbn [needs_strategy andb negb before_strategy]. assert (WW : wd (w_dbg (y_w y)) (y_w y) = y_w y) by (destruct (y_w y); reflexivity). now rewrite WW. }
  assert (WF : label_wf (LReq seq (RSetVariable ref name value))) by exact Logic.I.
  destruct (@step_inv py_int py_repr type_name tmpl tmpl_args err_text parse_repl y _ _ S WF E) as (S' & _ & _).
  pose proof (@set_variable_spec py_int py_repr type_name tmpl seq ref name value (y_w y) I) as G.
  assert (CH : forall fid u w0, w_heap (snd (container fid u w0)) = w_heap w0 /\ w_persist (snd (container fid u w0)) = w_persist w0).
  { intros fid u w0. unfold container. destruct (container_kind (w_heap w0) u) as [k|]; auto. destruct u as [|a]; auto. }
  remember (mkSys (handle seq (RSetVariable ref name value) (y_w y)) (y_phase y) (y_open y) None) as y1 eqn:EY. exists y1.
  assert (HS1 : pending y1 = [] /\ has_strategy y1 = true) by (subst y1; split; auto). destruct HS1 as (P1 & HS1).
  assert (EW : y_w y1 = handle seq (RSetVariable ref name value) (y_w y)) by (now subst y1). clear EY.
  rewrite EW. unfold SysModel.handle. cbn [process].
  unfold set_variable in *. rewrite V, F, T in *. fold w1 in G |- *.
  pose proof (var_set_ss py_int v name x w1) as (SS & _).
  destruct (var_set py_int v name x w1) as (w2, [u|e]) eqn:VS; cbn [fst snd] in *.
  - destruct (CH (v_frame v) x w2) as (C1 & C2). destruct (container (v_frame v) x w2) as (id, w3). cbn [snd] in *.
    destruct G as (_ & Q & O & _). cbn [reply]. eexists. split; [exact E|]. split; [cbn; rewrite O; reflexivity|]. csplit; auto.
    + intros r u0. apply (q_v Q).
    + eexists; reflexivity.
  - destruct G as (_ & Q & O & _). cbn [reply]. eexists. split; [exact E|]. split; [cbn; rewrite O; reflexivity|]. csplit; auto.
    intros r u0. apply (q_v Q).
Qed.

Lemma var_get_set v v2 name x h h' o o' : nth_error h (v_ds v) = Some o -> nth_error h' (v_ds v) = Some o' -> assigned py_int (v_kind v) name x o o' ->
  v_ds v2 = v_ds v -> (v_kind v2 = VKList <-> v_kind v = VKList) ->
  match v_kind v with
  | VKList => exists j, In (digits (N.of_nat j), x) (var_get h' v2) /\ forall i, py_int name = Some i -> (i = Z.of_nat j \/ i < 0 /\ exists l m, o = OList l m /\ i + Z.of_nat (length l) = Z.of_nat j)%Z
  | _ => In (name, x) (var_get h' v2)
  end.
Proof.
  intros N N' A E K. unfold var_get. rewrite E, N'.
  assert (D : key_set name x o o' -> v_kind v <> VKList -> In (name, x) (match v_kind v2 with VKList => match o' with OList l _ => enum_from 0 l | _ => [] end | _ => match o' with ODict l _ => map (fun kv => (k_txt (fst kv), snd kv)) l | _ => [] end end)).
  { intros (l & l' & -> & -> & G & _) NL. assert (IN : In (name, x) (map (fun kv => (k_txt (fst kv), snd kv)) l')).
    { apply in_map_iff. exists (kstr name, x). split; auto. now apply dget_In. }
    destruct (v_kind v2); auto. exfalso. apply NL, K. reflexivity. }
  destruct (v_kind v) eqn:KV; cbn [assigned] in A.
  - destruct A as (i & PI & l & l' & j & -> & -> & LT & IJ & LE & NX & _). exists j.
    assert (KV2 : v_kind v2 = VKList) by now apply K. rewrite KV2. split.
    + now apply (enum_from_nth 0).
    + intros i0 E0. rewrite PI in E0. injection E0 as <-. destruct IJ as [IJ|(IJ & IK)]; [now left|right]. split; auto. do 2 eexists. split; eauto.
  - destruct (v_kind v2); apply D; auto; discriminate.
  - destruct (v_kind v2); apply D; auto; discriminate.
  - destruct (v_kind v2); apply D; auto; discriminate.
Qed.

(** A setVariable request never blocks while a play runs. *)
Lemma set_error y seq ref name value : SInv y -> pending y = [] -> has_strategy y = true ->
  (forall v raw, dget (w_vars (y_w y)) ref = Some v -> v_kind v = VKRaw raw -> is_mut_dict (w_heap (y_w y)) raw) ->
  forall y' o, step y (LReq seq (RSetVariable ref name value)) = Some y' -> d_out (w_dbg (y_w y')) = d_out (w_dbg (y_w y)) ++ [Some o] ->
  (exists v f objs x i, dget (w_vars (y_w y)) ref = Some v /\ dget (w_frames (y_w y)) (v_frame v) = Some f /\ tmpl value (f_tv f) (w_heap (y_w y)) = Ok (objs, x) /\
     o = OSetVar seq i /\ snd (var_set py_int v name x (wh (w_heap (y_w y) ++ objs) (y_w y))) = Ok tt) \/
  (o = OError CSetVariable seq /\ w_ss (y_w y') = w_ss (y_w y) /\ w_persist (y_w y') = w_persist (y_w y) /\
   exists objs, w_heap (y_w y') = w_heap (y_w y) ++ objs).
Proof.
  intros S P HS RAW y' o E O. pose proof (y_inv S) as I.
  assert (ERR : forall w1 (e : exn), set_variable py_int py_repr type_name tmpl seq ref name value (y_w y) = (w1, Err e) -> w1 = y_w y ->
    o = OError CSetVariable seq /\ w_ss (y_w y') = w_ss (y_w y) /\ w_persist (y_w y') = w_persist (y_w y) /\ exists objs, w_heap (y_w y') = w_heap (y_w y) ++ objs).
  { intros w1 e SV ->. assert (RC : y_recv y = None) by (unfold pending in P; destruct (y_recv y); [discriminate|auto]).
    cbn [SysModel.step] in E. rewrite RC, HS in E. cbn [needs_strategy andb negb before_strategy] in E.
    assert (WW : wd (w_dbg (y_w y)) (y_w y) = y_w y) by (destruct (y_w y); reflexivity). rewrite WW in E.
    unfold SysModel.handle in E. cbn [process] in E. rewrite SV in E. cbn [reply] in E. injection E as <-. cbn in O. apply app_inv_head in O. injection O as <-.
    csplit; auto. exists []. now rewrite app_nil_r. }
  destruct (dget (w_vars (y_w y)) ref) as [v|] eqn:V.
  2: { right. eapply ERR; [|reflexivity]. unfold set_variable. rewrite V. reflexivity. }
  destruct (dget (w_frames (y_w y)) (v_frame v)) as [f|] eqn:F.
  2: { right. eapply ERR; [|reflexivity]. unfold set_variable. rewrite V, F. reflexivity. }
  destruct (tmpl value (f_tv f) (w_heap (y_w y))) as [(objs, x)|e] eqn:T.
  2: { right. eapply ERR; [|reflexivity]. unfold set_variable. rewrite V, F, T. reflexivity. }
  destruct (@set_step y seq ref name value v f objs x S P HS V F T) as (y1 & o1 & E1 & O1 & _ & _ & _ & A1 & A2 & _ & A3).
  rewrite E in E1. injection E1 as <-. rewrite O in O1. apply app_inv_head in O1. injection O1 as <-.
  pose proof (var_set_spec v name x (wh (w_heap (y_w y) ++ objs) (y_w y))) as VS.
  destruct (var_set py_int v name x (wh (w_heap (y_w y) ++ objs) (y_w y))) as (w2, [[]|e]) eqn:EV; cbn [fst snd] in *.
  - left. destruct A3 as (i & ->). exists v, f, objs, x, i. csplit; auto. now rewrite EV.
  - right. destruct A3 as (-> & A3). destruct VS as (VP & [VH|(raw & K & NM)]).
    + csplit; auto; [cbn in VP; congruence|]. exists objs. now rewrite A1, VH.
    + exfalso. apply NM. destruct (RAW v raw eq_refl K) as (l & HL). exists l. cbn. rewrite nth_error_app1; auto. apply nth_error_Some. congruence.
Qed.

(** C34: what a successful setVariable does. *)
Theorem C34_setvariable_takes_effect ls y seq ref name value y' i :
  trace_wf ls -> run sys_init ls y -> pending y = [] -> has_strategy y = true ->
  step y (LReq seq (RSetVariable ref name value)) = Some y' ->
  d_out (w_dbg (y_w y')) = d_out (w_dbg (y_w y)) ++ [Some (OSetVar seq i)] ->
  exists v f objs x,
    (* the reference is a view [v] of frame [f]; the value is the expression evaluated there *)
    dget (w_vars (y_w y)) ref = Some v /\ dget (w_frames (y_w y)) (v_frame v) = Some f /\
    tmpl value (f_tv f) (w_heap (y_w y)) = Ok (objs, x) /\
    (* no other existing object changes *)
    (forall a, (a < length (w_heap (y_w y)))%nat -> a <> v_ds v -> (forall raw, v_kind v = VKRaw raw -> a <> raw) ->
       nth_error (w_heap (y_w y')) a = nth_error (w_heap (y_w y)) a) /\
    (* the viewed object changes in this entry only *)
    (exists o o', nth_error (w_heap (y_w y) ++ objs) (v_ds v) = Some o /\ nth_error (w_heap (y_w y')) (v_ds v) = Some o' /\
       assigned py_int (v_kind v) name x o o') /\
    (* replication to the task's raw options and to the host's persistent variables *)
    (forall raw, v_kind v = VKRaw raw -> exists o o', nth_error (w_heap (y_w y) ++ objs) raw = Some o /\ nth_error (w_heap (y_w y')) raw = Some o' /\ key_set name x o o') /\
    w_persist (y_w y') = w_persist (y_w y) ++ match v_kind v with VKHost h => [(h, name, x)] | _ => [] end /\
    (* visible through every reference to the same object *)
    forall ref2 v2 seq2, dget (w_vars (y_w y)) ref2 = Some v2 -> v_ds v2 = v_ds v -> (v_kind v2 = VKList <-> v_kind v = VKList) ->
      exists y2 infos info hx, step y' (LReq seq2 (RVariables ref2)) = Some y2 /\
        d_out (w_dbg (y_w y2)) = d_out (w_dbg (y_w y')) ++ [Some (OVars seq2 infos)] /\ In info infos /\
        hext (w_heap (y_w y')) hx /\ vi_value info = py_repr hx x /\ vi_type info = type_name hx x /\
        (if match v_kind v with VKList => true | _ => false end
         then exists j k, py_int name = Some k /\ vi_name info = digits (N.of_nat j) /\
           (k = Z.of_nat j \/ k < 0 /\ exists l m, nth_error (w_heap (y_w y) ++ objs) (v_ds v) = Some (OList l m) /\ k + Z.of_nat (length l) = Z.of_nat j)%Z
         else vi_name info = name).
Proof.
  intros W R P HS E O. pose proof (@run_sinv py_int py_repr type_name tmpl tmpl_args err_text parse_repl ls y W R) as S.
  assert (VX : exists v f objs x, dget (w_vars (y_w y)) ref = Some v /\ dget (w_frames (y_w y)) (v_frame v) = Some f /\ tmpl value (f_tv f) (w_heap (y_w y)) = Ok (objs, x)).
  { assert (RC : y_recv y = None) by (unfold pending in P; destruct (y_recv y); [discriminate|auto]).
    cbn [SysModel.step] in E. rewrite RC, HS in E. cbn [needs_strategy andb negb before_strategy] in E.
    assert (WW : wd (w_dbg (y_w y)) (y_w y) = y_w y) by (destruct (y_w y); reflexivity). rewrite WW in E.
    unfold SysModel.handle in E. cbn [process] in E. unfold set_variable in E.
    destruct (dget (w_vars (y_w y)) ref) as [v|] eqn:V; [|cbn in E; injection E as <-; cbn in O; apply app_inv_head in O; discriminate].
    destruct (dget (w_frames (y_w y)) (v_frame v)) as [f|] eqn:F; [|cbn in E; injection E as <-; cbn in O; apply app_inv_head in O; discriminate].
    destruct (tmpl value (f_tv f) (w_heap (y_w y))) as [(objs, x)|e] eqn:T; [|cbn in E; injection E as <-; cbn in O; apply app_inv_head in O; discriminate].
    exists v, f, objs, x. auto. }
  destruct VX as (v & f & objs & x & V & F & T). exists v, f, objs, x.
  destruct (@set_step y seq ref name value v f objs x S P HS V F T) as (y1 & o1 & E1 & O1 & S' & P' & HS' & A1 & A2 & AV & A3).
  rewrite E in E1. injection E1 as <-. rewrite O in O1. apply app_inv_head in O1. injection O1 as <-.
  pose proof (var_set_spec v name x (wh (w_heap (y_w y) ++ objs) (y_w y))) as VS.
  destruct (var_set py_int v name x (wh (w_heap (y_w y) ++ objs) (y_w y))) as (w2, [[]|e]) eqn:EV; cbn [fst snd] in *; [|destruct A3; discriminate].
  destruct VS as (VP & VL & VO & (o & o' & N1 & N2 & AS) & VR). rewrite <- A1 in *. rewrite <- A2 in *. cbn in VP, VO, VL, VR, N1.
  csplit; auto.
  - intros a LT NA NR. rewrite VO; auto. now apply nth_error_app1.
  - exists o, o'. auto.
  - intros ref2 v2 seq2 V2 D K.
    destruct (@shows y' seq2 ref2 v2 S' P' HS' (AV _ _ V2)) as (y2 & infos & E2 & O2 & F2).
    pose proof (@var_get_set v v2 name x (w_heap (y_w y) ++ objs) (w_heap (y_w y')) o o' N1 N2 AS D K) as G.
    destruct (v_kind v) eqn:KV.
    + destruct G as (j & IN & J). destruct (@Forall2_In_r _ _ _ _ _ _ F2 IN) as (info & IN2 & NM & hx & X & V1 & V3). exists y2, infos, info, hx. csplit; auto.
      destruct AS as (k & PK & IS). exists j, k. csplit; auto. destruct (J k PK) as [JJ|(JJ & l & m & EO & JL)]; [now left|right]. split; auto. exists l, m. split; auto. now rewrite N1, EO.
    + destruct (@Forall2_In_r _ _ _ _ _ _ F2 G) as (info & IN2 & NM & hx & X & V1 & V3). exists y2, infos, info, hx. csplit; auto.
    + destruct (@Forall2_In_r _ _ _ _ _ _ F2 G) as (info & IN2 & NM & hx & X & V1 & V3). exists y2, infos, info, hx. csplit; auto.
    + destruct (@Forall2_In_r _ _ _ _ _ _ F2 G) as (info & IN2 & NM & hx & X & V1 & V3). exists y2, infos, info, hx. csplit; auto.
Qed.

(** C34: a failing one changes nothing that existed. *)
Theorem C34_failed_setvariable_changes_nothing ls y seq ref name value y' :
  trace_wf ls -> run sys_init ls y -> pending y = [] -> has_strategy y = true ->
  (forall v raw, dget (w_vars (y_w y)) ref = Some v -> v_kind v = VKRaw raw -> is_mut_dict (w_heap (y_w y)) raw) ->
  step y (LReq seq (RSetVariable ref name value)) = Some y' ->
  d_out (w_dbg (y_w y')) = d_out (w_dbg (y_w y)) ++ [Some (OError CSetVariable seq)] ->
  (forall a, (a < length (w_heap (y_w y)))%nat -> nth_error (w_heap (y_w y')) a = nth_error (w_heap (y_w y)) a) /\
  w_persist (y_w y') = w_persist (y_w y) /\ w_threads (y_w y') = w_threads (y_w y) /\ w_frames (y_w y') = w_frames (y_w y) /\ w_vars (y_w y') = w_vars (y_w y).
Proof.
  intros W R P HS RAW E O. pose proof (@run_sinv py_int py_repr type_name tmpl tmpl_args err_text parse_repl ls y W R) as S.
  destruct (@set_error y seq ref name value S P HS RAW y' _ E O) as [(v & f & objs & x & i & _ & _ & _ & D & _)|(_ & SS & PP & objs & H)]; [discriminate|].
  csplit; auto; try (unfold w_threads, w_frames, w_vars; congruence). intros a LT. rewrite H. now apply nth_error_app1.
Qed.
(** ... and nothing else is possible. *)
Theorem C34_setvariable_succeeds_or_fails ls y seq ref name value y' ms :
  trace_wf ls -> run sys_init ls y -> pending y = [] -> has_strategy y = true ->
  (forall v raw, dget (w_vars (y_w y)) ref = Some v -> v_kind v = VKRaw raw -> is_mut_dict (w_heap (y_w y)) raw) ->
  step y (LReq seq (RSetVariable ref name value)) = Some y' -> d_out (w_dbg (y_w y')) = d_out (w_dbg (y_w y)) ++ ms ->
  (exists i, ms = [Some (OSetVar seq i)]) \/ ms = [Some (OError CSetVariable seq)].
Proof.
  intros W R P HS RAW E O. pose proof (@run_sinv py_int py_repr type_name tmpl tmpl_args err_text parse_repl ls y W R) as S.
  assert (X : exists o, ms = [Some o]).
  { assert (RC : y_recv y = None) by (unfold pending in P; destruct (y_recv y); [discriminate|auto]).
    pose proof (@set_variable_spec py_int py_repr type_name tmpl seq ref name value (y_w y) (y_inv S)) as G.
    cbn [SysModel.step] in E. rewrite RC, HS in E. cbn [needs_strategy andb negb before_strategy] in E.
    assert (WW : wd (w_dbg (y_w y)) (y_w y) = y_w y) by (destruct (y_w y); reflexivity). rewrite WW in E.
    unfold SysModel.handle in E. cbn [process] in E. destruct (set_variable _ _ _ _ _ _ _ _ _) as (w1, [o|e]); destruct G as (_ & _ & OO & _); injection E as <-; cbn in O;
      rewrite OO in O; apply app_inv_head in O; eexists; symmetry; exact O. }
  destruct X as (o & ->). destruct (@set_error y seq ref name value S P HS RAW y' o E O) as [(v & f & objs & x & i & _ & _ & _ & -> & _)|(-> & _)]; eauto.
Qed.
End S.
