(** C77: the variables view shows the playbook's data. *)
From Verif Require Import PyBase PyDict Digits DbgTypes BpModel BpSpec BpProofs BpProofs2 BpProofs3 BpProps ThreadModel ThreadSpec StratModel SysModel SysSpec SysProofs SysProofs2 SysProofs3 SysProofs4 SysProofs5 SysProofs6 SysProofs7 SysProofs8 SysProofs9 SysProofs10 SysProofs11 SysProofs12 SysProofs13 SysVars SysDemo.
Set Implicit Arguments.
Local Open Scope N_scope.

(** What a mapping or sequence consists of: names (keys as text, positions) and values. *)
Definition entries (o : obj) (es : list (pystr * val)) : Prop :=
  match o with
  | ODict l _ => es = map (fun kv => (k_txt (fst kv), snd kv)) l
  | OList l _ => length es = length l /\ forall i v, nth_error l i = Some v -> nth_error es i = Some (digits (N.of_nat i), v)
  | OData _ => False
  end.
(** A reference made for a mapping or a sequence. *)
Definition fits (k : vkind) (o : obj) : Prop := match o with OList _ _ => k = VKList | ODict _ _ => k <> VKList | OData _ => False end.
(** The reference [ref] stands, in [w], for the object at [a], in the frame [fid]. *)
Definition stands_for (w : World) (ref fid : N) (k : vkind) (a : nat) : Prop := ref <> 0 /\ dget (w_vars w) ref = Some (mkVar fid k a).
Definition longer (h h' : heap) : Prop := exists l, h' = h ++ l.

Section S.
Variable py_int : pystr -> option Z.
Variable py_repr : heap -> val -> pystr.
Variable type_name : heap -> val -> pystr.
Variable tmpl : pystr -> nat -> heap -> res (list obj * val).
Variable tmpl_args : nat -> nat -> heap -> res (list obj * val).
Variable err_text : exn -> pystr.
Variable parse_repl : pystr -> res ReplCmd.
Notation handle := (handle py_int py_repr type_name tmpl tmpl_args err_text parse_repl).
Notation step := (step py_int py_repr type_name tmpl tmpl_args err_text parse_repl).
Notation run := (run py_int py_repr type_name tmpl tmpl_args err_text parse_repl).

(** How a value of the heap [h] is shown, in [w']: its text and type; a mapping or sequence
    with a reference to that very object; a dataclass instance with a reference to a new
    modifiable dict of its attributes. *)
Definition shown (h : heap) (fid : N) (w' : World) (v : val) (i : VarInfo) : Prop :=
  (exists h', longer h h' /\ longer h' (w_heap w') /\ vi_value i = py_repr h' v /\ vi_type i = type_name h' v) /\
  match v with
  | VPrim _ _ => vi_ref i = 0 /\ vi_named i = 0 /\ vi_indexed i = 0
  | VRef b =>
    match nth_error h b with
    | Some (ODict l _) => stands_for w' (vi_ref i) fid VKDict b /\ vi_named i = N.of_nat (length l) /\ vi_indexed i = 0
    | Some (OList l _) => stands_for w' (vi_ref i) fid VKList b /\ vi_named i = 0 /\ vi_indexed i = N.of_nat (length l)
    | Some (OData l) => exists b', nth_error h b' = None /\ stands_for w' (vi_ref i) fid VKDict b' /\
        nth_error (w_heap w') b' = Some (ODict (map (fun p => (kstr (fst p), snd p)) l) true) /\ vi_named i = N.of_nat (length l) /\ vi_indexed i = 0
    | None => True
    end
  end.

Lemma shown_later h fid w w' v i : qext w w' -> hext (w_heap w) (w_heap w') -> shown h fid w v i -> shown h fid w' v i.
Proof.
  intros Q X ((h' & A & B & C & D) & E). split; [exists h'; csplit; auto; exact (hext_trans B X)|].
  destruct v as [|b]; auto. destruct (nth_error h b) as [[l m|l m|l]|]; auto.
  - destruct E as ((NZ & V) & E). split; auto. split; auto. now apply (q_v Q).
  - destruct E as ((NZ & V) & E). split; auto. split; auto. now apply (q_v Q).
  - destruct E as (b' & E1 & (NZ & V) & E2 & E3). exists b'. split; auto. split; [split; auto; now apply (q_v Q)|]. split; [exact (hext_nth _ X E2)|auto].
Qed.
Lemma shown_earlier h0 h fid w v i : hext h0 h -> shown h fid w v i -> (forall b, v = VRef b -> nth_error h0 b <> None) -> shown h0 fid w v i.
Proof.
  intros X ((h' & A & B & C & D) & E) OK. split; [exists h'; csplit; auto; exact (hext_trans X A)|].
  destruct v as [|b]; auto. destruct (nth_error h0 b) as [o|] eqn:N; [|exact I]. rewrite (hext_nth _ X N) in E. destruct o as [l m|l m|l]; auto.
  destruct E as (b' & E1 & E). exists b'. split; auto. destruct (nth_error h0 b') as [o|] eqn:N'; auto. rewrite (hext_nth _ X N') in E1. discriminate.
Qed.
Lemma container_shown fid v w : WInv w -> live fid w -> (forall b l, v = VRef b -> nth_error (w_heap w) b <> Some (OData l)) ->
  let '(id, w') := container fid v w in
  forall name v0, vi_value (child_info py_repr type_name name v0 w' id) = py_repr (w_heap w') v0 /\ vi_type (child_info py_repr type_name name v0 w' id) = type_name (w_heap w') v0 /\
  let i := child_info py_repr type_name name v0 w' id in
  match v with
  | VPrim _ _ => vi_ref i = 0 /\ vi_named i = 0 /\ vi_indexed i = 0
  | VRef b =>
    match nth_error (w_heap w) b with
    | Some (ODict l _) => stands_for w' (vi_ref i) fid VKDict b /\ vi_named i = N.of_nat (length l) /\ vi_indexed i = 0
    | Some (OList l _) => stands_for w' (vi_ref i) fid VKList b /\ vi_named i = 0 /\ vi_indexed i = N.of_nat (length l)
    | _ => True
    end
  end.
Proof.
  intros I L ND. unfold container. destruct v as [tx ty|b]; cbn [container_kind].
  - intros. csplit; reflexivity.
  - destruct (nth_error (w_heap w) b) as [[l m|l m|l]|] eqn:N; [| |destruct (ND _ _ eq_refl N)|intros; csplit; auto].
    + pose proof (@add_var_new fid VKDict b w I L) as H. destruct (add_var fid VKDict b w) as (id, w'). destruct H as (I' & Q & (R1 & R2 & R3) & E1 & _).
      intros name v0. unfold child_info. cbn [vi_value vi_type vi_ref vi_named vi_indexed]. rewrite R2. unfold var_named, var_indexed. cbn [v_kind v_ds]. rewrite E1, N. csplit; auto.
      split; auto. pose proof (i_ctr I). lia.
    + pose proof (@add_var_new fid VKList b w I L) as H. destruct (add_var fid VKList b w) as (id, w'). destruct H as (I' & Q & (R1 & R2 & R3) & E1 & _).
      intros name v0. unfold child_info. cbn [vi_value vi_type vi_ref vi_named vi_indexed]. rewrite R2. unfold var_named, var_indexed. cbn [v_kind v_ds]. rewrite E1, N. csplit; auto.
      split; auto. pose proof (i_ctr I). lia.
Qed.
Lemma list_shown fid l : forall w, WInv w -> live fid w -> (forall n b, In (n, VRef b) l -> nth_error (w_heap w) b <> None) ->
  let '(w', infos) := list_children py_repr type_name fid l w in
  map vi_name infos = map fst l /\ Forall2 (fun e i => shown (w_heap w) fid w' (snd e) i) l infos.
Proof.
  induction l as [|(name, v) l IH]; intros w I L OK; cbn [list_children]; [split; auto|].
  set (w0 := match asdict v (w_heap w) with Some (h', v') => wh h' w | None => w end).
  set (v1 := match asdict v (w_heap w) with Some (h', v') => v' | None => v end).
  assert (E : (match asdict v (w_heap w) with Some (h', v') => container fid v' (wh h' w) | None => container fid v w end) = container fid v1 w0).
  { subst w0 v1. destruct (asdict v (w_heap w)) as [(h', v')|]; reflexivity. }
  rewrite E. clear E.
  assert (I0 : WInv w0) by (subst w0; destruct (asdict v (w_heap w)) as [(h', v')|]; auto; now apply inv_heap).
  assert (Q0 : qext w w0) by (subst w0; destruct (asdict v (w_heap w)) as [(h', v')|]; [apply (good_heap _ I)|apply qext_refl]).
  assert (X0 : hext (w_heap w) (w_heap w0)).
  { subst w0. unfold asdict. destruct v as [|a]; auto. destruct (nth_error (w_heap w) a) as [[]|]; auto. cbn. auto. }
  assert (AS : (v1 = v /\ w_heap w0 = w_heap w /\ (forall b l, v = VRef b -> nth_error (w_heap w) b <> Some (OData l))) \/
               (exists a dl, v = VRef a /\ nth_error (w_heap w) a = Some (OData dl) /\ v1 = VRef (length (w_heap w)) /\ w_heap w0 = w_heap w ++ [ODict (map (fun p => (kstr (fst p), snd p)) dl) true])).
  { subst v1 w0. unfold asdict. destruct v as [|a]; [left; csplit; auto; discriminate|]. destruct (nth_error (w_heap w) a) as [[dl dm|dl dm|dl]|] eqn:N.
    - left; csplit; auto. intros b l0 Q. injection Q as <-. congruence.
    - left; csplit; auto. intros b l0 Q. injection Q as <-. congruence.
    - right. exists a, dl. csplit; auto.
    - left; csplit; auto. intros b l0 Q. injection Q as <-. congruence. }
  clearbody w0 v1.
  pose proof (@container_spec py_repr type_name fid v1 w0 I0 (live_qext Q0 L)) as C.
  assert (ND : forall b l, v1 = VRef b -> nth_error (w_heap w0) b <> Some (OData l)).
  { destruct AS as [(-> & -> & ND)|(a & dl & -> & N & -> & H)]; [exact ND|]. intros b l0 Q. injection Q as <-. rewrite H, nth_error_app2, Nat.sub_diag by lia. discriminate. }
  pose proof (@container_shown fid v1 w0 I0 (live_qext Q0 L) ND) as CS. destruct (container fid v1 w0) as (id, w1).
  destruct C as (I1 & Q1 & E1 & E2 & E3 & _).
  assert (OK1 : forall n b, In (n, VRef b) l -> nth_error (w_heap w1) b <> None).
  { intros n b J. specialize (OK n b (or_intror J)). destruct (nth_error (w_heap w) b) as [o|] eqn:N; [|congruence]. rewrite E1, (hext_nth _ X0 N). discriminate. }
  specialize (IH w1 I1 (live_qext Q1 (live_qext Q0 L)) OK1).
  pose proof (@list_children_spec py_repr type_name fid l w1 I1 (live_qext Q1 (live_qext Q0 L))) as LS.
  destruct (list_children py_repr type_name fid l w1) as (w2, infos). destruct IH as (N2 & F2). destruct LS as (_ & Q2 & X2 & _).
  split; [cbn; now rewrite N2|]. constructor.
  - cbn [snd]. apply (@shown_later _ _ w1 w2); auto. destruct (CS name v) as (V & T & K). split.
    + exists (w_heap w1). split; [rewrite E1; exact X0|]. split; [apply hext_refl|auto].
    + destruct AS as [(-> & H & _)|(a & dl & -> & N & -> & H)].
      * destruct v as [|b]; [exact K|]. rewrite H in K. destruct (nth_error (w_heap w) b) as [[? ?|? ?|dl]|] eqn:N; auto. exfalso. apply (ND b dl eq_refl). now rewrite H.
      * rewrite N. rewrite H, nth_error_app2, Nat.sub_diag in K by lia. cbn [nth_error] in K. destruct K as (K1 & K2 & K3). exists (length (w_heap w)).
        split; [apply nth_error_None; lia|]. split; auto. split; [rewrite E1, H, nth_error_app2, Nat.sub_diag by lia; reflexivity|]. split; auto. now rewrite K2, map_length.
  - clear -F2 OK X0 E1. assert (X : hext (w_heap w) (w_heap w1)) by (rewrite E1; exact X0).
    assert (OK' : forall e, In e l -> forall b, snd e = VRef b -> nth_error (w_heap w) b <> None) by (intros [n v'] J b Q; cbn in Q; subst; apply (OK n b); now right).
    clear OK. induction F2; constructor; [|apply IHF2; intros; eapply OK'; eauto; now right].
    eapply shown_earlier; eauto. apply OK'. now left.
Qed.
Lemma enum_nth l : forall k i v, nth_error l i = Some v -> nth_error (enum_from k l) i = Some (digits (N.of_nat (k + i)), v).
Proof.
  induction l as [|x l IH]; intros k [|i] v H; cbn in *; try discriminate; [injection H as <-; now rewrite Nat.add_0_r|].
  rewrite (IH (S k) i v H). now replace (k + S i)%nat with (S k + i)%nat by lia.
Qed.
Lemma enum_len l : forall k, length (enum_from k l) = length l.
Proof. induction l; intros; cbn; auto. Qed.
Lemma get_entries h v o es : nth_error h (v_ds v) = Some o -> fits (v_kind v) o -> entries o es -> var_get h v = es.
Proof.
  intros N F E. unfold var_get. rewrite N. destruct o as [l m|l m|l]; cbn in F, E; [subst; destruct (v_kind v); congruence|rewrite F|destruct F].
  destruct E as (LE & NE). apply (nth_ext _ _ ([], VPrim [] []) ([], VPrim [] [])); [now rewrite enum_len|].
  intros i H. rewrite enum_len in H. destruct (nth_error l i) as [x|] eqn:X; [|apply nth_error_None in X; lia].
  rewrite (nth_error_nth _ _ _ (enum_nth _ 0 _ X)). symmetry. apply nth_error_nth. exact (NE _ _ X).
Qed.

(** A variables request for a reference that stands for a mapping or sequence shows exactly
    its entries as they are now, in order. Nothing that exists is changed. (The values'
    references exist: there are no dangling references in Python.) *)
Theorem C77_variables : forall ls y seq ref fid k a o es, trace_wf ls -> run sys_init ls y -> pending y = [] -> has_strategy y = true ->
  stands_for (y_w y) ref fid k a -> nth_error (w_heap (y_w y)) a = Some o -> fits k o -> entries o es ->
  (forall n b, In (n, VRef b) es -> (b < length (w_heap (y_w y)))%nat) ->
  exists y' infos, step y (LReq seq (RVariables ref)) = Some y' /\
    d_out (w_dbg (y_w y')) = d_out (w_dbg (y_w y)) ++ [Some (OVars seq infos)] /\
    map vi_name infos = map fst es /\
    Forall2 (fun e i => shown (w_heap (y_w y)) fid (y_w y') (snd e) i) es infos /\
    longer (w_heap (y_w y)) (w_heap (y_w y')) /\ w_persist (y_w y') = w_persist (y_w y).
Proof.
  intros ls y seq ref fid k a o es W R P HS (NZ & V) N F E OK. pose proof (run_sinv W R) as S. pose proof (y_inv S) as I.
  assert (RC : y_recv y = None) by (unfold pending in P; destruct (y_recv y); [discriminate|auto]).
  cbn [SysModel.step]. rewrite RC, HS. cbn [needs_strategy andb negb before_strategy].
  assert (WW : wd (w_dbg (y_w y)) (y_w y) = y_w y) by (destruct (y_w y); reflexivity). rewrite WW. unfold SysModel.handle. cbn [process].
  unfold get_variables. rewrite V. cbn [v_frame]. rewrite (@get_entries (w_heap (y_w y)) (mkVar fid k a) o es N F E).
  destruct (i_v I _ V) as (_ & f & Hf & _).
  assert (OK' : forall n b, In (n, VRef b) es -> nth_error (w_heap (y_w y)) b <> None) by (intros n b J; apply nth_error_Some; eapply OK; eauto).
  pose proof (@list_shown fid es (y_w y) I (ex_intro _ f Hf) OK') as L. pose proof (@list_children_spec py_repr type_name fid es (y_w y) I (ex_intro _ f Hf)) as L2.
  destruct (list_children py_repr type_name fid es (y_w y)) as (w', infos). destruct L as (A & B). destruct L2 as (I' & Q & X & PE & O & _).
  cbn [reply]. do 2 eexists. split; [reflexivity|]. cbn. rewrite O. csplit; auto.
Qed.
(** A reference stands for the same object as long as its frame lives. *)
Theorem C77_references_stay : forall ls y ls2 y2 ref fid k a, trace_wf ls -> run sys_init ls y -> trace_wf ls2 -> run y ls2 y2 ->
  stands_for (y_w y) ref fid k a -> frame_lives fid y2 -> stands_for (y_w y2) ref fid k a.
Proof.
  intros ls y ls2 y2 ref fid k a W R W2 R2 (NZ & V) L. pose proof (run_sinv W R) as S.
  pose proof (@run_vrel py_int py_repr type_name tmpl tmpl_args err_text parse_repl ls2 y y2 S W2 R2) as VR.
  split; auto. apply (vr_keep VR _ V). now apply live_keys.
Qed.
(** The answer to a setVariable request shows the value that was stored. *)
Theorem C77_set : forall ls y seq ref name value y' i, trace_wf ls -> run sys_init ls y -> pending y = [] -> has_strategy y = true ->
  step y (LReq seq (RSetVariable ref name value)) = Some y' ->
  d_out (w_dbg (y_w y')) = d_out (w_dbg (y_w y)) ++ [Some (OSetVar seq i)] ->
  exists v f objs x, dget (w_vars (y_w y)) ref = Some v /\ dget (w_frames (y_w y)) (v_frame v) = Some f /\
    tmpl value (f_tv f) (w_heap (y_w y)) = Ok (objs, x) /\
    vi_value i = py_repr (w_heap (y_w y')) x /\ vi_type i = type_name (w_heap (y_w y')) x /\
    match x with
    | VPrim _ _ => vi_ref i = 0 /\ vi_named i = 0 /\ vi_indexed i = 0
    | VRef b =>
      match nth_error (w_heap (y_w y')) b with
      | Some (ODict l _) => stands_for (y_w y') (vi_ref i) (v_frame v) VKDict b /\ vi_named i = N.of_nat (length l) /\ vi_indexed i = 0
      | Some (OList l _) => stands_for (y_w y') (vi_ref i) (v_frame v) VKList b /\ vi_named i = 0 /\ vi_indexed i = N.of_nat (length l)
      | _ => vi_ref i = 0 /\ vi_named i = 0 /\ vi_indexed i = 0
      end
    end.
Proof.
  intros ls y seq ref name value y' i W R P HS E O. pose proof (run_sinv W R) as S. pose proof (y_inv S) as I.
  assert (RC : y_recv y = None) by (unfold pending in P; destruct (y_recv y); [discriminate|auto]).
  cbn [SysModel.step] in E. rewrite RC, HS in E. cbn [needs_strategy andb negb before_strategy] in E.
  assert (WW : wd (w_dbg (y_w y)) (y_w y) = y_w y) by (destruct (y_w y); reflexivity). rewrite WW in E. clear WW.
  unfold SysModel.handle in E. cbn [process] in E. set (w := y_w y) in *.
  unfold set_variable in E. destruct (dget (w_vars w) ref) as [v|] eqn:EV.
  2:{ exfalso. injection E as <-. cbn in O. apply app_inv_head in O. discriminate. }
  destruct (i_v I _ EV) as (_ & f & Hf & _). rewrite Hf in E.
  destruct (tmpl value (f_tv f) (w_heap w)) as [(objs, x)|e] eqn:T.
  2:{ exfalso. injection E as <-. cbn in O. apply app_inv_head in O. discriminate. }
  pose proof (@var_set_ss py_int v name x (wh (w_heap w ++ objs) w)) as (A & B).
  destruct (var_set py_int v name x (wh (w_heap w ++ objs) w)) as (w2, [u|e]); cbn [fst] in *.
  2:{ exfalso. injection E as <-. cbn in O. rewrite B in O. cbn in O. apply app_inv_head in O. discriminate. }
  assert (G : good w w2) by (apply good_ss; auto). destruct (G I) as (I2 & Q2).
  assert (L : live (v_frame v) w2) by (apply (live_qext Q2); exists f; auto).
  assert (K : let '(id, w') := container (v_frame v) x w2 in w_heap w' = w_heap w2 /\ d_out (w_dbg w') = d_out (w_dbg w2) /\
    let j := child_info py_repr type_name [] x w' id in
    match x with
    | VPrim _ _ => vi_ref j = 0 /\ vi_named j = 0 /\ vi_indexed j = 0
    | VRef b =>
      match nth_error (w_heap w2) b with
      | Some (ODict l _) => stands_for w' (vi_ref j) (v_frame v) VKDict b /\ vi_named j = N.of_nat (length l) /\ vi_indexed j = 0
      | Some (OList l _) => stands_for w' (vi_ref j) (v_frame v) VKList b /\ vi_named j = 0 /\ vi_indexed j = N.of_nat (length l)
      | _ => vi_ref j = 0 /\ vi_named j = 0 /\ vi_indexed j = 0
      end
    end).
  { pose proof (@container_spec py_repr type_name (v_frame v) x w2 I2 L) as C.
    destruct x as [tx ty|b]; [cbn; csplit; auto|]. destruct (nth_error (w_heap w2) b) as [o|] eqn:N.
    2:{ unfold container, container_kind. rewrite N. csplit; auto. }
    destruct o as [l m|l m|l].
    - assert (ND : forall b0 l0, VRef b = VRef b0 -> nth_error (w_heap w2) b0 <> Some (OData l0)) by (intros b0 l0 Q; injection Q as <-; congruence).
      pose proof (@container_shown (v_frame v) (VRef b) w2 I2 L ND) as CS. destruct (container (v_frame v) (VRef b) w2) as (id, w').
      destruct C as (_ & _ & E1 & _ & E3 & _). specialize (CS [] (VRef b)). rewrite N in CS. csplit; tauto.
    - assert (ND : forall b0 l0, VRef b = VRef b0 -> nth_error (w_heap w2) b0 <> Some (OData l0)) by (intros b0 l0 Q; injection Q as <-; congruence).
      pose proof (@container_shown (v_frame v) (VRef b) w2 I2 L ND) as CS. destruct (container (v_frame v) (VRef b) w2) as (id, w').
      destruct C as (_ & _ & E1 & _ & E3 & _). specialize (CS [] (VRef b)). rewrite N in CS. csplit; tauto.
    - unfold container, container_kind. rewrite N. csplit; auto. }
  destruct (container (v_frame v) x w2) as (id, w3). destruct K as (K1 & K2 & K). injection E as <-. cbn in O |- *.
  rewrite K2, B in O. cbn in O. apply app_inv_head in O. injection O as <-.
  exists v, f, objs, x. csplit; auto. destruct x as [|b]; [exact K|]. rewrite K1. destruct (nth_error (w_heap w2) b) as [[]|]; exact K.
Qed.
End S.

(** Non-vacuity: a stop whose task variables hold a list and a dataclass instance; the
    scopes are fetched, the task variables expanded, and one set to a list. *)
Definition view_heap : heap := demo_heap ++
  [ OData [(s "f", VPrim (s "1") (s "int"))];
    ODict [(kstr (s "hostvars"), VRef 2); (kstr (s "inventory_hostname"), VPrim (s "a") (s "str")); (kstr (s "vars"), VRef 4); (kstr (s "l"), VRef 5); (kstr (s "d"), VRef 7)] true ].
Definition view_stop : list label :=
  [ LConfig []; LReq 1 (RSetBreakpoints src_p [mkSB 3%Z None 0] false); LReq 3 RConfigurationDone;
    LPlay; LHeap view_heap; LInclude [(s "/p.yml", 3%Z, 1%Z)]; LStart (mkTS hostA t1 8 1 None (fun _ => CBool true));
    LReq 6 (RScopes 1) ].
Example view_wf : trace_wf view_stop.
Proof. unfold view_stop. wf. Qed.
Definition view_es : list (pystr * val) := [(s "hostvars", VRef 2); (s "inventory_hostname", VPrim (s "a") (s "str")); (s "vars", VRef 4); (s "l", VRef 5); (s "d", VRef 7)].
Example C77_variables_met : exists o infos y',
  let y := after view_stop in
  drun sys_init view_stop y /\ pending y = [] /\ has_strategy y = true /\ stands_for (y_w y) 2 1 VKDict 8 /\
  nth_error (w_heap (y_w y)) 8 = Some o /\ fits VKDict o /\ entries o view_es /\
  (forall n b, In (n, VRef b) view_es -> (b < length (w_heap (y_w y)))%nat) /\
  dstep y (LReq 7 (RVariables 2)) = Some y' /\ d_out (w_dbg (y_w y')) = d_out (w_dbg (y_w y)) ++ [Some (OVars 7 infos)] /\
  map (fun i => (vi_ref i, vi_named i, vi_indexed i)) infos = [(5, 1, 0); (0, 0, 0); (6, 2, 0); (7, 0, 2); (8, 1, 0)] /\
  frame_lives 1 y'.
Proof.
  do 3 eexists. cbv zeta. split; [apply after_run; vm_compute; discriminate|]. split; [vm_compute; reflexivity|]. split; [vm_compute; reflexivity|].
  split; [split; [discriminate|vm_compute; reflexivity]|]. split; [vm_compute; reflexivity|]. split; [discriminate|]. split; [vm_compute; reflexivity|].
  split. { intros n b H. cbn in H. replace (length (w_heap (y_w (after view_stop)))) with 11%nat by (vm_compute; reflexivity).
    repeat destruct H as [H|H]; try discriminate; try contradiction; injection H as <- <-; lia. }
  split; [vm_compute; reflexivity|]. split; [vm_compute; reflexivity|]. split; [vm_compute; reflexivity|]. apply live_keys. eexists. vm_compute. reflexivity.
Qed.
Example C77_set_met : exists i y', let y := after view_stop in
  dstep y (LReq 7 (RSetVariable 2 (s "n") (s "[]"))) = Some y' /\ d_out (w_dbg (y_w y')) = d_out (w_dbg (y_w y)) ++ [Some (OSetVar 7 i)] /\ vi_ref i = 5.
Proof. do 2 eexists. cbv zeta. split; [vm_compute; reflexivity|]. split; vm_compute; reflexivity. Qed.
Print Assumptions C77_variables.
Print Assumptions C77_references_stay.
Print Assumptions C77_set.
