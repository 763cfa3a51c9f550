(** [get_scopes], and all requests together. *)
From Verif Require Import PyBase PyDict DbgTypes BpModel BpSpec BpProofs2 BpProofs3 BpProps ThreadModel StratModel SysModel SysProofs SysProofs2 SysProofs3.
Set Implicit Arguments.
Local Open Scope N_scope.

Definition scope_setter (g : N -> Frame -> Frame) : Prop := forall id f,
  f_id (g id f) = f_id f /\ f_task (g id f) = f_task f /\ f_tv (g id f) = f_tv f /\ f_args (g id f) = f_args f /\ f_vars (g id f) = f_vars f /\
  (f_options (g id f) = f_options f \/ f_options (g id f) = id) /\ (f_taskvar (g id f) = f_taskvar f \/ f_taskvar (g id f) = id) /\
  (f_hostvars (g id f) = f_hostvars f \/ f_hostvars (g id f) = id) /\ (f_result (g id f) = f_result f \/ f_result (g id f) = id).
Lemma ss_options : scope_setter f_with_options. Proof. intros id f. cbn. intuition auto. Qed.
Lemma ss_taskvar : scope_setter f_with_taskvar. Proof. intros id f. cbn. intuition auto. Qed.
Lemma ss_hostvars : scope_setter f_with_hostvars. Proof. intros id f. cbn. intuition auto. Qed.
Lemma ss_result : scope_setter f_with_result. Proof. intros id f. cbn. intuition auto. Qed.

Lemma add_scope fid k ds g w f : WInv w -> dget (w_frames w) fid = Some f -> scope_setter g ->
  let '(id, w2) := add_var fid k ds w in
  let w' := match dget (w_frames w2) fid with Some f2 => set_frame (g id f2) w2 | None => w2 end in
  WInv w' /\ qext w w' /\ new_ref fid w w' id (mkVar fid k ds) /\ w_heap w' = w_heap w /\ w_persist w' = w_persist w /\
  d_out (w_dbg w') = d_out (w_dbg w) /\ w_vars w' = w_vars w2 /\
  dget (w_frames w') fid = Some (g id (f_with_vars (f_vars f ++ [id]) f)) /\
  (forall x, x <> fid -> dget (w_frames w') x = dget (w_frames w) x) /\ w_threads w' = w_threads w.
Proof.
  intros I Hf G. pose proof (@add_var_new fid k ds w I (ex_intro _ f Hf)) as A. destruct (add_var fid k ds w) as (id, w2).
  destruct A as (I2 & Q2 & R & E1 & E2 & E3 & E4 & E5 & E6). specialize (E5 _ Hf).
  set (f2 := f_with_vars (f_vars f ++ [id]) f) in *. rewrite E5.
  destruct (i_f I _ Hf) as (F1 & _). destruct (G id f2) as (G1 & G2 & G3 & G4 & G5 & G6 & G7 & G8 & G9).
  assert (Gd : good w2 (set_frame (g id f2) w2)).
  { apply (@good_set_frame w2 f2 (g id f2)); auto.
    - change (f_id f2) with (f_id f). rewrite F1. exact E5.
    - intros _. destruct (i_f I2 _ E5) as (_ & _ & _ & O1 & O2 & O3 & O4).
      assert (Iid : In id (f_vars f2)) by (cbn; apply in_or_app; right; now left).
      repeat split.
      + destruct G6 as [->| ->]; auto.
      + destruct G7 as [->| ->]; auto.
      + destruct G8 as [->| ->]; auto.
      + destruct G9 as [->| ->]; auto. }
  destruct (Gd I2) as (I3 & Q3). assert (FID : f_id (g id f2) = fid) by (rewrite G1; exact F1).
  split; auto. split; [eapply qext_trans; eauto|]. split; [exact (new_ref_ext Q3 R)|]. csplit; auto.
  - unfold set_frame. cbn -[dset dget]. rewrite FID. apply dget_dset_same.
  - intros x Hx. unfold set_frame. cbn -[dset dget]. rewrite FID. rewrite dget_dset_other by auto. now apply E6.
Qed.

(** The scope is that of a new entry. *)
Definition scope_ok (fid : N) (w w' : World) (sc : ScopeInfo) (v : Var) : Prop :=
  new_ref fid w w' (si_ref sc) v /\ si_named sc = var_named (w_heap w') v /\ si_indexed sc = var_indexed (w_heap w') v.

Section H.
Variable tmpl_args : nat -> nat -> heap -> res (list obj * val).

Lemma get_scopes_spec seq fid w : WInv w ->
  let '(w', r) := get_scopes tmpl_args seq fid w in
  WInv w' /\ qext w w' /\ d_out (w_dbg w') = d_out (w_dbg w) /\ w_persist w' = w_persist w /\ hext (w_heap w) (w_heap w') /\
  (dget (w_frames w) fid = None -> w' = w /\ r = Err KeyError) /\
  match r with
  | Ok o => exists f o1 o2 o3 o4 v1 v2 v3 v4 pre,
      dget (w_frames w) fid = Some f /\ o = OScopes seq (pre ++ [o1; o2; o3; o4]) /\
      map si_name [o1; o2; o3; o4] = [s "Module Options"; s "Task Variables"; s "Host Variables"; s "Global Variables"] /\
      scope_ok fid w w' o1 v1 /\ scope_ok fid w w' o2 v2 /\ scope_ok fid w w' o3 v3 /\ scope_ok fid w w' o4 v4 /\
      si_ref o1 < si_ref o2 < si_ref o3 /\ si_ref o3 < si_ref o4 /\
      v_kind v1 = VKRaw (f_args f) /\ v_ds v2 = f_tv f /\ (exists h, v_kind v3 = VKHost h) /\
      ((f_result f = 0 /\ pre = []) \/
       (f_result f <> 0 /\ exists p pv, pre = [p] /\ si_name p = s "Module Result" /\ si_ref p = f_result f /\
          dget (w_vars w) (f_result f) = Some pv /\ v_frame pv = fid /\ si_named p = var_named (w_heap w') pv /\ si_indexed p = var_indexed (w_heap w') pv))
  | Err _ => True
  end.
Proof.
  intros I. unfold get_scopes. destruct (dget (w_frames w) fid) as [f|] eqn:Hf.
  2:{ csplit; auto using qext_refl. }
  destruct (tmpl_args (f_args f) (f_tv f) (w_heap w)) as [(objs, targs)|e].
  2:{ csplit; auto using qext_refl. discriminate. }
  destruct (addr_of targs) as [ta|e].
  2:{ csplit; auto using qext_refl. discriminate. }
  set (w1 := wh (w_heap w ++ objs) w).
  destruct (@good_heap (w_heap w ++ objs) w I) as (I1 & Q1). fold w1 in I1, Q1.
  assert (X1 : hext (w_heap w) (w_heap w1)) by (cbn; auto).
  pose proof (@add_scope fid (VKRaw (f_args f)) ta f_with_options w1 f I1 Hf ss_options) as A2.
  destruct (add_var fid (VKRaw (f_args f)) ta w1) as (oid, w2a).
  set (w2 := match dget (w_frames w2a) fid with Some f2 => set_frame (f_with_options oid f2) w2a | None => w2a end) in *. cbv zeta in A2.
  clearbody w2. destruct A2 as (I2 & Q2 & R2 & E2 & P2 & O2 & _ & F2 & _ & _).
  set (f2 := f_with_options oid (f_with_vars (f_vars f ++ [oid]) f)) in *.
  set (tvk := match container_kind (w_heap w2) (VRef (f_tv f)) with Some k => k | None => VKList end).
  pose proof (@add_scope fid tvk (f_tv f) f_with_taskvar w2 f2 I2 F2 ss_taskvar) as A3.
  destruct (add_var fid tvk (f_tv f) w2) as (tid, w3a).
  set (w3 := match dget (w_frames w3a) fid with Some f3 => set_frame (f_with_taskvar tid f3) w3a | None => w3a end) in *. cbv zeta in A3.
  clearbody w3. destruct A3 as (I3 & Q3 & R3 & E3 & P3 & O3 & _ & F3 & _ & _).
  set (f3 := f_with_taskvar tid (f_with_vars (f_vars f2 ++ [tid]) f2)) in *.
  assert (Q13 : qext w w3) by (eapply qext_trans; [|exact Q3]; eapply qext_trans; [|exact Q2]; exact Q1).
  match goal with |- context [bind ?a ?b] => destruct (bind a b) as [(name, items)|e] end.
  2:{ csplit; auto; try congruence; try (rewrite E3, E2; exact X1); [rewrite O3, O2|rewrite P3, P2]; auto. }
  set (tvv := match dget (w_vars w3) tid with Some v => v | None => _ end).
  set (am := amalgamate items (var_get (w_heap w3) tvv)).
  set (w4 := wh (w_heap w3 ++ [ODict am true]) w3).
  destruct (@good_heap (w_heap w3 ++ [ODict am true]) w3 I3) as (I4 & Q4). fold w4 in I4, Q4.
  pose proof (@add_scope fid (VKHost name) (length (w_heap w3)) f_with_hostvars w4 f3 I4 F3 ss_hostvars) as A5.
  destruct (add_var fid (VKHost name) (length (w_heap w3)) w4) as (hid, w5a).
  set (w5 := match dget (w_frames w5a) fid with Some f5 => set_frame (f_with_hostvars hid f5) w5a | None => w5a end) in *. cbv zeta in A5.
  clearbody w5. destruct A5 as (I5 & Q5 & R5 & E5 & P5 & O5 & _ & F5 & _ & _).
  set (f5 := f_with_hostvars hid (f_with_vars (f_vars f3 ++ [hid]) f3)) in *.
  assert (Q15 : qext w w5) by (eapply qext_trans; [exact Q13|]; eapply qext_trans; [exact Q4|exact Q5]).
  assert (X5 : hext (w_heap w) (w_heap w5)).
  { rewrite E5. cbn. rewrite E3, E2. eapply hext_trans; [exact X1|]. auto. }
  assert (OUT5 : d_out (w_dbg w5) = d_out (w_dbg w)) by (rewrite O5; cbn; rewrite O3, O2; reflexivity).
  assert (PER5 : w_persist w5 = w_persist w) by (rewrite P5; cbn; rewrite P3, P2; reflexivity).
  match goal with |- context [bind ?a ?b] => destruct (bind a b) as [(ga, gk)|e] end.
  2:{ csplit; auto; congruence. }
  pose proof (@add_var_new fid gk ga w5 I5 (ex_intro _ f5 F5)) as A6. destruct (add_var fid gk ga w5) as (gid, w6).
  destruct A6 as (I6 & Q6 & R6 & E6 & P6 & _ & O6 & F6 & _). specialize (F6 _ F5). rewrite F6. cbn [f_result f_with_vars].
  assert (RS : f_result f5 = f_result f) by reflexivity. rewrite RS.
  assert (Q16 : qext w w6) by (eapply qext_trans; eauto).
  assert (N2 : new_ref fid w w6 oid (mkVar fid (VKRaw (f_args f)) ta)).
  { eapply new_ref_later; [exact Q1|]. eapply new_ref_ext; [|exact R2].
    eapply qext_trans; [exact Q3|]. eapply qext_trans; [exact Q4|]. eapply qext_trans; [exact Q5|exact Q6]. }
  assert (N3 : new_ref fid w w6 tid (mkVar fid tvk (f_tv f))).
  { eapply new_ref_later; [eapply qext_trans; [exact Q1|exact Q2]|]. eapply new_ref_ext; [|exact R3].
    eapply qext_trans; [exact Q4|]. eapply qext_trans; [exact Q5|exact Q6]. }
  assert (N5 : new_ref fid w w6 hid (mkVar fid (VKHost name) (length (w_heap w3)))).
  { eapply new_ref_later; [eapply qext_trans; [exact Q13|exact Q4]|]. eapply new_ref_ext; [exact Q6|exact R5]. }
  assert (N6 : new_ref fid w w6 gid (mkVar fid gk ga)).
  { eapply new_ref_later; [exact Q15|exact R6]. }
  assert (L23 : oid < tid) by (destruct R2 as ((_ & ?) & _), R3 as ((? & _) & _); lia).
  assert (L35 : tid < hid).
  { destruct R3 as ((_ & ?) & _), R5 as ((? & _) & _). pose proof (qext_dvar Q4). lia. }
  assert (L56 : hid < gid) by (destruct R5 as ((_ & ?) & _), R6 as ((? & _) & _); lia).
  assert (SC : forall nm id v, new_ref fid w w6 id v -> scope_ok fid w w6 (scope_of w6 nm id) v /\ si_name (scope_of w6 nm id) = nm /\ si_ref (scope_of w6 nm id) = id).
  { intros nm id v N. destruct N as (B1 & B2 & B3). unfold scope_of, scope_ok, new_ref. rewrite B2. cbn. csplit; auto; lia. }
  destruct (SC (s "Module Options") _ _ N2) as (S1 & S1n & S1r). destruct (SC (s "Task Variables") _ _ N3) as (S2 & S2n & S2r).
  destruct (SC (s "Host Variables") _ _ N5) as (S3 & S3n & S3r). destruct (SC (s "Global Variables") _ _ N6) as (S4 & S4n & S4r).
  assert (NAMES : map si_name [scope_of w6 (s "Module Options") oid; scope_of w6 (s "Task Variables") tid; scope_of w6 (s "Host Variables") hid; scope_of w6 (s "Global Variables") gid]
    = [s "Module Options"; s "Task Variables"; s "Host Variables"; s "Global Variables"]) by (cbn [map]; rewrite S1n, S2n, S3n, S4n; reflexivity).
  assert (X6 : hext (w_heap w) (w_heap w6)) by (rewrite E6; exact X5).
  assert (OUT6 : d_out (w_dbg w6) = d_out (w_dbg w)) by congruence.
  assert (PER6 : w_persist w6 = w_persist w) by congruence.
  destruct (N.eqb_spec (f_result f) 0) as [Z|NZ].
  - csplit; auto; try congruence. do 9 eexists. exists []. split; [reflexivity|]. split; [reflexivity|]. split; [exact NAMES|].
    split; [exact S1|]. split; [exact S2|]. split; [exact S3|]. split; [exact S4|]. rewrite S1r, S2r, S3r, S4r.
    csplit; auto. eexists; reflexivity.
  - destruct (i_f I _ Hf) as (_ & _ & _ & _ & _ & _ & [HR|HR]); [congruence|].
    destruct (i_fv I _ _ Hf HR) as (pv & PV & PF). pose proof (q_v Q16 _ PV) as PV6. rewrite PV6.
    csplit; auto; try congruence. do 9 eexists. exists [scope_of w6 (s "Module Result") (f_result f)].
    split; [reflexivity|]. split; [reflexivity|]. split; [exact NAMES|].
    split; [exact S1|]. split; [exact S2|]. split; [exact S3|]. split; [exact S4|]. rewrite S1r, S2r, S3r, S4r.
    csplit; auto. { eexists; reflexivity. }
    right. split; auto. exists (scope_of w6 (s "Module Result") (f_result f)), pv. unfold scope_of. rewrite PV6. cbn. csplit; auto.
Qed.
End H.
