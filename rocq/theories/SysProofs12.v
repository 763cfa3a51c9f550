(** [get_scopes] when the task's variables have the members Ansible always gives them. *)
From Verif Require Import PyBase PyDict DbgTypes BpModel BpSpec BpProofs2 BpProofs3 BpProps ThreadModel StratModel SysModel SysSpec SysProofs SysProofs2 SysProofs3 SysProofs4.
Set Implicit Arguments.
Local Open Scope N_scope.

Lemma amalgamate_get tv : forall (acc : dict key val) n,
  dget (amalgamate acc (map (fun kv => (k_txt (fst kv), snd kv)) tv)) (kstr n) =
    match dget acc (kstr n) with Some x => Some x | None => first_named n tv end /\
  forall t, dget (amalgamate acc (map (fun kv => (k_txt (fst kv), snd kv)) tv)) (mkKey false t) = dget acc (mkKey false t).
Proof.
  induction tv as [|(k, v) tv IH]; intros acc n; cbn [map amalgamate fold_left first_named find].
  - split; auto. destruct (dget acc (kstr n)); auto.
  - cbn [fst snd]. fold (amalgamate (if dhas acc (kstr (k_txt k)) then acc else dset acc (kstr (k_txt k)) v) (map (fun kv => (k_txt (fst kv), snd kv)) tv)).
    unfold dhas. destruct (dget acc (kstr (k_txt k))) as [x|] eqn:E.
    + destruct (IH acc n) as (A & B). split; auto. rewrite A. unfold first_named. cbn [find fst snd]. destruct (eqb_spec (k_txt k) n) as [<-|NE]; auto. now rewrite E.
    + destruct (IH (dset acc (kstr (k_txt k)) v) n) as (A & B). split.
      * rewrite A. rewrite dget_dset. unfold first_named. cbn [find fst snd]. destruct (eqb_spec (k_txt k) n) as [<-|NE].
        -- rewrite eqb_refl. rewrite E. reflexivity.
        -- destruct (eqb_spec (kstr (k_txt k)) (kstr n)) as [X|X]; auto. injection X as X. contradiction.
      * intros t. rewrite B. rewrite dget_dset. destruct (eqb_spec (kstr (k_txt k)) (mkKey false t)) as [X|X]; auto. discriminate.
Qed.

Section H.
Variable tmpl_args : nat -> nat -> heap -> res (list obj * val).

Lemma get_scopes_ok seq fid w f ta tv name mine ga : WInv w -> dget (w_frames w) fid = Some f -> task_env tmpl_args (w_heap w) f ta tv name mine ga ->
  exists w' pre o1 o2 o3 o4 ha am, get_scopes tmpl_args seq fid w = (w', Ok (OScopes seq (pre ++ [o1; o2; o3; o4]))) /\
  WInv w' /\ qext w w' /\ d_out (w_dbg w') = d_out (w_dbg w) /\ w_persist w' = w_persist w /\ hext (w_heap w) (w_heap w') /\ w_threads w' = w_threads w /\
      map si_name [o1; o2; o3; o4] = [s "Module Options"; s "Task Variables"; s "Host Variables"; s "Global Variables"] /\
      new_ref fid w w' (si_ref o1) (mkVar fid (VKRaw (f_args f)) ta) /\
      new_ref fid w w' (si_ref o2) (mkVar fid VKDict (f_tv f)) /\
      new_ref fid w w' (si_ref o3) (mkVar fid (VKHost name) ha) /\
      nth_error (w_heap w') ha = Some (ODict am true) /\ (length (w_heap w) <= ha)%nat /\
      (forall n, dget am (kstr n) = match dget mine (kstr n) with Some x => Some x | None => first_named n tv end) /\
      (forall t, dget am (mkKey false t) = dget mine (mkKey false t)) /\
      (exists k, new_ref fid w w' (si_ref o4) (mkVar fid k ga) /\ (k = VKDict \/ k = VKList) /\ (forall l m, nth_error (w_heap w) ga = Some (ODict l m) -> k = VKDict)) /\
      si_ref o1 < si_ref o2 < si_ref o3 /\ si_ref o3 < si_ref o4 /\
      (exists f', dget (w_frames w') fid = Some f' /\ f_options f' = si_ref o1 /\ f_taskvar f' = si_ref o2 /\ f_hostvars f' = si_ref o3 /\ f_result f' = f_result f) /\
      ((f_result f = 0 /\ pre = []) \/
       (f_result f <> 0 /\ exists p pv, pre = [p] /\ si_name p = s "Module Result" /\ si_ref p = f_result f /\
          dget (w_vars w) (f_result f) = Some pv /\ v_frame pv = fid)).
Proof.
  intros I Hf ((objs & TA) & (m & TV) & (hva & hvs & m1 & HV1 & HV2 & (ty & NM) & (ma & m2 & MI1 & MI2)) & GA). unfold get_scopes. rewrite Hf, TA. cbn [addr_of].
  set (w1 := wh (w_heap w ++ objs) w).
  destruct (@good_heap (w_heap w ++ objs) w I) as (I1 & Q1). fold w1 in I1, Q1.
  assert (X1 : hext (w_heap w) (w_heap w1)) by (cbn; auto).
  pose proof (@add_scope fid (VKRaw (f_args f)) ta f_with_options w1 f I1 Hf ss_options) as A2.
  destruct (add_var fid (VKRaw (f_args f)) ta w1) as (oid, w2a).
  set (w2 := match dget (w_frames w2a) fid with Some f2 => set_frame (f_with_options oid f2) w2a | None => w2a end) in *. cbv zeta in A2.
  clearbody w2. destruct A2 as (I2 & Q2 & R2 & E2 & P2 & O2 & _ & F2 & _ & T2).
  assert (TV2 : nth_error (w_heap w2) (f_tv f) = Some (ODict tv m)) by (rewrite E2; exact (hext_nth _ X1 TV)).
  set (f2 := f_with_options oid (f_with_vars (f_vars f ++ [oid]) f)) in *.
  assert (TK : match container_kind (w_heap w2) (VRef (f_tv f)) with Some k => k | None => VKList end = VKDict) by (unfold container_kind; now rewrite TV2).
  rewrite TK. clear TK. set (tvk := VKDict).
  pose proof (@add_scope fid tvk (f_tv f) f_with_taskvar w2 f2 I2 F2 ss_taskvar) as A3.
  destruct (add_var fid tvk (f_tv f) w2) as (tid, w3a).
  set (w3 := match dget (w_frames w3a) fid with Some f3 => set_frame (f_with_taskvar tid f3) w3a | None => w3a end) in *. cbv zeta in A3.
  clearbody w3. destruct A3 as (I3 & Q3 & R3 & E3 & P3 & O3 & _ & F3 & _ & T3).
  set (f3 := f_with_taskvar tid (f_with_vars (f_vars f2 ++ [tid]) f2)) in *.
  assert (Q13 : qext w w3) by (eapply qext_trans; [|exact Q3]; eapply qext_trans; [|exact Q2]; exact Q1).
  assert (X3 : hext (w_heap w) (w_heap w3)) by (rewrite E3, E2; exact X1).
  assert (G1 : forall a l (mm : bool) k, nth_error (w_heap w) a = Some (ODict l mm) -> obj_getitem (w_heap w3) (VRef a) k = match dget l k with Some x => Ok x | None => Err KeyError end).
  { intros a l mm k HA. unfold obj_getitem. now rewrite (hext_nth _ X3 HA). }
  rewrite (G1 _ _ _ _ TV), HV1. cbn [bind]. rewrite (G1 _ _ _ _ TV), NM. cbn [bind prim_text]. rewrite (G1 _ _ _ _ HV2), MI1. cbn [bind].
  unfold obj_items at 1. rewrite (hext_nth _ X3 MI2). cbn [bind]. set (items := mine).
  set (tvv := match dget (w_vars w3) tid with Some v => v | None => _ end).
  set (am := amalgamate items (var_get (w_heap w3) tvv)).
  set (w4 := wh (w_heap w3 ++ [ODict am true]) w3).
  destruct (@good_heap (w_heap w3 ++ [ODict am true]) w3 I3) as (I4 & Q4). fold w4 in I4, Q4.
  pose proof (@add_scope fid (VKHost name) (length (w_heap w3)) f_with_hostvars w4 f3 I4 F3 ss_hostvars) as A5.
  destruct (add_var fid (VKHost name) (length (w_heap w3)) w4) as (hid, w5a).
  set (w5 := match dget (w_frames w5a) fid with Some f5 => set_frame (f_with_hostvars hid f5) w5a | None => w5a end) in *. cbv zeta in A5.
  clearbody w5. destruct A5 as (I5 & Q5 & R5 & E5 & P5 & O5 & _ & F5 & _ & T5).
  set (f5 := f_with_hostvars hid (f_with_vars (f_vars f3 ++ [hid]) f3)) in *.
  assert (Q15 : qext w w5) by (eapply qext_trans; [exact Q13|]; eapply qext_trans; [exact Q4|exact Q5]).
  assert (X5 : hext (w_heap w) (w_heap w5)).
  { rewrite E5. cbn. rewrite E3, E2. eapply hext_trans; [exact X1|]. auto. }
  assert (OUT5 : d_out (w_dbg w5) = d_out (w_dbg w)) by (rewrite O5; cbn; rewrite O3, O2; reflexivity).
  assert (PER5 : w_persist w5 = w_persist w) by (rewrite P5; cbn; rewrite P3, P2; reflexivity).
  assert (G5 : obj_getitem (w_heap w5) (VRef (f_tv f)) (kstr (s "vars")) = Ok (VRef ga)).
  { unfold obj_getitem. now rewrite (hext_nth _ X5 TV), GA. }
  rewrite G5. cbn [bind addr_of].
  set (gk := match container_kind (w_heap w5) (VRef ga) with Some k => k | None => VKList end).
  assert (GK : (gk = VKDict \/ gk = VKList) /\ (forall l m, nth_error (w_heap w) ga = Some (ODict l m) -> gk = VKDict)).
  { subst gk. unfold container_kind. split; [destruct (nth_error (w_heap w5) ga) as [[]|]; auto|]. intros l0 m0 GE. now rewrite (hext_nth _ X5 GE). }
  clearbody gk.
  pose proof (@add_var_new fid gk ga w5 I5 (ex_intro _ f5 F5)) as A6. destruct (add_var fid gk ga w5) as (gid, w6).
  destruct A6 as (I6 & Q6 & R6 & E6 & P6 & T6 & O6 & F6 & _). specialize (F6 _ F5). rewrite F6. cbn [f_result f_with_vars].
  assert (RS : f_result f5 = f_result f) by reflexivity. rewrite RS.
  assert (Q16 : qext w w6) by (eapply qext_trans; eauto).
  assert (N2 : new_ref fid w w6 oid (mkVar fid (VKRaw (f_args f)) ta)).
  { eapply new_ref_later; [exact Q1|]. eapply new_ref_ext; [|exact R2].
    eapply qext_trans; [exact Q3|]. eapply qext_trans; [exact Q4|]. eapply qext_trans; [exact Q5|exact Q6]. }
  assert (N3 : new_ref fid w w6 tid (mkVar fid tvk (f_tv f))).
  { eapply new_ref_later; [eapply qext_trans; [exact Q1|exact Q2]|]. eapply new_ref_ext; [|exact R3].
    eapply qext_trans; [exact Q4|]. eapply qext_trans; [exact Q5|exact Q6]. }
  assert (N5 : new_ref fid w w6 hid (mkVar fid (VKHost name) (length (w_heap w3)))).
  { eapply new_ref_later; [eapply qext_trans; [exact Q13|exact Q4]|]. eapply new_ref_ext; [exact Q6|exact R5]. }
  assert (N6 : new_ref fid w w6 gid (mkVar fid gk ga)).
  { eapply new_ref_later; [exact Q15|exact R6]. }
  assert (L23 : oid < tid) by (destruct R2 as ((_ & ?) & _), R3 as ((? & _) & _); lia).
  assert (L35 : tid < hid).
  { destruct R3 as ((_ & ?) & _), R5 as ((? & _) & _). pose proof (qext_dvar Q4). lia. }
  assert (L56 : hid < gid) by (destruct R5 as ((_ & ?) & _), R6 as ((? & _) & _); lia).
  assert (SC : forall nm id v, new_ref fid w w6 id v -> scope_ok fid w w6 (scope_of w6 nm id) v /\ si_name (scope_of w6 nm id) = nm /\ si_ref (scope_of w6 nm id) = id).
  { intros nm id v N. destruct N as (B1 & B2 & B3). unfold scope_of, scope_ok, new_ref. rewrite B2. cbn. csplit; auto; lia. }
  destruct (SC (s "Module Options") _ _ N2) as (S1 & S1n & S1r). destruct (SC (s "Task Variables") _ _ N3) as (S2 & S2n & S2r).
  destruct (SC (s "Host Variables") _ _ N5) as (S3 & S3n & S3r). destruct (SC (s "Global Variables") _ _ N6) as (S4 & S4n & S4r).
  assert (NAMES : map si_name [scope_of w6 (s "Module Options") oid; scope_of w6 (s "Task Variables") tid; scope_of w6 (s "Host Variables") hid; scope_of w6 (s "Global Variables") gid]
    = [s "Module Options"; s "Task Variables"; s "Host Variables"; s "Global Variables"]) by (cbn [map]; rewrite S1n, S2n, S3n, S4n; reflexivity).
  assert (X6 : hext (w_heap w) (w_heap w6)) by (rewrite E6; exact X5).
  assert (OUT6 : d_out (w_dbg w6) = d_out (w_dbg w)) by congruence.
  assert (PER6 : w_persist w6 = w_persist w) by congruence.
  assert (TV3 : dget (w_vars w3) tid = Some (mkVar fid tvk (f_tv f))) by apply R3.
  assert (AM : am = amalgamate mine (map (fun kv => (k_txt (fst kv), snd kv)) tv)).
  { subst am tvv. rewrite TV3. unfold var_get. cbn [v_kind v_ds]. subst tvk. rewrite (hext_nth _ X3 TV). reflexivity. }
  assert (HA : nth_error (w_heap w6) (length (w_heap w3)) = Some (ODict am true)).
  { rewrite E6, E5. cbn [w_heap w4 wh]. rewrite nth_error_app2, Nat.sub_diag; [reflexivity|auto]. }
  assert (HL : (length (w_heap w) <= length (w_heap w3))%nat) by (destruct X3 as (lx & ->); rewrite app_length; lia).
  assert (TH : w_threads w6 = w_threads w) by (rewrite T6, T5; change (w_threads w4) with (w_threads w3); rewrite T3, T2; reflexivity).
  destruct (N.eqb_spec (f_result f) 0) as [Z|NZ].
  - do 2 eexists. do 4 eexists. exists (length (w_heap w3)), am. split; [rewrite <- (app_nil_l [_;_;_;_]) at 1; reflexivity|].
    split; auto. split; auto. split; auto. split; auto. split; auto. split; auto. split; [exact NAMES|]. rewrite S1r, S2r, S3r, S4r.
    split; auto. split; auto. split; auto. split; auto. split; auto.
    split. { intros n. rewrite AM. apply amalgamate_get. }
    split. { intros t. rewrite AM. now apply (amalgamate_get tv mine t). }
    split; [eauto|]. split; auto. split; auto. split; auto. eexists. split; [exact F6|]. csplit; auto.
  - destruct (i_f I _ Hf) as (_ & _ & _ & _ & _ & _ & [HR|HR]); [congruence|].
    destruct (i_fv I _ _ Hf HR) as (pv & PV & PF). pose proof (q_v Q16 _ PV) as PV6. rewrite PV6.
    exists w6, [scope_of w6 (s "Module Result") (f_result f)]. do 4 eexists. exists (length (w_heap w3)), am. split; [reflexivity|].
    split; auto. split; auto. split; auto. split; auto. split; auto. split; auto. split; [exact NAMES|]. rewrite S1r, S2r, S3r, S4r.
    split; auto. split; auto. split; auto. split; auto. split; auto.
    split. { intros n. rewrite AM. apply amalgamate_get. }
    split. { intros t. rewrite AM. now apply (amalgamate_get tv mine t). }
    split; [eauto|]. split; auto. split; auto. split; auto. { eexists. split; [exact F6|]. csplit; auto. }
    right. split; auto. exists (scope_of w6 (s "Module Result") (f_result f)), pv. unfold scope_of. rewrite PV6. cbn. csplit; auto.
Qed.
End H.
