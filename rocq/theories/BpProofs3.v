(** Histories keep the invariant; consequences. *)
From Verif Require Import PyBase PyDict DbgTypes BpModel BpSpec BpProofs BpProofs2.
From Coq Require Import ZifyBool ZifyNat ZifyN.
Set Implicit Arguments.
Local Open Scope Z_scope.

Lemma Forall2_In_r {A B} (R : A -> B -> Prop) l l' y : Forall2 R l l' -> In y l' -> exists x, In x l /\ R x y.
Proof.
  induction 1 as [|a b l l' H F IH]; cbn; [contradiction|].
  intros [<-|HI]; [exists a; auto|]. destruct (IH HI) as (x & Hx & HR). exists x; auto.
Qed.
Lemma Forall2_In_l {A B} (R : A -> B -> Prop) l l' x : Forall2 R l l' -> In x l -> exists y, In y l' /\ R x y.
Proof.
  induction 1 as [|a b l l' H F IH]; cbn; [contradiction|].
  intros [<-|HI]; [exists b; auto|]. destruct (IH HI) as (y & Hy & HR). exists y; auto.
Qed.
Lemma NoDup_key_eq {K V} (d : dict K V) k v v' : NoDup (dkeys d) -> In (k, v) d -> In (k, v') d -> v = v'.
Proof.
  induction d as [|(a, b) d IH]; cbn; [contradiction|]. intros ND H H'.
  inversion ND as [|? ? N1 N2]; subst.
  destruct H as [H|H], H' as [H'|H'].
  - congruence.
  - injection H as -> ->. exfalso. apply N1. now apply (in_map fst) in H'.
  - injection H' as -> ->. exfalso. apply N1. now apply (in_map fst) in H.
  - eauto.
Qed.

Lemma reg_ok d ops path line typ : binv d ops -> 0 <= line ->
  exists d', register_path_breakpoint path line typ d = (d', Ok tt) /\ binv d' (ops ++ [BReg path line typ]).
Proof.
  intros I Hl. unfold register_path_breakpoint.
  set (h := regs_of path ops).
  set (fl0 := match dget (d_src d) path with Some l => l | None => [Some 0] end).
  assert (R0 : rep fl0 h).
  { subst fl0 h. pose proof (bi_src I path) as B. destruct (dget (d_src d) path); cbn in B; [tauto|].
    rewrite B. apply rep_init. }
  destruct (register_rep typ R0 Hl) as (fl2 & E2 & R2). fold (lenZ fl0). rewrite E2.
  set (h2 := h ++ [(line, typ)]) in *.
  assert (NE : h2 <> []) by (unfold h2; destruct h; discriminate).
  destruct (@refresh_spec path fl2 h2 (d_bps d) (d_bps d) R2 NE) as (bps' & ev & ER & F & G & ND); auto.
  { intros k b HI _. apply (bi_bp I) in HI. tauto. }
  rewrite ER. eexists. split; [reflexivity|].
  destruct (queue_all_same (map OBpEvent ev) (set_bps bps' (set_src (dset (d_src d) path fl2) d)))
    as (Q1 & Q2 & Q3 & _).
  assert (RG : forall p, regs_of p (ops ++ [BReg path line typ]) = if list_eq_dec N.eq_dec path p then h2 else regs_of p ops).
  { intros p. rewrite regs_of_snoc. destruct (list_eq_dec N.eq_dec path p) as [<-|]; [reflexivity|apply app_nil_r]. }
  assert (KEYS : dkeys bps' = dkeys (d_bps d)).
  { unfold dkeys. revert F. clear. induction 1 as [|x y l l' H F IH]; cbn; [reflexivity|]. rewrite IH. f_equal. tauto. }
  assert (NDev : NoDup (map bp_id ev)).
  { apply ND. replace (map (fun kb => lb_id (snd kb)) (d_bps d)) with (dkeys (d_bps d)); [apply (bi_nodup I)|].
    apply map_ext_in. intros (k, b) HI. apply (bi_bp I) in HI. cbn. symmetry. tauto. }
  split.
  - rewrite Q1. cbn [d_bps set_bps]. rewrite KEYS. apply (bi_nodup I).
  - intros p. rewrite Q3, RG. cbn [d_src set_bps set_src]. rewrite dget_dset.
    destruct (list_eq_dec N.eq_dec path p) as [<-|N].
    + rewrite eqb_refl. cbn. auto.
    + apply (eqb_neq path p) in N. rewrite N. apply (bi_src I).
  - rewrite Q2, queue_all_out, flat_map_app, told_events. cbn [d_out set_bps set_src d_bpctr].
    intros b HI. apply in_app_or in HI. destruct HI as [HI|HI]; [now apply (bi_told I)|].
    destruct (G _ HI) as ((k, lb) & K1 & K2 & _). apply (bi_bp I) in K1. cbn in K2. rewrite K2.
    destruct K1 as (-> & _ & K & _). exact K.
  - rewrite Q1, Q2, queue_all_out. cbn [d_out set_bps set_src d_bpctr d_bps]. intros k b' HI.
    destruct (@Forall2_In_r _ _ _ _ _ _ F HI) as ((k0, b) & HI0 & X). cbn [fst snd] in X.
    destruct X as (<- & X1 & X2 & X3 & X4 & X5 & X).
    destruct (bi_bp I _ _ HI0) as (A1 & A2 & A3 & A4 & A5 & A6 & A7).
    rewrite X1, X2, X3, X4. split; [auto|]. 
    assert (BID : bp_id (lb_bp b') = k).
    { destruct X as [(-> & _)|(_ & _ & _ & X & _)]; congruence. }
    assert (NDK : NoDup (dkeys bps')) by (rewrite KEYS; apply (bi_nodup I)).
    split; [exact BID|]. split; [exact A3|].
    split. { destruct X as [(-> & _)|(_ & _ & _ & _ & X)]; congruence. }
    split; [exact A5|]. split.
    + rewrite last_told_app.
      destruct (in_dec N.eq_dec k (map bp_id ev)) as [IE|NI].
      * apply in_map_iff in IE. destruct IE as (b0 & Eb0 & Hb0).
        destruct (G _ Hb0) as ((k1, lb1) & G1 & G2 & G3 & (k2, lb2) & G4 & G5 & G6). cbn [fst snd] in *. subst k2.
        destruct (bi_bp I _ _ G1) as (D1 & _). assert (Hk1 : k1 = k) by congruence. rewrite Hk1 in G4.
        assert (Hlb : lb2 = b') by (eapply NoDup_key_eq; [exact NDK|exact G4|exact HI]).
        assert (U : last_told (map Some (map OBpEvent ev)) (bp_id b0) = Some b0).
        { apply last_told_uniq; rewrite told_events; auto. }
        rewrite Eb0 in U. rewrite U. congruence.
      * rewrite last_told_none by (rewrite told_events; exact NI).
        destruct X as [(-> & _)|(_ & X & _)]; [exact A6|]. exfalso. apply NI. rewrite <- BID. now apply in_map.
    + rewrite RG. destruct X as [(EQ & X)|(XA & X6 & X7 & _)].
      * destruct (list_eq_dec N.eq_dec path (lb_actual b)) as [Ea|Na].
        -- destruct X as [X|(b1 & Y1 & Y2 & Y3 & Y4)]; [congruence|].
           apply placed_cons; auto. destruct Y1 as (f & la & ty & Y1 & Z1 & Z2 & Z3).
           exists f, la, ty. rewrite EQ, Y2, Y3, Y4. auto.
        -- rewrite EQ. exact A7.
      * destruct (list_eq_dec N.eq_dec path (lb_actual b)) as [Ea|Na]; [|congruence].
        apply placed_cons; auto.
Qed.

(** setBreakpoints on a state that satisfies the invariant. *)
Lemma set_ok d ops seq src l md : binv d ops -> (forall sb, In sb l -> 0 <= sb_line sb) ->
  exists d' infos,
    set_breakpoints seq src l md d = (d', Ok tt) /\
    d_out d' = d_out d ++ [Some (OBps seq infos)] /\
    length infos = length l /\ map bp_id infos = nseq (d_bpctr d) (length l) /\
    d_bpctr d' = (d_bpctr d + N.of_nat (length l))%N /\
    (forall b, In b infos -> bp_source b = src) /\
    (md = true -> forall b, In b infos -> bp_verified b = false /\ bp_line b = None /\ bp_end b = None) /\
    (md = false -> Forall2 (fun sb b => placed (regs_of (to_actual (d_maps d) (py_or_empty (src_path src))) ops) (sb_line sb) b) l infos) /\
    d_bps d' = filter (fun kb => negb (eqb (lb_srcpath (snd kb)) (py_or_empty (src_path src)))) (d_bps d)
       ++ (if md then [] else map (fun p => entry_of src (to_actual (d_maps d) (py_or_empty (src_path src))) (py_or_empty (src_path src)) (fst p) (snd p)) (combine l infos)) /\
    d_src d' = d_src d /\
    binv d' (ops ++ [BSet seq src l md]).
Proof.
  intros I Hl. unfold set_breakpoints. set (sp := py_or_empty (src_path src)). set (ap := to_actual (d_maps d) sp).
  set (d1 := set_bps _ d).
  destruct (@set_loop_spec src sp ap md (dget (d_src d) ap) (regs_of ap ops) l (bi_src I ap) Hl [] d1)
    as (infos & E & L & ID & SR & UM & PL).
  { subst d1. cbn [d_bps set_bps d_bpctr]. intros k K. apply (@binv_keys _ _ _ I). unfold dkeys in *. apply in_map_iff in K. destruct K as (x & <- & K).
    apply filter_In in K. apply in_map. tauto. }
  rewrite E. cbn [app]. eexists. exists infos. split; [reflexivity|].
  split; [reflexivity|]. split; [exact L|]. split; [exact ID|]. split; [reflexivity|].
  split; [exact SR|]. split; [exact UM|]. split; [exact PL|]. split; [reflexivity|]. split; [reflexivity|].
  assert (RG : forall p, regs_of p (ops ++ [BSet seq src l md]) = regs_of p ops).
  { intros p. rewrite regs_of_snoc. apply app_nil_r. }
  assert (KOLD : forall k, In k (dkeys (d_bps d1)) -> (k < d_bpctr d)%N).
  { subst d1. cbn [d_bps set_bps d_bpctr]. intros k K. apply (@binv_keys _ _ _ I). unfold dkeys in *. apply in_map_iff in K. destruct K as (x & <- & K).
    apply filter_In in K. apply in_map. tauto. }
  assert (KNEW : map fst (map (fun p => entry_of src ap sp (fst p) (snd p)) (combine l infos)) = nseq (d_bpctr d) (length l)).
  { rewrite <- (ID : map bp_id infos = nseq (d_bpctr d) (length l)). rewrite map_map. cbn. revert L. clear.
    revert infos; induction l as [|x l IH]; intros [|y infos] L; cbn in *; try discriminate; auto.
    f_equal. apply IH. lia. }
  assert (OLD : forall k b, In (k, b) (d_bps d1) -> In (k, b) (d_bps d)).
  { subst d1. cbn. intros k b K. apply filter_In in K. tauto. }
  split.
  - cbn [d_bps queue_msg queue_opt set_bpctr set_bps]. rewrite dkeys_app.
    assert (N1 : NoDup (dkeys (d_bps d1))) by (subst d1; cbn; apply NoDup_filter_keys; apply (bi_nodup I)).
    destruct md; [cbn; now rewrite app_nil_r|]. unfold dkeys at 2. rewrite KNEW.
    revert N1 KOLD. generalize (dkeys (d_bps d1)) as ks. clear.
    induction ks as [|k ks IH]; cbn; intros ND K; [apply NoDup_nseq|].
    inversion ND as [|? ? N1 N2]; subst. constructor; [|apply IH; auto].
    rewrite in_app_iff, In_nseq. intros [X|X]; [contradiction|]. specialize (K k (or_introl eq_refl)). lia.
  - intros p. rewrite RG. cbn. apply (bi_src I).
  - intros b. unfold queue_msg. rewrite flat_told_queue. cbn [told]. rewrite in_app_iff.
    cbn [d_out d_bpctr queue_opt set_bpctr set_bps d1]. subst d1. cbn [d_out d_bpctr set_bps].
    intros [K|K]; [apply (bi_told I) in K; lia|].
    apply (in_map bp_id) in K. rewrite ID in K. cbn [d_bpctr set_bps] in K. apply In_nseq in K. lia.
  - cbn [d_bps queue_msg queue_opt set_bpctr set_bps d_out d_bpctr]. intros k b HI. apply in_app_or in HI.
    assert (LT : forall k, last_told (d_out d1 ++ [Some (OBps seq infos)]) k =
       match last_told [Some (OBps seq infos)] k with Some b => Some b | None => last_told (d_out d) k end).
    { intros k'. now rewrite last_told_app. }
    assert (TI : flat_map told [Some (OBps seq infos)] = infos) by (cbn; apply app_nil_r).
    destruct HI as [HI|HI].
    + apply OLD in HI. destruct (bi_bp I _ _ HI) as (A1 & A2 & A3 & A4 & A5 & A6 & A7).
      rewrite RG. repeat split; auto; [subst d1; cbn; lia|].
      rewrite LT, last_told_none; [exact A6|]. rewrite TI, ID. cbn. rewrite In_nseq. lia.
    + destruct md; [contradiction|]. specialize (PL eq_refl).
      pose proof HI as HI'. apply (in_map fst) in HI'. rewrite KNEW in HI'. cbn [fst] in HI'.
      apply in_map_iff in HI. destruct HI as ((sb, bp) & X & HI). unfold entry_of in X. cbn [fst snd] in X.
      injection X as <- <-. cbn [lb_id lb_bp lb_source lb_sb lb_actual].
      pose proof (in_combine_l _ _ _ _ HI) as HIl. pose proof (in_combine_r _ _ _ _ HI) as HIr.
      repeat split; auto.
      * apply In_nseq in HI'. subst d1; cbn. lia.
      * rewrite LT. pose proof (@last_told_uniq [Some (OBps seq infos)] bp) as U. rewrite TI in U. rewrite U; auto.
        rewrite ID. apply NoDup_nseq.
      * rewrite RG. revert PL HI. clear. induction 1 as [|x y l l' H F IH]; cbn; [contradiction|].
        intros [X|X]; [injection X as -> ->; exact H|auto].
Qed.

Lemma binv_step d ops o : binv d ops -> op_wf o -> binv (bstep d o) (ops ++ [o]).
Proof.
  intros I W. destruct o as [seq src l md|seq fs|p line typ| |maps|m| | | | |]; cbn [bstep op_wf] in *.
  - destruct (@set_ok d ops seq src l md I W) as (d' & infos & E & _ & _ & _ & _ & _ & _ & _ & _ & _ & B). rewrite E. exact B.
  - apply binv_frame with d; auto; try reflexivity.
    + eexists; split; [reflexivity|reflexivity].
    + intros; rewrite regs_of_snoc; apply app_nil_r.
  - destruct (@reg_ok d ops p line typ I W) as (d' & E & B). rewrite E. exact B.
  - split; cbn.
    + constructor.
    + intros p. rewrite regs_of_snoc, app_nil_r. apply (bi_src I).
    + apply (bi_told I).
    + contradiction.
  - apply binv_frame with d; auto; try reflexivity.
    + eexists; split; [reflexivity|reflexivity].
    + intros; rewrite regs_of_snoc; apply app_nil_r.
  - apply binv_frame with d; auto; try reflexivity.
    + exists [m]; split; [reflexivity|cbn; now rewrite W].
    + intros; rewrite regs_of_snoc; apply app_nil_r.
  - apply binv_frame with d; auto; try reflexivity.
    + exists []; split; [cbn; now rewrite app_nil_r|reflexivity].
    + intros; rewrite regs_of_snoc; apply app_nil_r.
  - apply binv_frame with d; auto; try reflexivity.
    + exists []; split; [cbn; now rewrite app_nil_r|reflexivity].
    + intros; rewrite regs_of_snoc; apply app_nil_r.
  - apply binv_frame with d; auto; try reflexivity.
    + exists []; split; [cbn; now rewrite app_nil_r|reflexivity].
    + intros; rewrite regs_of_snoc; apply app_nil_r.
  - apply binv_frame with d; auto; try reflexivity.
    + exists []; split; [cbn; now rewrite app_nil_r|reflexivity].
    + intros; rewrite regs_of_snoc; apply app_nil_r.
  - apply binv_frame with d; auto; try reflexivity.
    + exists []; split; [cbn; now rewrite app_nil_r|reflexivity].
    + intros; rewrite regs_of_snoc; apply app_nil_r.
Qed.

Lemma brun_snoc ops o : brun (ops ++ [o]) = bstep (brun ops) o.
Proof. unfold brun. now rewrite fold_left_app. Qed.

Lemma binv_run ops : hist_wf ops -> binv (brun ops) ops.
Proof.
  induction ops as [|o ops IH] using rev_ind; intros W; [apply binv_init|].
  rewrite brun_snoc. apply binv_step.
  - apply IH. intros x Hx. apply W. apply in_or_app; now left.
  - apply W. apply in_or_app; right; now left.
Qed.
