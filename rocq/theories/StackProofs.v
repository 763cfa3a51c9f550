(** The frames of a host's thread are its task and the includes around it. *)
From Verif Require Import PyBase PyDict DbgTypes BpModel BpSpec BpProofs2 BpProofs3 BpProps ThreadModel ThreadSpec StratModel SysModel SysSpec SysProofs SysProofs2 SysProofs3 SysProofs4 SysProofs5 SysProofs6 SysProofs7 SysProofs8 SysProofs9 SysProofs10 SysProofs11 StackSpec.
Set Implicit Arguments.
Local Open Scope N_scope.

Definition stack_is (w : World) (S : list N) (L : list Node) : Prop :=
  Forall2 (fun id n => exists f, dget (w_frames w) id = Some f /\ f_task f = n) S L.
Lemma stack_is_vrel w w' S L : stack_is w S L -> vrel w w' -> (forall x, In x S -> exists f, dget (w_frames w') x = Some f) -> stack_is w' S L.
Proof.
  intros H V. induction H as [|id n S L (f & F & E) H IH]; intros A; [constructor|]. constructor.
  - destruct (A id (or_introl eq_refl)) as (f' & F'). exists f'. split; auto. destruct (@vr_task _ _ V _ _ _ F F') as (-> & _). exact E.
  - apply IH. intros x X. apply A. now right.
Qed.
Lemma stack_is_same w w' S L : stack_is w S L -> (forall x, In x S -> dget (w_frames w') x = dget (w_frames w) x) -> stack_is w' S L.
Proof.
  intros H. induction H as [|id n S L (f & F & E) H IH]; intros A; [constructor|]. constructor.
  - exists f. split; auto. rewrite A; auto. now left.
  - apply IH. intros x X. apply A. now right.
Qed.

Definition absent (h : N) (w : World) : Prop := forall k t h', dget (w_threads w) k = Some t -> t_host t = Some h' -> h_uuid h' <> h.
Definition owned (h tid : N) (t : Thread) (w : World) : Prop :=
  dget (w_threads w) tid = Some t /\ exists h', t_host t = Some h' /\ h_uuid h' = h.
Lemma owned_find h tid t w : WInv w -> owned (h_uuid h) tid t w -> find_thread h w = Some t /\ t_id t = tid.
Proof. intros I (A & h' & B & C). apply thread_for_find; auto. split; auto. unfold host_is. rewrite B. now apply N.eqb_eq. Qed.
Lemma find_owned h t w : WInv w -> find_thread h w = Some t -> owned (h_uuid h) (t_id t) t w.
Proof. intros I F. destruct (find_thread_some _ I F) as (A & B). split; auto. apply host_is_host in B. exact B. Qed.
Lemma absent_find h w : WInv w -> absent (h_uuid h) w -> find_thread h w = None.
Proof. intros I A. destruct (find_thread h w) eqn:F; auto. destruct (@find_owned _ _ _ I F) as (B & h' & C & D). exfalso. eapply A; eauto. Qed.
Lemma owned_uniq h k1 k2 t1 t2 w : WInv w -> owned h k1 t1 w -> owned h k2 t2 w -> k1 = k2 /\ t1 = t2.
Proof.
  intros I (A & h1 & B & C) (A' & h2 & B' & C'). assert (k1 = k2) by (eapply (i_host I); eauto; congruence). subst k2. split; congruence.
Qed.

Definition busy (h : N) (y : Sys) : bool :=
  existsb (fun p => N.eqb (h_uuid (fst p)) h) (y_open y) ||
  match y_phase y with
  | PWaitEnd tid _ => match dget (w_threads (y_w y)) tid with
                      | Some t => match t_host t with Some h' => N.eqb (h_uuid h') h | None => false end
                      | None => false end
  | _ => false end.

Definition Jt (h : N) (g : option (Node * list Node)) (b : bool) (w : World) : Prop :=
  match g with
  | None => absent h w
  | Some (T, L) => exists tid t, owned h tid t w /\ stack_is w (t_stack t) (if b then T :: L else unfinished g)
  end.
Record J (h : N) (g : option (Node * list Node)) (y : Sys) : Prop := {
  j_t : Jt h g (busy h y) (y_w y);
  j_open : forall h' task, In (h', task) (y_open y) -> h_uuid h' = h -> exists L, g = Some (task, L);
  j_end : forall tid task t, y_phase y = PWaitEnd tid task -> owned h tid t (y_w y) -> exists L, g = Some (task, L) }.

Lemma Jt_same h g b w w' : WInv w' -> vrel w w' -> Jt h g b w ->
  (forall tid t, owned h tid t w -> exists t', owned h tid t' w' /\ t_stack t' = t_stack t) ->
  (absent h w -> absent h w') -> Jt h g b w'.
Proof.
  intros I V H K A. destruct g as [(T, L)|]; cbn [Jt] in *; auto. destruct H as (tid & t & O & S). destruct (K _ _ O) as (t' & O' & E).
  exists tid, t'. split; auto. rewrite E. eapply stack_is_vrel; eauto. intros x X. rewrite <- E in X. destruct O' as (O' & _). apply (i_stack I _ _ O' X).
Qed.

Lemma qext_absent h w w' : WInv w -> qext w w' -> absent h w -> absent h w'.
Proof.
  intros I Q A k t h' H E. assert (X : In k (dkeys (w_threads w))) by (rewrite <- (q_tk Q); eapply dget_Some_key; eauto).
  destruct (dget (w_threads w) k) as [t0|] eqn:F.
  - destruct (q_t Q _ F) as (t1 & F1 & (_ & S & _)). assert (t1 = t) by congruence. subst t1. eapply A; eauto. congruence.
  - exfalso. apply dget_None in F. contradiction.
Qed.
Lemma qext_owned h tid t w w' : qext w w' -> owned h tid t w -> exists t', owned h tid t' w' /\ t_stack t' = t_stack t.
Proof. intros Q (A & h' & B & C). destruct (q_t Q _ A) as (t' & A' & (_ & S1 & S2)). exists t'. split; auto. split; auto. exists h'. split; congruence. Qed.
Lemma qext_owned_back h tid t' w w' : qext w w' -> owned h tid t' w' -> exists t, owned h tid t w.
Proof.
  intros Q (A & h' & B & C). assert (X : In tid (dkeys (w_threads w))) by (rewrite <- (q_tk Q); eapply dget_Some_key; eauto).
  destruct (dget (w_threads w) tid) as [t0|] eqn:F.
  - destruct (q_t Q _ F) as (t1 & F1 & (_ & S & _)). assert (t1 = t') by congruence. subst t1. exists t0. split; auto. exists h'. split; congruence.
  - exfalso. apply dget_None in F. contradiction.
Qed.

Lemma busy_q h y y' : qext (y_w y) (y_w y') -> y_phase y' = y_phase y -> y_open y' = y_open y -> busy h y' = busy h y.
Proof.
  intros Q P O. unfold busy. rewrite P, O. f_equal. destruct (y_phase y); auto.
  destruct (dget (w_threads (y_w y)) tid) as [t|] eqn:F.
  - destruct (q_t Q _ F) as (t1 & F1 & (_ & S & _)). now rewrite F1, S.
  - destruct (dget (w_threads (y_w y')) tid) eqn:F'; auto. exfalso. apply dget_None in F. apply F. rewrite <- (q_tk Q). eapply dget_Some_key; eauto.
Qed.

(** Work for another host. *)
Lemma only_owned h tid k t w w' : only tid w w' -> k <> tid -> owned h k t w -> owned h k t w'.
Proof. intros O N (A & B). split; auto. now rewrite (o_t O). Qed.

Lemma only_main_absent h w : WInv w -> only_main w -> absent h w.
Proof.
  intros I M k t h' H E. destruct (i_main I) as (st & sn & M1). assert (K : k = 1). { apply dget_Some_key in H. unfold only_main in M. rewrite M in H. destruct H as [H|H]; [now symmetry|destruct H]. }
  subst k. rewrite M1 in H. injection H as <-. discriminate.
Qed.

Lemma existsb_open h l : existsb (fun p : Host * Node => N.eqb (h_uuid (fst p)) h) l = true <-> exists h' task, In (h', task) l /\ h_uuid h' = h.
Proof.
  rewrite existsb_exists. split.
  - intros ((h', task) & A & B). apply N.eqb_eq in B. eauto.
  - intros (h' & task & A & B). exists (h', task). split; auto. now apply N.eqb_eq.
Qed.

(** Starting a task. *)
Lemma start_stack a w w' o tid : WInv w -> dwf (w_dbg w) -> (match ts_role a with Some regs => regs_wf regs | None => True end) ->
  start_task a w = (w', o, Some tid) ->
  exists t', owned (h_uuid (ts_host a)) tid t' w' /\
    t_stack t' = d_frame (w_dbg w) :: kept w (ts_task a) (match find_thread (ts_host a) w with Some t => t_stack t | None => [] end) /\
    (exists f, dget (w_frames w') (d_frame (w_dbg w)) = Some f /\ f_task f = ts_task a) /\
    (forall x, In x (kept w (ts_task a) (match find_thread (ts_host a) w with Some t => t_stack t | None => [] end)) -> dget (w_frames w') x = dget (w_frames w) x).
Proof.
  intros I D R E. destruct (@enter_frame_spec a w I D R) as (tid0 & N1 & TID & S). unfold start_task in E.
  destruct (enter_frame a w) as (w1, [tid1|e]); [|discriminate].
  destruct S as (-> & I1 & O1 & _ & _ & t1 & (T1 & T2) & S1 & F1 & K1 & _).
  pose proof (@start_decide_spec a tid0 t1 w1 I1 T1) as X. destruct (start_decide a tid0 w1) as (w2, o2). injection E as <- <- <-.
  destruct X as (I2 & O2 & FR & _ & _ & _ & (t2 & G1 & (_ & G2 & G3) & _) & _).
  exists t2. csplit.
  - split; auto. apply host_is_host in T2. destruct T2 as (h' & A & B). exists h'. split; congruence.
  - congruence.
  - rewrite FR, F1. eexists; split; [reflexivity|reflexivity].
  - intros x X. rewrite FR. auto.
Qed.

Lemma kept_ok g task w S : stack_is w S (unfinished g) -> stack_is w (kept w task S) (still_open g task) /\ incl (kept w task S) S.
Proof.
  intros H. unfold still_open. inversion H as [|last top rest L' (f & F & FT) H' E1 E2]; subst.
  - split; [constructor|intros x X; exact X].
  - unfold kept. rewrite F. unfold leaves, directly_in. destruct (n_parent task) as [blk|]; [destruct (n_parent blk) as [p|]|].
    + rewrite (N.eqb_sym (n_uuid p)). destruct (N.eqb_spec (n_uuid (f_task f)) (n_uuid p)); cbn [negb].
      * split; [constructor; eauto|intros x X; exact X].
      * split; [exact H'|intros x X; now right].
    + split; [exact H'|intros x X; now right].
    + split; [exact H'|intros x X; now right].
Qed.

(** Ending a task. *)
Lemma finish_stack h tid t task w w' L : WInv w -> WInv w' -> vrel w w' -> owned h tid t w -> on_top tid t task w -> tid <> 1 ->
  end_finish tid task w = (w', Returns) -> stack_is w (t_stack t) (task :: L) ->
  exists t', owned h tid t' w' /\ stack_is w' (t_stack t') (if is_include task then task :: L else L).
Proof.
  intros I I' V O OT N1 E S. pose proof (@end_finish_spec tid t task w I OT N1) as X. rewrite E in X.
  destruct X as (_ & _ & _ & [(X & ->)|(X & sfid & rest & f & vs & ST & HF & -> & _)]); rewrite X.
  - eauto.
  - rewrite ST in S. inversion S as [|? ? ? ? _ S']; subst. destruct O as (O1 & h' & O2 & O3).
    assert (TH : dget (w_threads (drop_frame tid t sfid rest vs w)) tid = Some (t_with_stack rest t)).
    { destruct (i_t I _ O1) as (TI & _). unfold drop_frame, set_thread. cbn -[dset dget]. rewrite ?TI. apply dget_dset_same. }
    exists (t_with_stack rest t). split.
    + split; auto. exists h'. auto.
    + cbn [t_stack t_with_stack]. eapply stack_is_vrel; eauto. intros x Hx. apply (i_stack I' _ _ TH Hx).
Qed.

Lemma finish_absent h tid t task w w' : WInv w -> on_top tid t task w -> tid <> 1 ->
  end_finish tid task w = (w', Returns) -> absent h w -> absent h w'.
Proof.
  intros I OT N1 E A. pose proof (@end_finish_spec tid t task w I OT N1) as X. rewrite E in X.
  destruct X as (_ & _ & _ & [(X & ->)|(X & sfid & rest & f & vs & ST & HF & -> & _)]); auto.
  destruct OT as (O1 & _). destruct (i_t I _ O1) as (TI & _).
  intros k t0 h' X1 X2. unfold drop_frame, set_thread in X1. cbn -[dset dget] in X1. rewrite TI, dget_dset in X1.
  destruct (eqb_spec tid k) as [<-|]; [|eapply A; eauto]. injection X1 as <-. cbn in X2. eapply A; eauto.
Qed.

Section S.
Variable py_int : pystr -> option Z.
Variable py_repr : heap -> val -> pystr.
Variable type_name : heap -> val -> pystr.
Variable tmpl : pystr -> nat -> heap -> res (list obj * val).
Variable tmpl_args : nat -> nat -> heap -> res (list obj * val).
Variable err_text : exn -> pystr.
Variable parse_repl : pystr -> res ReplCmd.
Notation step := (step py_int py_repr type_name tmpl tmpl_args err_text parse_repl).
Notation run := (run py_int py_repr type_name tmpl tmpl_args err_text parse_repl).

Lemma step_J h g y l y' : SInv y -> label_wf l -> step y l = Some y' ->
  (has_strategy y = true -> J h g y) ->
  has_strategy y' = true -> J h (trail_step h g l) y'.
Proof.
  intros S W H JJ HS. pose proof (y_inv S) as I. pose proof (y_dwf S) as D.
  destruct (@step_inv py_int py_repr type_name tmpl tmpl_args err_text parse_repl y l y' S W H) as (S' & _ & _).
  pose proof (y_inv S') as I'.
  pose proof (@step_vrel py_int py_repr type_name tmpl tmpl_args err_text parse_repl y l y' S W H) as V.
  assert (DEC : strategy_label l = false /\ l <> LPlay \/ l = LPlay \/ strategy_label l = true).
  { destruct l; cbn; auto; left; split; auto; discriminate. }
  destruct DEC as [(SL & NP)|[-> |SL]].
  - destruct (@step_other py_int py_repr type_name tmpl tmpl_args err_text parse_repl y l y' S W H SL NP) as (Q & P & O).
    assert (G : trail_step h g l = g) by (destruct l; try discriminate; try congruence; reflexivity). rewrite G.
    destruct JJ as [A B C]. { unfold has_strategy in *. now rewrite <- P. }
    constructor.
    + rewrite (busy_q h y y' Q P O). eapply Jt_same; eauto using qext_owned, qext_absent.
    + rewrite O. exact B.
    + rewrite P. intros tid task t E OW. destruct (@qext_owned_back _ _ _ _ _ Q OW) as (t0 & OW'). eapply C; eauto.
  - cbn in H. destruct (y_phase y) eqn:P; try discriminate. injection H as <-. constructor; cbn; try discriminate; try contradiction.
    apply only_main_absent; auto. reflexivity.
  - destruct l as [|a|h1 r addr| | |regs| |seq r| |maps| |hp|lregs]; try discriminate; cbn [SysModel.step] in H.
    + (* LStart *)
      destruct (y_phase y) eqn:P; try discriminate.
      assert (JY : J h g y) by (apply JJ; unfold has_strategy; now rewrite P). clear JJ.
      destruct (host_open (ts_host a) (y_open y)) eqn:HO; [discriminate|]. pose proof (host_open_false _ _ HO) as NE.
      destruct (@start_task_spec a (y_w y) I D W) as (tid & TID & E).
      pose proof (@start_stack a (y_w y)) as SK.
      destruct (start_task a (y_w y)) as ((w', o), [tid'|]).
      2:{ destruct E as (_ & _ & e & -> & _). injection H as <-. discriminate. }
      specialize (SK w' o tid' I D W eq_refl). destruct E as (-> & Iw & Ow & _).
      assert (X : exists ph, (ph = PRun \/ ph = PWaitStart tid) /\ y' = mkSys w' ph ((ts_host a, ts_task a) :: y_open y) (y_recv y)).
      { destruct o; injection H as <-; eauto. discriminate. }
      destruct X as (ph & PH & ->). cbn [y_w] in *.
      assert (BZ : busy h (mkSys w' ph ((ts_host a, ts_task a) :: y_open y) (y_recv y)) = (N.eqb (h_uuid (ts_host a)) h || busy h y)).
      { unfold busy. cbn [y_open y_phase existsb fst]. rewrite P. destruct PH as [-> | ->]; now rewrite !orb_false_r. }
      cbn [trail_step]. destruct (N.eqb_spec (h_uuid (ts_host a)) h) as [EH|NH].
      * destruct SK as (t' & OW & ST & (f & F1 & F2) & K).
        assert (NB : busy h y = false).
        { unfold busy. rewrite P, orb_false_r. destruct (existsb _ (y_open y)) eqn:X; auto. apply existsb_open in X. destruct X as (h' & task & X1 & X2). exfalso. eapply NE; eauto. congruence. }
        pose proof (j_t JY) as A. rewrite NB in A. constructor; cbn [y_w y_open y_phase].
        -- rewrite BZ. cbn [orb Jt]. exists tid, t'. rewrite <- EH. split; auto. rewrite ST. constructor; [eauto|].
           assert (S0 : stack_is (y_w y) match find_thread (ts_host a) (y_w y) with Some t => t_stack t | None => [] end (unfinished g)).
           { destruct g as [(T, L)|].
             - destruct A as (k & t & OW0 & A). rewrite <- EH in OW0. destruct (@owned_find _ _ _ _ I OW0) as (-> & _). exact A.
             - cbn in A. rewrite <- EH in A. rewrite (@absent_find _ _ I A). constructor. }
           destruct (@kept_ok _ (ts_task a) _ _ S0) as (K1 & K2). eapply stack_is_same; eauto.
        -- intros h' task [X|X] X2; [injection X as _ ->; eexists; reflexivity|]. exfalso. eapply NE; eauto. congruence.
        -- intros k task t X. destruct PH as [-> | ->]; discriminate.
      * assert (DIF : forall k t, owned h k t (y_w y) -> k <> tid).
        { intros k t (O1 & h' & O2 & O3) ->. destruct (find_thread (ts_host a) (y_w y)) as [th|] eqn:FT.
          - subst tid. destruct (@find_owned _ _ _ I FT) as (Q1 & h2 & Q2 & Q3). congruence.
          - apply (i_t I) in O1. lia. }
        constructor; cbn [y_w y_open y_phase].
        -- rewrite BZ. cbn [orb]. eapply Jt_same; eauto; [apply (j_t JY)| |].
           ++ intros k t OW. exists t. split; auto. eapply only_owned; eauto.
           ++ intros A k t h' X1 X2 X3. destruct (N.eq_dec k tid) as [->|NK].
              ** destruct SK as (t' & (Z1 & h2 & Z2 & Z3) & _). congruence.
              ** rewrite (o_t Ow) in X1 by auto. eapply A; eauto.
        -- intros h' task [X|X] X2; [injection X as X3 X4; subst h'; contradiction|]. eapply (j_open JY); eauto.
        -- intros k task t X. destruct PH as [-> | ->]; discriminate.
    + (* LEnd *)
      destruct (y_phase y) eqn:P; try discriminate.
      assert (JY : J h g y) by (apply JJ; unfold has_strategy; now rewrite P). clear JJ.
      destruct (find _ (y_open y)) as [(h0, task)|] eqn:F; [|discriminate]. apply find_open in F. destruct F as (F1 & F2). cbn in F2.
      assert (OKh : open_ok h1 task (y_w y)).
      { destruct (y_ok S _ _ F1) as (tid & t & A & B). exists tid, t. split; auto. unfold host_is in *. destruct (t_host t); [|discriminate]. now rewrite <- F2. }
      destruct (@end_task_spec h1 task r addr (y_w y) I OKh) as (tid & t & (T1 & T2) & OT & E).
      destruct (host_is_host _ _ T2) as (h2 & HH & HU).
      assert (N1 : tid <> 1) by (apply (@thread_not_main (y_w y) tid t); auto; congruence).
      assert (OW1 : owned (h_uuid h1) tid t (y_w y)) by (split; eauto).
      cbn [trail_step].
      assert (BO : forall w ph rq, (forall k tk, ph = PWaitEnd k tk -> False) -> busy h (mkSys w ph (close_host h1 (y_open y)) rq) = if N.eqb (h_uuid h1) h then false else busy h y).
      { intros w ph rq NP. unfold busy. cbn [y_open y_phase]. rewrite P. assert (Z : match ph with PWaitEnd tid0 _ => match dget (w_threads (y_w (mkSys w ph (close_host h1 (y_open y)) rq))) tid0 with
            | Some t0 => match t_host t0 with Some h' => N.eqb (h_uuid h') h | None => false end | None => false end | _ => false end = false).
        { destruct ph; auto. exfalso. eapply NP; eauto. }
        rewrite Z, !orb_false_r. apply eq_iff_eq_true. rewrite existsb_open. destruct (N.eqb_spec (h_uuid h1) h) as [EQ|NQ].
        - split; [|discriminate]. intros (h' & tk & X & Y). apply close_in in X. destruct X. congruence.
        - rewrite existsb_open. split; intros (h' & tk & X & Y); exists h', tk; (split; auto); [apply close_in in X; tauto|]. apply close_in. split; auto. congruence. }
      destruct (end_task h1 task r addr (y_w y)) as ((w', o), [tid'|]); [|destruct o; contradiction].
      destruct o; [| |contradiction].
      * destruct E as (-> & ->). pose proof (@end_finish_spec tid t task (y_w y) I OT N1) as E2.
        pose proof (@finish_stack h tid t task (y_w y)) as FS.
        destruct (end_finish tid task (y_w y)) as (w2, [| |e]) eqn:EF; [|contradiction|injection H as <-; discriminate].
        injection H as <-. destruct E2 as (I2 & O2 & _). cbn [y_w] in *. constructor; cbn [y_w y_open y_phase]; try discriminate.
        -- rewrite BO by discriminate. destruct (N.eqb_spec (h_uuid h1) h) as [EH|NH].
           ++ assert (G : exists L, g = Some (task, L)) by (eapply (j_open JY); eauto; congruence). destruct G as (L & G).
              pose proof (j_t JY) as A. rewrite G in A |- *. cbn [Jt] in A |- *. destruct A as (k & t0 & OW & A).
              rewrite EH in OW1. destruct (@owned_uniq _ _ _ _ _ _ I OW OW1) as (-> & ->).
              assert (BZ : busy h y = true). { unfold busy. apply orb_true_iff. left. apply existsb_open. exists h0, task. split; auto. congruence. }
              rewrite BZ in A. destruct (FS w2 L I I2 V OW1 OT N1 eq_refl A) as (t' & Z1 & Z2).
              exists tid, t'. split; auto.
           ++ eapply Jt_same; eauto; [apply (j_t JY)| |].
              ** intros k t0 OW. exists t0. split; auto. eapply only_owned; eauto. intros ->. destruct OW as (Z1 & h3 & Z2 & Z3). congruence.
              ** eapply finish_absent; eauto.
        -- intros h' tk X Y. apply close_in in X. eapply (j_open JY); eauto. tauto.
      * destruct E as (-> & I2 & O2 & t2 & OT2 & ST2 & TW). injection H as <-. cbn [y_w] in *.
        destruct ST2 as (ST0 & ST1 & ST2). destruct OT2 as (OT2 & _).
        assert (BZ : busy h (mkSys w' (PWaitEnd tid task) (close_host h1 (y_open y)) (y_recv y)) = busy h y).
        { unfold busy. cbn [y_open y_phase y_w]. rewrite OT2, ST1, HH, HU, P, orb_false_r. apply eq_iff_eq_true. rewrite orb_true_iff, !existsb_open, N.eqb_eq. split.
          - intros [(h' & tk & X & Y)|X]; [apply close_in in X; exists h', tk; tauto|]. exists h0, task. split; auto. congruence.
          - intros (h' & tk & X & Y). destruct (N.eq_dec (h_uuid h1) h); auto. left. exists h', tk. split; auto. apply close_in. split; auto. congruence. }
        constructor; cbn [y_w y_open y_phase].
        -- rewrite BZ. eapply Jt_same; eauto; [apply (j_t JY)| |].
           ++ intros k t0 OW. destruct (N.eq_dec k tid) as [->|NK].
              ** destruct OW as (Z1 & h3 & Z2 & Z3). exists t2. assert (t0 = t) by congruence. subst t0. split; auto. split; auto. exists h3. split; congruence.
              ** exists t0. split; auto. eapply only_owned; eauto.
           ++ intros A k t0 h' X1 X2 X3. destruct (N.eq_dec k tid) as [->|NK].
              ** eapply (A tid t h2); eauto. congruence.
              ** rewrite (o_t O2) in X1 by auto. eapply A; eauto.
        -- intros h' tk X Y. apply close_in in X. eapply (j_open JY); eauto. tauto.
        -- intros k tk t0 X OW. injection X as <- <-. eapply (j_open JY); eauto. destruct OW as (Z1 & h3 & Z2 & Z3). congruence.
    + (* LWake *)
      cbn [trail_step]. destruct (y_phase y) as [| |tid|tid task|] eqn:P; try discriminate; destruct (waiting tid (y_w y)) eqn:WA; try discriminate.
      * assert (JY : J h g y) by (apply JJ; unfold has_strategy; now rewrite P). clear JJ.
        destruct (start_resume tid (y_w y)); try discriminate; injection H as <-; [|discriminate].
        constructor; cbn [y_w y_open y_phase]; try discriminate; [|apply (j_open JY)].
        pose proof (j_t JY) as A. unfold busy in *. rewrite P in A. cbn [y_open y_phase]. exact A.
      * assert (JY : J h g y) by (apply JJ; unfold has_strategy; now rewrite P). clear JJ.
        pose proof (y_ph S) as PH. rewrite P in PH. destruct PH as (t & h2 & PH1 & PH2 & PH3). pose proof PH1 as (HT & _).
        assert (N1 : tid <> 1) by (apply (@thread_not_main (y_w y) tid t); auto; congruence).
        pose proof (@end_finish_spec tid t task (y_w y) I PH1 N1) as E2. pose proof (@finish_stack h tid t task (y_w y)) as FS.
        destruct (end_finish tid task (y_w y)) as (w2, [| |e]) eqn:EF; [|discriminate|injection H as <-; discriminate].
        injection H as <-. destruct E2 as (I2 & O2 & _). cbn [y_w] in *.
        assert (OW1 : owned (h_uuid h2) tid t (y_w y)) by (split; eauto).
        constructor; cbn [y_w y_open y_phase]; try discriminate; [|apply (j_open JY)].
        pose proof (j_t JY) as A. destruct (N.eq_dec (h_uuid h2) h) as [EH|NH].
        -- rewrite EH in OW1. assert (G : exists L, g = Some (task, L)) by (eapply (j_end JY); eauto). destruct G as (L & G).
           assert (BZ : busy h y = true). { unfold busy. rewrite P, HT, PH2, EH, N.eqb_refl. apply orb_true_r. }
           rewrite BZ in A. rewrite G in A |- *. cbn [Jt] in A |- *. destruct A as (k & t0 & OW & A).
           destruct (@owned_uniq _ _ _ _ _ _ I OW OW1) as (-> & ->).
           destruct (FS w2 L I I2 V OW1 PH1 N1 eq_refl A) as (t' & Z1 & Z2). exists tid, t'. split; auto.
           replace (busy h _) with false; [exact Z2|]. symmetry. unfold busy. cbn [y_phase y_open]. rewrite orb_false_r.
           destruct (existsb _ (y_open y)) eqn:X; auto. apply existsb_open in X. destruct X as (h' & tk & X1 & X2). exfalso. eapply PH3; eauto. congruence.
        -- replace (busy h (mkSys w2 PRun (y_open y) (y_recv y))) with (busy h y).
           2:{ unfold busy. rewrite P, HT, PH2. cbn [y_phase y_open]. destruct (N.eqb_spec (h_uuid h2) h); [contradiction|]. reflexivity. }
           eapply Jt_same; eauto.
           ++ intros k t0 OW. exists t0. split; auto. eapply only_owned; eauto. intros ->. destruct OW as (Z1 & h3 & Z2 & Z3). congruence.
           ++ eapply finish_absent; eauto.
    + destruct (y_phase y) eqn:P; try discriminate. destruct (y_open y) as [|p [|]]; try discriminate. injection H as <-.
      destruct (exit_threads_spec I) as (X1 & X2 & _ & _ & X5 & _). constructor; cbn; try discriminate; try contradiction. now apply only_main_absent.
    + destruct (y_phase y) eqn:P; try discriminate.
      assert (JY : J h g y) by (apply JJ; unfold has_strategy; now rewrite P). clear JJ.
      destruct (@register_all_ok regs (w_dbg (y_w y)) D W) as (d' & E & X & C & _). rewrite E in H. injection H as <-.
      constructor; cbn [y_w y_open y_phase trail_step]; try discriminate; [|apply (j_open JY)].
      pose proof (j_t JY) as A. unfold busy in *. rewrite P in A. cbn [y_open y_phase]. exact A.
    + destruct (y_phase y) eqn:P; try discriminate. injection H as <-. discriminate.
    + destruct (y_phase y) eqn:P; try discriminate. injection H as <-. discriminate.
Qed.

Lemma trail_snoc h ls l : trail h (ls ++ [l]) = trail_step h (trail h ls) l.
Proof. unfold trail. now rewrite fold_left_app. Qed.

Lemma run_J h ls : forall y, trace_wf ls -> run sys_init ls y -> has_strategy y = true -> J h (trail h ls) y.
Proof.
  induction ls as [|l ls IH] using rev_ind; intros y W R HS.
  - inversion R; subst. discriminate.
  - apply run_app in R. destruct R as (y1 & R1 & R2). inversion R2 as [|? ? y2 ? ? A B]; subst. inversion B; subst.
    apply Forall_app in W. destruct W as (W1 & W2). inversion W2; subst.
    rewrite trail_snoc. eapply step_J; eauto.
    exact (@run_sinv py_int py_repr type_name tmpl tmpl_args err_text parse_repl ls y1 W1 R1).
Qed.

Lemma mapM_shows d w S L : stack_is w S L -> (forall n, In n L -> n_path n <> None) ->
  exists fis, mapM (fun id => match dget (w_frames w) id with None => Err KeyError | Some f => frame_to_dap d f end) S = Ok fis /\ Forall2 (shows (d_maps d)) fis L.
Proof.
  intros H. induction H as [|id n S L (f & F & E) H IH]; intros P.
  - exists []. split; [reflexivity|constructor].
  - destruct IH as (fis & M & A). { intros x X. apply P. now right. }
    rewrite mapM_cons, F. unfold frame_to_dap at 1. specialize (P n (or_introl eq_refl)). rewrite E. destruct (n_path n) as [(p, line)|] eqn:NP; [|congruence].
    cbn [bind]. rewrite M. eexists. split; [reflexivity|]. constructor; auto. split; [reflexivity|]. exists p. split; [cbn [fi_line]; congruence|]. apply to_client_spec.
Qed.

Lemma stack_trace h ls y tid task seq y' : trace_wf ls -> run sys_init ls y ->
  in_task h task tid y -> step y (LReq seq (RStackTrace tid)) = Some y' ->
  exists below, trail h ls = Some (task, below) /\
  ((forall n, In n (task :: below) -> n_path n <> None) ->
   exists fis, d_out (w_dbg (y_w y')) = d_out (w_dbg (y_w y)) ++ [Some (OFrames seq fis (N.of_nat (length fis)))] /\
     Forall2 (shows (d_maps (w_dbg (y_w y)))) fis (task :: below)).
Proof.
  intros W R ((t & h' & T1 & T2 & T3) & IT) H.
  pose proof (@run_sinv py_int py_repr type_name tmpl tmpl_args err_text parse_repl ls y W R) as S. pose proof (y_inv S) as I.
  assert (HS : has_strategy y = true).
  { destruct IT as [(h2 & A & _)|A]; [|unfold has_strategy; now rewrite A]. pose proof (y_ph S) as PH. unfold has_strategy.
    destruct (y_phase y); auto; destruct PH as (PH & _); rewrite PH in A; contradiction. }
  pose proof (run_J h W R HS) as [A B C].
  assert (OW : owned h tid t (y_w y)) by (split; eauto).
  assert (G : exists L, trail h ls = Some (task, L)).
  { destruct IT as [(h2 & X1 & X2)|X]; [eapply B; eauto|eapply C; eauto]. }
  assert (BZ : busy h y = true).
  { unfold busy. destruct IT as [(h2 & X1 & X2)|X].
    - apply orb_true_iff. left. apply existsb_open. eauto.
    - rewrite X, T1, T2, T3, N.eqb_refl. apply orb_true_r. }
  destruct G as (L & G). rewrite G, BZ in A. cbn [Jt] in A. destruct A as (k & t0 & OW0 & A). exists L. split; [exact G|]. intros NP. destruct (@owned_uniq _ _ _ _ _ _ I OW0 OW) as (-> & ->).
  destruct (@mapM_shows (w_dbg (y_w y)) (y_w y) _ _ A NP) as (fis & M & SH). exists fis. split; auto.
  cbn [SysModel.step] in H. destruct (y_recv y); [discriminate|]. rewrite HS in H. cbn [needs_strategy negb andb] in H. injection H as <-.
  cbn [y_w before_strategy]. unfold SysModel.handle. cbn [process]. unfold get_stacktrace.
  replace (wd (w_dbg (y_w y)) (y_w y)) with (y_w y) by (destruct (y_w y); reflexivity). rewrite T1, M. cbn [bind reply]. reflexivity.
Qed.
End S.
