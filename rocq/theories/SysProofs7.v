(** The invariant of the whole system. *)
From Verif Require Import PyBase PyDict DbgTypes BpModel BpSpec BpProofs2 BpProofs3 BpProps ThreadModel StratModel SysModel SysSpec SysProofs SysProofs2 SysProofs3 SysProofs4 SysProofs5 SysProofs6.
Set Implicit Arguments.
Local Open Scope N_scope.

(** Thread [tid] has [task] on top of its stack. *)
Definition on_top (tid : N) (t : Thread) (task : Node) (w : World) : Prop :=
  dget (w_threads w) tid = Some t /\ exists sfid rest f, t_stack t = sfid :: rest /\ dget (w_frames w) sfid = Some f /\ f_task f = task.
Definition open_ok (h : Host) (task : Node) (w : World) : Prop :=
  exists tid t, host_is h t = true /\ on_top tid t task w.
Definition only_main (w : World) : Prop := dkeys (w_threads w) = [1].

Record SInv (y : Sys) : Prop := {
  y_inv : WInv (y_w y);
  y_dwf : dwf (w_dbg (y_w y));
  y_nd : NoDup (map (fun p => h_uuid (fst p)) (y_open y));
  y_ok : forall h task, In (h, task) (y_open y) -> open_ok h task (y_w y);
  y_ph : match y_phase y with
         | PRun => True
         | PIdle | PDone _ => y_open y = [] /\ only_main (y_w y)
         | PWaitStart tid => exists h task t, In (h, task) (y_open y) /\ host_is h t = true /\ on_top tid t task (y_w y)
         | PWaitEnd tid task => exists t h, on_top tid t task (y_w y) /\ t_host t = Some h /\ forall h' task', In (h', task') (y_open y) -> h_uuid h' <> h_uuid h
         end;
  y_rq : match y_recv y with Some (_, r) => req_wf r /\ needs_strategy r = true | None => True end }.

Lemma host_is_same h t t' : same_thread t t' -> host_is h t' = host_is h t.
Proof. intros (_ & B & _). unfold host_is. now rewrite B. Qed.

(** Requests keep all of this. *)
Lemma on_top_q tid t task w w' : qext w w' -> on_top tid t task w -> exists t', same_thread t t' /\ on_top tid t' task w'.
Proof.
  intros Q (H & sfid & rest & f & A & B & C). destruct (q_t Q _ H) as (t' & H' & S'). exists t'. split; auto. split; auto.
  destruct (q_f Q _ B) as (f' & B' & E1 & E2 & _). exists sfid, rest, f'. destruct S' as (_ & _ & S'). repeat split; congruence.
Qed.
Lemma open_q h task w w' : qext w w' -> open_ok h task w -> open_ok h task w'.
Proof.
  intros Q (tid & t & A & B). destruct (on_top_q Q B) as (t' & S' & B'). exists tid, t'. split; auto. now rewrite (host_is_same h S').
Qed.
Lemma sinv_q y w' : SInv y -> WInv w' -> qext (y_w y) w' -> forall rq,
  (match rq with Some (_, r) => req_wf r /\ needs_strategy r = true | None => True end) ->
  SInv (mkSys w' (y_phase y) (y_open y) rq).
Proof.
  intros [A B C D E F] I Q rq R. constructor; cbn; auto.
  - eapply dwf_dext; [exact B|apply (q_d Q)].
  - intros h task H. eapply open_q; eauto.
  - destruct (y_phase y); auto.
    + destruct E as (E1 & E2). split; auto. unfold only_main in *. now rewrite (q_tk Q).
    + destruct E as (h & task & t & E1 & E2 & E3). destruct (on_top_q Q E3) as (t' & S' & B'). exists h, task, t'. csplit; auto. now rewrite (host_is_same h S').
    + destruct E as (t & h & E1 & E2 & E3). destruct (on_top_q Q E1) as (t' & S' & B'). exists t', h. csplit; auto. destruct S' as (_ & S' & _). congruence.
    + destruct E as (E1 & E2). split; auto. unfold only_main in *. now rewrite (q_tk Q).
Qed.

(* ------------------------------------------------------------------ exit_threads *)
Lemma exit_loop ks : forall w, NoDup ks -> WInv w -> (forall x, In x ks -> In x (dkeys (w_threads w))) ->
  let w' := fold_left (fun w tid => if N.eqb tid 1 then w else emit (OThread false tid) (wthreads (ddel (w_threads w) tid) w)) ks w in
  WInv w' /\ dext (w_dbg w) (w_dbg w') /\ w_frames w' = w_frames w /\ w_vars w' = w_vars w /\ w_heap w' = w_heap w /\ w_persist w' = w_persist w /\
  (forall k, dget (w_threads w') k = if andb (negb (N.eqb k 1)) (if in_dec N.eq_dec k ks then true else false) then None else dget (w_threads w) k) /\
  dkeys (w_threads w') = filter (fun k => negb (andb (negb (N.eqb k 1)) (if in_dec N.eq_dec k ks then true else false))) (dkeys (w_threads w)) /\
  d_out (w_dbg w') = d_out (w_dbg w) ++ map (fun t => Some (OThread false t)) (filter (fun k => negb (N.eqb k 1)) ks).
Proof.
  induction ks as [|a ks IH]; intros w ND I IN; cbn [fold_left].
  - cbv zeta. csplit; auto using dext_refl.
    + intros k. destruct (in_dec N.eq_dec k []) as [[]|_]. now rewrite andb_false_r.
    + symmetry. erewrite filter_ext; [|intros k; destruct (in_dec N.eq_dec k []) as [[]|_]; rewrite andb_false_r; reflexivity].
      generalize (dkeys (w_threads w)). induction l as [|z l IHl]; cbn in *; congruence.
    + cbn. now rewrite app_nil_r.
  - inversion ND as [|? ? N1 N2]; subst. destruct (N.eqb_spec a 1) as [->|NE].
    + destruct (IH w N2 I) as (A1 & A2 & A3 & A4 & A5 & A6 & A7 & A8 & A9). { intros x Hx. apply IN. now right. }
      cbv zeta. csplit; auto.
      * intros k. rewrite A7. destruct (N.eqb_spec k 1) as [|NK1]; auto. cbn [negb andb].
        destruct (in_dec N.eq_dec k ks) as [X|X], (in_dec N.eq_dec k (1 :: ks)) as [Y|Y]; auto; exfalso; cbn [In] in Y; [tauto|destruct Y as [Y|Y]; [exact (NK1 (eq_sym Y))|tauto]].
      * rewrite A8. apply filter_ext. intros k. destruct (N.eqb_spec k 1) as [|NK1]; auto. cbn [negb andb].
        destruct (in_dec N.eq_dec k ks) as [X|X], (in_dec N.eq_dec k (1 :: ks)) as [Y|Y]; auto; exfalso; cbn [In] in Y; [tauto|destruct Y as [Y|Y]; [exact (NK1 (eq_sym Y))|tauto]].
    + set (w1 := emit (OThread false a) (wthreads (ddel (w_threads w) a) w)).
      assert (T1 : w_threads w1 = ddel (w_threads w) a) by reflexivity.
      assert (G : forall k t, dget (w_threads w1) k = Some t -> k <> a /\ dget (w_threads w) k = Some t).
      { intros k t. rewrite T1. intros X. destruct (N.eq_dec k a) as [->|Y].
        - rewrite dget_ddel_same in X; [discriminate|apply (i_tnd I)].
        - rewrite dget_ddel_other in X; auto. }
      assert (I1 : WInv w1).
      { destruct I. constructor; auto.
        - rewrite T1. now apply NoDup_ddel.
        - destruct i_main as (st & sn & M). exists st, sn. rewrite T1, dget_ddel_other; auto.
        - intros k t X. apply G in X. destruct X. auto.
        - intros k1 k2 t1 t2 h1 h2 X1 X2. apply G in X1, X2. destruct X1, X2. eauto.
        - intros k t f X. apply G in X. destruct X. eauto.
        - intros k1 k2 t1 t2 f X1 X2. apply G in X1, X2. destruct X1, X2. eauto. }
      assert (Xd : dext (w_dbg w) (w_dbg w1)) by (apply (@dext_msg _ (Some (OThread false a))); reflexivity).
      destruct (IH w1 N2 I1) as (A1 & A2 & A3 & A4 & A5 & A6 & A7 & A8 & A9).
      { intros x Hx. rewrite T1. apply In_dkeys_ddel; [apply (i_tnd I)|]. split; [congruence|]. apply IN. now right. }
      cbv zeta. csplit; auto.
      * eapply dext_trans; eauto.
      * intros k. rewrite A7, T1. destruct (N.eqb_spec k 1) as [->|NK]; cbn [negb andb]. { apply dget_ddel_other. congruence. }
        destruct (in_dec N.eq_dec k ks) as [X|X], (in_dec N.eq_dec k (a :: ks)) as [Y|Y]; auto.
        -- exfalso. apply Y. now right.
        -- destruct Y as [->|Y]; [apply dget_ddel_same; apply (i_tnd I)|tauto].
        -- apply dget_ddel_other. intros ->. apply Y. now left.
      * rewrite A8, T1. assert (NDT := i_tnd I). assert (DEL : dkeys (ddel (w_threads w) a) = filter (fun k => negb (N.eqb k a)) (dkeys (w_threads w))).
        { revert NDT. generalize (w_threads w). clear. intros d. induction d as [|(k, v) d IH]; cbn [ddel dkeys map fst]; intros ND; auto.
          cbn [map fst] in ND. inversion ND as [|? ? X1 X2]; subst. cbn [filter]. destruct (eqb_spec k a) as [->|X].
          - rewrite N.eqb_refl. cbn [negb]. fold (dkeys d). fold (dkeys d) in X1. clear -X1. induction (dkeys d) as [|x l IH]; cbn; auto.
            destruct (N.eqb_spec x a) as [->|]; [exfalso; apply X1; now left|]. cbn. f_equal. apply IH. intros Y; apply X1; now right.
          - apply N.eqb_neq in X. rewrite X. cbn [negb map fst]. f_equal. apply IH. auto. }
        rewrite DEL. clear -NE. induction (dkeys (w_threads w)) as [|k l IH]; cbn [filter]; auto.
        destruct (N.eqb_spec k a) as [->|X]; cbn [negb].
        -- rewrite IH. destruct (N.eqb_spec a 1); [congruence|]. cbn [negb andb]. destruct (in_dec N.eq_dec a (a :: ks)) as [Y|Y]; [reflexivity|]. exfalso. apply Y. now left.
        -- cbn [filter]. rewrite IH.
           replace (if in_dec N.eq_dec k (a :: ks) then true else false) with (if in_dec N.eq_dec k ks then true else false); [reflexivity|].
           destruct (in_dec N.eq_dec k ks) as [Y|Y], (in_dec N.eq_dec k (a :: ks)) as [Z|Z]; auto; exfalso; cbn in Z; [tauto|destruct Z; [congruence|tauto]].
      * rewrite A9. cbn [filter]. destruct (N.eqb_spec a 1); [congruence|]. cbn [negb map]. cbn. rewrite <- app_assoc. reflexivity.
Qed.

Lemma exit_threads_spec w : WInv w ->
  WInv (exit_threads w) /\ dext (w_dbg w) (w_dbg (exit_threads w)) /\ w_frames (exit_threads w) = w_frames w /\ w_vars (exit_threads w) = w_vars w /\
  only_main (exit_threads w) /\ w_heap (exit_threads w) = w_heap w /\
  dget (w_threads (exit_threads w)) 1 = dget (w_threads w) 1 /\
  d_out (w_dbg (exit_threads w)) = d_out (w_dbg w) ++ map (fun t => Some (OThread false t)) (filter (fun k => negb (N.eqb k 1)) (dkeys (w_threads w))).
Proof.
  intros I. destruct (@exit_loop (dkeys (w_threads w)) w (i_tnd I) I) as (A1 & A2 & A3 & A4 & A5 & A6 & A7 & A8 & A9); auto.
  fold (exit_threads w) in *. csplit; auto.
  - unfold only_main. rewrite A8. destruct (i_main I) as (st & sn & M). apply dget_Some_key in M. pose proof (i_tnd I) as ND. revert M ND.
    assert (E : forall l, incl l (dkeys (w_threads w)) -> filter (fun k => negb (negb (N.eqb k 1) && (if in_dec N.eq_dec k (dkeys (w_threads w)) then true else false))) l = filter (fun k => N.eqb k 1) l).
    { intros l. induction l as [|k l IH]; cbn; auto. intros IL. rewrite IH by (intros x Hx; apply IL; now right).
      destruct (in_dec N.eq_dec k (dkeys (w_threads w))) as [X|X]; [|exfalso; apply X; apply IL; now left].
      rewrite andb_true_r, negb_involutive. reflexivity. }
    rewrite E by (intros x Hx; exact Hx). clear. generalize (dkeys (w_threads w)). induction l as [|k l IH]; cbn; [contradiction|].
    intros [->|M] ND; inversion ND as [|? ? X1 X2]; subst.
    + cbn. f_equal. clear -X1. induction l as [|x l IH]; cbn; auto. destruct (N.eqb_spec x 1) as [->|]; [exfalso; apply X1; now left|]. apply IH. intros Y; apply X1; now right.
    + destruct (N.eqb_spec k 1) as [->|]; [contradiction|]. auto.
  - rewrite A7. reflexivity.
Qed.

(* ------------------------------------------------------------------ start and end *)
Lemma should_break_same task bp t : same_thread t (fst (should_break task bp t)).
Proof.
  unfold should_break. destruct (break_step_over t task); [repeat split|]. destruct (break_step_out t task); [repeat split|].
  destruct (break_step_in t); [repeat split|]. destruct bp; [|repeat split]. destruct (tstate_eqb (t_state t) TStepOut); repeat split.
Qed.
Lemma ssoe_same task r a b c t : same_thread t (fst (should_stop_on_exception task r a b c t)).
Proof. unfold should_stop_on_exception. match goal with |- context [match ?x with Some _ => _ | None => _ end] => destruct x as [(m, tx)|] end; repeat split. Qed.

Lemma only_thread_upd w tid t t' : WInv w -> dget (w_threads w) tid = Some t -> same_thread t t' ->
  WInv (set_thread t' w) /\ only tid w (set_thread t' w) /\ dget (w_threads (set_thread t' w)) tid = Some t'.
Proof.
  intros I H (A & B & C). destruct (i_t I _ H) as (E & _). unfold set_thread. rewrite A, E. split; [eapply inv_thread_upd; eauto|]. split.
  - constructor; cbn -[dset dget]; auto using dext_refl. intros k N. now apply dget_dset_other; auto.
  - apply dget_dset_same.
Qed.
Lemma only_emit tid m w : told (Some m) = [] -> only tid w (emit m w).
Proof. intros H. constructor; auto. now apply dext_msg. Qed.

Lemma start_decide_spec a tid t w : WInv w -> dget (w_threads w) tid = Some t ->
  let '(w', o) := start_decide a tid w in
  WInv w' /\ only tid w w' /\ w_frames w' = w_frames w /\ w_vars w' = w_vars w /\ w_heap w' = w_heap w /\ w_persist w' = w_persist w /\
  (exists t', dget (w_threads w') tid = Some t' /\ same_thread t t' /\ (o = Blocks -> t_state t' = TWait)) /\
  (forall e, o = Raises e -> w' = w /\ exists c, ts_cond a c = CRaise e).
Proof.
  intros I H. unfold start_decide. destruct (n_path (ts_task a)) as [(path, line)|].
  2:{ csplit; auto using only_refl; try discriminate. exists t. csplit; auto. repeat split. discriminate. }
  match goal with |- context [match ?x with Ok _ => _ | Err _ => _ end] => set (chosen := x) end.
  assert (CH : forall e, chosen = Err e -> exists c, ts_cond a c = CRaise e).
  { subst chosen. intros e. destruct (get_breakpoint _ _ _) as [b|]; [|discriminate]. destruct (sb_cond (lb_sb b)) as [[|x c]|]; try discriminate.
    destruct (ts_cond a (x :: c)) as [[|]| |e'] eqn:E; try discriminate. intros X; injection X as ->. eauto. }
  destruct chosen as [id|e].
  - rewrite H. pose proof (should_break_same (ts_task a) id t) as S. pose proof (eq_refl (should_break (ts_task a) id t)) as EQ. revert EQ S.
    destruct (should_break (ts_task a) id t) as (t', [ev|]) at 1 3 4; cbn [fst]; intros EQ S;
      destruct (@only_thread_upd w tid t t' I H S) as (I1 & O1 & T1).
    + assert (TW : t_state t' = TWait).
      { symmetry in EQ. unfold should_break in EQ. destruct (break_step_over t (ts_task a)); [injection EQ as <- _; reflexivity|].
        destruct (break_step_out t (ts_task a)); [injection EQ as <- _; reflexivity|]. destruct (break_step_in t); [injection EQ as <- _; reflexivity|].
        destruct id; [|discriminate]. destruct (tstate_eqb (t_state t) TStepOut); [discriminate|injection EQ as <- _; reflexivity]. }
      csplit; auto; try discriminate.
      * now apply inv_emit.
      * eapply only_trans; [exact O1|now apply only_emit].
      * exists t'. csplit; auto.
    + csplit; auto; try discriminate. exists t'. csplit; auto. discriminate.
  - csplit; auto using only_refl.
    + exists t. csplit; auto. repeat split. discriminate.
    + intros e' X. injection X as <-. split; auto.
Qed.

Lemma end_task_spec h task r addr w : WInv w -> open_ok h task w ->
  exists tid t, thread_for h tid t w /\ on_top tid t task w /\
  match end_task h task r addr w with
  | (w', Returns, Some tid') => w' = w /\ tid' = tid
  | (w', Blocks, Some tid') => tid' = tid /\ WInv w' /\ only tid w w' /\ exists t', on_top tid t' task w' /\ same_thread t t' /\ t_state t' = TWait
  | _ => False
  end.
Proof.
  intros I (tid & t & HI & OT). pose proof OT as OT0. destruct OT as (HT & sfid & rest & f & ST & HF & TK).
  destruct (@thread_for_find h w tid t I (conj HT HI)) as (FT & TID).
  exists tid, t. split; [split; auto|]. split; auto. unfold end_task. rewrite FT.
  pose proof (ssoe_same task r (should_stop_on_error (w_dbg w)) (should_stop_on_unreachable (w_dbg w)) (should_stop_on_skipped (w_dbg w)) t) as S.
  pose proof (eq_refl (should_stop_on_exception task r (should_stop_on_error (w_dbg w)) (should_stop_on_unreachable (w_dbg w)) (should_stop_on_skipped (w_dbg w)) t)) as EQ.
  revert EQ S. destruct (should_stop_on_exception task r (should_stop_on_error (w_dbg w)) (should_stop_on_unreachable (w_dbg w)) (should_stop_on_skipped (w_dbg w)) t) as (t', [ev|]) at 1 3 4; cbn [fst]; intros EQ S.
  2:{ auto. }
  assert (TW : t_state t' = TWait).
  { symmetry in EQ. unfold should_stop_on_exception in EQ. revert EQ. match goal with |- context [match ?x with Some _ => _ | None => _ end] => destruct x as [(m, tx)|] end; [|discriminate].
    intros EQ. injection EQ as <- _. reflexivity. }
  destruct (@only_thread_upd w tid t t' I HT S) as (I1 & O1 & T1). set (w1 := set_thread t' w) in *.
  rewrite ST. assert (HF1 : dget (w_frames w1) sfid = Some f) by exact HF. rewrite HF1.
  pose proof (@add_scope sfid VKDict addr f_with_result w1 f I1 HF1 ss_result) as A.
  pose proof (@add_var_new sfid VKDict addr w1 I1 (ex_intro _ f HF1)) as B.
  destruct (add_var sfid VKDict addr w1) as (vid, w2). destruct B as (_ & _ & _ & _ & _ & _ & _ & B5 & _). specialize (B5 _ HF1).
  cbv zeta in A. rewrite B5 in A |- *.
  assert (SF : set_frame (f_with_result vid (f_with_vars (f_vars f ++ [vid]) f)) w2 = wframes (dset (w_frames w2) sfid (f_with_result vid (f_with_vars (f_vars f ++ [vid]) f))) w2).
  { unfold set_frame. destruct (i_f I _ HF) as (E & _). cbn [f_id f_with_result f_with_vars]. now rewrite E. }
  rewrite SF in A. set (w3 := wframes _ w2) in *. destruct A as (I3 & Q3 & _ & _ & _ & _ & _ & F3 & FO3 & TH3).
  split; auto. split; [now apply inv_emit|]. split.
  - eapply only_trans; [exact O1|]. eapply only_trans; [|apply only_emit; reflexivity]. constructor.
    + intros k _. now rewrite TH3.
    + intros k t0 f0 NK X Y. apply FO3. intros ->. apply NK. eapply (@i_disj _ I1 k tid t0 t' sfid); auto.
      destruct S as (_ & _ & S). rewrite S, ST. now left.
    + apply (q_d Q3).
  - exists t'. csplit; auto. split.
    + change (dget (w_threads w3) tid = Some t'). rewrite TH3. exact T1.
    + exists sfid, rest. eexists. destruct S as (_ & _ & S). split; [now rewrite S|]. split; [exact F3|]. exact TK.
Qed.

Lemma end_finish_spec tid t task w : WInv w -> on_top tid t task w -> tid <> 1 ->
  match end_finish tid task w with
  | (w', Returns) => WInv w' /\ only tid w w' /\ t_state t <> TEnd /\
      ((is_include task = true /\ w' = w) \/
       (is_include task = false /\ exists sfid rest f vs, t_stack t = sfid :: rest /\ dget (w_frames w) sfid = Some f /\ w' = drop_frame tid t sfid rest vs w /\
          (forall x, In x (f_vars f) -> dget vs x = None) /\ (forall x, ~ In x (f_vars f) -> dget vs x = dget (w_vars w) x)))
  | (w', Raises e) => w' = w /\ e = EndStrategy /\ t_state t = TEnd
  | (_, Blocks) => False
  end.
Proof.
  intros I (HT & sfid & rest & f & ST & HF & TK) N1. unfold end_finish. rewrite HT.
  destruct (tstate_eqb (t_state t) TEnd) eqn:ET. { csplit; auto. destruct (t_state t); auto; discriminate. }
  assert (NE : t_state t <> TEnd) by (intros E; rewrite E in ET; discriminate).
  destruct (is_include task); [csplit; auto using only_refl|]. rewrite ST.
  change (w_frames (set_thread (t_with_stack rest t) w)) with (w_frames w). rewrite HF.
  destruct (@inv_drop w tid t sfid rest f I HT ST HF) as (vs & E & I' & V1 & V2).
  match goal with |- context [del_vars ?u ?v] => change (del_vars u v) with (del_vars (f_vars f) (w_vars w)) end. rewrite E.
  change (wvars vs (wframes (ddel (w_frames w) sfid) (set_thread (t_with_stack rest t) w))) with (drop_frame tid t sfid rest vs w).
  csplit; auto. { now apply only_drop. }
  right. split; auto. exists sfid, rest, f, vs. auto.
Qed.

(** Other hosts' tasks are not disturbed. *)
Lemma on_top_only tid w w' k t task : only tid w w' -> k <> tid -> on_top k t task w -> on_top k t task w'.
Proof.
  intros O N (A & sfid & rest & f & B & C & D). split; [now rewrite (o_t O)|]. exists sfid, rest, f. csplit; auto.
  rewrite (@o_f _ _ _ O k t sfid); auto. rewrite B. now left.
Qed.
Lemma open_only tid w w' h h' task t : WInv w -> only tid w w' -> dget (w_threads w) tid = Some t -> host_is h' t = true -> h_uuid h <> h_uuid h' ->
  open_ok h task w -> open_ok h task w'.
Proof.
  intros I O HT HI NE (k & tk & A & B). exists k, tk. split; auto. eapply on_top_only; eauto.
  intros ->. destruct B as (B & _). assert (tk = t) by congruence. subst tk. unfold host_is in *. destruct (t_host t); [|discriminate].
  apply N.eqb_eq in A, HI. congruence.
Qed.
