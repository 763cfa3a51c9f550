(** Property C68: in a whole session, the client's breakpoints stop the playbook. *)
From Verif Require Import PyBase PyDict DbgTypes BpModel BpSpec BpProofs BpProofs2 BpProofs3 BpProps ThreadModel ThreadProps StratModel
  ThreadSpec SysModel SysSpec SysProofs SysProofs2 SysProofs6 SysProofs7 SysProofs8 SysProofs10 SysDemo HistSpec HistProofs.
From Coq Require Import Lia.
Set Implicit Arguments.
Local Open Scope Z_scope.

(* ---------------------------------------------------------------- the client's breakpoints *)
Definition view (b : LineBp) : Active := mkActive (lb_srcpath b) (lb_actual b) (lb_sb b).
Lemma map_path_actual maps p : to_actual maps p = map_path maps p.
Proof.
  unfold map_path. induction maps as [|m maps IH]; cbn [to_actual find]; [reflexivity|].
  destruct (startswith p (m_local m)) eqn:E; [|exact IH]. f_equal. apply startswith_spec in E. destruct E as (r & ->).
  now rewrite slice_from_app, skipn_app, skipn_all, Nat.sub_diag.
Qed.
Lemma client_state_snoc ops o : client_state (ops ++ [o]) = take_call (client_state ops) o.
Proof. unfold client_state. now rewrite fold_left_app. Qed.
Lemma client_state_calls ops : client_state (filter is_call ops) = client_state ops.
Proof.
  induction ops as [|o ops IH] using rev_ind; [reflexivity|]. rewrite filter_app, client_state_snoc. cbn [filter].
  destruct (is_call o) eqn:C; [rewrite client_state_snoc; now rewrite IH|]. rewrite app_nil_r, IH. destruct o; try discriminate; reflexivity.
Qed.
Lemma regs_calls path ops : regs_of path (filter is_call ops) = regs_of path ops.
Proof.
  induction ops as [|o ops IH]; [reflexivity|]. cbn [filter]. destruct o; cbn [is_call regs_of]; auto. now rewrite IH.
Qed.

Lemma refresh_view path fl bps : forall bps' ev x, refresh path fl bps = (bps', ev, x) ->
  map (fun kb => view (snd kb)) bps' = map (fun kb => view (snd kb)) bps /\ map (fun kb => lb_source (snd kb)) bps' = map (fun kb => lb_source (snd kb)) bps.
Proof.
  induction bps as [|(k, b) bps IH]; intros bps' ev x; cbn [refresh].
  - intros E. injection E as <- _ _. auto.
  - destruct (refresh path fl bps) as ((r', ev'), x') eqn:R. destruct (IH _ _ _ eq_refl) as (A & B). destruct (negb _).
    + intros E. injection E as <- _ _. cbn. now rewrite A, B.
    + destruct (calculate _ _ _ _) as [bp|e]; [|intros E; injection E as <- _ _; auto].
      destruct (same_loc _ _); intros E; injection E as <- _ _; cbn; now rewrite A, B.
Qed.

Lemma client_state_is ops : hist_wf ops ->
  client_state ops = (d_maps (brun ops), map (fun kb => view (snd kb)) (d_bps (brun ops))) /\
  Forall (fun kb => lb_srcpath (snd kb) = named_path (lb_source (snd kb))) (d_bps (brun ops)).
Proof.
  induction ops as [|o ops IH] using rev_ind; intros W; [split; [reflexivity|constructor]|].
  assert (W0 : hist_wf ops) by (intros x Hx; apply W; apply in_or_app; now left).
  assert (Wo : op_wf o) by (apply W; apply in_or_app; right; now left).
  destruct (IH W0) as (E & F). rewrite client_state_snoc, E, brun_snoc. clear IH.
  destruct o as [seq src l md|seq fs|p line t| |maps|m| | | | |]; cbn [take_call fst snd bstep]; try (split; [reflexivity|exact F]).
  - assert (I : binv (brun ops) ops) by (now apply binv_run).
    destruct (@set_ok _ _ seq src l md I Wo) as (d' & infos & SE & O & L & _ & _ & _ & _ & _ & B & _). 
    pose proof SE as SE2. rewrite SE.
    assert (M : d_maps d' = d_maps (brun ops)).
    { unfold set_breakpoints in SE2. match goal with H : context [set_loop ?a ?b ?c ?e ?f l ?g ?x] |- _ =>
        destruct (set_loop_frame a b c e f l g x) as (_ & _ & _ & _ & X3 & _); destruct (set_loop a b c e f l g x) as (d2, [i2|er]) end; [|discriminate].
      injection SE2 as <-. cbn in *. congruence. }
    rewrite M, B, map_app. unfold named_path. fold (py_or_empty (src_path src)). split.
    + f_equal. f_equal.
      * clear. induction (d_bps (brun ops)) as [|(k, b) r IH]; [reflexivity|]. cbn [map filter snd]. change (ac_source (view b)) with (lb_srcpath b). destruct (eqb (lb_srcpath b) (py_or_empty (src_path src))); cbn [negb]; [exact IH|]. cbn [map snd]. f_equal. exact IH.
      * destruct md; [reflexivity|]. rewrite map_map, <- map_path_actual. unfold entry_of, view. cbn [snd lb_srcpath lb_actual lb_sb].
        revert L. clear. revert infos. induction l as [|x l IH]; intros [|i infos]; cbn; intros L; try discriminate; auto. f_equal. apply IH. lia.
    + apply Forall_app. split.
      * rewrite Forall_forall in F |- *. intros x Hx. apply filter_In in Hx. apply F. tauto.
      * destruct md; [constructor|]. rewrite Forall_forall. intros x Hx. apply in_map_iff in Hx. destruct Hx as ((sb, b) & <- & _). reflexivity.
  - unfold register_path_breakpoint. destruct (py_setitem _ line (Some t)) as [fl2|]; [|split; [reflexivity|exact F]].
    destruct (refresh p fl2 (d_bps (brun ops))) as ((bps', ev), x) eqn:R. cbn [fst]. destruct (refresh_view _ _ _ R) as (A & B).
    assert (QA : forall l d0, d_maps (queue_all l d0) = d_maps d0 /\ d_bps (queue_all l d0) = d_bps d0).
    { unfold queue_all. induction l as [|z l IHl]; intros d0; cbn [fold_left]; auto. rewrite (proj1 (IHl _)), (proj2 (IHl _)). auto. }
    rewrite (proj1 (QA _ _)), (proj2 (QA _ _)). cbn [d_maps d_bps set_bps set_src]. split; [now rewrite A|].
    clear -F A B. revert bps' A B. induction F as [|(k, b) r H F IH]; intros [|(k', b') bps']; cbn; intros A B; try discriminate; constructor.
    + cbn in *. injection A as A1 A2 A3 A. injection B as B1 B. congruence.
    + injection A as A1 A2 A3 A. injection B as B1 B. auto.
  - split; [reflexivity|constructor].
Qed.

Lemma find_view (P : Active -> Prop) f l1 v l2 : forall l, (forall b, In b l -> (f b = true <-> P (view b))) ->
  map view l = l1 ++ v :: l2 -> P v -> (forall x, In x l1 -> ~ P x) -> exists b, find f l = Some b /\ view b = v.
Proof.
  induction l1 as [|x l1 IH]; intros [|b l] H E HP HN; try discriminate; cbn in E.
  - injection E as E _. exists b. split; [|exact E]. cbn. replace (f b) with true; auto. symmetry. apply H; [now left|]. now rewrite E.
  - injection E as E E2. cbn. replace (f b) with false.
    + apply IH; auto; [|intros; apply HN; now right]. intros; apply H; now right.
    + symmetry. apply not_true_is_false. intros X. apply H in X; [|now left]. rewrite E in X. apply (HN x); [now left|exact X].
Qed.
Lemma find_split {A} (f : A -> bool) l b : find f l = Some b -> exists l1 l2, l = l1 ++ b :: l2 /\ f b = true /\ forall x, In x l1 -> f x = false.
Proof.
  induction l as [|x l IH]; cbn; [discriminate|]. destruct (f x) eqn:E.
  - intros H. injection H as <-. exists [], l. repeat split; auto. intros y [].
  - intros H. destruct (IH H) as (l1 & l2 & -> & H1 & H2). exists (x :: l1), l2. repeat split; auto. intros y [<-|Y]; auto.
Qed.

(** The breakpoint found for a task is the first of the client's that the task hits. *)
Lemma found ops path line : hist_wf ops -> regs_of path ops <> [] -> boundary (regs_of path ops) line ->
  (forall b, get_breakpoint (brun ops) path line = Some b -> first_hit ops path line (view b)) /\
  (forall v, first_hit ops path line v -> exists b, get_breakpoint (brun ops) path line = Some b /\ view b = v).
Proof.
  intros W NE HL. pose proof (binv_run W) as I. destruct (client_state_is W) as (CS & _).
  assert (CB : client_bps ops = map view (dvals (d_bps (brun ops)))). { unfold client_bps, dvals. rewrite CS, map_map. reflexivity. }
  assert (M : forall b, In b (dvals (d_bps (brun ops))) -> (bp_matches path line b = true <-> hits ops path line (view b))).
  { intros b Hb. apply dvals_In in Hb. destruct Hb as (k & HI). destruct (bi_bp I _ _ HI) as (_ & _ & _ & _ & _ & _ & P).
    unfold bp_matches, hits, view. cbn [ac_path ac_req]. rewrite <- andb_assoc, andb_true_iff, eqb_eq. split.
    - intros (E & X). split; auto. rewrite E in P. apply placed_cons in P; auto. now apply (located_match P HL).
    - intros (E & X). split; auto. rewrite E in P. apply placed_cons in P; auto. now apply (located_match P HL). }
  split.
  - intros b H. unfold get_breakpoint in H. destruct (find_split _ _ H) as (l1 & l2 & E & H1 & H2). exists (map view l1), (map view l2).
    rewrite CB, E, map_app. split; [reflexivity|]. rewrite E in M. split.
    + apply M; [apply in_or_app; right; now left|exact H1].
    + intros b' Hb' X. apply in_map_iff in Hb'. destruct Hb' as (x & <- & Hx). apply M in X; [|apply in_or_app; now left]. rewrite H2 in X; auto. discriminate.
  - intros v (l1 & l2 & E & H1 & H2). rewrite CB in E. eapply find_view; eauto.
Qed.

(* ---------------------------------------------------------------- a task starts *)
Lemma register_stopped l : forall d d' x, register_all l d = (d', x) -> stopped_events (d_out d') = stopped_events (d_out d).
Proof.
  induction l as [|((p, line), t) l IH]; intros d d' x; cbn [register_all]; [congruence|].
  assert (R : stopped_events (d_out (fst (register_path_breakpoint p line t d))) = stopped_events (d_out d)).
  { unfold register_path_breakpoint. destruct (py_setitem _ line (Some t)) as [fl2|]; [|reflexivity]. destruct (refresh _ _ _) as ((b', ev), z). cbn [fst].
    rewrite queue_all_out, sev_app. cbn [d_out set_bps set_src]. rewrite <- (app_nil_r (stopped_events (d_out d))) at 2. f_equal.
    clear. induction ev; cbn; auto. }
  destruct (register_path_breakpoint p line t d) as (d1, [u|e]); cbn [fst] in R; intros H.
  - rewrite <- R. eauto.
  - injection H as <- _. exact R.
Qed.
Lemma enter_stopped a w : stopped_events (d_out (w_dbg (fst (enter_frame a w)))) = stopped_events (d_out (w_dbg w)).
Proof.
  unfold enter_frame.
  destruct (match find_thread (ts_host a) w with Some t => (t_id t, w) | None => add_thread (ts_host a) w end) as (tid, w1) eqn:E1.
  assert (S1 : stopped_events (d_out (w_dbg w1)) = stopped_events (d_out (w_dbg w))).
  { destruct (find_thread (ts_host a) w); [injection E1 as <- <-; reflexivity|]. unfold add_thread in E1. cbn -[dset] in E1. injection E1 as <- <-. cbn.
    rewrite sev_app. apply app_nil_r. }
  rewrite <- S1. clear S1 E1.
  set (step2 := match dget (w_threads w1) tid with None => _ | Some t => _ end).
  assert (K2 : stopped_events (d_out (w_dbg (fst step2))) = stopped_events (d_out (w_dbg w1))).
  { subst step2. destruct (dget (w_threads w1) tid) as [t|] eqn:T; [|reflexivity].
    destruct (t_stack t) as [|last rest]; [reflexivity|]. destruct (n_parent (ts_task a)) as [blk|]; [|reflexivity].
    destruct (dget (w_frames w1) last) as [lf|]; [|reflexivity]. cbv zeta.
    set (popped := if (match n_parent blk with None => true | Some p => negb (n_uuid (f_task lf) =? n_uuid p)%N end) then _ else _).
    assert (P : w_dbg (fst popped) = w_dbg w1).
    { subst popped. destruct (match n_parent blk with None => true | Some _ => _ end); [|reflexivity]. destruct (del_vars _ _); reflexivity. }
    destruct popped as (w4, [u|e]); cbn [fst] in P; [|cbn; now rewrite P].
    destruct (n_parent blk); [|cbn; now rewrite P]. destruct (is_include_role _); [|cbn; now rewrite P].
    destruct (ts_role a) as [regs|]; [|cbn; now rewrite P].
    destruct (register_all regs (w_dbg w4)) as (d', x) eqn:R. apply register_stopped in R. rewrite P in R. destruct x; exact R. }
  rewrite <- K2. destruct step2 as (w5, [u|e]); cbn [fst]; [|reflexivity]. cbn -[dset dget].
  destruct (dget (w_threads _) tid); reflexivity.
Qed.

Section H.
Variable py_int : pystr -> option Z.
Variable py_repr : heap -> val -> pystr.
Variable type_name : heap -> val -> pystr.
Variable tmpl : pystr -> nat -> heap -> res (list obj * val).
Variable tmpl_args : nat -> nat -> heap -> res (list obj * val).
Variable err_text : exn -> pystr.
Variable parse_repl : pystr -> res ReplCmd.
Notation step := (step py_int py_repr type_name tmpl tmpl_args err_text parse_repl).
Notation run := (run py_int py_repr type_name tmpl tmpl_args err_text parse_repl).

Lemma history_snoc ls l : forall y y', run y ls y' -> history step y (ls ++ [l]) = history step y ls ++ calls y' l.
Proof.
  induction ls as [|x ls IH]; intros y y' R; inversion R; subst; cbn [history app].
  - destruct (step y' l); apply app_nil_r.
  - match goal with H : step y x = Some _ |- _ => rewrite H end. rewrite <- app_assoc. f_equal. now apply IH.
Qed.
Lemma via_brun h ops d : via h (brun ops) d -> hist_wf ops -> exists ops', hist_wf ops' /\ d = brun ops' /\ filter is_call ops' = filter is_call ops ++ h.
Proof.
  intros (o2 & W2 & -> & <-) W. exists (ops ++ o2). unfold brun. rewrite fold_left_app, filter_app. repeat split.
  intros o H. apply in_app_or in H. destruct H; auto.
Qed.
Lemma run_hist ls y : trace_wf ls -> run sys_init ls y ->
  exists ops, hist_wf ops /\ w_dbg (y_w y) = brun ops /\ filter is_call ops = history step sys_init ls.
Proof.
  intros W R. pose proof (@run_via _ _ _ _ _ _ _ ls sys_init y sinv_init W R) as (ops & A & B & C). exists ops. auto.
Qed.

Lemma start_stops ls y a path line y' :
  trace_wf (ls ++ [LStart a]) -> run sys_init ls y -> step y (LStart a) = Some y' -> (forall e, y_phase y' <> PDone e) ->
  n_path (ts_task a) = Some (path, line) -> (forall c e, ts_cond a c <> CRaise e) -> host_state y (ts_host a) = TContinue ->
  let h := history step sys_init (ls ++ [LStart a]) in
  regs_of path h <> [] -> boundary (regs_of path h) line ->
  (forall b, first_hit h path line b -> holds a (sb_cond (ac_req b)) ->
     exists tid id bp, y_phase y' = PWaitStart tid /\
       stopped_events (d_out (w_dbg (y_w y'))) =
         stopped_events (d_out (w_dbg (y_w y))) ++ [mkStopped StBreakpoint (s "Breakpoint hit") tid None [id]] /\
       last_told (d_out (w_dbg (y_w y'))) id = Some bp /\ bp_id bp = id /\ named_path (bp_source bp) = ac_source b /\
       bp_line bp = Some line /\ located (regs_of path h) (sb_line (ac_req b)) bp) /\
  (~ (exists b, first_hit h path line b /\ holds a (sb_cond (ac_req b))) ->
     y_phase y' = PRun /\ stopped_events (d_out (w_dbg (y_w y'))) = stopped_events (d_out (w_dbg (y_w y)))).
Proof.
  intros W R ST NP PA NR HC h NE HB. apply Forall_app in W. destruct W as (W & Wa). inversion Wa as [|? ? Wl _]; subst. clear Wa.
  pose proof (run_sinv W R) as S. pose proof (y_inv S) as I. pose proof (y_dwf S) as D.
  destruct (run_hist W R) as (ops & WO & EO & CO).
  assert (H : exists ops', hist_wf ops' /\ w_dbg (fst (enter_frame a (y_w y))) = brun ops' /\ filter is_call ops' = h).
  { pose proof (@via_enter a y I D Wl) as V. rewrite EO in V. destruct (via_brun V WO) as (ops' & A & B & C). exists ops'. split; [exact A|]. split; [exact B|].
    subst h. rewrite (history_snoc (LStart a) R), <- CO. exact C. }
  destruct H as (ops' & WO' & EO' & CO').
  cbn [SysModel.step] in ST. destruct (y_phase y); try discriminate. destruct (host_open _ _); try discriminate.
  destruct (@enter_frame_spec a (y_w y) I D Wl) as (tid & N1 & TID & SP). pose proof (enter_stopped a (y_w y)) as ES.
  unfold start_task in ST. destruct (enter_frame a (y_w y)) as (w1, [tid'|e]).
  2:{ injection ST as <-. exfalso. eapply NP. reflexivity. }
  cbn [fst] in EO', ES. destruct SP as (-> & I1 & _ & _ & _ & t' & (T1 & _) & _ & _ & _ & TS).
  assert (TC : t_state t' = TContinue).
  { unfold host_state in HC. destruct (find_thread (ts_host a) (y_w y)); destruct TS as (-> & _); auto. }
  pose proof (@c26 a tid w1 t' path line T1 TC PA NR) as C.
  assert (TI : t_id t' = tid) by (apply (i_t I1) in T1; tauto). rewrite TI in C. rewrite EO' in C.
  assert (EQ : forall p l b, first_hit h p l b <-> first_hit ops' p l b).
  { intros p l b. unfold first_hit, hits, client_bps. rewrite <- CO', client_state_calls, regs_calls. tauto. }
  subst h. rewrite <- CO', regs_calls in NE, HB. destruct (@found ops' path line WO' NE HB) as (F1 & F2).
  destruct (client_state_is WO') as (_ & SRC).
  assert (CH : forall b, condition_holds (ts_cond a) b <-> holds a (sb_cond (ac_req (view b)))).
  { intros b. unfold condition_holds, holds, view. cbn [ac_req]. destruct (sb_cond (lb_sb b)) as [[|c0 c]|]; split; auto.
    - intros [X|[X|(c' & X & Y)]]; try discriminate. injection X as <-. exact Y.
    - intros X. right; right. eauto. }
  destruct (start_decide a tid w1) as (w2, o) eqn:SD. cbn [fst snd] in C.
  split.
  - intros b FH HO. rewrite EQ in FH. destruct (F2 b FH) as (lb & G & V). rewrite G in C. destruct C as (C & _). subst b.
    destruct (C (proj2 (CH lb) HO)) as (-> & OUT). injection ST as <-. cbn [y_phase y_w].
    destruct FH as (_ & _ & _ & HIT & _). destruct HIT as (HP & HR). cbn [view ac_path ac_req] in *.
    unfold get_breakpoint in G. apply find_some in G. destruct G as (GI & _). apply dvals_In in GI. destruct GI as (k & GI).
    destruct (bi_bp (binv_run WO') _ _ GI) as (K1 & K2 & _ & K3 & _ & K4 & K5).
    rewrite HP in K5. apply placed_cons in K5; auto.
    exists tid, (lb_id lb), (lb_bp lb). split; [reflexivity|]. rewrite OUT, sev_app. split; [now rewrite EO' in ES; rewrite ES|].
    split. { unfold last_told in *. rewrite flat_map_app. cbn [flat_map told app]. rewrite app_nil_r, K1. exact K4. }
    split; [congruence|]. split. { rewrite Forall_forall in SRC. rewrite K3. symmetry. apply (SRC _ GI). }
    rewrite <- CO', regs_calls. split; [|exact K5].
    destruct K5 as (f & l & t0 & (S1 & A1 & A2 & A3) & L1 & _). rewrite L1. f_equal. destruct HR as (R1 & R2).
    assert (B1 : boundary (regs_of path ops') f) by (now exists t0). specialize (R2 f B1 A1). specialize (A2 line HB R1). lia.
  - intros NO. rewrite <- ES.
    assert (X : o = Returns /\ d_out (w_dbg w2) = d_out (w_dbg w1)).
    { rewrite EO'. destruct (get_breakpoint (brun ops') path line) as [lb|] eqn:G; [|exact C]. destruct C as (_ & C). apply C. intros X. apply NO.
      exists (view lb). split; [apply EQ; now apply F1|now apply CH]. }
    destruct X as (-> & X). injection ST as <-. cbn [y_phase y_w]. now rewrite X.
Qed.

Lemma start_stops_any ls y a path line y' b :
  trace_wf (ls ++ [LStart a]) -> run sys_init ls y -> step y (LStart a) = Some y' -> (forall e, y_phase y' <> PDone e) ->
  n_path (ts_task a) = Some (path, line) -> host_state y (ts_host a) <> TStepOut ->
  let h := history step sys_init (ls ++ [LStart a]) in
  regs_of path h <> [] -> boundary (regs_of path h) line -> first_hit h path line b -> holds a (sb_cond (ac_req b)) ->
  exists tid ev, y_phase y' = PWaitStart tid /\ st_thread ev = tid /\
    stopped_events (d_out (w_dbg (y_w y'))) = stopped_events (d_out (w_dbg (y_w y))) ++ [ev].
Proof.
  intros W R ST NP PA HC h NE HB FH HO. apply Forall_app in W. destruct W as (W & Wa). inversion Wa as [|? ? Wl _]; subst. clear Wa.
  pose proof (run_sinv W R) as S. pose proof (y_inv S) as I. pose proof (y_dwf S) as D.
  destruct (run_hist W R) as (ops & WO & EO & CO).
  assert (H : exists ops', hist_wf ops' /\ w_dbg (fst (enter_frame a (y_w y))) = brun ops' /\ filter is_call ops' = h).
  { pose proof (@via_enter a y I D Wl) as V. rewrite EO in V. destruct (via_brun V WO) as (ops' & A & B & C). exists ops'. split; [exact A|]. split; [exact B|].
    subst h. rewrite (history_snoc (LStart a) R), <- CO. exact C. }
  destruct H as (ops' & WO' & EO' & CO').
  cbn [SysModel.step] in ST. destruct (y_phase y); try discriminate. destruct (host_open _ _); try discriminate.
  destruct (@enter_frame_spec a (y_w y) I D Wl) as (tid & N1 & TID & SP). pose proof (enter_stopped a (y_w y)) as ES.
  unfold start_task in ST. destruct (enter_frame a (y_w y)) as (w1, [tid'|e]).
  2:{ injection ST as <-. exfalso. eapply NP. reflexivity. }
  cbn [fst] in EO', ES. destruct SP as (-> & I1 & _ & _ & _ & t' & (T1 & _) & _ & _ & _ & TS).
  assert (TC : t_state t' <> TStepOut).
  { unfold host_state in HC. destruct (find_thread (ts_host a) (y_w y)); destruct TS as (-> & _); auto. }
  assert (TI : t_id t' = tid) by (apply (i_t I1) in T1; tauto).
  assert (FH' : first_hit ops' path line b).
  { revert FH. unfold first_hit, hits, client_bps. rewrite <- CO', client_state_calls, regs_calls. tauto. }
  subst h. rewrite <- CO', regs_calls in NE, HB. destruct (@found ops' path line WO' NE HB) as (_ & F2). destruct (F2 _ FH') as (lb & G & V). subst b.
  unfold start_decide in ST. rewrite PA, EO', G in ST.
  assert (CH : match sb_cond (lb_sb lb) with None | Some [] => Ok (Some (lb_id lb)) | Some c => match ts_cond a c with CBool true => Ok (Some (lb_id lb)) | CBool false | CCaught => Ok None | CRaise e => Err e end end = Ok (Some (lb_id lb))).
  { unfold holds, view in HO. cbn [ac_req] in HO. destruct (sb_cond (lb_sb lb)) as [[|c0 c]|]; auto. now rewrite HO. }
  cbv zeta in ST. rewrite CH, T1 in ST.
  assert (SB : exists t2 ev, should_break (ts_task a) (Some (lb_id lb)) t' = (t2, Some ev) /\ st_thread ev = tid).
  { unfold should_break. destruct (break_step_over _ _); [eexists; eexists; split; [reflexivity|exact TI]|]. destruct (break_step_out _ _); [eexists; eexists; split; [reflexivity|exact TI]|].
    destruct (break_step_in _); [eexists; eexists; split; [reflexivity|exact TI]|].
    replace (tstate_eqb (t_state t') TStepOut) with false; [eexists; eexists; split; [reflexivity|exact TI]|]. destruct (t_state t'); try reflexivity. contradiction. }
  destruct SB as (t2 & ev & SB & TH). rewrite SB in ST. injection ST as <-. exists tid, ev. cbn [y_phase y_w]. split; [reflexivity|]. split; [exact TH|].
  cbn. rewrite sev_app. cbn [stopped_events flat_map app]. f_equal. exact ES.
Qed.

(* ---------------------------------------------------------------- a task ends *)
Lemma stopped_exit w : WInv w -> stopped_events (d_out (w_dbg (exit_threads w))) = stopped_events (d_out (w_dbg w)).
Proof.
  intros I. destruct (exit_threads_spec I) as (_ & _ & _ & _ & _ & _ & _ & ->). rewrite sev_app.
  rewrite <- (app_nil_r (stopped_events (d_out (w_dbg w)))) at 2. f_equal. induction (filter _ (dkeys (w_threads w))); cbn; auto.
Qed.
Lemma exc_hist ls y f : trace_wf ls -> run sys_init ls y -> (exc_on f (w_dbg (y_w y)) = true <-> In f (last_filters (history step sys_init ls))).
Proof.
  intros W R. destruct (run_hist W R) as (ops & WO & EO & CO). rewrite EO, C19_exception_filters, <- CO.
  replace (last_filters (filter is_call ops)) with (last_filters ops); [tauto|].
  unfold last_filters. clear. induction ops as [|o ops IH] using rev_ind; [reflexivity|]. rewrite filter_app, !fold_left_app. cbn [fold_left filter].
  destruct o; cbn [is_call fold_left]; auto.
Qed.

Lemma end_stops_gen (is_rescued : Node -> Prop) ls y h r addr y' task :
  trace_wf ls -> run sys_init ls y -> step y (LEnd h r addr) = Some y' -> running_task y h task ->
  (is_rescued task <-> exists a, In a (ancestors task) /\ has_rescue a = true) ->
  let wanted := exception_wanted (last_filters (history step sys_init ls)) task r is_rescued in
  (wanted -> exists tid ev, y_phase y' = PWaitEnd tid task /\ st_reason ev = StException /\ st_thread ev = tid /\ st_hit ev = [] /\
     stopped_events (d_out (w_dbg (y_w y'))) = stopped_events (d_out (w_dbg (y_w y))) ++ [ev]) /\
  (~ wanted -> (y_phase y' = PRun \/ exists e, y_phase y' = PDone e) /\
     stopped_events (d_out (w_dbg (y_w y'))) = stopped_events (d_out (w_dbg (y_w y)))).
Proof.
  intros W R ST (h0 & OP & HU) MS wanted. pose proof (run_sinv W R) as S. pose proof (y_inv S) as I. pose proof (y_dwf S) as D.
  pose proof (fun f => @exc_hist ls y f W R) as EX.
  cbn [SysModel.step] in ST. destruct (y_phase y); try discriminate. destruct (find _ (y_open y)) as [(h1, task1)|] eqn:F; [|discriminate].
  apply find_open in F. destruct F as (F1 & F2). cbn in F2.
  assert (task1 = task).
  { assert (U : h_uuid h1 = h_uuid h0) by congruence. pose proof (y_nd S) as ND. clear -F1 OP U ND. revert F1 OP ND. induction (y_open y) as [|(a, b) l IH]; [contradiction|].
    cbn [map fst]. intros [X|X] [Y|Y] ND; inversion ND as [|? ? N1 N2]; subst.
    - congruence.
    - injection X as -> ->. exfalso. apply N1. rewrite U. apply (in_map (fun p => h_uuid (fst p)) _ _ Y).
    - injection Y as -> ->. exfalso. apply N1. rewrite <- U. apply (in_map (fun p => h_uuid (fst p)) _ _ X).
    - auto. }
  subst task1.
  assert (OKh : open_ok h task (y_w y)).
  { destruct (y_ok S _ _ F1) as (tid & t & A & B). exists tid, t. split; auto. unfold host_is in *. destruct (t_host t); [|discriminate]. now rewrite <- F2. }
  destruct (@end_task_spec h task r addr (y_w y) I OKh) as (tid & t & TF & OT & E).
  destruct (@thread_for_find h (y_w y) tid t I TF) as (FT & TID).
  set (w := y_w y) in *.
  pose proof (@c27 is_rescued task r (should_stop_on_error (w_dbg w)) (should_stop_on_unreachable (w_dbg w)) (should_stop_on_skipped (w_dbg w)) t MS) as C.
  assert (SP : should_stop_spec is_rescued task r (should_stop_on_error (w_dbg w)) (should_stop_on_unreachable (w_dbg w)) (should_stop_on_skipped (w_dbg w)) <-> wanted).
  { unfold should_stop_spec, wanted, exception_wanted, should_stop_on_error, should_stop_on_unreachable, should_stop_on_skipped. rewrite !EX. unfold f_error, f_unreachable, f_skipped. tauto. }
  rewrite SP in C. clear SP.
  assert (N1 : tid <> 1%N). { destruct TF as (T1 & T2). destruct (host_is_host _ _ T2) as (h2 & HH & _). eapply thread_not_main; eauto. congruence. }
  unfold end_task in ST, E. rewrite FT in ST, E. unfold stops_on in C.
  destruct (should_stop_on_exception task r (should_stop_on_error (w_dbg w)) (should_stop_on_unreachable (w_dbg w)) (should_stop_on_skipped (w_dbg w)) t) as (t', [ev|]) eqn:SE.
  - split; [|intros N; exfalso; apply N, C; eauto]. intros _.
    assert (EV : st_reason ev = StException /\ st_thread ev = tid /\ st_hit ev = []).
    { unfold should_stop_on_exception in SE. match type of SE with (match ?x with Some _ => _ | None => _ end) = _ => destruct x as [(m, tx)|] end; [|discriminate].
      injection SE as _ <-. cbn. auto. }
    destruct OT as (_ & sfid & rest & f & SS & HF & _). rewrite SS in ST. cbv zeta in ST.
    change (w_frames (set_thread t' w)) with (w_frames w) in ST. rewrite HF in ST.
    destruct (add_var sfid VKDict addr (set_thread t' w)) as (vid, w2) eqn:AV. rewrite TID in ST. injection ST as <-.
    exists tid, ev. cbn [y_phase y_w]. destruct EV as (E1 & E2 & E3). split; [reflexivity|]. split; [exact E1|]. split; [exact E2|]. split; [exact E3|].
    assert (O2 : d_out (w_dbg w2) = d_out (w_dbg w)) by (unfold add_var in AV; cbn -[dset dget] in AV; injection AV as _ <-; reflexivity).
    cbn. rewrite sev_app. cbn [stopped_events flat_map app]. f_equal. 
    destruct (dget (w_frames w2) sfid); cbn; now rewrite O2.
  - split; [intros X; exfalso; apply C in X; destruct X as (? & ? & X); discriminate|]. intros _. rewrite TID in ST.
    pose proof (@end_finish_spec tid t task w I OT N1) as E2. destruct (end_finish tid task w) as (w2, [| |e]) eqn:EF; [|contradiction|].
    + injection ST as <-. cbn [y_phase y_w]. split; [now left|].
      assert (d_out (w_dbg w2) = d_out (w_dbg w)) as ->; [|reflexivity].
      unfold end_finish in EF. destruct (dget (w_threads w) tid); [|discriminate]. destruct (tstate_eqb _ _); [discriminate|].
      destruct (is_include task); [now injection EF as <-|]. destruct (t_stack _); [discriminate|]. cbv zeta in EF. destruct (dget _ n); [|discriminate].
      destruct (del_vars _ _); [|discriminate]. injection EF as <-. reflexivity.
    + injection ST as <-. destruct E2 as (-> & _). cbn [y_phase y_w abort]. split; [right; eauto|]. now apply stopped_exit.
Qed.
Lemma end_stops ls y h r addr y' task :
  trace_wf ls -> run sys_init ls y -> step y (LEnd h r addr) = Some y' -> running_task y h task -> main_sections task ->
  let wanted := exception_wanted (last_filters (history step sys_init ls)) task r rescued in
  (wanted -> exists tid ev, y_phase y' = PWaitEnd tid task /\ st_reason ev = StException /\ st_thread ev = tid /\ st_hit ev = [] /\
     stopped_events (d_out (w_dbg (y_w y'))) = stopped_events (d_out (w_dbg (y_w y))) ++ [ev]) /\
  (~ wanted -> (y_phase y' = PRun \/ exists e, y_phase y' = PDone e) /\
     stopped_events (d_out (w_dbg (y_w y'))) = stopped_events (d_out (w_dbg (y_w y)))).
Proof. intros W R ST RT MS. apply (@end_stops_gen rescued ls y h r addr y' task W R ST RT). now apply main_rescued. Qed.
Lemma end_stops_exact ls y h r addr y' task :
  trace_wf ls -> run sys_init ls y -> step y (LEnd h r addr) = Some y' -> running_task y h task ->
  let wanted := exception_wanted (last_filters (history step sys_init ls)) task r in_rescue_block in
  (wanted -> exists tid ev, y_phase y' = PWaitEnd tid task /\ st_reason ev = StException /\ st_thread ev = tid /\ st_hit ev = [] /\
     stopped_events (d_out (w_dbg (y_w y'))) = stopped_events (d_out (w_dbg (y_w y))) ++ [ev]) /\
  (~ wanted -> (y_phase y' = PRun \/ exists e, y_phase y' = PDone e) /\
     stopped_events (d_out (w_dbg (y_w y'))) = stopped_events (d_out (w_dbg (y_w y)))).
Proof. intros W R ST RT. apply (@end_stops_gen in_rescue_block ls y h r addr y' task W R ST RT). apply irb_ancestor. Qed.
End H.

(* ---------------------------------------------------------------- C68 *)
(** At every point of every session the debugger's breakpoints, path mappings and
    filters are the ones of the calls made so far: all of C12-C19, which are about
    such histories, apply to the running session. *)
Theorem C68_session_is_history : forall py_int py_repr type_name tmpl tmpl_args err_text parse_repl ls y,
  let run := run py_int py_repr type_name tmpl tmpl_args err_text parse_repl in
  let step := step py_int py_repr type_name tmpl tmpl_args err_text parse_repl in
  trace_wf ls -> run sys_init ls y ->
  let h := history step sys_init ls in
  (exists ops, hist_wf ops /\ w_dbg (y_w y) = brun ops /\ filter is_call ops = h) /\
  d_maps (w_dbg (y_w y)) = fst (client_state h) /\
  map (fun kb => (lb_srcpath (snd kb), lb_actual (snd kb), lb_sb (snd kb))) (d_bps (w_dbg (y_w y))) =
    map (fun b => (ac_source b, ac_path b, ac_req b)) (client_bps h) /\
  (forall f, exc_on f (w_dbg (y_w y)) = true <-> In f (last_filters h)).
Proof.
  intros py_int py_repr type_name tmpl tmpl_args err_text parse_repl ls y run0 step0 W R h.
  destruct (run_hist W R) as (ops & WO & EO & CO). destruct (client_state_is WO) as (CS & _).
  assert (CH : client_state h = client_state ops) by (unfold h, step0; rewrite <- CO; apply client_state_calls).
  split; [exists ops; auto|]. split; [now rewrite EO, CH, CS|]. split.
  - unfold client_bps. rewrite CH, CS, EO. cbn [snd]. rewrite map_map. reflexivity.
  - intros f. exact (@exc_hist _ _ _ _ _ _ _ ls y f W R).
Qed.
Print Assumptions C68_session_is_history.

(** A task of a loaded file starts on a host that runs freely.  The playbook stops
    there iff the first of the client's current breakpoints set in the task's region
    has no condition or a true one.  It then waits, and the client gets one stopped
    event that names a breakpoint whose last reported location is this task, in the
    source the client set it in. *)
Theorem C68_breakpoint_stops : forall py_int py_repr type_name tmpl tmpl_args err_text parse_repl ls y a path line y',
  let run := run py_int py_repr type_name tmpl tmpl_args err_text parse_repl in
  let step := step py_int py_repr type_name tmpl tmpl_args err_text parse_repl in
  trace_wf (ls ++ [LStart a]) -> run sys_init ls y -> step y (LStart a) = Some y' -> (forall e, y_phase y' <> PDone e) ->
  n_path (ts_task a) = Some (path, line) -> (forall c e, ts_cond a c <> CRaise e) -> host_state y (ts_host a) = TContinue ->
  let h := history step sys_init (ls ++ [LStart a]) in
  regs_of path h <> [] -> boundary (regs_of path h) line ->
  (forall b, first_hit h path line b -> holds a (sb_cond (ac_req b)) ->
     exists tid id bp, y_phase y' = PWaitStart tid /\
       stopped_events (d_out (w_dbg (y_w y'))) =
         stopped_events (d_out (w_dbg (y_w y))) ++ [mkStopped StBreakpoint (s "Breakpoint hit") tid None [id]] /\
       last_told (d_out (w_dbg (y_w y'))) id = Some bp /\ bp_id bp = id /\ named_path (bp_source bp) = ac_source b /\
       bp_line bp = Some line /\ located (regs_of path h) (sb_line (ac_req b)) bp) /\
  (~ (exists b, first_hit h path line b /\ holds a (sb_cond (ac_req b))) ->
     y_phase y' = PRun /\ stopped_events (d_out (w_dbg (y_w y'))) = stopped_events (d_out (w_dbg (y_w y)))).
Proof. exact start_stops. Qed.
Print Assumptions C68_breakpoint_stops.

(** A host that is stepping (not out of an include) stops there too; the event may then
    be the step's. *)
Theorem C68_stepping_stops : forall py_int py_repr type_name tmpl tmpl_args err_text parse_repl ls y a path line y' b,
  let run := run py_int py_repr type_name tmpl tmpl_args err_text parse_repl in
  let step := step py_int py_repr type_name tmpl tmpl_args err_text parse_repl in
  trace_wf (ls ++ [LStart a]) -> run sys_init ls y -> step y (LStart a) = Some y' -> (forall e, y_phase y' <> PDone e) ->
  n_path (ts_task a) = Some (path, line) -> host_state y (ts_host a) <> TStepOut ->
  let h := history step sys_init (ls ++ [LStart a]) in
  regs_of path h <> [] -> boundary (regs_of path h) line -> first_hit h path line b -> holds a (sb_cond (ac_req b)) ->
  exists tid ev, y_phase y' = PWaitStart tid /\ st_thread ev = tid /\
    stopped_events (d_out (w_dbg (y_w y'))) = stopped_events (d_out (w_dbg (y_w y))) ++ [ev].
Proof. exact start_stops_any. Qed.
Print Assumptions C68_stepping_stops.

(* ---------------------------------------------------------------- C69 *)
(** When a task's result comes back, the playbook stops (one stopped event, and it
    waits) iff the filters of the client's last setExceptionBreakpoints ask for it -
    for tasks outside of rescue and always sections, where C27 refutes it. *)
Theorem C69_exception_stops_partial : forall py_int py_repr type_name tmpl tmpl_args err_text parse_repl ls y h r addr y' task,
  let run := run py_int py_repr type_name tmpl tmpl_args err_text parse_repl in
  let step := step py_int py_repr type_name tmpl tmpl_args err_text parse_repl in
  trace_wf ls -> run sys_init ls y -> step y (LEnd h r addr) = Some y' -> running_task y h task -> main_sections task ->
  let wanted := exception_wanted (last_filters (history step sys_init ls)) task r rescued in
  (wanted -> exists tid ev, y_phase y' = PWaitEnd tid task /\ st_reason ev = StException /\ st_thread ev = tid /\ st_hit ev = [] /\
     stopped_events (d_out (w_dbg (y_w y'))) = stopped_events (d_out (w_dbg (y_w y))) ++ [ev]) /\
  (~ wanted -> (y_phase y' = PRun \/ exists e, y_phase y' = PDone e) /\
     stopped_events (d_out (w_dbg (y_w y'))) = stopped_events (d_out (w_dbg (y_w y)))).
Proof. exact end_stops. Qed.
Print Assumptions C69_exception_stops_partial.
(** What decides in every section: a failure stops iff no block around the task has a
    rescue section. *)
Theorem C69_exception_stops_exact : forall py_int py_repr type_name tmpl tmpl_args err_text parse_repl ls y h r addr y' task,
  let run := run py_int py_repr type_name tmpl tmpl_args err_text parse_repl in
  let step := step py_int py_repr type_name tmpl tmpl_args err_text parse_repl in
  trace_wf ls -> run sys_init ls y -> step y (LEnd h r addr) = Some y' -> running_task y h task ->
  let wanted := exception_wanted (last_filters (history step sys_init ls)) task r in_rescue_block in
  (wanted -> exists tid ev, y_phase y' = PWaitEnd tid task /\ st_reason ev = StException /\ st_thread ev = tid /\ st_hit ev = [] /\
     stopped_events (d_out (w_dbg (y_w y'))) = stopped_events (d_out (w_dbg (y_w y))) ++ [ev]) /\
  (~ wanted -> (y_phase y' = PRun \/ exists e, y_phase y' = PDone e) /\
     stopped_events (d_out (w_dbg (y_w y'))) = stopped_events (d_out (w_dbg (y_w y)))).
Proof. exact end_stops_exact. Qed.
Print Assumptions C69_exception_stops_exact.

(* ---------------------------------------------------------------- examples *)
Lemma boundary_in h l : boundary h l -> l = 0 \/ In l (map fst h).
Proof.
  intros (t & H). induction H as [|h l t|h l t l' t' H IH N]; [auto| |].
  - right. rewrite map_app. apply in_or_app. right. now left.
  - destruct IH as [IH|IH]; auto. right. rewrite map_app. apply in_or_app. now left.
Qed.
(** A session with path mappings: the client sets two breakpoints in its copy
    /w/p.yml of /p.yml, the second one conditional, before the play is loaded; the
    second is at line 4, inside the task of lines 3-4. *)
Definition src_w := mkSource (Some (s "/w/p.yml")) 0.
Definition hist_setup : list label :=
  [ LConfig [mkMap (s "/w/") (s "/")]; LReq 1 (RSetBreakpoints src_w [mkSB 7%Z None 0; mkSB 4%Z (Some (s "x > 1")) 0] false);
    LReq 2 (RSetException [f_error]); LReq 3 RConfigurationDone;
    LLoad [(s "/p.yml", 3%Z, 1%Z); (s "/p.yml", 5%Z, 1%Z)]; LPlay; LHeap demo_heap ].
Definition hist_after := hist_setup ++ [LStart (bt hostA t1)].
Example C68_nonvacuous :
  let y := after hist_setup in let y' := after hist_after in let b := mkActive (s "/w/p.yml") (s "/p.yml") (mkSB 4%Z (Some (s "x > 1")) 0) in
  let h := history dstep sys_init hist_after in
  trace_wf hist_after /\ drun sys_init hist_setup y /\ dstep y (LStart (bt hostA t1)) = Some y' /\ (forall e, y_phase y' <> PDone e) /\
  n_path (ts_task (bt hostA t1)) = Some (s "/p.yml", 3%Z) /\ host_state y hostA = TContinue /\
  regs_of (s "/p.yml") h = [(3, 1); (5, 1)] /\ boundary (regs_of (s "/p.yml") h) 3 /\
  first_hit h (s "/p.yml") 3 b /\ holds (bt hostA t1) (sb_cond (ac_req b)).
Proof.
  intros y y' b h.
  assert (RG : regs_of (s "/p.yml") h = [(3, 1); (5, 1)]) by (vm_compute; reflexivity).
  split; [unfold hist_after, hist_setup; wf|]. split; [apply after_run; vm_compute; discriminate|].
  split; [vm_compute; reflexivity|]. split; [intros e; vm_compute; discriminate|]. split; [reflexivity|]. split; [vm_compute; reflexivity|].
  split; [exact RG|]. rewrite RG. split. { exists 1. apply (@starts_old [(3, 1)] 5 1 3 1); [|lia]. apply (starts_new []). }
  split; [|vm_compute; reflexivity].
  exists [mkActive (s "/w/p.yml") (s "/p.yml") (mkSB 7%Z None 0)], []. split; [vm_compute; reflexivity|]. unfold hits. rewrite RG. split.
  - split; [reflexivity|]. split; [cbn; lia|]. intros x B Q. apply boundary_in in B. cbn in B, Q. lia.
  - intros b' [<-|[]] (_ & _ & X). cbn in X. assert (5 <= 3); [|lia]. apply X; [|lia]. exists 1. apply (starts_new [(3, 1)]).
Qed.
(** The client goes on and the task fails: stopped again, by the filter. *)
Definition hist_end : list label := hist_after ++ [LReq 4 (RContinue 2 false); LWake].
Lemma no_rescued n : (forall a, In a (ancestors n) -> has_rescue a = false) -> ~ rescued n.
Proof. intros H R. destruct (rescued_ancestor R) as (a & A & B). rewrite (H a A) in B. discriminate. Qed.
Example C69_nonvacuous :
  let y := after hist_end in
  trace_wf hist_end /\ drun sys_init hist_end y /\ running_task y hostA t1 /\ main_sections t1 /\
  exception_wanted (last_filters (history dstep sys_init hist_end)) t1 failr rescued /\ dstep y (LEnd hostA failr 6) <> None.
Proof.
  intros y. split; [unfold hist_end, hist_after, hist_setup; wf|]. split; [apply after_run; vm_compute; discriminate|].
  split; [exists hostA; split; [vm_compute; now left|reflexivity]|]. split; [eapply ms_up; [reflexivity|reflexivity|]; apply ms_top; reflexivity|].
  split; [|vm_compute; discriminate]. left. split; [split; reflexivity|]. split.
  - apply no_rescued. intros a [<-|[]]. reflexivity.
  - vm_compute. now left.
Qed.
(** A role's tasks are registered when the first of them starts. *)
Definition rl_inc := mkNode (KTask ActIncludeRole) 30 (s "t") (Some (s "/p.yml", 5%Z)) InBlock (Some play_block).
Definition rl_block := mkNode (KBlock false) 31 (s "blk") (Some (s "/r.yml", 1%Z)) InBlock (Some rl_inc).
Definition rl_task := mkNode (KTask ActOther) 32 (s "t") (Some (s "/r.yml", 2%Z)) InBlock (Some rl_block).
Definition rl_start := mkTS hostA rl_task 0 1 (Some [(s "/r.yml", 2%Z, 1%Z)]) (fun _ => CBool false).
Example C68_role_nonvacuous :
  let src := mkSource (Some (s "/r.yml")) 0 in
  let ls := [LConfig []; LReq 1 (RSetBreakpoints src [mkSB 9%Z None 0] false); LLoad [(s "/p.yml", 5%Z, 1%Z)]; LPlay; LHeap demo_heap;
             LStart (bt hostA rl_inc); LEnd hostA okr 6] in
  regs_of (s "/r.yml") (history dstep sys_init ls) = [] /\ regs_of (s "/r.yml") (history dstep sys_init (ls ++ [LStart rl_start])) = [(2, 1)] /\
  exists tid, y_phase (after (ls ++ [LStart rl_start])) = PWaitStart tid.
Proof. cbv zeta. split; [vm_compute; reflexivity|]. split; [vm_compute; reflexivity|]. vm_compute. eexists. reflexivity. Qed.
(** A task of a rescue section fails while on_error is set: nothing catches the
    failure, and the playbook does not stop. *)
Definition rs_block := mkNode (KBlock true) 40 (s "blk") (Some (s "/p.yml", 3%Z)) InBlock (Some play_block).
Definition rs_task := mkNode (KTask ActOther) 41 (s "t") (Some (s "/p.yml", 5%Z)) InRescue (Some rs_block).
Definition rs_trace : list label :=
  [ LConfig []; LReq 2 (RSetException [f_error]); LReq 3 RConfigurationDone;
    LLoad [(s "/p.yml", 3%Z, 1%Z); (s "/p.yml", 5%Z, 1%Z)]; LPlay; LHeap demo_heap; LStart (bt hostA rs_task) ].
Theorem C69_rescue_refuted :
  ~ (forall ls y h r addr y' task, trace_wf ls -> drun sys_init ls y -> dstep y (LEnd h r addr) = Some y' -> running_task y h task ->
       exception_wanted (last_filters (history dstep sys_init ls)) task r rescued ->
       exists tid, y_phase y' = PWaitEnd tid task).
Proof.
  intros H. destruct (H rs_trace (after rs_trace) hostA failr 6%nat (after (rs_trace ++ [LEnd hostA failr 6])) rs_task) as (tid & E).
  - unfold rs_trace. wf.
  - apply after_run. vm_compute. discriminate.
  - vm_compute. reflexivity.
  - exists hostA. split; [vm_compute; now left|reflexivity].
  - left. split; [split; reflexivity|]. split; [|vm_compute; now left].
    intros R. inversion R as [n p Hp HR HS|n p Hp HR]; subst; [discriminate|].
    injection Hp as <-. inversion HR as [n p Hp2 HR2 HS2|n p Hp2 HR2]; subst.
    + injection Hp2 as <-. discriminate.
    + injection Hp2 as <-. inversion HR2 as [n p Hp3 HR3 HS3|n p Hp3 HR3]; subst; discriminate.
  - vm_compute in E. discriminate.
Qed.
Print Assumptions C69_rescue_refuted.
