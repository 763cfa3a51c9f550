(** C52: the waits of start-up and shutdown, and where they do not end. *)
From Verif Require Import PyBase LifeModel LifeSpec.
Set Implicit Arguments.
Ltac csplit := repeat match goal with |- _ /\ _ => split end.

(* ------------------------------------------------------------------ invariant *)
Definition m_holds (p : mpc) : bool := match p with MEnter2 _ | MLeave2 | MS5b => true | _ => false end.
Definition r_holds (p : rcpc) : bool := match p with RGetCheck _ | RS5b => true | _ => false end.
Definition s_loop (p : sdpc) : bool := match p with SBegin | SStart | SFlag | SGet | SSend => true | _ => false end.
Definition m_tail (p : mpc) : bool := match p with MS4 | MS5 | MS5b | MS6 | MDone => true | _ => false end.
Definition r_tail (p : rcpc) : bool := match p with RS5 | RS5b | RS6 | RDead => true | _ => false end.
Definition m_play (p : mpc) : bool := match p with MPlay _ | MLeave | MLeave2 => true | _ => false end.
Record FInv (y : Life) : Prop := {
  i_lock : f_lock y = if m_holds (f_m y) then Some ByMain else if r_holds (f_r y) then Some ByRecv else None;
  i_excl : m_holds (f_m y) && r_holds (f_r y) = false;
  i_start : f_s y = SBegin \/ f_s y = SStart -> f_r y = RNone /\ (f_flag y = false \/ f_cancel y = true);
  i_cancel1 : (f_m y = MS2 \/ f_m y = MS3) -> f_s y = SBegin \/ f_s y = SStart -> f_cancel y = true;
  i_none : f_m y = MS3 -> s_loop (f_s y) = true -> In false (f_queue y);
  i_dead : m_tail (f_m y) = true -> f_s y = SDead;
  i_cancel2 : s_loop (f_s y) = false -> f_s y <> SStop1 -> f_cancel y = true;
  i_conf : r_tail (f_r y) = true -> f_conf y = true;
  i_joined : f_s y = SStop3 \/ f_s y = SUnflag \/ f_s y = SDead -> f_r y = RNone \/ f_r y = RDead;
  i_strat : f_strat y = m_play (f_m y);
  i_wait : forall r, f_r y = RGetWait r -> f_notified y = false -> f_strat y = false;
  i_pid : f_m y = MDone \/ f_r y = RDead -> f_pid y = false }.

Lemma finv_init listen nowait plays inp : FInv (life_init listen nowait plays inp).
Proof. destruct nowait; constructor; cbn; try discriminate; auto; try (intros [X|X]; discriminate); try (intros [X|[X|X]]; discriminate). Qed.

Lemma step_finv y l y' : FInv y -> fstep y l = Some y' -> FInv y'.
Proof.
  intros I H. destruct y as [m sd r plays inp closed cancel flag conf term strat lock notified q pid].
  destruct I as [A B C D E F G J K L M O]. cbn in A, B, C, D, E, F, G, J, K, L, M, O.
  assert (APP : forall b, In false q -> In false (q ++ [b])) by (intros b X; apply in_or_app; auto).
  assert (APN : In false (q ++ [false])) by (apply in_or_app; right; now left).
  destruct l as [ok| | | |ok|ok]; cbn [fstep] in H.
  - cbn in H. destruct sd; try discriminate. destruct (C (or_intror eq_refl)) as (C1 & C2). subst r.
    destruct ok; injection H as <-; constructor; cbn in *; auto; try discriminate; try congruence; try tauto; intuition (try congruence); destruct m; discriminate.
  - cbn in H. destruct r; try discriminate. destruct inp as [|r i]; [discriminate|]. injection H as <-.
    constructor; cbn in *; auto; try discriminate; try congruence; try tauto; intuition (try congruence).
  - cbn in H. destruct closed; [discriminate|]. injection H as <-. constructor; cbn; auto.
  - (* main *) cbn in H. unfold main_step, free, sdead, put in H. cbn in H.
    destruct m as [| |n|n|[|n]| | | | | | | | | |]; cbn in *; try discriminate; try (destruct flag);
    repeat match goal with H : (match ?x with _ => _ end) = Some _ |- _ => destruct x eqn:?; try discriminate H end;
    injection H as <-; constructor; cbn in *; auto; try discriminate; try congruence; try tauto; intuition (try congruence).
    all: repeat match goal with
         | |- context [r_holds ?x] => is_var x; let E := fresh "E" in destruct (r_holds x) eqn:E; rewrite ?E in *
         | |- context [m_holds ?x] => is_var x; let E := fresh "E" in destruct (m_holds x) eqn:E; rewrite ?E in *
         end; cbn in *; auto; try congruence; try (match goal with |- ?x = SDead => destruct x end; cbn in *; (reflexivity || discriminate)).
    all: destruct lock; cbn in *; congruence.
  - (* send *) cbn in H. unfold send_step in H. cbn in H. destruct sd; cbn in *; try discriminate; try destruct ok;
    repeat match goal with H : (match ?x with _ => _ end) = Some _ |- _ => destruct x eqn:?; try discriminate H end;
    injection H as <-; constructor; cbn in *; auto; try discriminate; try congruence; try tauto; intuition (try congruence).
    all: repeat match goal with
         | |- context [r_holds ?x] => is_var x; let E := fresh "E" in destruct (r_holds x) eqn:E; rewrite ?E in *
         | |- context [m_holds ?x] => is_var x; let E := fresh "E" in destruct (m_holds x) eqn:E; rewrite ?E in *
         end; cbn in *; auto; try congruence; try (match goal with |- ?x = SDead => destruct x end; cbn in *; (reflexivity || discriminate)).
    all: destruct cancel; auto; discriminate.
  - (* recv *) cbn in H. unfold recv_step, free, put in H. cbn in H. destruct r; cbn in *; try discriminate;
    repeat match goal with H : (match ?x with _ => _ end) = Some _ |- _ => destruct x eqn:?; try discriminate H end;
    injection H as <-; constructor; cbn in *; auto; try discriminate; try congruence; try tauto; intuition (try congruence).
    all: repeat match goal with
         | |- context [r_holds ?x] => is_var x; let E := fresh "E" in destruct (r_holds x) eqn:E; rewrite ?E in *
         | |- context [m_holds ?x] => is_var x; let E := fresh "E" in destruct (m_holds x) eqn:E; rewrite ?E in *
         end; cbn in *; auto; try congruence; try (match goal with |- ?x = SDead => destruct x end; cbn in *; (reflexivity || discriminate)).
    all: destruct lock; cbn in *; congruence.
Qed.
Lemma run_finv listen nowait plays inp y : frun (life_init listen nowait plays inp) y -> FInv y.
Proof.
  intros R. remember (life_init listen nowait plays inp) as y0. induction R as [|y y1 l y2 R IH H]; subst; [apply finv_init|]. eapply step_finv; eauto.
Qed.

(* ------------------------------------------------------------------ progress *)
Definition rw (p : rcpc) : nat :=
  match p with
  | RS6 => 1 | RS5b => 2 | RS5 => 3 | RS4 => 4 | RRead => 5 | RConfSet => 6 | RPutNone => 9 | RPut _ => 13 | RAct _ | RHandle _ => 14 | _ => 0
  end.
Definition sw (p : sdpc) : nat :=
  match p with SDead => 0 | SUnflag => 1 | SStop3 => 2 | SStop2 => 3 | SStop1 => 4 | SGet => 5 | SSend => 6 | SFlag => 6 | SStart => 12 | SBegin => 13 end.
Definition mw (p : mpc) : nat :=
  match p with
  | MDone => 0 | MS6 => 1 | MS5b => 2 | MS5 => 3 | MS4 => 4 | MS3 => 5 | MS2 => 9 | MS1 => 10 | MBetween => 11 | MLeave2 => 12 | MLeave => 13
  | MPlay n => 14 + 4 * n | MEnter2 n => 15 + 4 * n | MEnter n => 16 + 4 * n | MConf => 12
  end.
Fixpoint pw (l : list nat) : nat := match l with [] => 0 | n :: l => 6 + 4 * n + pw l end.
Definition W (y : Life) : nat :=
  rw (f_r y) + sw (f_s y) + mw (f_m y) + pw (f_plays y) + 10 * length (f_inp y) + 3 * length (f_queue y) + (if f_closed y then 0 else 1).

Lemma calm_step y l y' : FInv y -> calm y -> fstep y l = Some y' -> calm y' /\ W y' < W y.
Proof.
  intros I CA H. destruct y as [m sd r plays inp closed cancel flag conf term strat lock notified q pid].
  destruct CA as (CI & CR). cbn in CI, CR. unfold W.
  assert (LQ : forall b : bool, length (q ++ [b]) = S (length q)) by (intros b; rewrite app_length; cbn; lia).
  destruct l as [ok| | | |ok|ok]; cbn in H.
  - pose proof (i_start I) as C. cbn in C. destruct sd; try discriminate. destruct (C (or_intror eq_refl)) as (-> & _).
    destruct ok; injection H as <-; split; try (split; cbn; auto; fail); cbn; lia.
  - destruct r; try discriminate. destruct inp as [|r i]; [discriminate|]. injection H as <-. apply Forall_inv in CI as C1. apply Forall_inv_tail in CI. split; [split; cbn; auto|cbn; lia].
  - destruct closed; [discriminate|]. injection H as <-. split; [split; cbn; auto|cbn; lia].
  - unfold main_step, free, sdead, put in H. cbn in H.
    destruct m as [| |n|n|[|n]| | | | | | | | | |]; cbn in H; try discriminate; try (destruct flag);
    repeat match goal with H : (match ?x with _ => _ end) = Some _ |- _ => destruct x eqn:?; try discriminate H end;
    injection H as <-; (split; [split; cbn; auto|cbn; rewrite ?LQ; lia]).
  - unfold send_step in H. cbn in H. destruct sd; cbn in H; try discriminate; try destruct ok; try destruct cancel;
    repeat match goal with H : (match ?x with _ => _ end) = Some _ |- _ => destruct x eqn:?; try discriminate H end;
    injection H as <-; (split; [split; cbn; auto|cbn; lia]).
  - unfold recv_step, free, put in H. cbn in H. destruct r; cbn in H; try discriminate; try contradiction;
    repeat match goal with H : (match ?x with _ => _ end) = Some _ |- _ => destruct x eqn:?; try discriminate H end;
    try discriminate CR; injection H as <-; (split; [split; cbn; auto|cbn; rewrite ?LQ; lia]).
Qed.

Ltac ex l := exists l; eexists; split; [reflexivity|].
Lemma recv_can y : FInv y -> calm y -> f_lock y <> Some ByMain -> f_r y <> RNone -> f_r y <> RDead -> f_closed y = true \/ f_cancel y = true ->
  exists y', fstep y (LRecvT true) = Some y'.
Proof.
  intros I (CI & CR) LM N D C. cbn. unfold recv_step, free. pose proof (i_lock I) as LK. destruct (f_r y) as [| |r|r|r|r|r|r| | | | | | |]; try congruence; try contradiction; cbn; eauto.
  - destruct C as [-> | ->]; rewrite ?orb_true_r; cbn; eauto.
  - destruct r; eauto.
  - destruct r; eauto.
  - destruct r; eauto.
  - cbn in LK. destruct (m_holds (f_m y)); rewrite LK in *; [congruence|eauto].
Qed.

Lemma conf_can y : FInv y -> calm y -> f_m y = MConf -> f_r y <> RNone -> f_closed y = true \/ f_cancel y = true ->
  exists l y', ours y l = true /\ fstep y l = Some y'.
Proof.
  intros I CA M N C. destruct (f_r y) eqn:R; try congruence.
  all: try (destruct (recv_can I CA) as (y' & H); rewrite ?R; try congruence; auto; [pose proof (i_lock I) as LK; rewrite M in LK; cbn in LK; rewrite LK; destruct (r_holds (f_r y)); discriminate|]; exists (LRecvT true), y'; auto; fail).
  ex LMain. cbn. unfold main_step. rewrite M. pose proof (i_conf I) as X. rewrite R in X. rewrite X; auto.
Qed.

Lemma main_can y : FInv y -> calm y -> f_m y <> MConf -> f_m y <> MDone -> exists l y', ours y l = true /\ fstep y l = Some y'.
Proof.
  intros I CA M D.
  assert (LOCK : m_holds (f_m y) = false -> free y = false -> exists l y', ours y l = true /\ fstep y l = Some y').
  { intros A B. pose proof (i_lock I) as LK. rewrite A in LK. unfold free in B. destruct (r_holds (f_r y)) eqn:RH; [|rewrite LK in B; discriminate].
    exists (LRecvT true). destruct CA as (_ & CR). cbn. unfold recv_step. destruct (f_r y); try discriminate; try contradiction. eauto. }
  assert (MAIN : (exists y', main_step y = Some y') -> exists l y', ours y l = true /\ fstep y l = Some y').
  { intros (y' & X). exists LMain, y'. auto. }
  unfold main_step in MAIN. destruct (f_m y) as [| |n|n|[|n]| | | | | | | | | |] eqn:P; try congruence; try (apply MAIN; eauto; fail).
  - apply MAIN. destruct (f_plays y); eauto.
  - destruct (free y); [apply MAIN; eauto|apply LOCK; auto].
  - destruct (free y); [apply MAIN; eauto|apply LOCK; auto].
  - (* joining the send thread *)
    clear MAIN LOCK.
    assert (SEND : (exists y', send_step true y = Some y') -> exists l y', ours y l = true /\ fstep y l = Some y').
    { intros (y' & X). exists (LSendT true), y'. auto. }
    unfold send_step in SEND. destruct (f_s y) eqn:S; try (apply SEND; eauto; fail).
    + exists (LAccept false). eexists. split; [|cbn; rewrite S; reflexivity]. cbn. apply (i_cancel1 I); auto.
    + pose proof (@i_none _ I P) as X. rewrite S in X. specialize (X eq_refl). apply SEND. destruct (f_queue y) as [|[|] q]; [contradiction|eauto|eauto].
    + destruct (f_r y) eqn:R; try (apply SEND; eauto; fail).
      all: destruct (recv_can I CA) as (y' & H); rewrite ?R; try congruence; auto;
        [pose proof (i_lock I) as LK; rewrite P in LK; cbn in LK; rewrite LK; destruct (r_holds (f_r y)); discriminate
        |right; apply (i_cancel2 I); rewrite S; [reflexivity|discriminate]
        |exists (LRecvT true), y'; auto].
    + exists LMain. cbn. unfold main_step, sdead. rewrite P, S. eauto.
  - destruct (free y); [apply MAIN; eauto|apply LOCK; auto].
Qed.

(** While the playbook waits for its configuration, losing or closing an established
    connection ends the wait -- provided no request that needs a running play was
    received or is buffered. *)
Lemma r_started y l y' : fstep y l = Some y' -> f_r y <> RNone -> f_r y' <> RNone.
Proof.
  destruct l as [ok| | | |ok|ok]; cbn; intros H N.
  - destruct (f_s y); try discriminate. destruct ok; injection H as <-; cbn; congruence.
  - destruct (f_r y), (f_inp y); try discriminate. injection H as <-. discriminate.
  - destruct (f_closed y); [discriminate|]. injection H as <-. exact N.
  - unfold main_step in H. destruct (f_m y) as [| |n|n|[|n]| | | | | | | | | |]; try discriminate;
    repeat match goal with H : (match ?x with _ => _ end) = Some _ |- _ => destruct x eqn:?; try discriminate H end; injection H as <-; cbn; auto.
    destruct (f_flag y); cbn; auto.
  - unfold send_step in H. destruct (f_s y); try discriminate;
    repeat match goal with H : (match ?x with _ => _ end) = Some _ |- _ => destruct x eqn:?; try discriminate H end; injection H as <-; cbn; congruence.
  - unfold recv_step in H. destruct (f_r y); try discriminate;
    repeat match goal with H : (match ?x with _ => _ end) = Some _ |- _ => destruct x eqn:?; try discriminate H end; injection H as <-; cbn; discriminate.
Qed.
Lemma lost_stays y l y' : fstep y l = Some y' -> f_closed y = true \/ f_cancel y = true -> f_closed y' = true \/ f_cancel y' = true.
Proof.
  destruct l as [ok| | | |ok|ok]; cbn; intros H N.
  - destruct (f_s y); try discriminate. destruct ok; injection H as <-; cbn; auto.
  - destruct (f_r y), (f_inp y); try discriminate. injection H as <-. auto.
  - destruct (f_closed y); [discriminate|]. injection H as <-. cbn. auto.
  - unfold main_step in H. destruct (f_m y) as [| |n|n|[|n]| | | | | | | | | |]; try discriminate;
    repeat match goal with H : (match ?x with _ => _ end) = Some _ |- _ => destruct x eqn:?; try discriminate H end; injection H as <-; cbn; auto.
    destruct (f_flag y); cbn; auto.
  - unfold send_step in H. destruct (f_s y); try discriminate;
    repeat match goal with H : (match ?x with _ => _ end) = Some _ |- _ => destruct x eqn:?; try discriminate H end; injection H as <-; cbn; auto.
  - unfold recv_step in H. destruct (f_r y); try discriminate;
    repeat match goal with H : (match ?x with _ => _ end) = Some _ |- _ => destruct x eqn:?; try discriminate H end; injection H as <-; cbn; auto.
Qed.
Lemma will_conf n : forall y, W y < n -> FInv y -> calm y -> f_r y <> RNone -> f_closed y = true \/ f_cancel y = true -> will (fun y => f_m y <> MConf) y.
Proof.
  induction n as [|n IH]; intros y L I CA N C; [lia|].
  assert (D : f_m y = MConf \/ f_m y <> MConf) by (destruct (f_m y); auto; right; discriminate). destruct D as [D|D]; [|now apply will_now].
  apply will_later; [eapply conf_can; eauto|]. intros l y' H. destruct (@calm_step y l y' I CA H) as (CA' & LT). apply IH; auto; [lia|eapply step_finv; eauto|eapply r_started; eauto|eapply lost_stays; eauto].
Qed.
Theorem C52_configuration_wait_partial listen nowait plays inp y : frun (life_init listen nowait plays inp) y ->
  f_r y <> RNone -> f_closed y = true \/ f_cancel y = true -> calm y -> will (fun y => f_m y <> MConf) y.
Proof. intros R N C CA. eapply will_conf with (n := S (W y)); eauto. eapply run_finv; eauto. Qed.
Print Assumptions C52_configuration_wait_partial.

Lemma main_past y l y' : fstep y l = Some y' -> f_m y <> MConf -> f_m y' <> MConf.
Proof.
  destruct l as [ok| | | |ok|ok]; cbn; intros H N.
  - destruct (f_s y); try discriminate. destruct ok; injection H as <-; cbn; congruence.
  - destruct (f_r y), (f_inp y); try discriminate. injection H as <-. auto.
  - destruct (f_closed y); [discriminate|]. injection H as <-. exact N.
  - unfold main_step in H. destruct (f_m y) as [| |n|n|[|n]| | | | | | | | | |]; try discriminate;
    repeat match goal with H : (match ?x with _ => _ end) = Some _ |- _ => destruct x eqn:?; try discriminate H end; injection H as <-; cbn; congruence.
  - unfold send_step in H. destruct (f_s y); try discriminate;
    repeat match goal with H : (match ?x with _ => _ end) = Some _ |- _ => destruct x eqn:?; try discriminate H end; injection H as <-; cbn; congruence.
  - unfold recv_step in H. destruct (f_r y); try discriminate;
    repeat match goal with H : (match ?x with _ => _ end) = Some _ |- _ => destruct x eqn:?; try discriminate H end; injection H as <-; cbn; congruence.
Qed.
Lemma will_done n : forall y, W y < n -> FInv y -> calm y -> f_m y <> MConf -> will (fun y => f_m y = MDone) y.
Proof.
  induction n as [|n IH]; intros y L I CA N; [lia|].
  assert (D : f_m y = MDone \/ f_m y <> MDone) by (destruct (f_m y); auto; right; discriminate). destruct D as [D|D]; [now apply will_now|].
  apply will_later; [eapply main_can; eauto|]. intros l y' H. destruct (@calm_step y l y' I CA H) as (CA' & LT). apply IH; auto; [lia|eapply step_finv; eauto|eapply main_past; eauto].
Qed.
(** Past the configuration wait the playbook gets through its plays and [shutdown]
    returns, connected or not -- with the same proviso. *)
Theorem C52_shutdown_returns_partial listen nowait plays inp y : frun (life_init listen nowait plays inp) y ->
  f_m y <> MConf -> calm y -> will (fun y => f_m y = MDone) y.
Proof. intros R N CA. eapply will_done with (n := S (W y)); eauto. eapply run_finv; eauto. Qed.
Print Assumptions C52_shutdown_returns_partial.

(** A request that waits for a play is not forgotten: while a play is running, the
    receive thread is not blocked. *)
Theorem C52_waiting_request_wakes listen nowait plays inp y r n : frun (life_init listen nowait plays inp) y ->
  f_r y = RGetAcq r \/ f_r y = RGetCheck r \/ f_r y = RGetWait r -> f_m y = MPlay n -> exists y', fstep y (LRecvT true) = Some y'.
Proof.
  intros R E M. pose proof (run_finv R) as I. cbn. unfold recv_step, free. pose proof (i_lock I) as LK. rewrite M in LK. cbn in LK.
  destruct E as [E|[E|E]]; rewrite E in *; cbn in LK.
  - rewrite LK. eauto.
  - destruct (f_strat y); eauto.
  - destruct (f_notified y) eqn:NT; eauto. pose proof (i_wait I E NT) as X. rewrite (i_strat I), M in X. discriminate.
Qed.
Print Assumptions C52_waiting_request_wakes.

(* ------------------------------------------------------------------ where it does hang *)
Fixpoint fgo (y : Life) (ls : list flabel) : option Life :=
  match ls with [] => Some y | l :: ls => match fstep y l with Some y' => fgo y' ls | None => None end end.
Lemma frun_trans a b c : frun a b -> frun b c -> frun a c.
Proof. intros X Y. induction Y as [|y y1 l y2 Y IH H]; [exact X|]. eapply frun_step; [apply IH; exact X|exact H]. Qed.
Lemma fgo_run ls : forall y y', fgo y ls = Some y' -> frun y y'.
Proof.
  induction ls as [|l ls IH]; intros y y' H; cbn in H; [injection H as <-; constructor|].
  destruct (fstep y l) as [y1|] eqn:E; [|discriminate]. eapply frun_trans; [econstructor; [constructor|exact E]|auto].
Qed.
Lemma stuck_forever (P : Life -> Prop) (Q : Life -> Prop) y : P y -> (forall y l y', P y -> fstep y l = Some y' -> P y') -> (forall y, P y -> Q y) -> forever Q y.
Proof. intros H S PQ y' R. apply PQ. induction R; eauto. Qed.

(** A disconnect or terminate request that the strategy acted on ends the connection:
    both threads of the debuggee end, whatever the playbook does meanwhile. *)
Definition ending (y : Life) : Prop := f_r y = RPut QTerm \/ f_r y = RPutNone \/ In false (f_queue y) \/ s_loop (f_s y) = false.
Lemma ending_step y l y' : FInv y -> f_r y <> RNone -> fstep y l = Some y' -> ending y -> ending y'.
Proof.
  intros I NR H E. destruct y as [m sd r plays inp closed cancel flag conf term strat lock notified q pid]. unfold ending in *. cbn in E, NR.
  assert (APP : forall b, In false q -> In false (q ++ [b])) by (intros b X; apply in_or_app; auto).
  assert (APN : In false (q ++ [false])) by (apply in_or_app; right; now left).
  destruct l as [ok| | | |ok|ok]; cbn in H.
  - pose proof (i_start I) as C. cbn in C. destruct sd; try discriminate. destruct (C (or_intror eq_refl)). contradiction.
  - destruct r; try discriminate. destruct inp; [discriminate|]. injection H as <-. cbn. intuition discriminate.
  - destruct closed; [discriminate|]. injection H as <-. exact E.
  - unfold main_step, put in H. cbn in H. destruct m as [| |n|n|[|n]| | | | | | | | | |]; cbn in H; try discriminate; try (destruct flag);
    repeat match goal with H : (match ?x with _ => _ end) = Some _ |- _ => destruct x eqn:?; try discriminate H end; injection H as <-; cbn; intuition auto.
  - pose proof (i_start I) as C. cbn in C. unfold send_step in H. cbn in H. destruct sd; [destruct (C (or_introl eq_refl)); contradiction|..]; cbn in *; try discriminate; try destruct ok;
    repeat match goal with H : (match ?x with _ => _ end) = Some _ |- _ => destruct x eqn:?; try discriminate H end; injection H as <-; cbn in *; intuition discriminate.
  - unfold recv_step, put in H. cbn in H. destruct r; cbn in *; try discriminate; try contradiction;
    repeat match goal with H : (match ?x with _ => _ end) = Some _ |- _ => destruct x eqn:?; try discriminate H end; injection H as <-; cbn in *; intuition (auto; try discriminate).
Qed.
Lemma ending_can y : FInv y -> calm y -> f_r y <> RNone -> ending y -> ~ (f_s y = SDead /\ f_r y = RDead) -> exists l y', ours y l = true /\ fstep y l = Some y'.
Proof.
  intros I CA NR E ND. assert (SEND : (exists y', send_step true y = Some y') -> exists l y', ours y l = true /\ fstep y l = Some y').
  { intros (y' & X). exists (LSendT true), y'. auto. }
  unfold send_step in SEND. destruct (f_s y) eqn:S; try (apply SEND; eauto; fail).
  - destruct (i_start I (or_intror S)). contradiction.
  - destruct E as [E|[E|[E|E]]]; [ex (LRecvT true); cbn; unfold recv_step; rewrite E; reflexivity..| |rewrite S in E; discriminate].
    apply SEND. destruct (f_queue y) as [|[|] q]; [contradiction|eauto|eauto].
  - destruct (f_r y) eqn:R; try (apply SEND; eauto; fail). all: rewrite <- R in *.
    all: destruct (f_lock y) as [[|]|] eqn:LK;
      [|destruct (recv_can I CA) as (y' & H); rewrite ?R, ?LK; try congruence; [right; apply (i_cancel2 I); rewrite S; [reflexivity|discriminate]|exists (LRecvT true), y'; auto]..].
    all: pose proof (i_lock I) as L2; rewrite LK in L2; destruct (m_holds (f_m y)) eqn:MH; [|destruct (r_holds (f_r y)); discriminate].
    all: exists LMain; cbn; unfold main_step; destruct (f_m y); try discriminate; eauto.
  - exfalso. apply ND. split; [reflexivity|]. destruct (i_joined I) as [X|X]; [right; right; exact S|contradiction|exact X].
Qed.
Lemma will_end n : forall y, W y < n -> FInv y -> calm y -> f_r y <> RNone -> ending y -> will (fun y => f_s y = SDead /\ f_r y = RDead) y.
Proof.
  induction n as [|n IH]; intros y L I CA N E; [lia|].
  assert (D : (f_s y = SDead /\ f_r y = RDead) \/ ~ (f_s y = SDead /\ f_r y = RDead)) by (destruct (f_s y), (f_r y); try (left; split; reflexivity); right; intros (X & Y); discriminate).
  destruct D as [D|D]; [now apply will_now|]. apply will_later; [eapply ending_can; eauto|]. intros l y' H. destruct (@calm_step y l y' I CA H) as (CA' & LT).
  apply IH; auto; [lia|eapply step_finv; eauto|eapply r_started; eauto|eapply ending_step; eauto].
Qed.
Theorem C52_disconnect_ends_connection_partial listen nowait plays inp y y1 : frun (life_init listen nowait plays inp) y ->
  f_r y = RAct QDisc \/ f_r y = RAct QTerm -> fstep y (LRecvT true) = Some y1 -> calm y1 -> will (fun y => f_s y = SDead /\ f_r y = RDead) y1.
Proof.
  intros R E S CA. assert (R1 : frun (life_init listen nowait plays inp) y1) by (econstructor; eauto).
  apply will_end with (n := Datatypes.S (W y1)); auto; [eapply run_finv; eauto|..]; cbn in S; unfold recv_step in S; destruct E as [E|E]; rewrite E in S; injection S as <-; cbn; try discriminate; unfold ending; cbn; auto.
Qed.
Print Assumptions C52_disconnect_ends_connection_partial.
Example C52_disconnect_ends_nonvacuous : exists y y1, frun (life_init true true [1] [QPlain; QDisc]) y /\ f_r y = RAct QDisc /\ fstep y (LRecvT true) = Some y1 /\ calm y1.
Proof.
  eexists. eexists. split; [apply (@fgo_run [LSendT true; LAccept true; LSendT true; LData; LRecvT true; LRecvT true; LMain; LMain; LMain; LData; LRecvT true; LRecvT true; LRecvT true]); vm_compute; reflexivity|].
  split; [reflexivity|]. split; [reflexivity|]. split; cbn; auto.
Qed.


(** If the connection cannot be made, the playbook waits for its configuration for ever. *)
Theorem C52_connect_failure_refuted listen plays inp :
  exists y, frun (life_init listen false plays inp) y /\ f_s y = SDead /\ forever (fun y => f_m y = MConf) y.
Proof.
  exists (mkLife MConf SDead RNone plays inp false true false false false false None false [] listen).
  split; [apply (@fgo_run [LSendT true; LAccept false; LSendT true; LSendT true; LSendT true; LSendT true]); vm_compute; reflexivity|]. split; [reflexivity|].
  apply stuck_forever with (P := fun y => f_m y = MConf /\ f_s y = SDead /\ f_r y = RNone /\ f_conf y = false); [cbn; auto| |tauto].
  clear. intros y l y' (A & B & C & D) H. destruct l; cbn in H; unfold main_step, send_step, recv_step in H; rewrite ?A, ?B, ?C, ?D in H; try discriminate.
  destruct (f_closed y); [discriminate|]. injection H as <-. auto.
Qed.
Print Assumptions C52_connect_failure_refuted.

Definition mid (listen : bool) (m : mpc) (plays : list nat) (strat no : bool) (q : list bool) : Life :=
  mkLife m SGet RRead plays [QStrat] false false true false false strat None no q listen.
Lemma one_step y l y' z : fstep y l = Some y' -> frun y' z -> frun y z.
Proof. intros H R. eapply frun_trans; [|exact R]. eapply frun_step; [constructor|exact H]. Qed.
Lemma through_play listen plays n : forall q, exists q', frun (mid listen (MPlay n) plays true true q) (mid listen MBetween plays false true q').
Proof.
  induction n as [|n IH]; intros q.
  - exists q. apply (@fgo_run [LMain; LMain; LMain]); vm_compute; reflexivity.
  - destruct (IH (q ++ [true])) as (q' & R). exists q'. eapply one_step with (l := LMain); [reflexivity|exact R].
Qed.
Lemma through_plays listen plays : forall no q, exists no' q', frun (mid listen MBetween plays false no q) (mid listen MBetween [] false no' q').
Proof.
  induction plays as [|n ps IH]; intros no q; [exists no, q; constructor|].
  destruct (through_play listen ps n q) as (q1 & R1). destruct (IH true q1) as (no2 & q2 & R2). exists no2, q2.
  eapply frun_trans; [|eapply frun_trans; [exact R1|exact R2]]. apply (@fgo_run [LMain; LMain; LMain]); vm_compute; reflexivity.
Qed.
(** A request that needs a play, received after the last one: shutdown never returns. *)
Theorem C52_late_request_refuted listen plays :
  exists y, frun (life_init listen true plays [QStrat]) y /\ forever (fun y => f_m y = MS3) y.
Proof.
  destruct (through_plays listen plays false []) as (no & q & R).
  exists (mkLife MS3 SGet (RGetWait QStrat) [] [] false false true false false false None false (q ++ [false]) listen). split.
  { eapply frun_trans; [apply (@fgo_run [LSendT true; LAccept true; LSendT true]); vm_compute; reflexivity|]. eapply frun_trans; [exact R|].
    apply (@fgo_run [LData; LRecvT true; LRecvT true; LRecvT true; LMain; LMain; LMain]); vm_compute; reflexivity. }
  apply stuck_forever with (P := fun y => f_m y = MS3 /\ f_r y = RGetWait QStrat /\ f_notified y = false /\ f_s y <> SBegin /\ f_s y <> SStart /\ f_s y <> SStop3 /\ f_s y <> SUnflag /\ f_s y <> SDead); [cbn; csplit; auto; discriminate| |tauto].
  clear. intros y l y' (A & B & C & D0 & D1 & D2 & D3 & D4) H. destruct l as [ok| | | |ok|ok]; cbn in H.
  - destruct (f_s y); try discriminate. congruence.
  - rewrite B in H. discriminate.
  - destruct (f_closed y); [discriminate|]. injection H as <-. cbn. auto 10.
  - unfold main_step, sdead in H. rewrite A in H. destruct (f_s y); try discriminate. congruence.
  - unfold send_step in H. rewrite B in H. destruct ok, (f_s y); try discriminate; try congruence;
    repeat match goal with H : (match ?x with _ => _ end) = Some _ |- _ => destruct x eqn:?; try discriminate H end; injection H as <-; cbn; csplit; auto; discriminate.
  - unfold recv_step in H. rewrite B, C in H. discriminate.
Qed.
Print Assumptions C52_late_request_refuted.

(** A disconnect before configurationDone: the playbook hangs in its configuration wait,
    even if the connection is then closed. *)
Theorem C52_early_disconnect_refuted listen plays :
  exists y, frun (life_init listen false plays [QDisc]) y /\ f_closed y = true /\ forever (fun y => f_m y = MConf) y.
Proof.
  exists (mkLife MConf SGet (RGetWait QDisc) plays [] true false true false false false None false [] listen).
  split; [apply (@fgo_run [LSendT true; LAccept true; LSendT true; LData; LRecvT true; LRecvT true; LRecvT true; LLost]); vm_compute; reflexivity|]. split; [reflexivity|].
  apply stuck_forever with (P := fun y => f_m y = MConf /\ f_r y = RGetWait QDisc /\ f_notified y = false /\ f_conf y = false /\ f_s y <> SBegin /\ f_s y <> SStart); [cbn; csplit; auto; discriminate| |tauto].
  clear. intros y l y' (A & B & C & D1 & D0 & D2) H. destruct l as [ok| | | |ok|ok]; cbn in H.
  - destruct (f_s y); try discriminate. congruence.
  - rewrite B in H. discriminate.
  - destruct (f_closed y); [discriminate|]. injection H as <-. cbn. auto 10.
  - unfold main_step in H. rewrite A, D1 in H. discriminate.
  - unfold send_step in H. rewrite B in H. destruct ok, (f_s y); try discriminate; try congruence;
    repeat match goal with H : (match ?x with _ => _ end) = Some _ |- _ => destruct x eqn:?; try discriminate H end; injection H as <-; cbn; csplit; auto; discriminate.
  - unfold recv_step in H. rewrite B, C in H. discriminate.
Qed.
Print Assumptions C52_early_disconnect_refuted.

(* ------------------------------------------------------------------ the hypotheses are met *)
(** A client configures and then the connection is lost in the middle of the second play. *)
Example C52_calm_run : exists y, frun (life_init true false [1; 2] [QPlain; QPlain; QConf; QPlain]) y /\ f_m y = MPlay 2 /\ f_closed y = true /\ f_inp y = [QPlain] /\ calm y.
Proof.
  destruct (fgo (life_init true false [1; 2] [QPlain; QPlain; QConf; QPlain])
    ([LSendT true; LAccept true; LSendT true] ++ [LData; LRecvT true; LRecvT true; LData; LRecvT true; LRecvT true; LData; LRecvT true; LRecvT true; LSendT true; LRecvT true] ++
     [LMain; LMain; LMain; LMain; LMain; LMain; LMain; LMain; LMain; LMain; LMain; LLost])) as [y|] eqn:E; [|vm_compute in E; discriminate].
  exists y. split; [eapply fgo_run; eauto|]. vm_compute in E. injection E as <-. repeat split; repeat constructor.
Qed.
(** A client connects, sends nothing that needs a play and goes away before configurationDone. *)
Example C52_lost_run : exists y, frun (life_init true false [1] [QPlain]) y /\ f_m y = MConf /\ f_r y = RRead /\ f_closed y = true /\ calm y.
Proof.
  destruct (fgo (life_init true false [1] [QPlain]) [LSendT true; LAccept true; LSendT true; LData; LRecvT true; LRecvT true; LLost]) as [y|] eqn:E; [|vm_compute in E; discriminate].
  exists y. split; [eapply fgo_run; eauto|]. vm_compute in E. injection E as <-. repeat split; repeat constructor.
Qed.
(** A request sent before the first play waits for it and is woken. *)
Example C52_waits_run : exists y, frun (life_init true true [1] [QStrat]) y /\ f_m y = MPlay 1 /\ f_r y = RGetWait QStrat.
Proof.
  destruct (fgo (life_init true true [1] [QStrat]) [LSendT true; LAccept true; LSendT true; LData; LRecvT true; LRecvT true; LRecvT true; LMain; LMain; LMain]) as [y|] eqn:E; [|vm_compute in E; discriminate].
  exists y. split; [eapply fgo_run; eauto|]. vm_compute in E. injection E as <-. auto.
Qed.
