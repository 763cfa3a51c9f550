(** C46: messages to the client from two threads. *)
From Verif Require Import PyBase SendModel.
Set Implicit Arguments.
Local Open Scope N_scope.

Section P.
Variable msg : Type.
Variable frame : N -> msg -> list N.

(** The stream a client should see: messages [l] in that order, numbered from [n]. *)
Fixpoint numbered (n : N) (l : list msg) : list N :=
  match l with [] => [] | m :: l => frame n m ++ numbered (n + 1) l end.
(** [l] is an interleaving of [a] and [b]. *)
Inductive shuffle : list msg -> list msg -> list msg -> Prop :=
| sh_nil : shuffle [] [] []
| sh_a m a b l : shuffle a b l -> shuffle (m :: a) b (m :: l)
| sh_b m a b l : shuffle a b l -> shuffle a (m :: b) (m :: l).
(** The property: every way the two threads can run ends with a stream that is the
    messages of both, each once, numbered consecutively. *)
Definition uncorrupted (ws : list who) : Prop := forall a b s, sched frame ws (start a b) = Some s -> done s = true -> exists l, shuffle a b l /\ g_out s = numbered 1 l.

Definition other (w : who) : who := match w with TA => TB | TB => TA end.
(** The calls do not overlap: a thread only moves while the other is between calls. *)
Fixpoint exclusive (ws : list who) (s : st msg) : Prop :=
  match ws with
  | [] => True
  | w :: ws => idle (th (other w) s) = true /\ match sstep frame w s with Some s1 => exclusive ws s1 | None => True end
  end.

(** * Proof of the part that holds *)
Lemma numbered_app l : forall n k, numbered n (l ++ k) = numbered n l ++ numbered (n + N.of_nat (length l)) k.
Proof.
  induction l as [|m l IH]; intros n k; cbn [numbered app length].
  - now rewrite N.add_0_r.
  - rewrite IH, app_assoc. do 2 f_equal. lia.
Qed.
Lemma put_nth l : forall o v, (o < length l)%nat -> nth o (put l o v) [] = v.
Proof. induction l as [|x l IH]; intros o v H; cbn in H; [lia|]. destruct o; cbn; auto. apply IH. lia. Qed.
Lemma put_len l : forall o v, length (put l o v) = length l.
Proof. induction l as [|x l IH]; intros [|o] v; cbn; auto. Qed.
(** Messages sent so far [l], and what is left to each thread. *)
Definition rest (t : thread msg) : list msg := t_todo t.
Definition at_pc (s : st msg) (l : list msg) (m : msg) (pc : spc) : Prop :=
  let no := 1 + N.of_nat (length l) in
  let buf := obj s (g_attr s) in
  (g_attr s < length (g_heap s))%nat /\
  match pc with
  | S0 => g_seq s = no /\ buf = [] /\ g_out s = numbered 1 l
  | S1 n => n = no /\ g_seq s = no /\ buf = [] /\ g_out s = numbered 1 l
  | S2 n tmp => n = no /\ tmp = no /\ buf = [] /\ g_out s = numbered 1 l
  | S3 n => n = no /\ g_seq s = no + 1 /\ buf = [] /\ g_out s = numbered 1 l
  | S4 n o => n = no /\ o = g_attr s /\ g_seq s = no + 1 /\ buf = [] /\ g_out s = numbered 1 l
  | S5 o => o = g_attr s /\ g_seq s = no + 1 /\ buf = frame no m /\ g_out s = numbered 1 l
  | S6 => g_seq s = no + 1 /\ buf = frame no m /\ g_out s = numbered 1 l
  | S7 n => n = length (frame no m) /\ g_seq s = no + 1 /\ buf = frame no m /\ g_out s = numbered 1 l
  | S8 n => n = length (frame no m) /\ g_seq s = no + 1 /\ buf = frame no m /\ g_out s = numbered 1 l
  | S9 n d => n = length (frame no m) /\ d = frame no m /\ g_seq s = no + 1 /\ buf = frame no m /\ g_out s = numbered 1 l
  | S10 o d => (o < length (g_heap s))%nat /\ obj s o = [] /\ d = frame no m /\ g_seq s = no + 1 /\ g_out s = numbered 1 l
  | S11 d => d = frame no m /\ g_seq s = no + 1 /\ buf = [] /\ g_out s = numbered 1 l
  end.
Definition quiet (s : st msg) (l : list msg) : Prop :=
  (g_attr s < length (g_heap s))%nat /\ g_seq s = 1 + N.of_nat (length l) /\ obj s (g_attr s) = [] /\ g_out s = numbered 1 l.
Definition Inv (a b : list msg) (s : st msg) : Prop := exists l p q,
  shuffle p q l /\
  match t_cur (g_a s), t_cur (g_b s) with
  | None, None => quiet s l /\ a = p ++ t_todo (g_a s) /\ b = q ++ t_todo (g_b s)
  | Some (m, pc), None => at_pc s l m pc /\ a = p ++ m :: t_todo (g_a s) /\ b = q ++ t_todo (g_b s)
  | None, Some (m, pc) => at_pc s l m pc /\ a = p ++ t_todo (g_a s) /\ b = q ++ m :: t_todo (g_b s)
  | Some _, Some _ => False
  end.
Lemma shuffle_snoc_a p q l m : shuffle p q l -> shuffle (p ++ [m]) q (l ++ [m]).
Proof. induction 1; cbn; try (constructor; auto). constructor. Qed.
Lemma shuffle_snoc_b p q l m : shuffle p q l -> shuffle p (q ++ [m]) (l ++ [m]).
Proof. induction 1; cbn; try (constructor; auto). constructor. Qed.
(** One step of the call, whoever makes it. *)
Lemma call_step s l m pc w s1 : at_pc s l m pc -> t_cur (th w s) = Some (m, pc) -> sstep frame w s = Some s1 ->
  th (other w) s1 = th (other w) s /\ t_todo (th w s1) = t_todo (th w s) /\
  match t_cur (th w s1) with
  | Some (m', pc') => m' = m /\ at_pc s1 l m pc'
  | None => quiet s1 (l ++ [m])
  end.
Proof.
  intros AT C ST. unfold sstep in ST. rewrite C in ST. unfold at_pc in *. destruct AT as (LA & AT). cbv zeta in *.
  destruct pc; destruct w; injection ST as <-; cbn [th set_th other t_cur t_todo g_a g_b g_seq g_heap g_attr g_out] in *; (split; [reflexivity|split; [reflexivity|]]); unfold obj in *; cbn [g_seq g_heap g_attr g_out set_th] in *;
    try (split; [reflexivity|]); try (split; [exact LA|]); try tauto.
  all: try (destruct AT as (-> & -> & AT); tauto).
  all: try (intuition; subst; lia).
  - destruct AT as (-> & -> & A1 & A2 & A3). rewrite put_len, put_nth, A2 by exact LA. auto.
  - destruct AT as (-> & -> & A1 & A2 & A3). rewrite put_len, put_nth, A2 by exact LA. auto.
  - destruct AT as (-> & A1 & A2 & A3). rewrite A2, Nat.min_id. auto.
  - destruct AT as (-> & A1 & A2 & A3). rewrite A2, Nat.min_id. auto.
  - destruct AT as (-> & A1 & A2 & A3). rewrite A2, firstn_all. auto.
  - destruct AT as (-> & A1 & A2 & A3). rewrite A2, firstn_all. auto.
  - destruct AT as (-> & -> & A1 & A2 & A3). rewrite A2, skipn_all, app_length, app_nth2, Nat.sub_diag by lia. cbn. repeat split; auto; lia.
  - destruct AT as (-> & -> & A1 & A2 & A3). rewrite A2, skipn_all, app_length, app_nth2, Nat.sub_diag by lia. cbn. repeat split; auto; lia.
  - destruct AT as (-> & A1 & A2 & A3). unfold obj. cbn [g_seq g_heap g_attr g_out set_th]. rewrite A1, A2, A3, app_length, numbered_app. cbn [length numbered]. rewrite app_nil_r. repeat split; auto; try lia.
  - destruct AT as (-> & A1 & A2 & A3). unfold obj. cbn [g_seq g_heap g_attr g_out set_th]. rewrite A1, A2, A3, app_length, numbered_app. cbn [length numbered]. rewrite app_nil_r. repeat split; auto; try lia.
Qed.
Lemma inv_step a b s w s1 : Inv a b s -> idle (th (other w) s) = true -> sstep frame w s = Some s1 -> Inv a b s1.
Proof.
  intros (l & p & q & SH & I) ID ST. unfold idle in ID.
  destruct (t_cur (th w s)) as [(m, pc)|] eqn:C.
  - assert (AT : at_pc s l m pc).
    { destruct w; cbn in *; destruct (t_cur (g_a s)) as [(ma, pa)|] eqn:CA, (t_cur (g_b s)) as [(mb, pb)|] eqn:CB; try discriminate; injection C as -> ->; tauto. }
    destruct (@call_step _ _ _ _ _ _ AT C ST) as (E1 & E2 & E3). destruct (t_cur (th w s1)) as [(m', pc')|] eqn:C1.
    + destruct E3 as (-> & E3). exists l, p, q. split; auto. destruct w; cbn in *; rewrite E1, E2, C1 in *; destruct (t_cur (g_a s)) as [(ma, pa)|] eqn:CA, (t_cur (g_b s)) as [(mb, pb)|] eqn:CB; try discriminate; injection C as -> ->; tauto.
    + destruct w; cbn in *.
      * exists (l ++ [m]), (p ++ [m]), q. split; [now apply shuffle_snoc_a|]. rewrite E1, E2, C1.
        destruct (t_cur (g_a s)) as [(ma, pa)|] eqn:CA, (t_cur (g_b s)) as [(mb, pb)|] eqn:CB; try discriminate. injection C as -> ->. rewrite <- app_assoc. tauto.
      * exists (l ++ [m]), p, (q ++ [m]). split; [now apply shuffle_snoc_b|]. rewrite E1, E2, C1.
        destruct (t_cur (g_a s)) as [(ma, pa)|] eqn:CA, (t_cur (g_b s)) as [(mb, pb)|] eqn:CB; try discriminate. injection C as -> ->. rewrite <- app_assoc. tauto.
  - unfold sstep in ST. rewrite C in ST. destruct (t_todo (th w s)) as [|m r] eqn:T; [discriminate|]. injection ST as <-.
    exists l, p, q. split; auto. destruct w; cbn in *; destruct (t_cur (g_a s)) as [(ma, pa)|] eqn:CA, (t_cur (g_b s)) as [(mb, pb)|] eqn:CB; try discriminate;
      rewrite T in *; unfold quiet, at_pc, obj in *; cbn in *; tauto.
Qed.
(** C46, what holds: if the calls do not overlap. *)
Theorem C46_no_overlap_partial ws : forall a b s, exclusive ws (start a b) -> sched frame ws (start a b) = Some s -> done s = true ->
  exists l, shuffle a b l /\ g_out s = numbered 1 l.
Proof.
  intros a b s EX SC DN.
  assert (I : Inv a b s).
  { assert (I0 : Inv a b (start a b)).
    { exists [], [], []. split; [constructor|]. cbn. unfold quiet. cbn. repeat split; auto; lia. }
    revert EX SC I0. generalize (start a b) as s0. induction ws as [|w ws IH]; intros s0 EX SC I0; cbn in SC.
    - now injection SC as <-.
    - cbn in EX. destruct EX as (ID & EX). destruct (sstep frame w s0) as [s1|] eqn:ST; [|discriminate]. eapply IH; eauto. eapply inv_step; eauto. }
  destruct I as (l & p & q & SH & I). unfold done, idle in DN.
  destruct (t_cur (g_a s)); [discriminate|]. destruct (t_cur (g_b s)); [discriminate|]. destruct (t_todo (g_a s)); [|discriminate]. destruct (t_todo (g_b s)); [|discriminate].
  destruct I as ((_ & _ & _ & O) & -> & ->). rewrite !app_nil_r. eauto.
Qed.

(** * What goes wrong, for every serialisation *)
Fixpoint times {A} (n : nat) (x : A) : list A := match n with O => [] | S n => x :: times n x end.
Lemma sched_step ws w s s1 r : sstep frame w s = Some s1 -> sched frame ws s1 = r -> sched frame (w :: ws) s = r.
Proof. intros A B. cbn. now rewrite A. Qed.
Ltac one := eapply sched_step; [unfold sstep, obj; cbn [th t_cur t_todo g_a g_b g_seq g_heap g_attr g_out set_th put nth app length start];
  rewrite ?app_nil_r, ?Nat.min_id, ?firstn_all, ?skipn_all, ?Nat.min_0_l, ?Nat.min_0_r; cbn [put nth app length firstn skipn]; rewrite ?app_nil_r; reflexivity|].
Ltac run_all := cbn [times app]; repeat one; reflexivity.
(** A message is sent twice: thread A has loaded the buffer object when B sends. *)
Definition ws_twice : list who := times 5 TA ++ times 13 TB ++ times 8 TA.
Theorem C46_sent_twice_refuted (ma mb : msg) : exists s, sched frame ws_twice (start [ma] [mb]) = Some s /\ done s = true /\ g_out s = frame 2 mb ++ frame 2 mb ++ frame 1 ma.
Proof. unfold ws_twice. eexists. split; [run_all|]. cbn. rewrite ?app_nil_r, ?firstn_all. auto. Qed.
(** A message is lost: B has cut the buffer when A appends to the old one. *)
Definition ws_lost : list who := times 5 TA ++ times 11 TB ++ times 2 TA ++ times 2 TB ++ times 6 TA.
Theorem C46_lost_refuted (ma mb : msg) : exists s, sched frame ws_lost (start [ma] [mb]) = Some s /\ done s = true /\ g_out s = frame 2 mb.
Proof. unfold ws_lost. eexists. split; [run_all|]. cbn. rewrite ?app_nil_r, ?firstn_all. auto. Qed.
(** Two messages with the same sequence number. *)
Definition ws_same : list who := times 2 TA ++ times 13 TB ++ times 11 TA.
Theorem C46_same_seq_refuted (ma mb : msg) : exists s, sched frame ws_same (start [ma] [mb]) = Some s /\ done s = true /\ g_out s = frame 1 mb ++ frame 1 ma.
Proof. unfold ws_same. eexists. split; [run_all|]. cbn. rewrite ?app_nil_r, ?firstn_all. auto. Qed.
End P.

Definition demo_frame (n m : N) : list N := [n; m; 0].
(** The property is false. *)
Theorem C46_refuted : ~ forall ws, uncorrupted demo_frame ws.
Proof.
  intros H. destruct (C46_lost_refuted demo_frame 7 8) as (s & R & D & O). destruct (H _ _ _ _ R D) as (l & SH & E). rewrite O in E.
  apply (f_equal (@length N)) in E. assert (X : length l = 2%nat).
  { clear - SH. inversion SH as [|? ? ? ? S1|? ? ? ? S1]; subst; inversion S1 as [|? ? ? ? S2|? ? ? ? S2]; subst; inversion S2; subst; reflexivity. }
  destruct l as [|x [|y [|]]]; cbn in X, E; lia.
Qed.
(** A run without overlap: A sends 7 and 9, B sends 8. *)
Example no_overlap_case : let ws := times 13 TB ++ times 26 TA in
  exclusive demo_frame ws (start [7; 9] [8]) /\ exists s, sched demo_frame ws (start [7; 9] [8]) = Some s /\ done s = true /\ g_out s = [1; 8; 0; 2; 7; 0; 3; 9; 0].
Proof. split; [vm_compute; repeat split|]. eexists. split; [vm_compute; reflexivity|]. split; reflexivity. Qed.
Print Assumptions C46_no_overlap_partial.
Print Assumptions C46_sent_twice_refuted.
Print Assumptions C46_lost_refuted.
Print Assumptions C46_same_seq_refuted.
Print Assumptions C46_refuted.
