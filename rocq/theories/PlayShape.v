(** Where the playbook's thread is, for an Ansible of the right shape. *)
From Verif Require Import PyBase PyDict DbgTypes BpModel ThreadModel StratModel SysModel SysSpec SysProofs7 SysProofs8 SysProps PlayModel PlaySpec PlayProofs.
Set Implicit Arguments.
Local Open Scope N_scope.

Definition hookpos (q : dprog) : Prop := match q with DStart _ _ | DEnd _ _ _ _ | DExit _ | DReg _ _ => True | _ => False end.
(** What an exception of the hook at [q] does to Ansible: the call [b] raises it; [B] is
    where Ansible goes on without one; [asked]: the base class method has run already. *)
Inductive failing (b : bcall) (kb : banswer -> ansible) (B : ansible) : dprog -> bool -> Prop :=
| f_start a K : B = ACall b kb -> (forall e, K (Err e) = interpose (kb (BExn e))) -> failing b kb B (DStart a K) false
| f_end h r ad K : (forall e, K (Err e) = interpose (kb (BExn e))) -> (K (Ok tt) = interpose B \/ failing b kb B (K (Ok tt)) true) -> failing b kb B (DEnd h r ad K) true
| f_exit K : (forall e, K (Err e) = interpose (kb (BExn e))) -> K (Ok tt) = interpose B -> failing b kb B (DExit K) true
| f_reg l K : (forall e, K (Err e) = interpose (kb (BExn e))) -> K (Ok tt) = interpose B -> failing b kb B (DReg l K) true.
Definition fails (A : ansible) (log : list (bcall * banswer)) (k : res Z -> ansible) (B : ansible) (q : dprog) : Prop :=
  exists log0 b kb asked, failing b kb B q asked /\ plain A log0 (ARun (ACall b kb) k) /\
    (if asked then exists r, log = log0 ++ [(b, r)] else log = log0).
Definition in_play (A : ansible) (log : list (bcall * banswer)) (p : dprog) : Prop :=
  exists q B k, p = DIn q (fun r => interpose (k r)) /\ plain A log (ARun B k) /\ honest B /\ (forall r, r <> Err EndStrategy -> honest (k r)) /\
    sim q B /\ shape true B /\ (forall r, shape false (k r)) /\ (hookpos q -> fails A log k B q).
Definition between (A : ansible) (log : list (bcall * banswer)) (p : dprog) : Prop :=
  exists B, plain A log B /\ honest B /\ shape false B /\ p = interpose B.
Definition HInv (A : ansible) (d : DS) : Prop :=
  match y_phase (d_y d) with PIdle => between A (d_log d) (d_p d) | PDone _ => True | _ => in_play A (d_log d) (d_p d) end.

Lemma same_fails A log k B : plain A log (ARun B k) -> shape true B -> hookpos (interpose B) -> fails A log k B (interpose B).
Proof.
  intros P S H. destruct B as [x|e|[a|a rf ad|n|] kb|B0 k0|l B0]; try contradiction.
  - exists log, (BQueue a), kb, false. csplit; auto. cbn [interpose]. apply f_start; auto.
  - exists log, (BMeta a rf ad), kb, false. csplit; auto. cbn [interpose]. apply f_start; auto.
Qed.
Lemma failing_ends b kb B l : failing b kb B (ends l (fun o => match o with Ok _ => interpose B | Err e => interpose (kb (BExn e)) end)) true \/
  ends l (fun o => match o with Ok _ => interpose B | Err e => interpose (kb (BExn e)) end) = interpose B.
Proof.
  induction l as [|x l IH]; [right; reflexivity|]. left. cbn [ends]. apply f_end.
  - intros e. reflexivity.
  - destruct IH as [IH|IH]; auto.
Qed.
(** After a base class method. *)
Lemma base_fails q B r b q' : sim q B -> shape true B -> base_step q r = Some (b, q') ->
  exists kb, B = ACall b kb /\ (failing b kb (kb r) q' true \/ q' = interpose (kb r)).
Proof.
  intros S SH E. destruct S as [p A0 E0|a kb|a rf ad kb|K B E0|ls K B E0|p B k S]; try discriminate E.
  - destruct E0 as [A0|]; [|discriminate]. destruct A0 as [x|e|[a|a rf ad|n|] kb|B k|ls B]; try discriminate E; cbn [interpose base_step] in E; injection E as <- <-; exists kb; split; auto.
    + destruct r; auto. left. apply f_reg; auto.
    + destruct r as [| | |l|]; auto. apply failing_ends.
  - cbn in E. injection E as <- <-. exists kb. auto.
  - cbn in E. injection E as <- <-. exists kb. split; auto. destruct r; cbn [meta_rest]; auto; left; destruct rf; try (apply f_exit; auto); apply f_end; auto.
  - inversion SH.
Qed.
Lemma sim_not_in q B k : sim (DIn q k) B -> exists B0 k0, B = ARun B0 k0.
Proof.
  inversion 1 as [p A0 E0| | | | |]; subst; eauto. inversion E0 as [A1 E1|]; subst. destruct B as [x|e|[a|a rf ad|n|] kb|B k1|ls B]; try discriminate E1; eauto.
Qed.
Lemma shape_next B B' : shape true B -> goes_on B B' -> False.
Proof. intros S G. inversion G; subst; inversion S. Qed.
Lemma shape_asks B b r C : shape true B -> asks B b r C -> shape true C.
Proof. intros S G. inversion G; subst; inversion S; subst; auto. Qed.

Section P.
Variable py_int : pystr -> option Z.
Variable py_repr : heap -> val -> pystr.
Variable type_name : heap -> val -> pystr.
Variable tmpl : pystr -> nat -> heap -> res (list obj * val).
Variable tmpl_args : nat -> nat -> heap -> res (list obj * val).
Variable err_text : exn -> pystr.
Variable parse_repl : pystr -> res ReplCmd.
Notation step := (step py_int py_repr type_name tmpl tmpl_args err_text parse_repl).
Notation dstep := (dstep py_int py_repr type_name tmpl tmpl_args err_text parse_repl).
Notation druns := (druns py_int py_repr type_name tmpl tmpl_args err_text parse_repl).

Lemma in_play_hook A log p ph l ph' : in_play A log p -> ph <> PIdle -> next_label p ph = Some l -> lands l ph' ->
  (ph' = PIdle /\ between A log (after_label p ph')) \/ (ph' <> PIdle /\ in_play A log (after_label p ph')).
Proof.
  intros (q & B & k & -> & PL & HB & HK & S & SH & SK & F) NI N L.
  assert (DEC : (exists c, q = DRet c) \/ (exists e, q = DRaise e) \/ (next_label (DIn q (fun r => interpose (k r))) ph = next_label q ph /\ forall x, after_label (DIn q (fun r => interpose (k r))) x = DIn (after_label q x) (fun r => interpose (k r)))).
  { destruct q; eauto; right; right; split; auto. }
  destruct DEC as [(c & ->)|[(e & ->)|(D1 & D2)]].
  - apply sim_ret in S. subst B. cbn in N. destruct ph; try discriminate. injection N as <-. cbn in L. left. split; auto. exists (k (Ok c)). cbn. csplit; auto.
    + eapply plain_on; [exact PL|apply on_return].
    + apply HK. discriminate.
  - apply sim_raise in S. subst B. cbn in N. destruct ph; try discriminate. injection N as <-. cbn in L. left. split; auto.
    assert (NE : e <> EndStrategy) by (inversion HB; auto).
    assert (RR : run_result (Err e) = Err e) by (destruct e; try reflexivity; now elim NE).
    exists (k (Err e)). cbn [after_label]. rewrite RR. csplit; auto.
    + eapply plain_on; [exact PL|apply on_raise].
    + apply HK. congruence.
  - rewrite D1 in N. rewrite D2. destruct (@hook_sim q B S ph l ph' HB N L) as (B' & G & HB' & S' & P' & A' & T').
    assert (B' = B). { destruct G as [->|G]; auto. exfalso. eapply shape_next; eauto. } subst B'. clear G A' T' P'.
    assert (RUNQ : forall q0 k0, q <> DIn q0 k0). { intros q0 k0 ->. apply sim_not_in in S. destruct S as (? & ? & ->). inversion SH. }
    assert (SHAPEQ : match q with DRun _ _ | DLoad _ _ => False | _ => True end).
    { destruct q; auto; inversion S as [x A0 E0| | | | |]; subst; inversion E0 as [A1 E1|]; subst; destruct B as [x|e|[a|a rf ad|n|] kb|B0 k1|ls B0]; try discriminate E1; inversion SH. }
    assert (NIP : ph' <> PIdle). { intros ->. destruct q; try contradiction; cbn [next_label] in N; try discriminate; try (now elim (RUNQ _ _ eq_refl)); destruct ph; try discriminate; injection N as <-; cbn in L; try discriminate; destruct L as [L|L]; try discriminate; destruct L as (? & L); try discriminate; destruct L; discriminate. }
    right. split; auto. exists (after_label q ph'), B, k. csplit; auto. intros HP.
    assert (HQ : hookpos q). { destruct q; try exact Logic.I; try contradiction; try (now elim (RUNQ _ _ eq_refl)); cbn in N; discriminate. }
    specialize (F HQ). destruct F as (log0 & b & kb & asked & F & F2 & F3).
    assert (KEEP : after_label q ph' = q -> fails A log k B (after_label q ph')). { intros ->. exists log0, b, kb, asked. auto. }
    assert (DONE : forall e, ph' <> PDone e). { intros e ->. destruct l; cbn in L; try discriminate; try contradiction; destruct L as [L|L]; try discriminate; destruct L as (? & L); try discriminate; destruct L; discriminate. }
    inversion F as [a K FB FE Q Q2|h r ad K FE FN Q Q2|K FE FN Q Q2|ls K FE FN Q Q2]; subst q asked; cbn [after_label] in *;
      (destruct (hook_result ph') as [o|] eqn:HR; [|apply KEEP; reflexivity]);
      (assert (o = Ok tt) by (destruct ph' as [| | | |e]; try discriminate HR; [now injection HR as <-|now injection HR as <-|elim (DONE e); reflexivity]); subst o).
    + exfalso. clear KEEP. subst B. inversion S as [x A0 E0| | | | |]; subst. inversion E0 as [A1 E1|]; subst. destruct b; cbn [interpose] in E1; try discriminate E1; injection E1; intros; subst; exact HP.
    + destruct FN as [FN|FN].
      * rewrite FN in *. apply same_fails; auto.
      * exists log0, b, kb, true. auto.
    + rewrite FN in *. apply same_fails; auto.
    + rewrite FN in *. apply same_fails; auto.
Qed.
Lemma dstep_hinv A d x d' : dstep d x = Some d' -> own_answers (d_log d') -> not_done d' -> HInv A d -> HInv A d'.
Proof.
  intros H OWN ND HI. pose proof (dstep_not_done _ _ _ _ _ _ _ _ _ H ND) as ND0. unfold HInv in *.
  destruct x as [l| | |r]; cbn [PlayModel.dstep] in H.
  - destruct (outside l) eqn:O; [|discriminate]. destruct (step (d_y d) l) eqn:E; [|discriminate]. injection H as <-. cbn [d_y d_p d_log].
    now rewrite (@outside_phase py_int py_repr type_name tmpl tmpl_args err_text parse_repl _ _ _ O E).
  - destruct (next_label (d_p d) (y_phase (d_y d))) as [l|] eqn:N; [|discriminate]. destruct (step (d_y d) l) as [y'|] eqn:E; [|discriminate]. injection H as <-. cbn [d_y d_p d_log] in *.
    destruct (@next_lands py_int py_repr type_name tmpl tmpl_args err_text parse_repl _ _ _ _ N E) as [L|(e & X)]; [|exfalso; eapply ND; exact X].
    destruct (y_phase (d_y d)) as [| |tid|tid task|e] eqn:P; [|shelve|shelve|shelve|elim (ND0 e); exact P].
    destruct HI as (B & PL & HB & SH & EP). rewrite EP in *. destruct B as [x|e|[a|a rf ad|n|] kb|B k|ls B]; cbn [interpose next_label] in N; try discriminate N; injection N as <-; cbn in L; rewrite L; cbn [after_label].
    + inversion SH; subst. inversion HB; subst. exists (interpose B), B, k. csplit; auto; [apply sim_same|]. intros HP. apply same_fails; auto.
    + inversion SH; subst. inversion HB; subst. exists B. csplit; auto. eapply plain_on; [exact PL|apply on_load].
    Unshelve.
    all: match goal with H : next_label _ ?ph = Some _ |- _ => assert (NI : ph <> PIdle) by discriminate end; destruct (@in_play_hook _ _ _ _ _ _ HI NI N L) as [(X1 & X2)|(X1 & X2)]; try (rewrite X1 in *; exact X2).
    all: destruct (y_phase y') as [| | | |e0]; try congruence; first [exact X2|exact Logic.I].
  - destruct (leaves (d_p d) (y_phase (d_y d))) eqn:L; [|discriminate]. exfalso. unfold leaves in L.
    destruct (d_p d) as [| | | | | | | |p k|]; try discriminate. destruct p; try discriminate. destruct (y_phase (d_y d)) eqn:Q; try discriminate. eapply ND0; eauto.
  - destruct (base_step (d_p d) r) as [(b, q)|] eqn:E; [|discriminate]. injection H as <-. cbn [d_y d_p d_log] in *.
    assert (NR : r <> BExn EndStrategy). { intros ->. apply (OWN b). cbn. apply in_or_app. right. now left. }
    assert (K : in_play A (d_log d) (d_p d) -> in_play A (d_log d ++ [(b, r)]) q).
    { intros (q0 & B & k & EP & PL & HB & HK & S & SH & SK & F). rewrite EP in E. cbn [base_step] in E. destruct (base_step q0 r) as [(b0, q1)|] eqn:E1; [|discriminate]. injection E as <- <-.
      destruct (@base_sim _ _ S r b0 q1 NR HB E1) as (C & A1 & A2 & A3 & A4). destruct (@base_fails _ _ r b0 q1 S SH E1) as (kb & EB & FB).
      subst B. assert (C = kb r) by (inversion A1; subst; auto). subst C. 
      assert (PL' : plain A (d_log d ++ [(b0, r)]) (ARun (kb r) k)) by (eapply plain_ask; [exact PL|]; apply asks_in; exact A1).
      exists q1, (kb r), k. csplit; auto.
      - eapply shape_asks; eauto.
      - intros HP. destruct FB as [FB| ->]; [|apply same_fails; auto; eapply shape_asks; eauto]. exists (d_log d), b0, kb, true. csplit; eauto. }
    destruct (y_phase (d_y d)); auto.
    destruct HI as (B & PL & HB & SH & EP). rewrite EP in E. destruct B as [x|e|[a|a rf ad|n|] kb|B0 k0|ls B0]; try discriminate E; inversion SH.
Qed.
Lemma druns_hinv A xs d : honest A -> shape false A -> druns (begin A) xs d -> own_answers (d_log d) -> not_done d -> HInv A d.
Proof.
  intros HA SA R. remember (begin A) as d0 eqn:D0. induction R as [d|d xs d1 x d2 R IH E]; intros OWN ND; subst.
  - exists A. csplit; auto. apply plain_start.
  - eapply dstep_hinv; eauto. apply IH; auto.
    + eapply dstep_log; eauto.
    + eapply dstep_not_done; eauto.
Qed.
End P.
