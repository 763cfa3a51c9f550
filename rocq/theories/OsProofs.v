(** A weakest-precondition calculus for programs over the operating system. *)
From Verif Require Import PyBase OsModel OsSpec.
Set Implicit Arguments.
Local Open Scope N_scope.

Inductive outcome (A : Type) := ORet (a : A) | ORaise (e : exn).
Arguments ORet {A} a. Arguments ORaise {A} e.

Section WP.
Variable I : OS -> Prop.
Fixpoint wp {A} (Q : outcome A -> OS -> Prop) (p : prog A) (os : OS) : Prop :=
  I os /\
  match p with
  | Ret a => Q (ORet a) os
  | Raise e => Q (ORaise e) os
  | Stuck => True
  | Call c k => forall os1 a os2, others os os1 -> sys os1 c a = Some os2 -> wp Q (k a) os2
  end.
Lemma wp_I {A} Q (p : prog A) os : wp Q p os -> I os.
Proof. destruct p; cbn [wp]; tauto. Qed.
Lemma wp_mono {A} (Q Q' : outcome A -> OS -> Prop) p os :
  (forall o os', I os' -> Q o os' -> Q' o os') -> wp Q p os -> wp Q' p os.
Proof.
  intros H. revert os; induction p as [a|e| |c k IH]; intros os [H1 H2]; cbn [wp]; split; auto.
  intros os1 a os2 Ho Hs. apply IH. eapply H2; eauto.
Qed.
Lemma wp_bind {A B} (Q : outcome B -> OS -> Prop) (p : prog A) (f : A -> prog B) os :
  wp (fun o os' => match o with ORet a => wp Q (f a) os' | ORaise e => Q (ORaise e) os' end) p os -> wp Q (pbind p f) os.
Proof.
  revert os; induction p as [a|e| |c k IH]; intros os [H1 H2]; cbn [pbind]; [exact H2|split; auto..|].
  cbn [wp]; split; auto. intros os1 a os2 Ho Hs. apply IH. eapply H2; eauto.
Qed.
Lemma wp_finally {A} (Q : outcome A -> OS -> Prop) (p : prog A) (q : prog unit) os :
  wp (fun o os' => wp (fun o' os'' => match o' with ORet _ => Q o os'' | ORaise e => Q (ORaise e) os'' end) q os') p os ->
  wp Q (finally p q) os.
Proof.
  revert os; induction p as [a|e| |c k IH]; intros os [H1 H2]; cbn [finally].
  - apply wp_bind. eapply wp_mono; [|exact H2]. intros [u|e] os' HI HQ; cbn [wp]; auto.
  - apply wp_bind. eapply wp_mono; [|exact H2]. intros [u|e'] os' HI HQ; cbn [wp]; auto.
  - split; auto.
  - cbn [wp]; split; auto. intros os1 a os2 Ho Hs. apply IH. eapply H2; eauto.
Qed.
Lemma wp_catch {A} (Q : outcome A -> OS -> Prop) (p : prog A) h os :
  wp (fun o os' => match o with
                   | ORet a => Q (ORet a) os'
                   | ORaise e => match h e with Some q => wp Q q os' | None => Q (ORaise e) os' end
                   end) p os ->
  wp Q (catch p h) os.
Proof.
  revert os; induction p as [a|e| |c k IH]; intros os [H1 H2]; cbn [catch].
  - cbn [wp]; auto.
  - destruct (h e); [exact H2|cbn [wp]; auto].
  - split; auto.
  - cbn [wp]; split; auto. intros os1 a os2 Ho Hs. apply IH. eapply H2; eauto.
Qed.

Hypothesis I_others : forall os os', I os -> others os os' -> I os'.
Lemma others_trans os1 os2 os3 : others os1 os2 -> others os2 os3 -> others os1 os3.
Proof. intros (A1 & A2 & A3 & A4) (B1 & B2 & B3 & B4). repeat split; try congruence. intros p f Hf Hm. eapply A4; eauto. Qed.
Lemma wp_sound {A} (Q : outcome A -> OS -> Prop) p os os' q :
  (forall o os1 os2, Q o os1 -> others os1 os2 -> Q o os2) ->
  wp Q p os -> reach os p os' q ->
  I os' /\ match q with Ret a => Q (ORet a) os' | Raise e => Q (ORaise e) os' | _ => True end.
Proof.
  intros HQ H R. induction R as [os p|os p os1 os2 q Ho R IH|os c k a os1 os2 q Hs R IH].
  - split; [eapply wp_I; eauto|]. destruct p; cbn [wp] in H; tauto.
  - apply IH. assert (HI1 : I os1) by (eapply I_others; [eapply wp_I|]; eauto). destruct p as [a|e| |c k]; cbn [wp] in H |- *; destruct H as [_ H]; split; auto.
    + eapply HQ; eauto. + eapply HQ; eauto.
    + intros o1 a o2 H1 H2. eapply H; [|exact H2]. eapply others_trans; eauto.
  - apply IH. destruct H as [_ H]. eapply H; [|exact Hs]. repeat split; auto.
Qed.
End WP.
Lemma others_refl os : others os os.
Proof. repeat split; auto. Qed.

(** Programs all of whose calls satisfy [P]. *)
Fixpoint only {A} (P : call -> Prop) (p : prog A) : Prop :=
  match p with Call c k => P c /\ forall a, only P (k a) | _ => True end.
Lemma only_bind {A B} P (p : prog A) (f : A -> prog B) : only P p -> (forall a, only P (f a)) -> only P (pbind p f).
Proof. induction p as [a|e| |c k IH]; cbn; intros H Hf; auto. destruct H; split; auto. Qed.
Lemma only_catch {A} P (p : prog A) h : only P p -> (forall e q, h e = Some q -> only P q) -> only P (catch p h).
Proof.
  induction p as [a|e| |c k IH]; cbn; intros H Hf; auto.
  - destruct (h e) eqn:E; [eapply Hf; eauto|exact Logic.I].
  - destruct H; split; auto.
Qed.
Lemma only_finally {A} P (p : prog A) q : only P p -> only P q -> only P (finally p q).
Proof.
  induction p as [a|e| |c k IH]; cbn; intros H Hf; auto; try (apply only_bind; auto; intros; exact Logic.I).
  destruct H; split; auto.
Qed.
Lemma only_act (P : call -> Prop) c : P c -> only P (act c).
Proof. intros H. unfold act. cbn [only]. split; auto. intros []; exact Logic.I. Qed.
Lemma only_get (P : call -> Prop) c : P c -> only P (get_fd c).
Proof. intros H. unfold get_fd. cbn [only]. split; auto. intros []; exact Logic.I. Qed.
Lemma wp_only {A} (P : call -> Prop) (I : OS -> Prop) (p : prog A) os :
  (forall os os', I os -> others os os' -> I os') ->
  (forall os c a os', I os -> P c -> sys os c a = Some os' -> I os') ->
  only P p -> I os -> wp I (fun _ => I) p os.
Proof.
  intros HO HP. revert os; induction p as [a|e| |c k IH]; intros os H HI; cbn [wp]; split; auto.
  intros os1 a os2 Ho Hs. cbn in H. destruct H as [Hc Hk]. apply IH; auto.
  assert (HI1 : I os1) by (eapply HO; [exact HI|exact Ho]). eapply HP; [exact HI1|exact Hc|exact Hs].
Qed.
