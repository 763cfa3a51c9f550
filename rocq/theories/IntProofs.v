(** int() of the model accepts exactly the literals of IntSpec. *)
From Verif Require Import PyBase PyDict Digits JsonModel MsgBase AdapterModel IntSpec.
From Coq Require Import ZifyBool ZifyNat ZifyN Lia.
Local Open Scope N_scope.

Lemma dec_digit c : is_digit c = true <-> dec c.
Proof. unfold is_digit, dec. lia. Qed.
Lemma blank_sp c : is_bspace c = true <-> blank c.
Proof. unfold is_bspace, blank. lia. Qed.
Definition val_from (a : N) (l : list N) : N := fold_left (fun a c => a * 10 + (c - 48)) (filter (fun c => negb (c =? 95)) l) a.
Lemma val_dig a c l : dec c -> val_from a (c :: l) = val_from (a * 10 + (c - 48)) l.
Proof. intros H. unfold val_from. cbn [filter]. unfold dec in H. replace (c =? 95) with false by lia. reflexivity. Qed.
Lemma val_us a l : val_from a (95 :: l) = val_from a l.
Proof. reflexivity. Qed.
Lemma num_ne l : numeral l -> exists c r, l = c :: r /\ dec c.
Proof. destruct 1; eauto. Qed.
Lemma num_last l : numeral l -> exists r c, l = r ++ [c] /\ dec c.
Proof. induction 1 as [c H|c l H _ (r & d & -> & D)|c l H _ (r & d & -> & D)]; [exists [], c; auto|exists (c :: r), d; auto|exists (c :: 95 :: r), d; auto]. Qed.
Lemma digits_complete l : numeral l -> forall p a, int_digits p a l = Some (val_from a l).
Proof.
  induction 1 as [c H|c l H N IH|c l H N IH]; intros p a; cbn [int_digits]; rewrite (proj2 (dec_digit c) H).
  - now rewrite val_dig by auto.
  - rewrite val_dig by auto. apply IH.
  - rewrite val_dig by auto. rewrite val_us. cbn. destruct l as [|x l]; [inversion N|]. apply IH.
Qed.
Lemma digits_sound l : forall p a n, int_digits p a l = Some n ->
  n = val_from a l /\ ((l = [] /\ p = true) \/ numeral l \/ (p = true /\ exists r, l = 95 :: r /\ numeral r)).
Proof.
  induction l as [|c l IH]; intros p a n; cbn [int_digits].
  - destruct p; [|discriminate]. intros H. injection H as <-. split; [reflexivity|auto].
  - destruct (is_digit c) eqn:D; [apply dec_digit in D|].
    + intros H. apply IH in H as (-> & [(-> & _)|[N|(_ & r & -> & N)]]); (split; [now rewrite (val_dig a c) by auto|]); right; left.
      * now constructor. * now apply num_more. * now apply num_us.
    + destruct ((c =? 95) && p)%bool eqn:E; [|discriminate]. apply andb_prop in E as (E & ->). apply N.eqb_eq in E as ->.
      destruct l as [|x l]; [discriminate|]. intros H. apply IH in H as (-> & [(_ & X)|[N|(X & _)]]); try discriminate. split; [reflexivity|]. right; right. eauto.
Qed.
Lemma strip_l_sound l : exists w, l = w ++ strip_l l /\ Forall blank w.
Proof.
  induction l as [|c l (w & E & F)]; [exists []; auto|]. cbn [strip_l]. destruct (is_bspace c) eqn:B; [|exists []; auto].
  exists (c :: w). split; [cbn; now rewrite <- E|constructor; [now apply blank_sp|auto]].
Qed.
Lemma strip_l_blank w l : Forall blank w -> strip_l (w ++ l) = strip_l l.
Proof. induction 1 as [|c w B _ IH]; auto. cbn. now rewrite (proj2 (blank_sp c) B). Qed.
Lemma strip_l_stop c l : ~ blank c -> strip_l (c :: l) = c :: l.
Proof. intros H. cbn. destruct (is_bspace c) eqn:B; [|auto]. now apply blank_sp in B. Qed.
Lemma Forall_rev' (w : list N) : Forall blank w -> Forall blank (rev w).
Proof. intros H. apply Forall_forall. intros x I. rewrite Forall_forall in H. apply H. now apply in_rev in I. Qed.
Lemma strip_sound l : exists w1 w2, l = w1 ++ strip_ws l ++ w2 /\ Forall blank w1 /\ Forall blank w2.
Proof.
  destruct (strip_l_sound l) as (w1 & E1 & F1). destruct (strip_l_sound (rev (strip_l l))) as (w2 & E2 & F2).
  exists w1, (rev w2). split; [|split; [auto|now apply Forall_rev']]. unfold strip_ws.
  rewrite <- rev_app_distr, <- E2, rev_involutive. exact E1.
Qed.
Lemma strip_complete w1 w2 c m d : Forall blank w1 -> Forall blank w2 -> ~ blank c -> ~ blank d -> (m = [] /\ c = d \/ exists m', m = m' ++ [d]) -> strip_ws (w1 ++ (c :: m) ++ w2) = c :: m.
Proof.
  intros F1 F2 C D M. unfold strip_ws. rewrite strip_l_blank by auto. cbn [app]. rewrite strip_l_stop by auto.
  change (c :: m ++ w2) with ((c :: m) ++ w2). rewrite rev_app_distr, strip_l_blank by (now apply Forall_rev').
  assert (exists k, rev (c :: m) = d :: k) as (k & E).
  { destruct M as [(-> & ->)|(m' & ->)]; [exists []; reflexivity|]. cbn. rewrite rev_app_distr. cbn. eauto. }
  rewrite E, strip_l_stop by auto. rewrite <- E. apply rev_involutive.
Qed.
Lemma dec_nb c : dec c -> ~ blank c.
Proof. unfold dec, blank. lia. Qed.

Theorem py_int_spec v z : py_int v = Ok z <-> int_literal v z.
Proof.
  split.
  - intros H. destruct (strip_sound v) as (w1 & w2 & E & F1 & F2). unfold py_int in H. set (t := strip_ws v) in *.
    assert (G : exists neg d sg, t = sg ++ d /\ (if neg : bool then sg = [45] else sg = [] \/ sg = [43]) /\ match int_digits false 0 d with Some n => Ok (if neg then (- Z.of_N n)%Z else Z.of_N n) | None => Err ValueError end = Ok z).
    { destruct t as [|c r]; [exists false, [], []; auto|]. destruct (N.eqb_spec c 45) as [->|]; [exists true, r, [45]; auto|].
      destruct (N.eqb_spec c 43) as [->|]; [exists false, r, [43]; auto|]. exists false, (c :: r), []; auto. }
    destruct G as (neg & d & sg & Et & S & G). destruct (int_digits false 0 d) as [n|] eqn:I; [|discriminate]. injection G as <-.
    apply digits_sound in I as (-> & [(_ & X)|[N|(X & _)]]); try discriminate.
    exists w1, sg, d, w2. rewrite E, Et, <- app_assoc. repeat split; auto. destruct neg; [right|left]; split; auto.
  - intros (w1 & sg & ds & w2 & -> & F1 & F2 & N & Z).
    destruct (num_last _ N) as (r & d & Er & D). destruct (num_ne _ N) as (c0 & r0 & E0 & D0).
    assert (SG : sg = [] \/ sg = [43] \/ sg = [45]) by tauto.
    assert (T : strip_ws (w1 ++ sg ++ ds ++ w2) = sg ++ ds).
    { destruct SG as [-> |[-> | ->]]; cbn [app].
      - rewrite E0. apply (strip_complete w1 w2 c0 r0 d); auto using dec_nb.
        rewrite E0 in Er. destruct r as [|y r]; cbn in Er; injection Er; intros; subst; [left; auto|right; eauto].
      - change (43 :: ds ++ w2) with ((43 :: ds) ++ w2). apply (strip_complete w1 w2 43 ds d); auto using dec_nb; [unfold blank; lia|]. right. eauto.
      - change (45 :: ds ++ w2) with ((45 :: ds) ++ w2). apply (strip_complete w1 w2 45 ds d); auto using dec_nb; [unfold blank; lia|]. right. eauto. }
    unfold py_int. rewrite T. pose proof (digits_complete _ N false 0) as K.
    destruct SG as [-> |[-> | ->]]; cbn [app].
    + rewrite E0. rewrite E0 in K. unfold dec in D0. replace (c0 =? 45) with false by lia. replace (c0 =? 43) with false by lia. rewrite K.
      destruct Z as [(_ & ->)|(X & _)]; [now rewrite E0|discriminate].
    + replace (43 =? 45) with false by reflexivity. cbn [N.eqb Pos.eqb]. rewrite K. destruct Z as [(_ & ->)|(X & _)]; [reflexivity|discriminate].
    + cbn [N.eqb Pos.eqb]. rewrite K. destruct Z as [([X|X] & _)|(_ & ->)]; [discriminate|discriminate|reflexivity].
Qed.
Lemma py_int_err v e : py_int v = Err e -> e = ValueError.
Proof.
  unfold py_int. destruct (match strip_ws v with c :: r => _ | [] => _ end) as [neg d]. destruct (int_digits false 0 d); congruence.
Qed.
