(** C40: cancellation. *)
From Verif Require Import PyBase PyDict CancelModel.
Set Implicit Arguments.
Local Open Scope N_scope.
Ltac csplit := repeat match goal with |- _ /\ _ => split end.

(** In flight after the history [h]: entered and not left. *)
Definition in_flight (h : list kev) (o : N) : Prop := (exists id, In (HBegin o id) h) /\ ~ In (HEnd o) h.
(** How often the callback of [o] was run. *)
Definition calls (o : N) (h : list kev) : nat := length (filter (fun e => match e with HCall o' => N.eqb o' o | _ => false end) h).
Definition no_raise (h : list kev) : Prop := ~ In HRaise h.

Lemma calls_app o a b : calls o (a ++ b) = (calls o a + calls o b)%nat.
Proof. unfold calls. rewrite filter_app, app_length. reflexivity. Qed.
Definition cnt (o : N) (l : list (N * N)) : nat := length (filter (fun p => N.eqb (snd p) o) l).

(** The invariant. *)
Record KInv (h : list kev) (k : Tok) : Prop := {
  v_ids : forall o id, In (HBegin o id) h -> id < k_next k;
  v_uniq : forall o o' id, In (HBegin o id) h -> In (HBegin o' id) h -> o = o';
  v_ops : forall o id, In (HBegin o id) h -> dget (k_ops k) o <> None;
  v_run : forall o id b, dget (k_ops k) o = Some (ORunning id b) -> In (HBegin o id) h /\ ~ In (HEnd o) h;
  v_one : forall o id id', In (HBegin o id) h -> In (HBegin o id') h -> id = id';
  v_end : forall o, In (HEnd o) h -> exists id, In (HBegin o id) h;
  v_nd : NoDup (dkeys (k_funcs k));
  v_live : forall o id, In (HBegin o id) h -> ~ In (HEnd o) h -> exists b, dget (k_ops k) o = Some (ORunning id b);
  v_st : if k_cancelled k then
           exists h1 h2, h = h1 ++ HCancel :: h2 /\ ~ In HCancel h1 /\ (forall o, calls o h1 = 0%nat) /\
             (forall o id, ~ In (HBegin o id) h2) /\ (forall o c, In (HBody o c) h2 -> c = true) /\
             (k_lock k = None -> k_funcs k = []) /\
             (In HRet h2 -> k_funcs k = [] /\ match k_lock k with Some r => r | None => [] end = []) /\
             (forall o, (in_flight h1 o -> calls o h2 + cnt o (match k_lock k with Some r => r | None => [] end) = 1)%nat /\
                        (~ in_flight h1 o -> calls o h2 + cnt o (match k_lock k with Some r => r | None => [] end) = 0)%nat)
         else ~ In HCancel h /\ (forall o, calls o h = 0%nat) /\ k_lock k = None /\
              (forall id o, dget (k_funcs k) id = Some o <-> In (HBegin o id) h /\ ~ In (HEnd o) h) }.
Lemma in_snoc {A} (x : A) l y : In x (l ++ [y]) <-> In x l \/ x = y.
Proof. rewrite in_app_iff. cbn. intuition congruence. Qed.
Lemma cnt_funcs o (d : dict N N) : NoDup (dkeys d) -> (forall id id', dget d id = Some o -> dget d id' = Some o -> id = id') ->
  ((exists id, dget d id = Some o) -> cnt o d = 1)%nat /\ (~ (exists id, dget d id = Some o) -> cnt o d = 0)%nat.
Proof.
  induction d as [|(i, x) d IH]; intros ND U.
  - split; [intros (id & H); discriminate|reflexivity].
  - inversion ND as [|? ? NI ND']; subst.
    assert (U' : forall id id', dget d id = Some o -> dget d id' = Some o -> id = id').
    { intros a b A B. apply (U a b); cbn [dget]; destruct (eqb_spec i a); destruct (eqb_spec i b); auto; subst; exfalso; apply NI;
        eapply dget_Some_key; eauto. }
    destruct (IH ND' U') as (I1 & I2). unfold cnt in *. cbn [filter snd]. destruct (N.eqb_spec x o) as [-> |NE].
    + cbn [length]. assert (X : ~ exists id, dget d id = Some o).
      { intros (id & H). assert (id <> i) by (intros ->; apply NI; eapply dget_Some_key; eauto).
        assert (i = id); [|congruence]. apply U; cbn [dget]; [now rewrite eqb_refl|]. destruct (eqb_spec i id); congruence. }
      split; [intros _; rewrite I2 by auto; reflexivity|]. intros H. exfalso. apply H. exists i. cbn [dget]. now rewrite eqb_refl.
    + split.
      * intros (id & H). cbn [dget] in H. destruct (eqb_spec i id); [congruence|]. apply I1. eauto.
      * intros H. apply I2. intros (id & G). apply H. exists id. cbn [dget]. destruct (eqb_spec i id) as [-> |]; auto. exfalso. apply NI. eapply dget_Some_key; eauto.
Qed.

Lemma kinv_step h k l k' e : KInv h k -> kstep k l = Some (k', e) -> e <> HRaise -> KInv (h ++ [e]) k'.
Proof.
  intros I E NR. destruct I as [V1 V2 V3 V4 V5 V6 V7 V9 V8]. destruct l as [o|o|o| |raised|]; cbn [kstep] in E.
  - (* begin *)
    destruct (k_lock k) eqn:LK; [discriminate|]. destruct (dget (k_ops k) o) eqn:OP; [discriminate|].
    assert (FR : forall id, ~ In (HBegin o id) h) by (intros id H; apply V3 in H; congruence).
    assert (FE : ~ In (HEnd o) h) by (intros H; apply V6 in H; destruct H as (id & H); eapply FR; eauto).
    destruct (k_cancelled k) eqn:CC; injection E as <- <-.
    + (* refused *)
      assert (B : forall o' id, In (HBegin o' id) (h ++ [HRefused o]) -> In (HBegin o' id) h) by (intros o' id H; apply in_snoc in H; destruct H; [auto|discriminate]).
      assert (B2 : forall o', In (HEnd o') (h ++ [HRefused o]) -> In (HEnd o') h) by (intros o' H; apply in_snoc in H; destruct H; [auto|discriminate]).
      split; cbn; eauto.
      * intros o' id H. rewrite dget_dset. destruct (eqb_spec o o'); [discriminate|eauto].
      * intros o' id b H. rewrite dget_dset in H. destruct (eqb_spec o o'); [discriminate|]. apply V4 in H. destruct H. split; [apply in_or_app; auto|auto].
      * intros o' H. destruct (V6 _ (B2 _ H)) as (id & G). exists id. apply in_or_app. auto.
      * intros o' id H1 H2. destruct (V9 o' id) as (b & G); [auto|intros X; apply H2; apply in_or_app; auto|]. exists b. rewrite dget_dset. destruct (eqb_spec o o') as [-> |]; [congruence|exact G].
      * destruct V8 as (h1 & h2 & -> & A & A0 & A1 & A2 & A3 & A5 & A4). exists h1, (h2 ++ [HRefused o]). csplit; auto; try (intros HH; apply in_snoc in HH; destruct HH as [HH|HH]; [destruct (A5 HH) as (Q1 & Q2); rewrite ?Q1; auto; discriminate|discriminate]).
        -- rewrite <- app_assoc. reflexivity.
        -- intros o' id H. apply in_snoc in H. destruct H as [H|H]; [eapply A1; eauto|discriminate].
        -- intros o' c H. apply in_snoc in H. destruct H as [H|H]; [eauto|discriminate].
        -- intros o'. rewrite calls_app. cbn [calls filter length]. rewrite Nat.add_0_r. specialize (A4 o'). rewrite ?LK in A4. exact A4.
    + (* entered *)
      destruct V8 as (A & B & C & D). set (id0 := k_next k) in *.
      assert (BB : forall o' id, In (HBegin o' id) (h ++ [HBegin o id0]) <-> In (HBegin o' id) h \/ (o' = o /\ id = id0)).
      { intros o' id. rewrite in_snoc. split; [intros [H|H]; auto; injection H as -> ->; auto|intros [H|(-> & ->)]; auto]. }
      assert (B2 : forall o', In (HEnd o') (h ++ [HBegin o id0]) <-> In (HEnd o') h) by (intros o'; rewrite in_snoc; split; [intros [H|H]; [auto|discriminate]|auto]).
      assert (NK : ~ In id0 (dkeys (k_funcs k))).
      { intros H. destruct (dget_key_ex _ _ H) as (x & G). apply D in G. destruct G as (G & _). apply V1 in G. unfold id0 in G. lia. }
      split; cbn [k_next k_ops k_funcs k_lock k_cancelled]; rewrite ?CC.
      * intros o' id H. apply BB in H. destruct H as [H|(_ & ->)]; [apply V1 in H|]; lia.
      * intros o' o2 id H G. apply BB in H. apply BB in G. destruct H as [H|(-> & ->)], G as [G|(-> & GE)]; subst; eauto.
        -- apply V1 in H. unfold id0 in H. lia.
        -- apply V1 in G. unfold id0 in G. lia.
      * intros o' id H. apply BB in H. rewrite dget_dset. destruct (eqb_spec o o') as [-> |NE]; [discriminate|]. destruct H as [H|(-> & _)]; [eauto|congruence].
      * intros o' id b H. rewrite dget_dset in H. rewrite BB, B2. destruct (eqb_spec o o') as [-> |NE].
        -- injection H as <- <-. auto.
        -- apply V4 in H. tauto.
      * intros o' id id' H G. apply BB in H. apply BB in G. destruct H as [H|(-> & ->)], G as [G|(GE & ->)]; subst; eauto; exfalso; eapply FR; eauto.
      * intros o' H. apply B2 in H. destruct (V6 _ H) as (id & G). exists id. apply BB. auto.
      * apply NoDup_dset. auto.
      * intros o' id H1 H2. apply BB in H1. rewrite B2 in H2. rewrite dget_dset. destruct (eqb_spec o o') as [-> |NE].
        -- destruct H1 as [H1|(_ & ->)]; [exfalso; eapply FR; eauto|]. eauto.
        -- destruct H1 as [H1|(-> & _)]; [eauto|congruence].
      * csplit; auto.
        -- intros H. apply in_snoc in H. destruct H; [auto|discriminate].
        -- intros o'. rewrite calls_app, B. reflexivity.
        -- intros id o'. rewrite dget_dset, BB, B2. destruct (eqb_spec id0 id) as [<-|NE].
           ++ split; [intros H; injection H as <-; auto|]. intros ([H|(-> & _)] & _); [|reflexivity]. apply V1 in H. unfold id0 in H. lia.
           ++ rewrite D. split; [tauto|]. intros ([H|(_ & ->)] & H2); [auto|congruence].
  - (* body *)
    destruct (dget (k_ops k) o) as [[id [|]| |]|] eqn:OP; try discriminate. injection E as <- <-.
    assert (B : forall o' i, In (HBegin o' i) (h ++ [HBody o (k_cancelled k)]) <-> In (HBegin o' i) h) by (intros o' i; rewrite in_snoc; split; [intros [H|H]; [auto|discriminate]|auto]).
    assert (B2 : forall o', In (HEnd o') (h ++ [HBody o (k_cancelled k)]) <-> In (HEnd o') h) by (intros o'; rewrite in_snoc; split; [intros [H|H]; [auto|discriminate]|auto]).
    split; cbn.
    + intros o' i H. apply B in H. eauto.
    + intros o' o2 i H G. apply B in H. apply B in G. eauto.
    + intros o' i H. apply B in H. rewrite dget_dset. destruct (eqb_spec o o'); [discriminate|eauto].
    + intros o' i b H. rewrite dget_dset in H. rewrite B, B2. destruct (eqb_spec o o') as [-> |]; [injection H as <- <-; eauto|eauto].
    + intros o' i j H G. apply B in H. apply B in G. eauto.
    + intros o' H. apply B2 in H. destruct (V6 _ H) as (i & G). exists i. now apply B.
    + auto.
    + intros o' i H1 H2. rewrite B in H1. rewrite B2 in H2. destruct (V9 _ _ H1 H2) as (b & G). rewrite dget_dset. destruct (eqb_spec o o') as [-> |]; [|eauto].
      exists true. congruence.
    + destruct (k_cancelled k) eqn:CC.
      * destruct V8 as (h1 & h2 & -> & A & A0 & A1 & A2 & A3 & A5 & A4). exists h1, (h2 ++ [HBody o true]). csplit; auto; try (intros HH; apply in_snoc in HH; destruct HH as [HH|HH]; [destruct (A5 HH) as (Q1 & Q2); rewrite ?Q1; auto; discriminate|discriminate]).
        -- rewrite <- app_assoc. reflexivity.
        -- intros o' i H. apply in_snoc in H. destruct H as [H|H]; [eapply A1; eauto|discriminate].
        -- intros o' c H. apply in_snoc in H. destruct H as [H|H]; [eauto|congruence].
        -- intros o'. rewrite calls_app. cbn [calls filter length]. rewrite Nat.add_0_r. apply A4.
      * destruct V8 as (A & A1 & C & D). csplit; auto.
        -- intros H. apply in_snoc in H. destruct H; [auto|discriminate].
        -- intros o'. rewrite calls_app, A1. reflexivity.
        -- intros i o'. now rewrite D, B, B2.
  - (* end *)
    destruct (k_lock k) eqn:LK; [discriminate|]. destruct (dget (k_ops k) o) as [[id bd| |]|] eqn:OP; try discriminate. injection E as <- <-.
    destruct (V4 _ _ _ OP) as (HB & HNE).
    assert (B : forall o' i, In (HBegin o' i) (h ++ [HEnd o]) <-> In (HBegin o' i) h) by (intros o' i; rewrite in_snoc; split; [intros [H|H]; [auto|discriminate]|auto]).
    assert (B2 : forall o', In (HEnd o') (h ++ [HEnd o]) <-> In (HEnd o') h \/ o' = o) by (intros o'; rewrite in_snoc; split; intros [H|H]; auto; [right; congruence|subst; auto]).
    split; cbn.
    + intros o' i H. apply B in H. eauto.
    + intros o' o2 i H G. apply B in H. apply B in G. eauto.
    + intros o' i H. apply B in H. rewrite dget_dset. destruct (eqb_spec o o'); [discriminate|eauto].
    + intros o' i b H. rewrite dget_dset in H. rewrite B, B2. destruct (eqb_spec o o') as [-> |NE]; [discriminate|]. apply V4 in H. intuition congruence.
    + intros o' i j H G. apply B in H. apply B in G. eauto.
    + intros o' H. apply B2 in H. destruct H as [H| ->]; [destruct (V6 _ H) as (i & G); exists i; now apply B|exists id; now apply B].
    + apply NoDup_ddel. auto.
    + intros o' i H1 H2. rewrite B in H1. rewrite B2 in H2. rewrite dget_dset. destruct (eqb_spec o o') as [-> |]; [exfalso; auto|]. apply V9; auto.
    + destruct (k_cancelled k) eqn:CC.
      * destruct V8 as (h1 & h2 & -> & A & A0 & A1 & A2 & A3 & A5 & A4). exists h1, (h2 ++ [HEnd o]). csplit; auto; try (intros HH; apply in_snoc in HH; destruct HH as [HH|HH]; [destruct (A5 HH) as (Q1 & Q2); rewrite ?Q1; auto; discriminate|discriminate]).
        -- rewrite <- app_assoc. reflexivity.
        -- intros o' i H. apply in_snoc in H. destruct H as [H|H]; [eapply A1; eauto|discriminate].
        -- intros o' c H. apply in_snoc in H. destruct H as [H|H]; [eauto|discriminate].
        -- intros _. rewrite (A3 eq_refl). reflexivity.
        -- intros o'. rewrite calls_app. cbn [calls filter length]. rewrite Nat.add_0_r. specialize (A4 o'). rewrite ?LK in A4. exact A4.
      * destruct V8 as (A & A1 & C & D). csplit; auto.
        -- intros H. apply in_snoc in H. destruct H; [auto|discriminate].
        -- intros o'. rewrite calls_app, A1. reflexivity.
        -- intros i o'. rewrite B, B2. destruct (N.eq_dec i id) as [-> |NE].
           ++ rewrite dget_ddel_same by auto. split; [discriminate|]. intros (H1 & H2). exfalso. apply H2. right. eauto.
           ++ rewrite dget_ddel_other by auto. rewrite D. split; [|tauto]. intros (H1 & H2). split; auto. intros [H3| ->]; [auto|]. apply NE. eauto.
  - (* cancel *)
    destruct (k_lock k) eqn:LK; [discriminate|]. injection E as <- <-.
    assert (B : forall o' i, In (HBegin o' i) (h ++ [HCancel]) <-> In (HBegin o' i) h) by (intros o' i; rewrite in_snoc; split; [intros [H|H]; [auto|discriminate]|auto]).
    assert (B2 : forall o', In (HEnd o') (h ++ [HCancel]) <-> In (HEnd o') h) by (intros o'; rewrite in_snoc; split; [intros [H|H]; [auto|discriminate]|auto]).
    split; cbn.
    + intros o' i H. apply B in H. eauto.
    + intros o' o2 i H G. apply B in H. apply B in G. eauto.
    + intros o' i H. apply B in H. eauto.
    + intros o' i b H. rewrite B, B2. eauto.
    + intros o' i j H G. apply B in H. apply B in G. eauto.
    + intros o' H. apply B2 in H. destruct (V6 _ H) as (i & G). exists i. now apply B.
    + auto.
    + intros o' i. rewrite B, B2. apply V9.
    + destruct (k_cancelled k) eqn:CC.
      * destruct V8 as (h1 & h2 & -> & A & A0 & A1 & A2 & A3 & A5 & A4). exists h1, (h2 ++ [HCancel]). rewrite (A3 eq_refl). csplit; auto; try (intros HH; apply in_snoc in HH; destruct HH as [HH|HH]; [destruct (A5 HH) as (Q1 & Q2); rewrite ?Q1; auto; discriminate|discriminate]).
        -- rewrite <- app_assoc. reflexivity.
        -- intros o' i H. apply in_snoc in H. destruct H as [H|H]; [eapply A1; eauto|discriminate].
        -- intros o' c H. apply in_snoc in H. destruct H as [H|H]; [eauto|discriminate].
        -- intros o'. rewrite calls_app. cbn [calls filter length]. rewrite Nat.add_0_r. specialize (A4 o'). rewrite ?LK in A4. exact A4.
      * destruct V8 as (A & A1 & C & D). exists h, []. csplit; auto; try discriminate; try (intros ? ? []); try (match goal with |- In _ [] -> _ => intros [] end).
        intros o. cbn [calls filter length]. cbn [plus].
        destruct (@cnt_funcs o (k_funcs k) V7) as (C1 & C2).
        { intros i j Hi Hj. apply D in Hi. apply D in Hj. destruct Hi, Hj. eauto. }
        change (0 + cnt o (k_funcs k))%nat with (cnt o (k_funcs k)). split.
        -- intros ((i & H1) & H2). apply C1. exists i. apply D. auto.
        -- intros H. apply C2. intros (i & G). apply H. apply D in G. destruct G. split; eauto.
  - (* call *)
    destruct (k_lock k) as [[|(i0, o) r]|] eqn:LK; try discriminate. injection E as <- <-. destruct raised; [congruence|].
    assert (B : forall o' i, In (HBegin o' i) (h ++ [HCall o]) <-> In (HBegin o' i) h) by (intros o' i; rewrite in_snoc; split; [intros [H|H]; [auto|discriminate]|auto]).
    assert (B2 : forall o', In (HEnd o') (h ++ [HCall o]) <-> In (HEnd o') h) by (intros o'; rewrite in_snoc; split; [intros [H|H]; [auto|discriminate]|auto]).
    split; cbn.
    + intros o' i H. apply B in H. eauto.
    + intros o' o2 i H G. apply B in H. apply B in G. eauto.
    + intros o' i H. apply B in H. eauto.
    + intros o' i b H. rewrite B, B2. eauto.
    + intros o' i j H G. apply B in H. apply B in G. eauto.
    + intros o' H. apply B2 in H. destruct (V6 _ H) as (i & G). exists i. now apply B.
    + auto.
    + intros o' i. rewrite B, B2. apply V9.
    + destruct (k_cancelled k) eqn:CC.
      * destruct V8 as (h1 & h2 & -> & A & A0 & A1 & A2 & A3 & A5 & A4). exists h1, (h2 ++ [HCall o]). csplit; auto; try discriminate; try (intros HH; apply in_snoc in HH; destruct HH as [HH|HH]; [destruct (A5 HH) as (Q1 & Q2); rewrite ?Q1; auto; discriminate|discriminate]).
        -- rewrite <- app_assoc. reflexivity.
        -- intros o' i H. apply in_snoc in H. destruct H as [H|H]; [eapply A1; eauto|discriminate].
        -- intros o' c H. apply in_snoc in H. destruct H as [H|H]; [eauto|discriminate].
        -- intros o'. rewrite calls_app. specialize (A4 o'). unfold cnt in *. cbn [calls filter length snd] in *.
           unfold calls in *. cbn [filter]. destruct (N.eqb_spec o o'); cbn [length] in *; split; intros X; [apply A4 in X|apply A4 in X|apply A4 in X|apply A4 in X]; lia.
      * destruct V8 as (_ & _ & X & _). discriminate.
  - (* return *)
    destruct (k_lock k) as [[|p r]|] eqn:LK; try discriminate. injection E as <- <-.
    assert (B : forall o' i, In (HBegin o' i) (h ++ [HRet]) <-> In (HBegin o' i) h) by (intros o' i; rewrite in_snoc; split; [intros [H|H]; [auto|discriminate]|auto]).
    assert (B2 : forall o', In (HEnd o') (h ++ [HRet]) <-> In (HEnd o') h) by (intros o'; rewrite in_snoc; split; [intros [H|H]; [auto|discriminate]|auto]).
    split; cbn.
    + intros o' i H. apply B in H. eauto.
    + intros o' o2 i H G. apply B in H. apply B in G. eauto.
    + intros o' i H. apply B in H. eauto.
    + intros o' i b H. rewrite B, B2. eauto.
    + intros o' i j H G. apply B in H. apply B in G. eauto.
    + intros o' H. apply B2 in H. destruct (V6 _ H) as (i & G). exists i. now apply B.
    + constructor.
    + intros o' i. rewrite B, B2. apply V9.
    + destruct (k_cancelled k) eqn:CC.
      * destruct V8 as (h1 & h2 & -> & A & A0 & A1 & A2 & A3 & A5 & A4). exists h1, (h2 ++ [HRet]). csplit; auto; try discriminate; try (intros HH; apply in_snoc in HH; destruct HH as [HH|HH]; [destruct (A5 HH) as (Q1 & Q2); rewrite ?Q1; auto; discriminate|discriminate]).
        -- rewrite <- app_assoc. reflexivity.
        -- intros o' i H. apply in_snoc in H. destruct H as [H|H]; [eapply A1; eauto|discriminate].
        -- intros o' c H. apply in_snoc in H. destruct H as [H|H]; [eauto|discriminate].
        -- intros o'. rewrite calls_app. cbn [calls filter length]. rewrite Nat.add_0_r. apply A4.
      * destruct V8 as (_ & _ & X & _). discriminate.
Qed.
Lemma kinv_run h k : krun tok_init h k -> no_raise h -> KInv h k.
Proof.
  remember tok_init as k0. induction 1 as [k|k0 h k l k' e R IH E]; intros NR; subst.
  - split; cbn; try (intros; contradiction); try constructor; try (intros; discriminate); auto.
    csplit; auto. intros id o. split; [discriminate|]. intros ([] & _).
  - apply kinv_step with k l; auto.
    + apply IH; auto. intros H. apply NR. apply in_or_app. auto.
    + intros ->. apply NR. apply in_or_app. right. now left.
Qed.

(** C40, if no callback raises: in every history, [h1] up to the first call of cancel(),
    [h2] after it: by the time a cancel() has returned, the callback of every operation
    that was in flight has run exactly once, and no other callback has run; nothing starts
    any more; a recv that finishes is cancelled; ids never collide. *)
Theorem C40_cancel_partial h k : krun tok_init h k -> no_raise h ->
  (forall h1 h2, h = h1 ++ HCancel :: h2 -> ~ In HCancel h1 ->
     (forall o, (calls o h <= 1)%nat) /\
     (forall o, (0 < calls o h)%nat -> in_flight h1 o) /\
     (In HRet h2 -> forall o, in_flight h1 o -> calls o h = 1%nat) /\
     (forall o id, ~ In (HBegin o id) h2) /\
     (forall o c, In (HBody o c) h2 -> c = true)) /\
  (~ In HCancel h -> forall o, calls o h = 0%nat) /\
  (forall o o' id, In (HBegin o id) h -> In (HBegin o' id) h -> o = o').
Proof.
  intros R NR. pose proof (kinv_run R NR) as I. destruct I as [V1 V2 V3 V4 V5 V6 V7 V9 V8]. csplit; auto.
  - intros h1 h2 -> N. destruct (k_cancelled k).
    + destruct V8 as (g1 & g2 & EQ & A & A0 & A1 & A2 & A3 & A5 & A4).
      assert (X : h1 = g1 /\ h2 = g2).
      { clear - EQ N A. revert g1 EQ A. induction h1 as [|x h1 IH]; intros [|y g1] EQ A; cbn in *.
        - injection EQ as ->. auto.
        - injection EQ as <- _. exfalso. auto.
        - injection EQ as -> _. exfalso. auto.
        - injection EQ as -> EQ. destruct (IH ltac:(tauto) g1 EQ ltac:(tauto)) as (-> & ->). auto. }
      destruct X as (<- & <-).
      assert (C : forall o, calls o (h1 ++ HCancel :: h2) = calls o h2) by (intros o; rewrite calls_app, A0; reflexivity).
      assert (D : forall o, in_flight h1 o \/ ~ in_flight h1 o).
      { intros o. unfold in_flight.
        assert (DB : (exists id, In (HBegin o id) h1) \/ ~ (exists id, In (HBegin o id) h1)).
        { clear. induction h1 as [|x h1 [(id & IH)|IH]]; [right; intros (id & [])|left; exists id; now right|].
          destruct x as [o' id| | | | | | |]; try (right; intros (i & [H|H]); [discriminate|apply IH; eauto]).
          destruct (N.eq_dec o' o) as [-> |NE]; [left; exists id; now left|]. right. intros (i & [H|H]); [congruence|apply IH; eauto]. }
        assert (DE : In (HEnd o) h1 \/ ~ In (HEnd o) h1).
        { assert (DD : forall x y : kev, {x = y} + {x <> y}) by (repeat decide equality). destruct (in_dec DD (HEnd o) h1); auto. }
        tauto. }
      csplit; auto.
      * intros o. rewrite C. destruct (D o) as [F|F]; apply A4 in F; lia.
      * intros o. rewrite C. intros P. destruct (D o) as [F|F]; auto. apply A4 in F. lia.
      * intros H o F. rewrite C. apply A4 in F. destruct (A5 H) as (_ & E). rewrite E in F. cbn in F. lia.
    + destruct V8 as (X & _). exfalso. apply X. apply in_or_app. right. now left.
  - intros H. destruct (k_cancelled k); [|apply V8]. destruct V8 as (g1 & g2 & -> & _). exfalso. apply H. apply in_or_app. right. now left.
Qed.

Fixpoint kexec (k : Tok) (ls : list klabel) : option (list kev * Tok) :=
  match ls with
  | [] => Some ([], k)
  | l :: r => match kstep k l with Some (k1, e) => match kexec k1 r with Some (h, k2) => Some (e :: h, k2) | None => None end | None => None end
  end.
Lemma kexec_run ls : forall k0 h0 k h k', krun k0 h0 k -> kexec k ls = Some (h, k') -> krun k0 (h0 ++ h) k'.
Proof.
  induction ls as [|l ls IH]; intros k0 h0 k h k' R E; cbn [kexec] in E.
  - injection E as <- <-. now rewrite app_nil_r.
  - destruct (kstep k l) as [(k1, e)|] eqn:S; [|discriminate]. destruct (kexec k1 ls) as [(h2, k2)|] eqn:E2; [|discriminate]. injection E as <- <-.
    replace (h0 ++ e :: h2) with ((h0 ++ [e]) ++ h2) by (rewrite <- app_assoc; reflexivity). eapply IH; eauto. econstructor; eauto.
Qed.
Definition kafter (ls : list klabel) : list kev * Tok := match kexec tok_init ls with Some x => x | None => ([], tok_init) end.
Lemma kafter_run ls : (match kexec tok_init ls with Some _ => true | None => false end) = true -> krun tok_init (fst (kafter ls)) (snd (kafter ls)).
Proof.
  unfold kafter. destruct (kexec tok_init ls) as [(h, k)|] eqn:E; [|discriminate]. intros _. apply (kexec_run _ (krun_nil tok_init) E).
Qed.
(** Three operations; one ends before cancel(), one enters too late. *)
Definition demo_cancel := [KBegin 1; KBegin 2; KEnd 1; KBegin 3; KCancel; KCall false; KBody 2; KCall false; KRet; KEnd 2; KBegin 4; KCancel; KRet].
Example C40_case : exists h k, krun tok_init h k /\ no_raise h /\ In HRet h /\ calls 2 h = 1%nat /\ calls 3 h = 1%nat /\ calls 1 h = 0%nat /\ In (HRefused 4) h.
Proof.
  exists (fst (kafter demo_cancel)), (snd (kafter demo_cancel)). csplit; [apply kafter_run; vm_compute; reflexivity| | |vm_compute; reflexivity|vm_compute; reflexivity|vm_compute; reflexivity|].
  - vm_compute. intuition discriminate.
  - vm_compute. tauto.
  - vm_compute. tauto.
Qed.
(** C40 refuted when a callback raises (sock.shutdown on a socket that is not connected
    any more raises OSError): cancel() ends and operations that were in flight were never
    aborted; a second cancel() raises at the same callback again. *)
Definition demo_raise := [KBegin 1; KBegin 2; KCancel; KCall true; KCancel; KCall true].
Theorem C40_callback_raises_refuted : exists h k o, krun tok_init h k /\ k_lock k = None /\ k_cancelled k = true /\
  in_flight h o /\ calls o h = 0%nat /\ length (filter (fun e => match e with HRaise => true | _ => false end) h) = 2%nat.
Proof.
  exists (fst (kafter demo_raise)), (snd (kafter demo_raise)), 2. csplit; [apply kafter_run; vm_compute; reflexivity| | | | |]; try (vm_compute; reflexivity).
  split; [exists 1; vm_compute; tauto|]. vm_compute. intuition discriminate.
Qed.
Print Assumptions C40_cancel_partial.
Print Assumptions C40_callback_raises_refuted.
