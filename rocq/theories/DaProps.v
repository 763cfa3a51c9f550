(** C43, C44: how the adapter ends a session. *)
From Verif Require Import PyBase PyDict DaModel.
Set Implicit Arguments.
Local Open Scope N_scope.
Ltac csplit := repeat match goal with |- _ /\ _ => split end.

Definition terms (h : list dev) : nat := length (filter (fun e => match e with ETerm _ => true | _ => false end) h).
Definition answered (h : list dev) (seq : N) : Prop := exists t, In (EResp t seq) h.
Definition answers (h : list dev) (seq : N) : nat := length (filter (fun e => match e with EResp _ n => N.eqb n seq | _ => false end) h).
Lemma terms_app a b : terms (a ++ b) = (terms a + terms b)%nat.
Proof. unfold terms. now rewrite filter_app, app_length. Qed.
Lemma answers_app a b n : answers (a ++ b) n = (answers a n + answers b n)%nat.
Proof. unfold answers. now rewrite filter_app, app_length. Qed.
Lemma answered_app a b n : answered a n -> answered (a ++ b) n.
Proof. intros (t & H). exists t. apply in_or_app. auto. Qed.

(** Past the point where stop() joins the receive thread. *)
Definition late (c : call) : bool := match c_pc c with PLaunch | PCheck | PSend | PSet => true | _ => false end.
Definition at_send (c : call) : bool := match c_pc c with PSend | PSet => true | _ => false end.
Definition at_set (c : call) : nat := match c_pc c with PSet => 1 | _ => 0 end.
Definition main_call (a : DA) : option call := match a_main a with MStop c _ => Some c | _ => None end.
Definition recv_call (a : DA) : option call := match a_recv a with RStop c => Some c | _ => None end.
Definition sets (o : option call) : nat := match o with Some c => at_set c | None => 0 end.
Definition sending (o : option call) : bool := match o with Some c => at_send c | None => false end.
Record TInv (h : list dev) (a : DA) : Prop := {
  n_cnt : terms h = (if a_term a then 1 else sets (main_call a) + sets (recv_call a))%nat;
  n_deb : a_deb a = false -> recv_ended (a_recv a) = true;
  n_late : forall c, main_call a = Some c -> late c = true -> recv_ended (a_recv a) = true;
  n_send : sending (main_call a) = true \/ sending (recv_call a) = true -> a_term a = false;
  n_end : a_main a = MEnd -> a_term a = true }.
Lemma tinv_init : TInv [] da_init.
Proof. split; cbn; try discriminate; auto. Qed.
Lemma recv_ended_call a : recv_ended (a_recv a) = true -> recv_call a = None.
Proof. unfold recv_call. destruct (a_recv a); cbn; try discriminate; auto. Qed.
Ltac fin := split; unfold main_call, recv_call in *; cbn in *; rewrite ?terms_app; cbn; rewrite ?Nat.add_0_r in *; auto; try discriminate;
  try (intros c0 H0; injection H0 as <-; discriminate); try (intros [H0|H0]; [discriminate|solve [auto]]); try (intros [H0|H0]; discriminate).
Lemma tinv_step h a l a' es : TInv h a -> dastep a l = Some (a', es) -> TInv (h ++ es) a'.
Proof.
  intros I ST. destruct a as [m r inn nx deb rn tm fw].
  assert (Q : terms (h ++ es) = (terms h + terms es)%nat) by apply terms_app.
  destruct I as [C D L S E]. unfold main_call, recv_call in *. cbn [a_main a_recv a_in a_next a_deb a_run a_term a_fwd] in *.
  destruct l as [k o|seq st| | | | | | |s0|ex|]; cbn [dastep a_main a_recv a_in a_next a_deb a_run a_term a_fwd] in ST.
  - destruct m as [last| |? ?|? ?|]; try discriminate. destruct deb, k, o; injection ST as <- <-; split; cbn in *; rewrite ?Q; cbn; try rewrite Nat.add_0_r; auto; try discriminate; try lia;
      try (intros c H; injection H as <-; discriminate).
    all: try (rewrite C; destruct tm; [reflexivity|]; rewrite (D eq_refl) in *; destruct r; cbn in *; auto; try discriminate; specialize (D eq_refl); discriminate).
    all: intros [H|H]; try discriminate; auto.
  - destruct m as [last| |? ?|? ?|]; try discriminate.
    assert (G : forall a2 e2, (a2, e2) = (raise_main (set_run (remove N.eq_dec seq rn) (mkDA (MLoop last) r inn (nx + 1) deb rn tm fw)), [EStop TMain true]) -> TInv (h ++ e2) a2).
    { intros a2 e2 H. injection H as -> ->. fin. }
    destruct (mem seq rn && deb && _) eqn:B; [|injection ST as <- <-; apply G; reflexivity].
    destruct st as [[|]|]; injection ST as <- <-; [| |apply G; reflexivity].
    + fin.
      * rewrite C. destruct tm; auto. destruct r; cbn in *; auto. rewrite !andb_false_r in B. discriminate.
      * intros H. subst deb. rewrite andb_false_r in B. discriminate.
    + fin.
  - destruct m as [last| |? ?|? ?|]; try discriminate. injection ST as <- <-. fin.
  - destruct m as [[|]| |? ?|? ?|]; try discriminate. injection ST as <- <-. fin.
  - destruct m as [last| |? ?|? ?|]; try discriminate. destruct (recv_ended r) eqn:RE; [|discriminate]. injection ST as <- <-. fin.
  - destruct m as [last| |? ?|? ?|]; try discriminate. injection ST as <- <-. fin.
  - destruct m as [[|]| |? ?|? ?|]; try discriminate. injection ST as <- <-. fin.
  - (* the main thread's stop *)
    destruct m as [last| |? ?|[exp pc] back|]; try discriminate. unfold stop_step in ST. cbn [c_pc c_exp a_main a_recv a_in a_next a_deb a_run a_term a_fwd] in ST.
    assert (NC : forall m' e, (forall c, MStop c back = m' -> late c = false) -> m' <> MEnd -> terms e = 0%nat -> late (mkCall exp pc) = false ->
                 TInv (h ++ e) (mkDA m' r inn nx deb rn tm fw) \/ True) by auto.
    destruct pc as [[|(sq, [|]) l]|[|(sq, d) l]| | | | |].
    1-5: injection ST as <- <-; try (destruct exp); fin.
    + (* join *)
      destruct deb.
      * destruct (recv_ended r) eqn:RE; [|discriminate]. injection ST as <- <-. fin.
      * injection ST as <- <-. fin.
    + injection ST as <- <-. fin.
      intros c H _. apply (L _ eq_refl eq_refl).
    + pose proof (L _ eq_refl eq_refl) as RE. destruct tm.
      * destruct back as [last|]; injection ST as <- <-; fin.
      * injection ST as <- <-. fin.
    + pose proof (L _ eq_refl eq_refl) as RE. assert (T : tm = false) by (apply S; left; reflexivity). subst tm.
      injection ST as <- <-. fin.
      * rewrite C. destruct r; cbn in *; try discriminate; reflexivity.
    + pose proof (L _ eq_refl eq_refl) as RE. assert (T : tm = false) by (apply S; left; reflexivity). subst tm.
      destruct back as [last|]; injection ST as <- <-; fin.
      all: try (rewrite C; destruct r; cbn in *; try discriminate; reflexivity).
      all: intros [H|H]; try discriminate; destruct r; cbn in *; discriminate.
  - destruct r; try discriminate. destruct s0 as [sq|]; [destruct (mem sq fw); [|discriminate]|]; injection ST as <- <-; fin.
  - destruct r; try discriminate. injection ST as <- <-. fin.
  - destruct r as [| |[exp pc]|]; try discriminate. unfold stop_step in ST. cbn [c_pc c_exp a_main a_recv a_in a_next a_deb a_run a_term a_fwd] in ST.
    assert (ML : forall c, match m with MStop c _ => Some c | _ => None end = Some c -> at_set c = 0%nat /\ at_send c = false).
    { intros c H. specialize (L c H). cbn in L. unfold late, at_set, at_send in *. destruct (c_pc c); auto; specialize (L eq_refl); discriminate. }
    assert (MS : sets (match m with MStop c _ => Some c | _ => None end) = 0%nat /\ sending (match m with MStop c _ => Some c | _ => None end) = false).
    { destruct m; auto. apply ML. reflexivity. }
    destruct MS as (MS1 & MS2).
    assert (DT : deb = true) by (destruct deb; auto; specialize (D eq_refl); discriminate). subst deb.
    destruct pc as [[|(sq, [|]) l]|[|(sq, d) l]| | | | |]; [..|destruct tm| |]; injection ST as <- <-; try (destruct exp); split; unfold main_call, recv_call in *; cbn in *; rewrite ?terms_app; cbn;
      rewrite ?MS1, ?MS2 in *; cbn in *; rewrite ?Nat.add_0_r in *; auto; try discriminate.
    all: try (intros [H|H]; rewrite ?MS2 in *; try discriminate; auto).
    all: try (rewrite C; rewrite (S (or_intror eq_refl)); reflexivity).
    all: try (intros c H; specialize (L c H); assumption).
    all: try (intros EM; specialize (E EM); rewrite E in S; try (specialize (S (or_intror eq_refl)); discriminate)).
Qed.
Lemma tinv_run h a : darun da_init h a -> TInv h a.
Proof. remember da_init as a0. induction 1; subst; [apply tinv_init|]. eapply tinv_step; eauto. Qed.

(** C43: in every history at most one terminated event was sent; when the adapter ends,
    exactly one. *)
Theorem C43_one_terminated h a : darun da_init h a -> (terms h <= 1)%nat /\ (a_main a = MEnd -> terms h = 1%nat).
Proof.
  intros R. pose proof (tinv_run R) as [C D L S E]. rewrite C. split.
  - destruct (a_term a); [lia|].
    assert (X : (sets (main_call a) + sets (recv_call a) <= 1)%nat); [|lia].
    destruct (main_call a) as [c|] eqn:M; cbn.
    + destruct (late c) eqn:LT.
      * rewrite (recv_ended_call _ (L _ eq_refl LT)). cbn. unfold at_set. destruct (c_pc c); lia.
      * unfold late, at_set in *. destruct (c_pc c); try discriminate; unfold sets; destruct (recv_call a); try (unfold at_set; destruct (c_pc c0)); lia.
    + unfold sets; destruct (recv_call a); try (unfold at_set; destruct (c_pc c)); lia.
  - intros H. rewrite (E H). reflexivity.
Qed.

(** Answering the outstanding requests. *)
Definition cover (c : call) (b h : list dev) : Prop :=
  match c_pc c with
  | PDisc l => forall seq, In (EReq seq true) b -> answered h seq \/ In (seq, true) l
  | PErr l => c_exp c = true /\ (forall seq, In (EReq seq true) b -> answered h seq) /\ (forall seq d, In (EReq seq d) b -> answered h seq \/ In (seq, d) l)
  | _ => (forall seq, In (EReq seq true) b -> answered h seq) /\ (c_exp c = true -> forall seq d, In (EReq seq d) b -> answered h seq)
  end.
Definition CallInv (t : thr) (c : call) (h : list dev) : Prop := exists b m,
  h = b ++ EStop t (c_exp c) :: m /\ (forall x, ~ In (EStop t x) m) /\ (t = TMain -> forall seq d, ~ In (EReq seq d) m) /\ cover c b h.
Record AInv (h : list dev) (a : DA) : Prop := {
  i_lt : forall seq d, In (EReq seq d) h -> seq < a_next a;
  i_in : forall seq d, In (EReq seq d) h -> answered h seq \/ dget (a_in a) seq = Some d;
  i_mc : forall c, main_call a = Some c -> CallInv TMain c h;
  i_rc : forall c, recv_call a = Some c -> CallInv TRecv c h;
  i_x : In (EStop TMain true) h -> match a_main a with
        | MStop c back => back = None /\ c_exp c = true
        | MEnd => forall seq d, In (EReq seq d) h -> answered h seq
        | _ => False end }.
Definition quiet_ev (t : thr) (e : dev) : Prop := (forall x, e <> EStop t x) /\ (t = TMain -> forall seq d, e <> EReq seq d).
Lemma cover_app c b h es : cover c b h -> cover c b (h ++ es).
Proof.
  unfold cover. assert (A : forall n, answered h n -> answered (h ++ es) n) by (intros; now apply answered_app).
  destruct (c_pc c); intuition eauto; try (destruct (H seq H0)); try (destruct (H2 seq d H1)); auto.
Qed.
Lemma callinv_app t c h es : CallInv t c h -> Forall (quiet_ev t) es -> CallInv t c (h ++ es).
Proof.
  intros (b & m & -> & A & B & C) F. exists b, (m ++ es). rewrite Forall_forall in F. csplit.
  - rewrite <- app_assoc. reflexivity.
  - intros x H. apply in_app_or in H. destruct H as [H|H]; [eapply A; eauto|]. apply F in H. destruct H as (H & _). eapply H; eauto.
  - intros T seq d H. apply in_app_or in H. destruct H as [H|H]; [eapply B; eauto|]. apply F in H. destruct H as (_ & H). eapply H; eauto.
  - now apply cover_app.
Qed.
Lemma call_begin t exp h (a : DA) pre : (forall seq d, In (EReq seq d) (h ++ pre) -> answered (h ++ pre) seq \/ dget (a_in a) seq = Some d) ->
  CallInv t (begin_call exp a) (h ++ pre ++ [EStop t exp]).
Proof.
  intros IN. exists (h ++ pre), []. csplit.
  - rewrite <- app_assoc. reflexivity.
  - intros x [].
  - intros _ seq d [].
  - unfold cover, begin_call. cbn. intros seq H. destruct (IN _ _ H) as [G|G].
    + left. rewrite app_assoc. now apply answered_app.
    + right. now apply dget_In.
Qed.
(** One step of a stop() call. *)
Lemma callinv_step t c h a a1 o e : CallInv t c h -> (forall seq d, In (EReq seq d) h -> answered h seq \/ dget (a_in a) seq = Some d) ->
  stop_step t c a = Some (a1, o, e) ->
  (forall c1, o = Some c1 -> CallInv t c1 (h ++ [e]) /\ c_exp c1 = c_exp c) /\
  (o = None -> exists b m, h = b ++ EStop t (c_exp c) :: m /\ (t = TMain -> forall seq d, ~ In (EReq seq d) m) /\ (c_exp c = true -> forall seq d, In (EReq seq d) b -> answered (h ++ [e]) seq) /\ (forall seq, In (EReq seq true) b -> answered (h ++ [e]) seq)) /\
  (forall x, e <> EStop t x) /\ (forall x y, e <> EStop x y) /\ (forall seq d, e <> EReq seq d) /\ e <> EExit /\
  a_next a1 = a_next a /\ (forall seq d, dget (a_in a) seq = Some d -> dget (a_in a1) seq = Some d \/ e = EResp t seq) /\
  a_main a1 = a_main a /\ a_recv a1 = a_recv a /\
  (forall t', e = ETerm t' -> t' = t /\ forall b x m, h = b ++ EStop t x :: m -> (forall x, ~ In (EStop t x) m) -> forall seq, In (EReq seq true) b -> answered h seq).
Proof.
  intros CI IN ST. destruct c as [exp pc]. cbn [c_exp] in *.
  assert (KEEP : forall pc', (forall b h', cover (mkCall exp pc) b h' -> (forall n d, In (EReq n d) b -> answered h' n \/ dget (a_in a) n = Some d) -> cover (mkCall exp pc') b h') -> forall e', (forall x, e' <> EStop t x) -> (forall n d, e' <> EReq n d) -> CallInv t (mkCall exp pc') (h ++ [e'])).
  { intros pc' K e' NE NR. destruct CI as (b & m & -> & A & B & C). exists b, (m ++ [e']). cbn [c_exp]. csplit.
    - rewrite <- app_assoc. reflexivity.
    - intros x H. apply in_app_or in H. destruct H as [H|[H|[]]]; [eapply A; eauto|eapply NE; eauto].
    - intros T n d H. apply in_app_or in H. destruct H as [H|[H|[]]]; [eapply B; eauto|eapply NR; eauto].
    - apply cover_app. apply K; auto. intros n d H. apply IN. apply in_or_app. auto. }
  assert (RESP : forall n pc', (forall b h', answered h' n -> cover (mkCall exp pc) b h' -> cover (mkCall exp pc') b h') -> CallInv t (mkCall exp pc') (h ++ [EResp t n])).
  { intros n pc' K. destruct CI as (b & m & -> & A & B & C). exists b, (m ++ [EResp t n]). cbn [c_exp]. csplit.
    - rewrite <- app_assoc. reflexivity.
    - intros x H. apply in_app_or in H. destruct H as [H|[H|[]]]; [eapply A; eauto|discriminate].
    - intros T n' d H. apply in_app_or in H. destruct H as [H|[H|[]]]; [eapply B; eauto|discriminate].
    - apply K; [exists t; apply in_or_app; right; now left|]. now apply cover_app. }
  assert (DEL : forall n seq d, dget (a_in a) seq = Some d -> dget (ddel (a_in a) n) seq = Some d \/ EResp t n = EResp t seq).
  { intros n seq d H. destruct (N.eq_dec n seq) as [-> |NE]; [auto|]. left. rewrite dget_ddel_other; auto. }
  unfold stop_step in ST. cbn [c_pc c_exp] in ST.
  destruct pc as [[|(sq, [|]) l]|[|(sq, d0) l]| | | | |].
  - injection ST as <- <- <-. csplit; auto; try discriminate.
    intros c1 H. injection H as <-. split; auto. apply KEEP; try discriminate. unfold cover. cbn. intros b h' C ALL.
    assert (DA0 : forall n, In (EReq n true) b -> answered h' n) by (intros n H; destruct (C _ H) as [X|[]]; auto).
    destruct exp; cbn.
    + csplit; auto. intros n d H. destruct (ALL _ _ H) as [X|X]; auto. right. now apply dget_In.
    + split; auto. discriminate.
  - injection ST as <- <- <-. csplit; auto; try discriminate; try exact (DEL sq).
    intros c1 H. injection H as <-. split; auto. apply RESP. unfold cover. cbn. intros b h' AN C n H. destruct (C _ H) as [X|[X|X]]; auto. injection X as <-. auto.
  - injection ST as <- <- <-. csplit; auto; try discriminate.
    intros c1 H. injection H as <-. split; auto. apply KEEP; try discriminate. unfold cover. cbn. intros b h' C ALL n H. destruct (C _ H) as [X|[X|X]]; auto. discriminate.
  - injection ST as <- <- <-. csplit; auto; try discriminate.
    intros c1 H. injection H as <-. split; auto. apply KEEP; try discriminate. unfold cover. cbn. intros b h' (C1 & C2 & C3) ALL. split; auto. intros _ n d H. destruct (C3 _ _ H) as [X|[]]; auto.
  - injection ST as <- <- <-. csplit; auto; try discriminate; try exact (DEL sq).
    intros c1 H. injection H as <-. split; auto. apply RESP. unfold cover. cbn. intros b h' AN (C1 & C2 & C3). csplit; auto. intros n d H. destruct (C3 _ _ H) as [X|[X|X]]; auto. injection X as <- _. auto.
  - assert (K : CallInv t (mkCall exp PLaunch) (h ++ [ENothing])) by (apply KEEP; try discriminate; unfold cover; cbn; auto).
    destruct t; [destruct (a_deb a); [destruct (recv_ended (a_recv a)); [|discriminate]|]|]; injection ST as <- <- <-; csplit; auto; try discriminate; intros c1 H; injection H as <-; auto.
  - injection ST as <- <- <-. csplit; auto; try discriminate. intros c1 H. injection H as <-. split; auto. apply KEEP; try discriminate; unfold cover; cbn; auto.
  - destruct (a_term a); injection ST as <- <- <-; csplit; auto; try discriminate.
    + intros _. destruct CI as (b & m & EQ & A & B & C). cbn in EQ. exists b, m. unfold cover in C. cbn in C. destruct C as (C0 & C). csplit; auto; [intros X n d H|intros n H]; apply answered_app; eauto.
    + intros c1 H. injection H as <-. split; auto. apply KEEP; try discriminate; unfold cover; cbn; auto.
  - injection ST as <- <- <-. csplit; auto; try discriminate.
    + intros c1 H. injection H as <-. split; auto. apply KEEP; try discriminate; unfold cover; cbn; auto.
    + intros t' H. injection H as <-. split; auto. destruct CI as (b & m & EQ & A & B & C). cbn in EQ. unfold cover in C. cbn in C. destruct C as (C & _).
      intros b' x m' E2 A2 n H. apply C. rewrite EQ in E2. clear - E2 H A A2.
      assert (X : b' = b).
      { assert (G : forall (p q : list dev) x y u v, p ++ EStop t x :: u = q ++ EStop t y :: v -> (forall z, ~ In (EStop t z) u) -> (forall z, ~ In (EStop t z) v) -> p = q).
        { induction p as [|e p IH]; intros q x0 y u v E N1 N2; destruct q as [|e' q]; cbn in E.
          - reflexivity.
          - injection E as <- E. exfalso. apply (N1 y). rewrite E. apply in_or_app. right. now left.
          - injection E as -> E. exfalso. apply (N2 x0). rewrite <- E. apply in_or_app. right. now left.
          - injection E as -> E. f_equal. eapply IH; eauto. }
        symmetry. eapply G; eauto. }
      now subst b'.
  - injection ST as <- <- <-. csplit; auto; try discriminate.
    intros _. destruct CI as (b & m & EQ & A & B & C). cbn in EQ. exists b, m. unfold cover in C. cbn in C. destruct C as (C0 & C). csplit; auto; [intros X n d H|intros n H]; apply answered_app; eauto.
Qed.

Lemma main_not_call a : (forall c k, a_main a <> MStop c k) -> main_call a = None.
Proof. unfold main_call. destruct (a_main a); auto. intros H. exfalso. eapply H; eauto. Qed.
Lemma ainv_step h a l a' es : AInv h a -> dastep a l = Some (a', es) -> AInv (h ++ es) a'.
Proof.
  intros [LT IN MC RC IX] ST.
  (* a step that answers nothing wrongly and adds no request *)
  assert (INAPP : forall es0 (inn' : dict N bool), (forall n d, ~ In (EReq n d) es0) -> (forall n d, dget (a_in a) n = Some d -> dget inn' n = Some d \/ answered es0 n) ->
     forall n d, In (EReq n d) (h ++ es0) -> answered (h ++ es0) n \/ dget inn' n = Some d).
  { intros es0 inn' NR K n d H. apply in_app_or in H. destruct H as [H|H]; [|exfalso; eapply NR; eauto].
    destruct (IN _ _ H) as [X|X]; [left; now apply answered_app|]. destruct (K _ _ X) as [Y|(t & Y)]; auto. left. exists t. apply in_or_app. auto. }
  assert (LTAPP : forall es0 nx, (forall n d, ~ In (EReq n d) es0) -> a_next a <= nx -> forall n d, In (EReq n d) (h ++ es0) -> n < nx).
  { intros es0 nx NR LE n d H. apply in_app_or in H. destruct H as [H|H]; [|exfalso; eapply NR; eauto]. apply LT in H. lia. }
  assert (STOPIN : forall e x, In (EStop TMain x) (h ++ [e]) -> In (EStop TMain x) h \/ e = EStop TMain x).
  { intros e x H. apply in_app_or in H. destruct H as [H|[H|[]]]; auto. }
  destruct l as [k o|seq st| | | | | | |s0|ex|]; cbn [dastep] in ST.
  - (* a request *)
    destruct (a_main a) as [last| |? ?|? ?|] eqn:MM; try discriminate. injection ST as ST.
    assert (NX : ~ In (EStop TMain true) h) by (intros H; apply IX in H; exact H).
    assert (MN : main_call a = None) by (unfold main_call; now rewrite MM).
    set (sq := a_next a) in *. set (dc := match k with KDisconnect => true | _ => false end) in *.
    assert (IN1 : forall n d, In (EReq n d) (h ++ [EReq sq dc]) -> answered (h ++ [EReq sq dc]) n \/ dget (dset (a_in a) sq dc) n = Some d).
    { intros n d H. apply in_app_or in H. destruct H as [H|[H|[]]].
      - pose proof (LT _ _ H) as L1. destruct (IN _ _ H) as [X|X]; [left; now apply answered_app|]. right. rewrite dget_dset_other; auto. unfold sq. lia.
      - injection H as <- <-. right. apply dget_dset_same. }
    assert (LT1 : forall n d, In (EReq n d) (h ++ [EReq sq dc]) -> n < sq + 1).
    { intros n d H. apply in_app_or in H. destruct H as [H|[H|[]]]; [apply LT in H; unfold sq; lia|]. injection H as <- _. lia. }
    assert (RC1 : forall c es0, recv_call a = Some c -> Forall (quiet_ev TRecv) es0 -> CallInv TRecv c (h ++ es0)) by (intros c es0 H Q; apply callinv_app; auto).
    set (a1 := mkDA (a_main a) (a_recv a) (dset (a_in a) sq dc) (sq + 1) (a_deb a) (a_run a) (a_term a) (a_fwd a)) in *.
    assert (OK : forall a2, a_next a2 = sq + 1 -> a_in a2 = dset (a_in a) sq dc -> (forall c k0, a_main a2 <> MStop c k0) -> (recv_call a2 = recv_call a \/ recv_call a2 = None) -> AInv (h ++ [EReq sq dc]) a2).
    { intros a2 E1 E2 NS RR. split; rewrite ?E1, ?E2; auto.
      - rewrite (main_not_call _ NS). discriminate.
      - intros c H. destruct RR as [R0|R0]; [|congruence]. apply RC1; [congruence|]. constructor; [|constructor]. split; [discriminate|discriminate].
      - intros H. apply STOPIN in H. destruct H as [H|H]; [contradiction|discriminate]. }
    assert (FAIL : forall a2, a_next a2 = sq + 1 -> a_in a2 = dset (a_in a) sq dc -> recv_call a2 = recv_call a -> AInv (h ++ [EReq sq dc; EStop TMain true]) (raise_main a2)).
    { intros a2 E1 E2 RR. replace (h ++ [EReq sq dc; EStop TMain true]) with ((h ++ [EReq sq dc]) ++ [EStop TMain true]) by (rewrite <- app_assoc; reflexivity). split.
      - cbn. rewrite E1. intros n d H. apply in_app_or in H. destruct H as [H|[H|[]]]; [eauto|discriminate].
      - cbn. rewrite E2. intros n d H. apply in_app_or in H. destruct H as [H|[H|[]]]; [|discriminate]. destruct (IN1 _ _ H) as [X|X]; [left; now apply answered_app|auto].
      - unfold main_call, raise_main. cbn. intros c H. injection H as <-. rewrite <- app_assoc. apply call_begin. rewrite E2. exact IN1.
      - unfold recv_call, raise_main in *. cbn. intros c H. rewrite <- app_assoc. apply RC1; [congruence|]. constructor; [split; discriminate|constructor; [split; discriminate|constructor]].
      - cbn. intros _. auto. }
    assert (SPEC : forall x, x = (a', es) -> x = (raise_main a1, [EReq sq dc; EStop TMain true]) -> AInv (h ++ es) a').
    { intros x -> H. injection H as -> ->. apply FAIL; auto. }
    assert (SPOK : forall x a2, x = (a', es) -> x = (a2, [EReq sq dc]) -> AInv (h ++ [EReq sq dc]) a2 -> AInv (h ++ es) a').
    { intros x a2 -> H G. injection H as -> ->. exact G. }
    destruct (a_deb a).
    + destruct k, o; first [eapply SPEC; [exact ST|reflexivity]|eapply SPOK; [exact ST|reflexivity|apply OK; auto; cbn; rewrite ?MM; discriminate]].
    + destruct k, o; try (eapply SPEC; [exact ST|reflexivity]); try (eapply SPOK; [exact ST|reflexivity|apply OK; auto; cbn; rewrite ?MM; discriminate]).
      * injection ST as <- <-. replace (h ++ [EReq sq dc; EResp TMain sq]) with ((h ++ [EReq sq dc]) ++ [EResp TMain sq]) by (rewrite <- app_assoc; reflexivity). split.
        -- cbn. intros n d H. apply in_app_or in H. destruct H as [H|[H|[]]]; [eauto|discriminate].
        -- cbn. intros n d H. apply in_app_or in H. destruct H as [H|[H|[]]]; [|discriminate]. destruct (N.eq_dec n sq) as [-> |NE].
           ++ left. exists TMain. apply in_or_app. right. now left.
           ++ destruct (IN1 _ _ H) as [X|X]; [left; now apply answered_app|right]. rewrite dget_ddel_other; auto.
        -- unfold main_call. cbn. rewrite ?MM. discriminate.
        -- intros c H. rewrite <- app_assoc. apply RC1; [exact H|]. constructor; [split; discriminate|constructor; [split; discriminate|constructor]].
        -- intros H. apply in_app_or in H. destruct H as [H|[H|[]]]; [|discriminate]. apply STOPIN in H. destruct H as [H|H]; [contradiction|discriminate].
      * injection ST as <- <-. apply FAIL; auto.
  - (* the answer to runInTerminal *)
    destruct (a_main a) as [last| |? ?|? ?|] eqn:MM; try discriminate.
    assert (NX : ~ In (EStop TMain true) h) by (intros H; apply IX in H; exact H).
    assert (ST2 : forall a2 x back, a_next a2 = a_next a + 1 -> a_in a2 = a_in a -> recv_call a2 = recv_call a -> (x = true -> back = None) ->
      AInv (h ++ [EStop TMain x]) (set_main (MStop (begin_call x a2) back) a2)).
    { intros a2 x back E1 E2 RR XB. split.
      - cbn. rewrite E1. apply LTAPP; [intros n d [H|[]]; discriminate|lia].
      - cbn. rewrite E2. apply INAPP; [intros n d [H|[]]; discriminate|auto].
      - unfold main_call. cbn. intros c H. injection H as <-. apply (@call_begin TMain x h a2 []). rewrite app_nil_r, E2. exact IN.
      - intros c H. apply callinv_app; [apply RC; rewrite <- RR; exact H|]. constructor; [split; discriminate|constructor].
      - cbn. intros H. apply STOPIN in H. destruct H as [H|H]; [contradiction|]. injection H as ->. auto. }
    destruct (mem seq (a_run a) && a_deb a && _).
    + destruct st as [[|]|]; injection ST as <- <-.
      * rewrite app_nil_r. split; cbn; auto.
        -- intros n d H. apply LT in H. lia.
        -- unfold main_call. cbn. discriminate.
        -- unfold recv_call. cbn. discriminate.
      * apply ST2; auto. discriminate.
      * apply ST2; auto.
    + injection ST as <- <-. apply ST2; auto.
  - destruct (a_main a) as [last| |? ?|? ?|] eqn:MM; try discriminate. injection ST as <- <-.
    assert (NX : ~ In (EStop TMain true) h) by (intros H; apply IX in H; exact H). split.
    + cbn. apply LTAPP; [intros n d [H|[]]; discriminate|lia].
    + cbn. apply INAPP; [intros n d [H|[]]; discriminate|auto].
    + unfold main_call. cbn. intros c H. injection H as <-. apply (@call_begin TMain true h a []). rewrite app_nil_r. exact IN.
    + intros c H. apply callinv_app; [apply RC; exact H|]. constructor; [split; discriminate|constructor].
    + cbn. auto.
  - destruct (a_main a) as [[|]| |? ?|? ?|] eqn:MM; try discriminate. injection ST as <- <-. rewrite app_nil_r. split; auto. now rewrite MM.
  - destruct (a_main a) as [last| |? ?|? ?|] eqn:MM; try discriminate. destruct (recv_ended (a_recv a)); [|discriminate]. injection ST as <- <-. rewrite app_nil_r. split; auto.
    unfold main_call. cbn. discriminate.
  - destruct (a_main a) as [last| |sq last|? ?|] eqn:MM; try discriminate. injection ST as <- <-.
    assert (NX : ~ In (EStop TMain true) h) by (intros H; apply IX in H; exact H). split.
    + cbn. apply LTAPP; [intros n d [H|[]]; discriminate|lia].
    + cbn. apply INAPP; [intros n d [H|[]]; discriminate|]. intros n d H. destruct (N.eq_dec n sq) as [-> |NE]; [right; exists TMain; now left|]. left. rewrite dget_ddel_other; auto.
    + unfold main_call. cbn. discriminate.
    + intros c H. apply callinv_app; [apply RC; exact H|]. constructor; [split; discriminate|constructor].
    + intros H. apply STOPIN in H. destruct H as [H|H]; [contradiction|discriminate].
  - destruct (a_main a) as [[|]| |? ?|? ?|] eqn:MM; try discriminate. injection ST as <- <-.
    assert (NX : ~ In (EStop TMain true) h) by (intros H; apply IX in H; exact H). split.
    + cbn. apply LTAPP; [intros n d [H|[]]; discriminate|lia].
    + cbn. apply INAPP; [intros n d [H|[]]; discriminate|auto].
    + unfold main_call. cbn. intros c H. injection H as <-. apply (@call_begin TMain false h a []). rewrite app_nil_r. exact IN.
    + intros c H. apply callinv_app; [apply RC; exact H|]. constructor; [split; discriminate|constructor].
    + intros H. apply STOPIN in H. destruct H as [H|H]; [contradiction|discriminate].
  - (* stop of the main thread *)
    destruct (a_main a) as [last| |? ?|c back|] eqn:MM; try discriminate. destruct (stop_step TMain c a) as [((a1, o), e)|] eqn:SS; [|discriminate].
    assert (CI : CallInv TMain c h) by (apply MC; unfold main_call; now rewrite MM).
    destruct (@callinv_step _ _ _ _ _ _ _ CI IN SS) as (S1 & S2 & S3 & S4 & S5 & S6 & S7 & S8 & S9 & S10 & _).
    assert (NR : forall n d, ~ In (EReq n d) [e]) by (intros n d [H|[]]; eapply S5; eauto).
    assert (QE : quiet_ev TRecv e) by (split; [intros x; apply S4|discriminate]).
    assert (INS : forall n d, In (EReq n d) (h ++ [e]) -> answered (h ++ [e]) n \/ dget (a_in a1) n = Some d).
    { apply INAPP; auto. intros n d H. destruct (S8 _ _ H) as [X| ->]; [auto|right; exists TMain; now left]. }
    assert (RCA : forall c0, recv_call a1 = Some c0 -> CallInv TRecv c0 (h ++ [e])).
    { intros c0 H. apply callinv_app; [|constructor; auto]. apply RC. unfold recv_call in *. now rewrite <- S10. }
    assert (SX : In (EStop TMain true) (h ++ [e]) -> back = None /\ c_exp c = true).
    { intros H. apply STOPIN in H. destruct H as [H| ->]; [apply IX; auto|]. exfalso. eapply S4; eauto. }
    destruct o as [c1|].
    + injection ST as <- <-. destruct (S1 _ eq_refl) as (CI1 & CE). split; cbn; auto.
      * rewrite S7. apply LTAPP; [exact NR|lia].
      * unfold main_call. cbn. intros c0 H. injection H as <-. exact CI1.
      * rewrite CE. exact SX.
    + destruct (S2 eq_refl) as (b & m & EQ & NM & AL & _). destruct back as [last|].
      * injection ST as <- <-. split; cbn; auto.
        -- rewrite S7. apply LTAPP; [exact NR|lia].
        -- unfold main_call. cbn. discriminate.
        -- intros H. apply SX in H. destruct H as (H & _). discriminate H.
      * injection ST as <- <-. change [e; EExit] with ([e] ++ [EExit]). rewrite app_assoc.
        assert (NE : forall n d, In (EReq n d) ((h ++ [e]) ++ [EExit]) -> In (EReq n d) (h ++ [e])) by (intros n d H; apply in_app_or in H; destruct H as [H|[H|[]]]; [auto|discriminate]).
        split; cbn.
        -- intros n d H. apply NE in H. rewrite S7. revert H. apply LTAPP; [exact NR|lia].
        -- intros n d H. apply NE in H. destruct (INS _ _ H) as [X|X]; [left; now apply answered_app|auto].
        -- unfold main_call. cbn. discriminate.
        -- intros c0 H. apply callinv_app; [apply RCA; exact H|]. constructor; [split; discriminate|constructor].
        -- intros H n d G. apply answered_app. apply in_app_or in H. destruct H as [H|[H|[]]]; [|discriminate]. destruct (SX H) as (_ & CE).
           apply NE in G. apply in_app_or in G. destruct G as [G|[G|[]]]; [|exfalso; eapply S5; eauto].
           apply (AL CE n d). rewrite EQ in G. apply in_app_or in G. destruct G as [G|[G|G]]; [auto|discriminate|]. exfalso. eapply NM; eauto.
  - destruct (a_recv a) eqn:RR; try discriminate. destruct s0 as [sq|].
    + destruct (mem sq (a_fwd a)); [|discriminate]. injection ST as <- <-. split.
      * cbn. apply LTAPP; [intros n d [H|[]]; discriminate|lia].
      * cbn. apply INAPP; [intros n d [H|[]]; discriminate|]. intros n d H. destruct (N.eq_dec n sq) as [-> |NE]; [right; exists TRecv; now left|]. left. rewrite dget_ddel_other; auto.
      * intros c H. apply callinv_app; [apply MC; exact H|]. constructor; [split; discriminate|constructor].
      * unfold recv_call. cbn. rewrite RR. discriminate.
      * cbn. intros H. apply STOPIN in H. destruct H as [H|H]; [|discriminate]. apply IX in H. destruct (a_main a); auto. intros n d G. apply answered_app. apply in_app_or in G. destruct G as [G|[G|[]]]; [eauto|discriminate].
    + injection ST as <- <-. rewrite app_nil_r. split; auto.
  - destruct (a_recv a) eqn:RR; try discriminate. injection ST as <- <-. split.
    + cbn. apply LTAPP; [intros n d [H|[]]; discriminate|lia].
    + cbn. apply INAPP; [intros n d [H|[]]; discriminate|auto].
    + intros c H. apply callinv_app; [apply MC; exact H|]. constructor; [split; discriminate|constructor].
    + unfold recv_call. cbn. intros c H. injection H as <-. apply (@call_begin TRecv ex h a []). rewrite app_nil_r. exact IN.
    + cbn. intros H. apply STOPIN in H. destruct H as [H|H]; [|discriminate]. apply IX in H. destruct (a_main a); auto. intros n d G. apply answered_app. apply in_app_or in G. destruct G as [G|[G|[]]]; [eauto|discriminate].
  - destruct (a_recv a) as [| |c|] eqn:RR; try discriminate. destruct (stop_step TRecv c a) as [((a1, o), e)|] eqn:SS; [|discriminate].
    assert (CI : CallInv TRecv c h) by (apply RC; unfold recv_call; now rewrite RR).
    destruct (@callinv_step _ _ _ _ _ _ _ CI IN SS) as (S1 & S2 & S3 & S4 & S5 & S6 & S7 & S8 & S9 & S10 & _).
    assert (NR : forall n d, ~ In (EReq n d) [e]) by (intros n d [H|[]]; eapply S5; eauto).
    assert (QE : quiet_ev TMain e) by (split; [intros x; apply S4|intros _ n d; apply S5]).
    assert (INS : forall n d, In (EReq n d) (h ++ [e]) -> answered (h ++ [e]) n \/ dget (a_in a1) n = Some d).
    { apply INAPP; auto. intros n d H. destruct (S8 _ _ H) as [X| ->]; [auto|right; exists TRecv; now left]. }
    assert (G : forall r, match r with RStop c1 => o = Some c1 | _ => True end -> AInv (h ++ [e]) (set_recv r a1)).
    { intros r OR. split; cbn; auto.
      - rewrite S7. apply LTAPP; [exact NR|lia].
      - unfold main_call. cbn. rewrite S9. intros c0 H. apply callinv_app; [apply MC; exact H|]. constructor; auto.
      - unfold recv_call. cbn. destruct r; try discriminate. intros c1 H. injection H as <-. apply S1. exact OR.
      - rewrite S9. intros H. apply STOPIN in H. destruct H as [H|H]; [|exfalso; eapply S4; eauto]. apply IX in H. destruct (a_main a); auto. intros n d G. apply answered_app. apply in_app_or in G. destruct G as [G|[G|[]]]; [eauto|exfalso; eapply S5; eauto]. }
    destruct o as [c1|]; injection ST as <- <-; apply G; auto.
Qed.
Lemma ainv_run h a : darun da_init h a -> AInv h a.
Proof.
  remember da_init as a0. induction 1; subst; [|eapply ainv_step; eauto]. split; cbn; try (intros; contradiction); discriminate.
Qed.

(** C43, order: the terminated event is sent by a stop() call that has already answered
    every disconnect request received before that call began. *)
Theorem C43_disconnect_first_partial h a l a' es t : darun da_init h a -> dastep a l = Some (a', es) -> In (ETerm t) es ->
  exists b x m, h = b ++ EStop t x :: m /\ (forall y, ~ In (EStop t y) m) /\ forall seq, In (EReq seq true) b -> answered h seq.
Proof.
  intros R ST TI. pose proof (ainv_run R) as I. destruct I as [LT IN MC RC IX].
  assert (G : forall t0 c o a1 e, CallInv t0 c h -> stop_step t0 c a = Some (a1, o, e) -> e = ETerm t -> exists b x m, h = b ++ EStop t x :: m /\ (forall y, ~ In (EStop t y) m) /\ forall seq, In (EReq seq true) b -> answered h seq).
  { intros t0 c o a1 e CI SS ->. destruct (@callinv_step _ _ _ _ _ _ _ CI IN SS) as (_ & _ & _ & _ & _ & _ & _ & _ & _ & _ & F). destruct (F _ eq_refl) as (-> & F1).
    destruct CI as (b & m & EQ & N1 & _ & _). exists b, (c_exp c), m. csplit; auto. eapply F1; eauto. }
  destruct l as [k o|seq st| | | | | | |s0|ex|]; cbn [dastep] in ST.
  - destruct (a_main a); try discriminate. destruct (a_deb a), k, o; injection ST as <- <-; cbn in TI; exfalso; intuition discriminate.
  - destruct (a_main a); try discriminate. destruct (mem seq (a_run a) && a_deb a && _); [destruct st as [[|]|]|]; injection ST as <- <-; cbn in TI; exfalso; intuition discriminate.
  - destruct (a_main a); try discriminate. injection ST as <- <-; cbn in TI; exfalso; intuition discriminate.
  - destruct (a_main a) as [[|]| | | |]; try discriminate. injection ST as <- <-; cbn in TI; exfalso; intuition discriminate.
  - destruct (a_main a) as [[|]| | | |]; try discriminate. destruct (recv_ended (a_recv a)); [|discriminate]. injection ST as <- <-; cbn in TI; exfalso; intuition discriminate.
  - destruct (a_main a); try discriminate. injection ST as <- <-; cbn in TI; exfalso; intuition discriminate.
  - destruct (a_main a) as [[|]| | | |]; try discriminate. injection ST as <- <-; cbn in TI; exfalso; intuition discriminate.
  - destruct (a_main a) as [last| |? ?|c back|] eqn:MM; try discriminate. destruct (stop_step TMain c a) as [((a1, o), e)|] eqn:SS; [|discriminate].
    assert (CI : CallInv TMain c h) by (apply MC; unfold main_call; now rewrite MM).
    apply (G _ _ _ _ _ CI SS). destruct o; [|destruct back]; injection ST as <- <-; cbn in TI; destruct TI as [TI|TI]; try contradiction; auto. destruct TI as [TI|[]]. discriminate.
  - destruct (a_recv a); try discriminate. destruct s0 as [sq|]; [destruct (mem sq (a_fwd a)); [|discriminate]|]; injection ST as <- <-; cbn in TI; exfalso; intuition discriminate.
  - destruct (a_recv a); try discriminate. injection ST as <- <-; cbn in TI; exfalso; intuition discriminate.
  - destruct (a_recv a) as [| |c|] eqn:RR; try discriminate. destruct (stop_step TRecv c a) as [((a1, o), e)|] eqn:SS; [|discriminate].
    assert (CI : CallInv TRecv c h) by (apply RC; unfold recv_call; now rewrite RR).
    apply (G _ _ _ _ _ CI SS). destruct o; injection ST as <- <-; cbn in TI; destruct TI as [TI|TI]; try contradiction; auto.
Qed.

(** C43, C44, the end: when the adapter has ended, every disconnect request it received
    has a response, and, if it ended because of an exception, every request has one. *)
Lemma step_end a l a' es : dastep a l = Some (a', es) -> a_main a' = MEnd ->
  (a_main a = MEnd /\ forall n d, ~ In (EReq n d) es) \/
  exists c a1 e, a_main a = MStop c None /\ stop_step TMain c a = Some (a1, None, e) /\ es = [e; EExit].
Proof.
  intros ST ME. destruct l as [k o|seq st| | | | | | |s0|ex|]; cbn [dastep] in ST.
  - destruct (a_main a) eqn:MM; try discriminate. destruct (a_deb a), k, o; injection ST as <- <-; cbn in ME; try discriminate; destruct (a_recv a); cbn in ME; congruence.
  - destruct (a_main a); try discriminate. destruct (mem seq (a_run a) && a_deb a && _); [destruct st as [[|]|]|]; injection ST as <- <-; discriminate.
  - destruct (a_main a); try discriminate. injection ST as <- <-; discriminate.
  - destruct (a_main a) as [[|]| | | |] eqn:MM; try discriminate. injection ST as <- <-; congruence.
  - destruct (a_main a) as [[|]| | | |]; try discriminate. destruct (recv_ended (a_recv a)); [|discriminate]. injection ST as <- <-; discriminate.
  - destruct (a_main a); try discriminate. injection ST as <- <-; discriminate.
  - destruct (a_main a) as [[|]| | | |]; try discriminate. injection ST as <- <-; discriminate.
  - destruct (a_main a) as [last| |? ?|c back|] eqn:MM; try discriminate. destruct (stop_step TMain c a) as [((a1, o), e)|] eqn:SS; [|discriminate].
    destruct o; [|destruct back]; injection ST as <- <-; try discriminate. right. exists c, a1, e. auto.
  - destruct (a_recv a); try discriminate. left. destruct s0 as [sq|]; [destruct (mem sq (a_fwd a)); [|discriminate]|]; injection ST as <- <-; split; auto; intros n d H; cbn in H; intuition discriminate.
  - destruct (a_recv a); try discriminate. left. injection ST as <- <-. split; auto; intros n d H; cbn in H; intuition discriminate.
  - destruct (a_recv a) as [| |c|] eqn:RR; try discriminate. destruct (stop_step TRecv c a) as [((a1, o), e)|] eqn:SS; [|discriminate]. left.
    assert (X : a_main a1 = a_main a /\ forall n d, e <> EReq n d).
    { unfold stop_step in SS. destruct (c_pc c) as [[|(?, [|]) ?]|[|(?, ?) ?]| | | | |]; try (destruct (a_term a)); injection SS as <- <- <-; split; auto; discriminate. }
    destruct X as (X1 & X2). destruct o; injection ST as <- <-; cbn in ME; rewrite X1 in ME; split; auto; intros n d [H|[]]; eapply X2; eauto.
Qed.
Theorem C43_disconnect_answered h a : darun da_init h a -> a_main a = MEnd -> forall seq, In (EReq seq true) h -> answered h seq.
Proof.
  remember da_init as a0. intros R. induction R as [|a0 h a l a' es R IH ST]; intros ME n H; [subst; discriminate|]. subst a0.
  destruct (step_end _ _ ST ME) as [(M0 & NR)|(c & a1 & e & MM & SS & ->)].
  - apply answered_app. apply IH; auto. apply in_app_or in H. destruct H as [H|H]; auto. exfalso. eapply NR; eauto.
  - destruct (ainv_run R) as [LT IN MC RC IX].
    assert (CI : CallInv TMain c h) by (apply MC; unfold main_call; now rewrite MM).
    destruct (@callinv_step _ _ _ _ _ _ _ CI IN SS) as (_ & S2 & _ & _ & S5 & _). destruct (S2 eq_refl) as (b & m & EQ & NM & _ & AD).
    change [e; EExit] with ([e] ++ [EExit]). rewrite app_assoc. apply answered_app. apply AD.
    apply in_app_or in H. destruct H as [H|[H|[H|[]]]]; [|exfalso; eapply S5; eauto|discriminate].
    rewrite EQ in H. apply in_app_or in H. destruct H as [H|[H|H]]; auto; [discriminate|]. exfalso. eapply NM; eauto.
Qed.
Theorem C44_all_answered h a : darun da_init h a -> a_main a = MEnd -> In (EStop TMain true) h -> forall seq d, In (EReq seq d) h -> answered h seq.
Proof. intros R ME X. destruct (ainv_run R) as [_ _ _ _ IX]. specialize (IX X). rewrite ME in IX. exact IX. Qed.
(** The same for the receive thread's stop(exp): when it returns, every request received
    before it began has a response. *)
Theorem C44_recv_answered h a c a' es : darun da_init h a -> a_recv a = RStop c -> c_exp c = true -> dastep a ARecv = Some (a', es) -> a_recv a' = RDone ->
  exists b m, h = b ++ EStop TRecv true :: m /\ forall seq d, In (EReq seq d) b -> answered (h ++ es) seq.
Proof.
  intros R RR CE ST RD. destruct (ainv_run R) as [LT IN MC RC IX].
  assert (CI : CallInv TRecv c h) by (apply RC; unfold recv_call; now rewrite RR).
  cbn [dastep] in ST. rewrite RR in ST. destruct (stop_step TRecv c a) as [((a1, o), e)|] eqn:SS; [|discriminate].
  destruct (@callinv_step _ _ _ _ _ _ _ CI IN SS) as (_ & S2 & _). destruct o; injection ST as <- <-; [discriminate|].
  destruct (S2 eq_refl) as (b & m & EQ & _ & AL & _). rewrite CE in EQ. exists b, m. split; [exact EQ|exact (AL CE)].
Qed.

(** A request whose handling raises is not lost: when the adapter ends, it has a response,
    and so has every other request. *)
Lemma darun_trans a0 h a h' a' : darun a0 h a -> darun a h' a' -> darun a0 (h ++ h') a'.
Proof. intros R R'. induction R' as [a|a h' a1 l a2 es R' IH ST]; [now rewrite app_nil_r|]. rewrite app_assoc. econstructor; eauto. Qed.
Theorem C44_failed_request_answered h a k a1 es h' a' : darun da_init h a -> dastep a (AReq k RaisesExn) = Some (a1, es) -> darun a1 h' a' -> a_main a' = MEnd ->
  In (EReq (a_next a) (match k with KDisconnect => true | _ => false end)) es /\
  (forall seq d, In (EReq seq d) (h ++ es ++ h') -> answered (h ++ es ++ h') seq).
Proof.
  intros R S R' ME. assert (X : In (EReq (a_next a) (match k with KDisconnect => true | _ => false end)) es /\ In (EStop TMain true) es).
  { cbn [dastep] in S. destruct (a_main a); try discriminate. destruct (a_deb a), k; injection S as <- <-; cbn; auto. }
  destruct X as (X1 & X2). split; [exact X1|]. apply C44_all_answered with (a := a'); auto.
  - rewrite app_assoc. eapply darun_trans; [|exact R']. econstructor; eauto.
  - apply in_or_app. right. apply in_or_app. auto.
Qed.
