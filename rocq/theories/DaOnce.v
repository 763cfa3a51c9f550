(** C44: how often the adapter answers a request. *)
From Verif Require Import PyBase PyDict DaModel DaProps.
Set Implicit Arguments.
Local Open Scope N_scope.

(** The responses to request [n] sent by the threads in [sel]. *)
Definition cnt (sel : thr -> bool) (n : N) (h : list dev) : nat :=
  length (filter (fun e => match e with EResp t m => sel t && N.eqb m n | _ => false end) h).
Lemma cnt_app sel n a b : cnt sel n (a ++ b) = (cnt sel n a + cnt sel n b)%nat.
Proof. unfold cnt. now rewrite filter_app, app_length. Qed.

(** The schedules without races: while one thread is sending answers (in the loops of
    stop(), or between starting the debuggee and answering the attach or launch request)
    the other does not move, and the debuggee's answers are not relayed once the main
    thread is in stop(). *)
Definition answering (c : call) : bool := match c_pc c with PDisc _ | PErr _ => true | _ => false end.
Definition instop (m : mainst) : bool := match m with MStop _ _ | MEnd => true | _ => false end.
Definition busy (t : thr) (a : DA) : bool :=
  match t with
  | TMain => match a_main a with MResp _ _ => true | MStop c _ => answering c | _ => false end
  | TRecv => match a_recv a with RStop c => answering c | _ => false end
  end.
Definition actor (l : dalabel) : thr := match l with ADeliver _ | AClosed _ | ARecv => TRecv | _ => TMain end.
Definition other (t : thr) : thr := match t with TMain => TRecv | TRecv => TMain end.
Definition calm (a : DA) (l : dalabel) : Prop :=
  busy (other (actor l)) a = false /\ match l with ADeliver (Some _) => instop (a_main a) = false | _ => True end.
Inductive calmrun : DA -> list dev -> DA -> Prop :=
| calmrun_nil a : calmrun a [] a
| calmrun_snoc a0 h a l a' es : calmrun a0 h a -> calm a l -> dastep a l = Some (a', es) -> calmrun a0 (h ++ es) a'.

(** * Invariants *)
Definition snap (c : call) : list N := match c_pc c with PDisc l | PErr l => map fst l | _ => [] end.
Definition msnap (a : DA) : list N := match a_main a with MStop c _ => snap c | _ => [] end.
Definition rsnap (a : DA) : list N := match a_recv a with RStop c => snap c | _ => [] end.
Definition loopy (m : mainst) : bool := match m with MStop _ None | MEnd => false | _ => true end.
Definition mresp (a : DA) (n : N) : Prop := match a_main a with MResp m _ => m = n | _ => False end.
Record SI (a : DA) : Prop := {
  s_nd : NoDup (dkeys (a_in a));
  s_m : NoDup (msnap a);
  s_r : NoDup (rsnap a);
  s_lt : forall n, In n (dkeys (a_in a)) \/ In n (msnap a) \/ mresp a n \/ In n (rsnap a) \/ In n (a_fwd a) \/ In n (a_run a) -> n < a_next a;
  s_fw : a_recv a <> RRun -> a_fwd a = [];
  s_run1 : (length (a_run a) <= 1)%nat;
  s_run : loopy (a_main a) = true -> a_run a <> [] -> a_deb a = true /\ recv_ended (a_recv a) = true /\ match a_main a with MLoop _ | MDisc => True | _ => False end;
  s_ms : forall c b, a_main a = MStop c (Some b) -> recv_ended (a_recv a) = true;
  s_deb : a_deb a = false -> recv_ended (a_recv a) = true;
  s_mf : forall n, mresp a n -> ~ In n (a_fwd a) }.
Definition pend (sel : thr -> bool) (a : DA) (n : N) : Prop :=
  In n (dkeys (a_in a))
  \/ (sel TMain = true /\ (In n (msnap a) \/ mresp a n \/ (loopy (a_main a) = true /\ In n (a_run a))))
  \/ (sel TRecv = true /\ (In n (rsnap a) \/ (In n (a_fwd a) /\ (sel TMain = true -> instop (a_main a) = false)))).
Lemma pend_lt sel a n : SI a -> pend sel a n -> n < a_next a.
Proof. intros I P. apply (s_lt I). unfold pend in P. tauto. Qed.
Lemma remove_one (x : N) l : (length l <= 1)%nat -> In x l -> remove N.eq_dec x l = [].
Proof. destruct l as [|y [|z l]]; cbn; try lia; try tauto. intros _ [-> |[]]. now destruct (N.eq_dec x x). Qed.
Lemma remove_len (x : N) l : (length l <= 1)%nat -> (length (remove N.eq_dec x l) <= 1)%nat.
Proof. destruct l as [|y [|z l]]; cbn; try lia. destruct (N.eq_dec x y); cbn; lia. Qed.
Lemma dkeys_ddel_sub (d : dict N bool) k n : In n (dkeys (ddel d k)) -> In n (dkeys d).
Proof. unfold dkeys. intros H. apply in_map_iff in H. destruct H as (p & <- & H). apply in_map. eapply In_ddel; eauto. Qed.


Definition step_good (sel : thr -> bool) (a a' : DA) (es : list dev) : Prop :=
  a_next a <= a_next a' /\ forall n,
  (pend sel a' n -> (pend sel a n \/ a_next a <= n) /\ cnt sel n es = 0%nat) /\
  (cnt sel n es <= 1)%nat /\ (cnt sel n es = 1%nat -> (pend sel a n \/ a_next a <= n) /\ n < a_next a').

Lemma stop_si t c a a1 o e : stop_step t c a = Some (a1, o, e) -> NoDup (dkeys (a_in a)) -> NoDup (snap c) ->
  NoDup (dkeys (a_in a1)) /\ (forall n, In n (dkeys (a_in a1)) -> In n (dkeys (a_in a))) /\
  (forall c1, o = Some c1 -> NoDup (snap c1) /\ forall n, In n (snap c1) -> In n (snap c) \/ In n (dkeys (a_in a))) /\
  a_main a1 = a_main a /\ a_recv a1 = a_recv a /\ a_next a1 = a_next a /\ a_run a1 = a_run a /\ a_fwd a1 = a_fwd a /\
  (a_deb a1 = false -> a_deb a = false \/ recv_ended (a_recv a) = true).
Proof.
  intros ST ND NS. unfold stop_step in ST. unfold snap in *. destruct c as [ex pc]. cbn in *.
  destruct pc as [[|(?, [|]) ?]|[|(?, ?) ?]| | | | |]; cbn in *; try (destruct t; [destruct (a_deb a) eqn:DB; [destruct (recv_ended (a_recv a)) eqn:RE; [|discriminate]|]|]); try (destruct (a_term a)); injection ST as <- <- <-; csplit; cbn; auto using NoDup_ddel; try (intros n0 H0; eapply dkeys_ddel_sub; exact H0).
  all: try (intros; discriminate).
  all: try exact (NoDup_ddel _ _ ND).
  all: intros c1 H; injection H as <-; cbn; split; [|intros n1 H1].
  all: try (destruct ex; cbn in *; auto; fail).
  all: try (inversion NS; subst; auto; fail).
  all: try (apply NoDup_nil).
  all: try (cbn in *; tauto).
  all: destruct ex; cbn in *; try apply NoDup_nil; auto.
Qed.

Lemma si_step a l a' es : SI a -> dastep a l = Some (a', es) -> SI a'.
Proof.
  intros [nd sm sr lt fw run1 run ms deb mf] ST. destruct a as [m r inn nx db rn tm fd]. unfold msnap, rsnap, mresp in *.
  cbn [a_main a_recv a_in a_next a_deb a_run a_term a_fwd] in *.
  destruct l as [k o|seq st| | | | | | |s0|ex|]; cbn [dastep a_main a_recv a_in a_next a_deb a_run a_term a_fwd] in ST.
  - destruct m as [last| |? ?|? ?|]; try discriminate.
    assert (RN : db = false -> rn = []) by (intros ->; destruct rn; auto; destruct (run eq_refl) as (H & _); [discriminate|discriminate H]).
    assert (K : forall n d, In n (dkeys (dset inn nx d)) -> n < nx + 1).
    { intros n d H. apply In_dkeys_dset in H. destruct H as [-> |H]; [lia|]. assert (n < nx) by (apply lt; auto). lia. }
    assert (NDS : forall d, NoDup (dkeys (dset inn nx d))) by (intros; now apply NoDup_dset).
    assert (LT' : forall n, In n (match r with RStop c => snap c | _ => [] end) \/ In n fd \/ In n rn -> n < nx + 1).
    { intros n H. assert (n < nx) by (apply lt; tauto). lia. }
    destruct db, k, o; injection ST as <- <-; split; unfold msnap, rsnap, mresp, raise_main, set_main, set_recv, set_deb, set_run, set_fwd, respond in *;
      cbn [a_main a_recv a_in a_next a_deb a_run a_term a_fwd begin_call snap c_pc loopy] in *; auto.
    all: try (intros n H; repeat match type of H with _ \/ _ => destruct H as [H|H] end; first [contradiction|eapply K; exact H|apply LT'; solve [auto]|idtac]).
    all: try (intros; discriminate).
    all: try exact (NDS _).
    all: try (intros NR; destruct r; try contradiction; apply fw; discriminate).
    all: try (exfalso; rewrite (RN eq_refl) in *; congruence).
    all: try (destruct r; [apply LT'; auto| |apply LT'; auto..]; apply in_app_or in H; destruct H as [H|[<- |[]]]; [apply LT'; auto|lia]).
    + now apply NoDup_ddel.
    + apply dkeys_ddel_sub in H. eapply K; exact H.
    + subst n. lia.
    + intros Q. assert (n < nx) by (apply lt; auto 7). lia.
    + destruct H as [<- |H]; [lia|]. apply LT'; auto.
    + rewrite (RN eq_refl). cbn. lia.
  - destruct m as [last| |? ?|? ?|]; try discriminate.
    assert (RS : forall n, In n (remove N.eq_dec seq rn) -> In n rn) by (intros n H; apply in_remove in H; tauto).
    assert (LT2 : forall n, In n (dkeys inn) \/ In n (match r with RStop c => snap c | _ => [] end) \/ In n fd \/ In n (remove N.eq_dec seq rn) -> n < nx + 1).
    { intros n H. assert (n < nx); [|lia]. apply lt. destruct H as [H|[H|[H|H]]]; auto 7; apply RS in H; auto 7. }
    destruct (mem seq rn && db && _) eqn:B; [destruct st as [[|]|]|]; injection ST as <- <-; split; unfold msnap, rsnap, mresp, raise_main, set_main, set_recv, set_deb, set_run, set_fwd, respond in *;
      cbn [a_main a_recv a_in a_next a_deb a_run a_term a_fwd begin_call snap c_pc loopy] in *; auto; try discriminate.
    all: try (intros n H; repeat match type of H with _ \/ _ => destruct H as [H|H] end; first [contradiction|apply LT2; solve [auto]|idtac]).
    all: try solve [now apply remove_len].
    all: try (apply andb_prop in B; destruct B as (B & B3); apply andb_prop in B; destruct B as (B1 & B2); apply mem_In in B1).
    all: try (rewrite (remove_one _ _ run1 B1) in *; intros; congruence).
    + subst n. assert (seq < nx) by (apply lt; auto 7). lia.
    + rewrite fw; [intros []|]. intros ->. discriminate.
    + intros H0. destruct r; cbn; congruence.
  - destruct m as [last| |? ?|? ?|]; try discriminate. injection ST as <- <-. split; unfold msnap, rsnap, mresp, raise_main; cbn; auto; try discriminate. 
    intros n H. apply lt. tauto.
  - destruct m as [[|]| |? ?|? ?|]; try discriminate. injection ST as <- <-. split; auto.
  - destruct m as [last| |? ?|? ?|]; try discriminate. destruct (recv_ended r) eqn:RE; [|discriminate]. injection ST as <- <-. split; unfold msnap, rsnap, mresp; cbn; auto; try discriminate.
    + rewrite RE. exact run.
  - destruct m as [last| |sq last|? ?|]; try discriminate. injection ST as <- <-. split; unfold msnap, rsnap, mresp; cbn; auto; try discriminate.
    + now apply NoDup_ddel.
    + intros n H. apply lt. destruct H as [H|H]; [apply dkeys_ddel_sub in H|]; tauto.
    + intros H1 H2. destruct (run H1 H2) as (_ & _ & []).
  - destruct m as [[|]| |? ?|? ?|]; try discriminate. injection ST as <- <-. split; unfold msnap, rsnap, mresp; cbn; auto; try discriminate. 
    intros n H. apply lt. tauto.
  - destruct m as [last| |? ?|c back|]; try discriminate. destruct (stop_step _ _ _) as [((a1, o), e)|] eqn:SS; [|discriminate].
    destruct (@stop_si _ _ _ _ _ _ SS nd sm) as (Q1 & Q2 & Q3 & Q4 & Q5 & Q6 & Q7 & Q8 & Q9). cbn in Q2, Q4, Q5, Q6, Q7, Q8, Q9.
    assert (RNE : forall b0, back = Some b0 -> rn = []).
    { intros b0 ->. destruct rn; auto. destruct (run eq_refl) as (_ & _ & []). discriminate. }
    destruct o as [c1|]; [|destruct back as [last|]]; injection ST as <- <-; split; unfold msnap, rsnap, mresp; cbn; rewrite ?Q4, ?Q5, ?Q6, ?Q7, ?Q8 in *; auto; try discriminate.
    + apply (Q3 _ eq_refl).
    + intros n H. apply lt. destruct H as [H|[H|H]]; [apply Q2 in H; auto| |tauto]. apply (Q3 _ eq_refl) in H. tauto.
    + intros H1 H2. destruct back; [|discriminate]. exfalso. apply H2. eauto.
    + intros c0 b H. injection H as _ ->. eapply ms; eauto.
    + intros H. destruct (Q9 H) as [H0|H0]; auto.
    + constructor.
    + intros n H. apply lt. destruct H as [H|H]; [apply Q2 in H; auto|tauto].
    + intros H1 H2. exfalso. apply H2. eauto.
    + intros H. destruct (Q9 H) as [H0|H0]; auto.
    + constructor.
    + intros n H. apply lt. destruct H as [H|H]; [apply Q2 in H; auto|tauto].
    + intros H. destruct (Q9 H) as [H0|H0]; auto.
  - destruct r; try discriminate. destruct s0 as [sq|]; [destruct (mem sq fd); [|discriminate]|]; injection ST as <- <-; split; unfold msnap, rsnap, mresp; cbn; auto; try discriminate.
    + now apply NoDup_ddel.
    + intros n H. apply lt. destruct H as [H|[H|[H|[H|[H|H]]]]]; auto 8; [apply dkeys_ddel_sub in H; auto|apply in_remove in H; tauto].
    + intros H. congruence.
    + intros n H Y. apply in_remove in Y. eapply mf; [exact H|]. tauto.
  - destruct r; try discriminate. injection ST as <- <-; split; unfold msnap, rsnap, mresp; cbn; auto; try discriminate.
    + intros n H. apply lt. unfold snap in H. cbn in H. fold (dkeys inn) in H. tauto.
  - destruct r as [| |c|]; try discriminate. destruct (stop_step _ _ _) as [((a1, o), e)|] eqn:SS; [|discriminate].
    destruct (@stop_si _ _ _ _ _ _ SS nd sr) as (Q1 & Q2 & Q3 & Q4 & Q5 & Q6 & Q7 & Q8 & Q9). cbn in Q2, Q4, Q5, Q6, Q7, Q8, Q9.
    assert (X : forall r', recv_ended r' = true \/ (exists c1, o = Some c1 /\ r' = RStop c1) -> SI (set_recv r' a1)).
    { intros r' RR. split; unfold msnap, rsnap, mresp; cbn; rewrite ?Q4, ?Q5, ?Q6, ?Q7, ?Q8 in *; auto.
      - destruct RR as [RR|(c1 & -> & ->)]; [destruct r'; try discriminate RR; constructor|]. apply (Q3 _ eq_refl).
      - intros n H. apply lt. destruct H as [H|[H|[H|[H|H]]]]; [auto|auto|auto| |tauto]. destruct RR as [RR|(c1 & -> & ->)]; [destruct r'; try discriminate RR; contradiction|].
        apply (Q3 _ eq_refl) in H. tauto.
      - intros _. apply fw. discriminate.
      - intros H1 H2. destruct (run H1 H2) as (_ & H3 & _). discriminate.
      - intros c0 b H. specialize (ms c0 b H). discriminate.
      - intros H. destruct (Q9 H) as [H0|H0]; [specialize (deb H0)|]; discriminate. }
    destruct o as [c1|]; injection ST as <- <-; apply X; eauto.
Qed.

(** Steps that answer nothing, and steps that answer one request. *)
Lemma good_none sel a a' es : a_next a <= a_next a' -> (forall t n, ~ In (EResp t n) es) -> (forall n, pend sel a' n -> pend sel a n \/ a_next a <= n) -> step_good sel a a' es.
Proof.
  intros LE NE P. assert (Z : forall n, cnt sel n es = 0%nat).
  { intros n. unfold cnt. replace (filter _ es) with (@nil dev); auto. clear - NE. induction es as [|e es IH]; auto. cbn.
    rewrite <- IH by (intros t m H; eapply NE; right; exact H). destruct e as [| t m | | | |]; auto. exfalso. eapply NE. left. reflexivity. }
  split; auto. intros n. rewrite Z. csplit; auto; lia.
Qed.
Lemma good_one sel a a' t m pre post : a_next a <= a_next a' -> (forall t' n, ~ In (EResp t' n) (pre ++ post)) -> (forall n, pend sel a' n -> pend sel a n \/ a_next a <= n) ->
  (sel t = true -> ~ pend sel a' m /\ (pend sel a m \/ a_next a <= m) /\ m < a_next a') -> step_good sel a a' (pre ++ EResp t m :: post).
Proof.
  intros LE NE P W. assert (Z : forall n, cnt sel n (pre ++ post) = 0%nat).
  { intros n. unfold cnt. replace (filter _ _) with (@nil dev); auto. clear - NE. induction (pre ++ post) as [|e es IH]; auto. cbn.
    rewrite <- IH by (intros t m H; eapply NE; right; exact H). destruct e as [| t m | | | |]; auto. exfalso. eapply NE. left. reflexivity. }
  assert (C : forall n, cnt sel n (pre ++ EResp t m :: post) = if sel t && N.eqb m n then 1%nat else 0%nat).
  { intros n. specialize (Z n). rewrite cnt_app in *. change (EResp t m :: post) with ([EResp t m] ++ post). rewrite cnt_app. unfold cnt at 2. cbn. destruct (sel t && (m =? n)); cbn; lia. }
  split; auto. intros n. rewrite C. destruct (sel t) eqn:S; cbn; [|csplit; auto; lia]. destruct (W eq_refl) as (W1 & W2 & W3).
  destruct (m =? n) eqn:E; [apply N.eqb_eq in E; subst n|]; csplit; auto; try lia; intros; tauto.
Qed.
(** The pending requests of a stop() call. *)
Lemma stop_pend t c a a1 o e : stop_step t c a = Some (a1, o, e) -> NoDup (dkeys (a_in a)) -> NoDup (snap c) ->
  (exists m, e = EResp t m /\ In m (snap c) /\ a_in a1 = ddel (a_in a) m /\ exists c1, o = Some c1 /\ ~ In m (snap c1) /\ answering c1 = true /\ forall n, In n (snap c1) -> In n (snap c)) \/
  ((forall t' m, e <> EResp t' m) /\ a_in a1 = a_in a /\ forall c1, o = Some c1 -> forall n, In n (snap c1) -> In n (snap c) \/ (answering c = true /\ In n (dkeys (a_in a)))).
Proof.
  intros ST ND NS. unfold stop_step in ST. unfold snap, answering in *. destruct c as [ex pc]. cbn in *.
  destruct pc as [[|(q, [|]) l]|[|(q, d) l]| | | | |]; cbn in *; try (destruct t; [destruct (a_deb a) eqn:DB; [destruct (recv_ended (a_recv a)) eqn:RE; [|discriminate]|]|]); try (destruct (a_term a)); injection ST as <- <- <-.
  all: try (right; split; [discriminate|split; [reflexivity|]]; intros c1 H; try discriminate; injection H as <-; cbn; intros n H; first [contradiction|destruct ex; cbn in H; auto; contradiction|tauto]).
  all: left; exists q; csplit; auto; eexists; split; [reflexivity|]; inversion NS; subst; cbn; csplit; auto.
Qed.
Ltac dis H := repeat match type of H with
  | _ \/ _ => destruct H as [H|H] | _ /\ _ => let X := fresh "X" in destruct H as [X H]; try (dis X) | False => contradiction end;
  cbn in *; repeat match goal with K : context[map fst ?d] |- _ => change (map fst d) with (dkeys d) in K end.
Lemma pend_step sel a l a' es : SI a -> (sel TMain = true -> sel TRecv = true -> calm a l) -> dastep a l = Some (a', es) -> step_good sel a a' es.
Proof.
  intros I CA ST. pose proof I as [nd sm sr lt fw run1 run ms deb mf].
  destruct l as [k o|seq st| | | | | | |s0|ex|]; cbn [dastep] in ST.
  - destruct (a_main a) as [last| |? ?|? ?|] eqn:MM; try discriminate.
    set (nx := a_next a) in *.
    assert (K : forall n d, In n (dkeys (dset (a_in a) nx d)) -> In n (dkeys (a_in a)) \/ nx <= n).
    { intros n d H. apply In_dkeys_dset in H. destruct H as [-> |H]; auto. right. lia. }
    assert (FW : forall n, In n (match a_recv a with RRun => a_fwd a ++ [nx] | _ => a_fwd a end) -> In n (a_fwd a) \/ nx <= n).
    { intros n H. destruct (a_recv a); auto. apply in_app_or in H. destruct H as [H|[-> |[]]]; auto. right. lia. }
    assert (NP : forall n, nx <= n -> ~ (In n (dkeys (a_in a)) \/ In n (rsnap a) \/ In n (a_fwd a) \/ In n (a_run a))).
    { intros n L H. assert (n < nx) by (apply lt; tauto). lia. }
    destruct (a_deb a) eqn:DB, k, o; injection ST as <- <-.
    all: match goal with |- step_good _ _ _ [_; EResp _ _] => idtac | _ => apply good_none; [cbn; fold nx; lia|intros t n H; cbn in H; intuition discriminate|];
      intros n H; fold nx; unfold pend, msnap, mresp, rsnap, raise_main in *; cbn in *; rewrite ?MM in *; cbn in *; dis H end.
    all: try (left; tauto).
    all: try (apply K in H; destruct H as [H|H]; [left; tauto|right; exact H]).
    all: try (apply FW in H; destruct H as [H|H]; [left; tauto|right; exact H]).
    all: try (match goal with X : In _ (match _ with _ => _ end) |- _ => apply FW in X; destruct X as [X|X]; [left; tauto|right; exact X] end).
    all: try (right; lia).
    + change [EReq nx false; EResp TMain nx] with ([EReq nx false] ++ EResp TMain nx :: []). apply good_one; [cbn; fold nx; lia|intros t n H; cbn in H; intuition discriminate| |].
      * intros n H; fold nx; unfold pend, msnap, mresp, rsnap, raise_main in *; cbn in *; rewrite ?MM in *; cbn in *; dis H; try (left; tauto).
        apply dkeys_ddel_sub in H. apply K in H. destruct H as [H|H]; [left; tauto|right; exact H].
      * intros S. split; [|fold nx; cbn; split; [right|]; lia]. intros H. unfold pend, msnap, mresp in H; cbn in H; rewrite ?MM in *; cbn in *.
        assert (Z : ~ In nx (dkeys (ddel (dset (a_in a) nx false) nx))) by (intros Y; apply In_dkeys_ddel in Y; [tauto|now apply NoDup_dset]).
        pose proof (NP nx (N.le_refl _)) as Q. unfold rsnap in *. cbn in *. tauto.
  - destruct (a_main a) as [last| |? ?|? ?|] eqn:MM; try discriminate.
    assert (RS : forall n, In n (remove N.eq_dec seq (a_run a)) -> In n (a_run a)) by (intros n H; apply in_remove in H; tauto).
    destruct (mem seq (a_run a) && a_deb a && _) eqn:B; [destruct st as [[|]|]|]; injection ST as <- <-.
    all: apply good_none; [cbn; lia|intros t n H; cbn in H; intuition discriminate|]; intros n H; left; unfold pend, msnap, mresp, rsnap, raise_main in *; cbn in *; rewrite ?MM in *; cbn in *; dis H.
    all: try tauto.
    all: try (apply RS in H; tauto).
    apply andb_prop in B. destruct B as (B & _). apply andb_prop in B. destruct B as (B & _). apply mem_In in B. subst n. tauto.
  - destruct (a_main a) as [last| |? ?|? ?|] eqn:MM; try discriminate. injection ST as <- <-.
    apply good_none; [cbn; lia|intros t n H; cbn in H; intuition discriminate|]; intros n H; left; unfold pend, msnap, mresp, rsnap, raise_main in *; cbn in *; rewrite ?MM in *; cbn in *; dis H; tauto.
  - destruct (a_main a) as [[|]| |? ?|? ?|] eqn:MM; try discriminate. injection ST as <- <-. apply good_none; [lia|intros t n H; cbn in H; intuition discriminate|auto].
  - destruct (a_main a) as [last| |? ?|? ?|] eqn:MM; try discriminate. destruct (recv_ended (a_recv a)); [|discriminate]. injection ST as <- <-.
    apply good_none; [cbn; lia|intros t n H; cbn in H; intuition discriminate|]; intros n H; left; unfold pend, msnap, mresp, rsnap, raise_main in *; cbn in *; rewrite ?MM in *; cbn in *; dis H; tauto.
  - destruct (a_main a) as [last| |sq last|? ?|] eqn:MM; try discriminate. injection ST as <- <-.
    assert (RN : a_run a = []).
    { destruct (a_run a) eqn:E; auto. destruct run as (_ & _ & F); [reflexivity|discriminate|contradiction]. }
    assert (LQ : sq < a_next a) by (apply lt; unfold mresp; rewrite MM; auto).
    assert (SUB : forall n, In n (dkeys (ddel (a_in a) sq)) -> n <> sq /\ In n (dkeys (a_in a))) by (intros n Y; apply In_dkeys_ddel in Y; auto).
    apply (@good_one sel a _ TMain sq [] []); [cbn; lia|intros t n H; cbn in H; intuition discriminate| |].
    + intros n H. left. unfold pend, msnap, mresp, rsnap, raise_main in *; cbn in *; rewrite ?MM in *; cbn in *. dis H; try tauto. apply SUB in H. tauto.
    + intros S. split; [|split; [left; unfold pend, mresp; rewrite MM; tauto|exact LQ]].
      intros H. unfold pend, msnap, mresp, rsnap, raise_main in *; cbn in *; rewrite ?MM, ?RN in *; cbn in *. dis H; try tauto.
      * apply SUB in H. tauto.
      * destruct (CA S X) as (CB & _). cbn in CB. destruct (a_recv a); auto. unfold snap, answering in *. destruct (c_pc c); try discriminate; contradiction.
      * eapply mf; eauto.
  - destruct (a_main a) as [[|]| |? ?|? ?|] eqn:MM; try discriminate. injection ST as <- <-.
    apply good_none; [cbn; lia|intros t n H; cbn in H; intuition discriminate|]; intros n H; left; unfold pend, msnap, mresp, rsnap, raise_main in *; cbn in *; rewrite ?MM in *; cbn in *; dis H; tauto.
  - destruct (a_main a) as [last| |? ?|c back|] eqn:MM; try discriminate. destruct (stop_step _ _ _) as [((a1, o), e)|] eqn:SS; [|discriminate].
    assert (NM : NoDup (snap c)) by (unfold msnap in sm; now rewrite MM in sm).
    destruct (@stop_si _ _ _ _ _ _ SS nd NM) as (_ & _ & _ & Q4 & Q5 & Q6 & Q7 & Q8 & _).
    assert (RNE : forall b0, back = Some b0 -> a_run a = [] /\ a_fwd a = []).
    { intros b0 ->. split.
      - destruct (a_run a); auto. destruct (run eq_refl) as (_ & _ & []). discriminate.
      - apply fw. specialize (ms c b0 eq_refl). intros E. rewrite E in ms. discriminate. }
    destruct (@stop_pend _ _ _ _ _ _ SS nd NM) as [(m & -> & MI & EI & c1 & -> & NI & _ & SUB)|(NE & EI & SUB)].
    + injection ST as <- <-. apply (@good_one sel a _ TMain m [] []); [cbn; lia|intros t n H; cbn in H; intuition discriminate| |].
      * intros n H. left. unfold pend, msnap, mresp, rsnap in *; cbn in *. rewrite MM, Q5, Q7, Q8, EI in *. cbn in *. dis H; try tauto.
        -- apply dkeys_ddel_sub in H. tauto.
        -- apply SUB in H. tauto.
      * intros S. split; [|split; [left; unfold pend, msnap; rewrite MM; tauto|cbn; rewrite Q6; apply lt; unfold msnap; rewrite MM; auto]].
        intros H. unfold pend, msnap, mresp, rsnap in *; cbn in *. rewrite MM, Q5, Q7, Q8, EI in *. cbn in *. dis H; try tauto.
        -- apply In_dkeys_ddel in H; tauto.
        -- destruct back as [b0|]; [|discriminate]. destruct (RNE _ eq_refl) as (R0 & _). rewrite R0 in H. contradiction.
        -- destruct (CA S X) as (CB & _). cbn in CB. destruct (a_recv a) as [| |c0|]; auto. unfold snap, answering in *. destruct (c_pc c0); try discriminate; contradiction.
        -- specialize (H S). discriminate.
    + destruct o as [c1|]; [|destruct back as [last|]]; injection ST as <- <-; (apply good_none; [cbn; lia|intros t n [H|H]; [eapply NE; exact H|cbn in H; intuition discriminate]|]); intros n H; left;
      unfold pend, msnap, mresp, rsnap in *; cbn in *; rewrite ?MM, ?Q5, ?Q7, ?Q8, ?EI in *; cbn in *; dis H; try tauto.
      * destruct (SUB _ eq_refl _ H) as [Y|(_ & Y)]; tauto.
      * destruct (RNE _ eq_refl) as (_ & F0). rewrite F0 in *. contradiction.
  - destruct (a_recv a) eqn:RR; try discriminate. destruct s0 as [sq|]; [destruct (mem sq (a_fwd a)) eqn:MF; [|discriminate]|]; injection ST as <- <-.
    2: { apply good_none; [lia|intros t n []|auto]. }
    apply mem_In in MF. apply (@good_one sel a _ TRecv sq [] []); [cbn; lia|intros t n H; cbn in H; intuition discriminate| |].
    + intros n H. left. unfold pend, msnap, mresp, rsnap in *; cbn in *. rewrite ?RR in *. dis H; try tauto.
      * apply dkeys_ddel_sub in H. tauto.
      * match goal with X : In _ (remove _ _ _) |- _ => apply in_remove in X end. tauto.
    + intros S. split; [|split; [left|cbn; apply lt; auto 7]].
      * intros H. unfold pend, msnap, mresp, rsnap in *; cbn in *. rewrite ?RR in *. dis H; try tauto.
        -- apply In_dkeys_ddel in H; tauto.
        -- destruct (CA X S) as (_ & CB). destruct (a_main a); try discriminate CB; contradiction.
        -- destruct (CA X S) as (CB & _). cbn in CB. destruct (a_main a); try discriminate CB; contradiction.
        -- match goal with L : loopy _ = true |- _ => destruct (run L) as (_ & F & _) end; [intros E; rewrite E in H; contradiction|discriminate].
        -- match goal with X : In _ (remove _ _ _) |- _ => apply in_remove in X end. tauto.
      * unfold pend. right. right. split; auto. right. split; auto. intros S2. destruct (CA S2 S) as (_ & CB). exact CB.
  - destruct (a_recv a) eqn:RR; try discriminate. injection ST as <- <-.
    apply good_none; [cbn; lia|intros t n H; cbn in H; intuition discriminate|]; intros n H; left; unfold pend, msnap, mresp, rsnap in *; cbn in *; rewrite ?RR in *; cbn in *; dis H; tauto.
  - destruct (a_recv a) as [| |c|] eqn:RR; try discriminate. destruct (stop_step _ _ _) as [((a1, o), e)|] eqn:SS; [|discriminate].
    assert (NM : NoDup (snap c)) by (unfold rsnap in sr; now rewrite RR in sr).
    destruct (@stop_si _ _ _ _ _ _ SS nd NM) as (_ & _ & _ & Q4 & Q5 & Q6 & Q7 & Q8 & _).
    assert (F0 : a_fwd a = []) by (apply fw; discriminate).
    destruct (@stop_pend _ _ _ _ _ _ SS nd NM) as [(m & -> & MI & EI & c1 & -> & NI & _ & SUB)|(NE & EI & SUB)].
    + injection ST as <- <-. apply (@good_one sel a _ TRecv m [] []); [cbn; lia|intros t n H; cbn in H; intuition discriminate| |].
      * intros n H. left. unfold pend, msnap, mresp, rsnap in *; cbn in *. rewrite Q4, Q7, Q8, EI, ?RR in *. cbn in *. dis H; try tauto.
        -- apply dkeys_ddel_sub in H. tauto.
        -- apply SUB in H. tauto.
      * intros S. split; [|split; [left; unfold pend, rsnap; rewrite RR; tauto|cbn; rewrite Q6; apply lt; unfold rsnap; rewrite RR; auto]].
        intros H. unfold pend, msnap, mresp, rsnap in *; cbn in *. rewrite Q4, Q7, Q8, EI, ?RR, F0 in *. cbn in *. dis H; try tauto.
        -- apply In_dkeys_ddel in H; tauto.
        -- destruct (CA X S) as (CB & _). cbn in CB. destruct (a_main a) as [| | |c0 ?|]; auto. unfold snap, answering in *. destruct (c_pc c0); try discriminate; contradiction.
        -- destruct (CA X S) as (CB & _). cbn in CB. destruct (a_main a); try discriminate CB; contradiction.
        -- match goal with L : loopy _ = true |- _ => destruct (run L) as (_ & F & _) end; [intros E; rewrite E in H; contradiction|discriminate].
    + destruct o as [c1|]; injection ST as <- <-; (apply good_none; [cbn; lia|intros t n [H|H]; [eapply NE; exact H|cbn in H; intuition discriminate]|]); intros n H; left;
      unfold pend, msnap, mresp, rsnap in *; cbn in *; rewrite ?Q4, ?Q7, ?Q8, ?EI, ?RR in *; cbn in *; dis H; try tauto.
      destruct (SUB _ eq_refl _ H) as [Y|(_ & Y)]; tauto.
Qed.

Lemma si_init : SI da_init.
Proof. split; cbn; try (intros; contradiction); try (intros; discriminate); auto; try apply NoDup_nil; try lia. Qed.
Definition PInv (sel : thr -> bool) (h : list dev) (a : DA) : Prop :=
  SI a /\ forall n, (pend sel a n -> cnt sel n h = 0%nat) /\ (cnt sel n h <= 1)%nat /\ (a_next a <= n -> cnt sel n h = 0%nat).
Lemma pinv_step sel h a l a' es : PInv sel h a -> (sel TMain = true -> sel TRecv = true -> calm a l) -> dastep a l = Some (a', es) -> PInv sel (h ++ es) a'.
Proof.
  intros (I & P) CA ST. split; [eapply si_step; eauto|]. destruct (@pend_step _ _ _ _ _ I CA ST) as (LE & G). intros n. specialize (P n). specialize (G n). rewrite cnt_app.
  destruct P as (P1 & P2 & P3). destruct G as (G1 & G2 & G3). csplit.
  - intros H. destruct (G1 H) as ([X|X] & Z); rewrite Z; [rewrite P1|rewrite P3]; auto.
  - destruct (Nat.eq_dec (cnt sel n es) 1) as [E|E]; [|lia]. destruct (G3 E) as ([X|X] & _); [rewrite P1|rewrite P3]; auto.
  - intros H. rewrite P3 by lia. destruct (Nat.eq_dec (cnt sel n es) 1) as [E|E]; [|lia]. destruct (G3 E) as (_ & X). lia.
Qed.
Lemma pinv_init sel : PInv sel [] da_init.
Proof. split; [apply si_init|]. intros n. unfold cnt. cbn. auto. Qed.

(** C44: in every history each of the two threads answers a request at most once, ... *)
Definition only (t t' : thr) : bool := match t, t' with TMain, TMain | TRecv, TRecv => true | _, _ => false end.
Theorem C44_once_per_thread h a t n : darun da_init h a -> (cnt (only t) n h <= 1)%nat.
Proof.
  intros R. assert (X : PInv (only t) h a); [|destruct X as (_ & X); apply X].
  remember da_init as a0. induction R; subst; [apply pinv_init|]. eapply pinv_step; eauto. destruct t; discriminate.
Qed.
(** ... and in the schedules where the threads' answers do not overlap, no request is
    answered twice. *)
Lemma answers_cnt h n : answers h n = cnt (fun _ => true) n h.
Proof. unfold answers, cnt. f_equal. Qed.
Theorem C44_once_partial h a n : calmrun da_init h a -> (answers h n <= 1)%nat.
Proof.
  intros R. rewrite answers_cnt. assert (X : PInv (fun _ => true) h a); [|destruct X as (_ & X); apply X].
  remember da_init as a0. induction R; subst; [apply pinv_init|]. eapply pinv_step; eauto.
Qed.
(** Together with [C44_all_answered]: exactly one response for each request, when the
    adapter dies of an exception in a calm schedule. *)
Lemma calm_darun a0 h a : calmrun a0 h a -> darun a0 h a.
Proof. induction 1; econstructor; eauto. Qed.
Lemma answered_answers h n : answered h n -> (1 <= answers h n)%nat.
Proof.
  intros (t & H). unfold answers. induction h as [|e h IH]; [contradiction|]. cbn. destruct H as [-> |H].
  - rewrite N.eqb_refl. cbn. lia.
  - specialize (IH H). destruct e; auto. destruct (seq =? n); cbn; lia.
Qed.
Theorem C44_exactly_once_partial h a : calmrun da_init h a -> a_main a = MEnd -> In (EStop TMain true) h -> forall seq d, In (EReq seq d) h -> answers h seq = 1%nat.
Proof.
  intros R ME X n d H. pose proof (C44_once_partial n R). pose proof (answered_answers (C44_all_answered (calm_darun R) ME X _ _ H)). lia.
Qed.
