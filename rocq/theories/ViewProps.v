(** C86: what the thread list and the stack trace show while the playbook goes on. *)
From Verif Require Import PyBase ViewModel.
Set Implicit Arguments.
Local Open Scope N_scope.
Ltac csplit := repeat match goal with |- _ /\ _ => split end.

(* ------------------------------------------------------------------ specification *)
(** The threads that exist, and the stack of a thread, innermost frame first. *)
Definition now (h : list vev) : list N :=
  fold_left (fun l e => match e with ENew t => l ++ [t] | EDel t => filter (fun u => negb (N.eqb u t)) l | _ => l end) h [1].
Definition stack (h : list vev) (t : N) : list N :=
  fold_left (fun l e => match e with EPush u f => if N.eqb u t then f :: l else l | EPop u f => if N.eqb u t then tl l else l | _ => l end) h [].
(** The threads a client shows that does what the messages say: a listing replaces the
    list, the events add and remove. *)
Definition client (h : list vev) : list N :=
  fold_left (fun l e => match e with EStarted t => if mem t l then l else l ++ [t] | EExited t => filter (fun u => negb (N.eqb u t)) l | EThreads (Some l') => l' | _ => l end) h [1].
Definition no_exit (mid : list vev) : Prop := forall t, ~ In (EDel t) mid.
Definition no_change (mid : list vev) : Prop := forall t, ~ In (ENew t) mid /\ ~ In (EDel t) mid.
Definition no_event (mid : list vev) : Prop := forall t, ~ In (EStarted t) mid /\ ~ In (EExited t) mid.
Definition no_pop (t : N) (mid : list vev) : Prop := forall f, ~ In (EPop t f) mid.
Definition no_move (t : N) (mid : list vev) : Prop := forall f, ~ In (EPush t f) mid /\ ~ In (EPop t f) mid.

(* ------------------------------------------------------------------ lists *)
Lemma keys_app a b : keys (a ++ b) = keys a ++ keys b.
Proof. unfold keys. now rewrite flat_map_app. Qed.
Lemma keys_compact e : keys (compact e) = keys e.
Proof. unfold compact. induction (keys e) as [|a l IH]; cbn; [reflexivity|]. f_equal. exact IH. Qed.
Lemma keys_erase t e : keys (erase t e) = filter (fun u => negb (N.eqb u t)) (keys e).
Proof.
  induction e as [|[a|] e IH]; cbn; [reflexivity| |exact IH]. destruct (N.eqb a t); cbn; [exact IH|]. f_equal. exact IH.
Qed.
Lemma in_keys t e : In t (keys e) <-> exists j, nth_error e j = Some (Some t).
Proof.
  unfold keys. rewrite in_flat_map. split.
  - intros ([u|] & A & B); [|contradiction]. destruct B as [->|[]]. now apply In_nth_error.
  - intros (j & X). exists (Some t). split; [eapply nth_error_In; exact X|now left].
Qed.
Lemma nxt_spec l t n : nxt l = Some (t, n) -> exists n', n = S n' /\ nth_error l n' = Some (Some t) /\ keys (firstn n l) = [t] /\ (forall j u, nth_error l j = Some (Some u) -> (n' <= j)%nat).
Proof.
  revert t n. induction l as [|[a|] l IH]; cbn; intros t n H; [discriminate| |].
  - injection H as <- <-. exists 0%nat. csplit; auto. intros j u _. lia.
  - destruct (nxt l) as [(u, k)|] eqn:E; [|discriminate]. injection H as <- <-. destruct (IH _ _ eq_refl) as (n' & -> & A & B & C).
    exists (S n'). csplit; auto. intros [|j] v X; [discriminate|]. cbn in X. apply C in X. lia.
Qed.
Lemma nxt_none l : nxt l = None -> keys l = [].
Proof. induction l as [|[a|] l IH]; cbn; intros H; [reflexivity|discriminate|]. destruct (nxt l) as [(u, k)|]; [discriminate|auto]. Qed.
Lemma keys_firstn i n e : keys (firstn (i + n) e) = keys (firstn i e) ++ keys (firstn n (skipn i e)).
Proof.
  rewrite <- (firstn_skipn i e) at 1. rewrite firstn_app, keys_app. f_equal.
  - f_equal. rewrite firstn_firstn. f_equal. lia.
  - destruct (Nat.le_gt_cases i (length e)) as [L|L].
    + rewrite firstn_length_le by lia. now replace (i + n - i)%nat with n by lia.
    + rewrite (skipn_all2 e) by lia. now rewrite !firstn_nil.
Qed.
Lemma nodup_snoc (l : list N) a : NoDup l -> ~ In a l -> NoDup (l ++ [a]).
Proof.
  intros N H. induction N as [|b l B N IH]; cbn; [constructor; [intros []|constructor]|]. constructor.
  - intros X. apply in_app_or in X as [X|[X|[]]]; [auto|subst; apply H; now left].
  - apply IH. intros X. apply H. now right.
Qed.
Lemma filter_lt k (l : list N) : In k l -> (length (filter (fun u => negb (N.eqb u k)) l) < length l)%nat.
Proof.
  assert (LE : forall l : list N, (length (filter (fun u => negb (N.eqb u k)) l) <= length l)%nat) by (intros l0; induction l0 as [|a l0 IH]; cbn; [lia|destruct (N.eqb a k); cbn; lia]).
  induction l as [|a l IH]; cbn; [contradiction|]. intros [-> |X].
  - rewrite N.eqb_refl. cbn. specialize (LE l). lia.
  - specialize (IH X). destruct (N.eqb a k); cbn; lia.
Qed.
Lemma in_filter_ne (k u : N) l : In u (filter (fun u => negb (N.eqb u k)) l) <-> In u l /\ u <> k.
Proof. rewrite filter_In, Bool.negb_true_iff, N.eqb_neq. tauto. Qed.
Lemma upd_same {A} (m : N -> A) k a : upd m k a k = a.
Proof. unfold upd. now rewrite N.eqb_refl. Qed.
Lemma upd_other {A} (m : N -> A) k a j : j <> k -> upd m k a j = m j.
Proof. unfold upd. destruct (N.eqb_spec j k); congruence. Qed.
Lemma erase_nth t e j u : nth_error (erase t e) j = Some (Some u) -> nth_error e j = Some (Some u).
Proof.
  unfold erase. rewrite nth_error_map. destruct (nth_error e j) as [[v|]|]; cbn; try discriminate. destruct (N.eqb v t); [discriminate|auto].
Qed.
(** Moving the entries together moves none to the right. *)
Lemma compact_nth e : NoDup (keys e) -> forall j u, nth_error (compact e) j = Some (Some u) -> exists k, (j <= k)%nat /\ nth_error e k = Some (Some u).
Proof.
  induction e as [|[a|] e IH]; cbn; intros ND j u X.
  - destruct j; discriminate.
  - inversion_clear ND. destruct j as [|j]; cbn in X; [injection X as <-; exists 0%nat; auto|].
    destruct (IH H0 _ _ X) as (k & L & Y). exists (S k). split; [lia|exact Y].
  - destruct (IH ND _ _ X) as (k & L & Y). exists (S k). split; [lia|exact Y].
Qed.
Lemma skipn_cons_in {A} i (f g : A) l : In g (skipn i l) -> In g (skipn i (f :: l)).
Proof.
  revert f l. induction i as [|i IH]; intros f l X; [now right|]. destruct l as [|a l]; [now destruct i|]. cbn in *.
  apply IH. exact X.
Qed.
Lemma skipn_nth {A} i (l : list A) f : nth_error l i = Some f -> skipn i l = f :: skipn (S i) l.
Proof. revert l. induction i as [|i IH]; intros [|a l] H; try discriminate; [now injection H as ->|]. exact (IH _ H). Qed.
Lemma firstn_nth {A} i (l : list A) f : nth_error l i = Some f -> firstn (S i) l = firstn i l ++ [f].
Proof. revert l. induction i as [|i IH]; intros [|a l] H; try discriminate; [now injection H as ->|]. cbn. f_equal. exact (IH _ H). Qed.

Lemma now_snoc h es : now (h ++ es) = fold_left (fun l e => match e with ENew t => l ++ [t] | EDel t => filter (fun u => negb (N.eqb u t)) l | _ => l end) es (now h).
Proof. unfold now. now rewrite fold_left_app. Qed.
Lemma stack_snoc h es t : stack (h ++ es) t = fold_left (fun l e => match e with EPush u f => if N.eqb u t then f :: l else l | EPop u f => if N.eqb u t then tl l else l | _ => l end) es (stack h t).
Proof. unfold stack. now rewrite fold_left_app. Qed.

(* ------------------------------------------------------------------ the state *)
Record SI (x : VS) (h : list vev) : Prop := {
  s_now : keys (v_ent x) = now h;
  s_stack : forall t, v_stack x t = stack h t;
  s_nd : NoDup (keys (v_ent x));
  s_lt : forall t, In t (keys (v_ent x)) -> t < v_nt x;
  s_fr : forall t f, In f (v_stack x t) -> In f (v_frames x);
  s_frlt : forall f, In f (v_frames x) -> f < v_nf x;
  s_snd : forall t, NoDup (v_stack x t);
  s_one : forall t u f, In f (v_stack x t) -> In f (v_stack x u) -> t = u;
  s_push : forall t f, v_m x = MPush t f -> In f (v_frames x) /\ forall u, ~ In f (v_stack x u);
  s_pop : forall t f, v_m x = MPop t f -> forall u, ~ In f (v_stack x u);
  s_exit : forall ks, v_m x = MExit ks \/ (exists k, v_m x = MExited k ks) -> NoDup ks /\ incl ks (keys (v_ent x)) }.

Lemma si_init : SI v_init [].
Proof.
  constructor; cbn; try tauto; try discriminate.
  - constructor; [intros []|constructor].
  - intros t [<-|[]]. lia.
  - intros _. constructor.
  - intros ks [X|(k & X)]; discriminate.
Qed.
Lemma si_req x h l x' es : SI x h -> l = LThreads \/ (exists t, l = LStack t) \/ l = LReq -> vstep x l = Some (x', es) ->
  v_ent x' = v_ent x /\ v_stack x' = v_stack x /\ v_frames x' = v_frames x /\ v_nt x' = v_nt x /\ v_nf x' = v_nf x /\ v_m x' = v_m x /\ SI x' (h ++ es).
Proof.
  intros S L H.
  assert (G : exists q, x' = with_q q x /\ (es = [] \/ exists e, es = [e] /\ match e with EAskT | EThreads _ | EAskS _ | EStack _ => True | _ => False end)).
  { destruct L as [-> |[(t & ->)| ->]]; cbn in H.
    - destruct (v_q x); try discriminate. injection H as <- <-. eexists; split; [reflexivity|]; right; eexists; split; [reflexivity|exact Logic.I].
    - destruct (v_q x); try discriminate. injection H as <- <-. eexists; split; [reflexivity|]; right; eexists; split; [reflexivity|exact Logic.I].
    - unfold req_step in H. destruct (v_q x) as [|used i acc|r|t i acc|t i f acc|r]; try discriminate.
      + destruct (Nat.eqb _ _); [destruct (nxt _) as [(t, n)|]|]; injection H as <- <-; (eexists; split; [reflexivity|auto]).
      + injection H as <- <-. eexists; split; [reflexivity|]; right; eexists; split; [reflexivity|exact Logic.I].
      + destruct (nth_error _ _); injection H as <- <-; (eexists; split; [reflexivity|auto]).
      + destruct (mem _ _); injection H as <- <-; (eexists; split; [reflexivity|auto]).
      + injection H as <- <-. eexists; split; [reflexivity|]; right; eexists; split; [reflexivity|exact Logic.I]. }
  destruct G as (q & -> & G). csplit; try reflexivity. destruct S. destruct G as [-> |(e & -> & E)].
  - rewrite app_nil_r. constructor; cbn; assumption.
  - constructor; cbn; try assumption.
    + rewrite now_snoc. cbn. destruct e; try contradiction; exact s_now0.
    + intros t. rewrite stack_snoc. cbn. destruct e; try contradiction; apply s_stack0.
Qed.

(** The strategy thread's steps. *)
Definition pend (m : mpc) : option N := match m with MStarted t | MExited t _ => Some t | _ => None end.
Inductive env (x x' : VS) : list vev -> Prop :=
| env_nil : v_ent x' = v_ent x -> v_stack x' = v_stack x -> v_nt x' = v_nt x -> pend (v_m x) = None -> pend (v_m x') = None -> v_m x <> MStop -> env x x' []
| env_new (c : bool) : v_ent x' = (if c then compact (v_ent x) else v_ent x) ++ [Some (v_nt x)] -> v_stack x' = v_stack x -> v_nt x' = v_nt x + 1 -> pend (v_m x) = None -> pend (v_m x') = Some (v_nt x) -> v_m x <> MStop -> env x x' [ENew (v_nt x)]
| env_del t : In t (keys (v_ent x)) -> v_ent x' = erase t (v_ent x) -> v_stack x' = v_stack x -> v_nt x' = v_nt x -> pend (v_m x) = None -> pend (v_m x') = Some t -> v_m x <> MStop -> env x x' [EDel t]
| env_ev t e : e = EStarted t \/ e = EExited t -> v_ent x' = v_ent x -> v_stack x' = v_stack x -> v_nt x' = v_nt x -> pend (v_m x) = Some t -> pend (v_m x') = None -> v_m x <> MStop ->
    (e = EStarted t <-> v_m x = MStarted t) -> env x x' [e]
| env_push t f : v_ent x' = v_ent x -> v_stack x' = upd (v_stack x) t (f :: v_stack x t) -> v_nt x' = v_nt x -> pend (v_m x) = None -> pend (v_m x') = None -> v_m x <> MStop -> env x x' [EPush t f]
| env_pop t f r : v_stack x t = f :: r -> v_ent x' = v_ent x -> v_stack x' = upd (v_stack x) t r -> v_nt x' = v_nt x -> pend (v_m x) = None -> pend (v_m x') = None -> v_m x <> MStop -> env x x' [EPop t f]
| env_stop : v_ent x' = v_ent x -> v_stack x' = v_stack x -> v_nt x' = v_nt x -> pend (v_m x) = None -> v_m x' = MStop -> v_m x <> MStop -> env x x' [EStop]
| env_go : v_ent x' = v_ent x -> v_stack x' = v_stack x -> v_nt x' = v_nt x -> pend (v_m x) = None -> v_m x' = MIdle -> env x x' [EGo].
Definition is_req (l : vlabel) : Prop := l = LThreads \/ (exists t, l = LStack t) \/ l = LReq.
Lemma strat_step x h l x' es : SI x h -> vstep x l = Some (x', es) -> is_req l \/ (v_q x' = v_q x /\ env x x' es).
Proof.
  intros S H. destruct l as [c| |t|t| | | | |t|]; cbn in H; try (left; unfold is_req; eauto; fail); right.
  - destruct (v_m x) eqn:M; try discriminate. injection H as <- <-. split; [reflexivity|]. apply env_new with c; cbn; rewrite ?M; auto; discriminate.
  - destruct (v_m x) eqn:M; try discriminate. injection H as <- <-. split; [reflexivity|]. apply env_nil; cbn; rewrite ?M; auto; discriminate.
  - destruct (v_m x) eqn:M; try discriminate. destruct (mem t _); [|discriminate]. injection H as <- <-. split; [reflexivity|]. apply env_nil; cbn; rewrite ?M; auto; discriminate.
  - destruct (v_m x) eqn:M; try discriminate. destruct (v_stack x t) as [|f r] eqn:K; [discriminate|]. destruct (mem t _); [|discriminate]. injection H as <- <-. split; [reflexivity|].
    apply env_pop with r; cbn; rewrite ?M; auto; discriminate.
  - destruct (v_m x) eqn:M; try discriminate. injection H as <- <-. split; [reflexivity|]. apply env_stop; cbn; rewrite ?M; auto; discriminate.
  - destruct (v_m x) eqn:M; try discriminate. injection H as <- <-. split; [reflexivity|]. apply env_go; cbn; rewrite ?M; auto; discriminate.
  - unfold main_step in H. destruct (v_m x) as [|t|[|k ks]|k ks|t f|t f|] eqn:M; try discriminate.
    + injection H as <- <-. split; [reflexivity|]. apply env_ev with t; cbn; rewrite ?M; auto; try discriminate. split; auto.
    + injection H as <- <-. split; [reflexivity|]. apply env_nil; cbn; rewrite ?M; auto; discriminate.
    + destruct (N.eqb k 1); injection H as <- <-; (split; [reflexivity|]).
      * apply env_nil; cbn; rewrite ?M; auto; discriminate.
      * destruct (s_exit S (or_introl M)) as (_ & I). apply env_del; cbn; rewrite ?M; auto; try discriminate. apply I. now left.
    + injection H as <- <-. split; [reflexivity|]. apply env_ev with k; cbn; rewrite ?M; auto; try discriminate. split; discriminate.
    + injection H as <- <-. split; [reflexivity|]. apply env_push; cbn; rewrite ?M; auto; discriminate.
    + injection H as <- <-. split; [reflexivity|]. apply env_nil; cbn; rewrite ?M; auto; discriminate.
Qed.

Lemma si_step x h l x' es : SI x h -> vstep x l = Some (x', es) -> SI x' (h ++ es).
Proof.
  intros S H. assert (SS := S). destruct S as [A B C D E F G I J K L].
  destruct l as [c| |t|t| | | | |t|]; try (eapply si_req; [exact SS| |exact H]; eauto; fail); cbn in H.
  - destruct (v_m x) eqn:M; try discriminate. injection H as <- <-.
    assert (KE : keys ((if c then compact (v_ent x) else v_ent x) ++ [Some (v_nt x)]) = keys (v_ent x) ++ [v_nt x]) by (rewrite keys_app; destruct c; rewrite ?keys_compact; reflexivity).
    constructor; cbn [v_ent v_stack v_frames v_nt v_nf v_m]; rewrite ?KE; auto; try discriminate.
    + rewrite now_snoc. cbn. now rewrite A.
    + intros u. rewrite stack_snoc. cbn. apply B.
    + apply nodup_snoc; [exact C|]. intros X. apply D in X. lia.
    + intros u X. apply in_app_or in X as [X|[<-|[]]]; [apply D in X; lia|lia].
    + intros ks [X|(k & X)]; discriminate.
  - destruct (v_m x) eqn:M; try discriminate. injection H as <- <-. rewrite app_nil_r. constructor; cbn; auto; try discriminate.
    intros ks [X|(k & X)]; [|discriminate]. injection X as <-. split; [exact C|intros u X; exact X].
  - destruct (v_m x) eqn:M; try discriminate. destruct (mem t _); [|discriminate]. injection H as <- <-. rewrite app_nil_r. constructor; cbn; auto; try discriminate.
    + intros u f X. right. eauto.
    + intros f [<-|X]; [lia|apply F in X; lia].
    + intros u f X. injection X as <- <-. split; [now left|]. intros u X. apply E, F in X. lia.
    + intros ks [X|(k & X)]; discriminate.
  - destruct (v_m x) eqn:M; try discriminate. destruct (v_stack x t) as [|f r] eqn:Q; [discriminate|]. destruct (mem t _); [|discriminate]. injection H as <- <-.
    assert (SUB : forall u g, In g (upd (v_stack x) t r u) -> In g (v_stack x u)) by (intros u g; unfold upd; destruct (N.eqb_spec u t) as [->|]; [rewrite Q; now right|auto]).
    constructor; cbn; auto; try discriminate.
    + rewrite now_snoc. exact A.
    + intros u. rewrite stack_snoc. cbn. rewrite N.eqb_sym. unfold upd. destruct (N.eqb_spec u t) as [->|]; [now rewrite <- B, Q|apply B].
    + intros u g X. eauto.
    + intros u. unfold upd. destruct (N.eqb_spec u t) as [->|]; [|auto]. specialize (G t). rewrite Q in G. now inversion_clear G.
    + intros u w g X Y. eauto.
    + intros u g X w Y. injection X as <- <-. assert (W : w = t) by (apply (I w t f); [eauto|rewrite Q; now left]). subst w. rewrite upd_same in Y.
      specialize (G t). rewrite Q in G. inversion_clear G. auto.
    + intros ks [X|(k & X)]; discriminate.
  - destruct (v_m x) eqn:M; try discriminate. injection H as <- <-. constructor; cbn; auto; try discriminate; [rewrite now_snoc; exact A|intros u; rewrite stack_snoc; apply B|].
    intros ks [X|(k & X)]; discriminate.
  - destruct (v_m x) eqn:M; try discriminate. injection H as <- <-. constructor; cbn; auto; try discriminate; [rewrite now_snoc; exact A|intros u; rewrite stack_snoc; apply B|].
    intros ks [X|(k & X)]; discriminate.
  - unfold main_step in H. destruct (v_m x) as [|t|[|k ks]|k ks|t f|t f|] eqn:M; try discriminate.
    + injection H as <- <-. constructor; cbn; auto; try discriminate; [rewrite now_snoc; exact A|intros u; rewrite stack_snoc; apply B|]. intros ks [X|(k & X)]; discriminate.
    + injection H as <- <-. rewrite app_nil_r. constructor; cbn; auto; try discriminate. intros ks [X|(k & X)]; discriminate.
    + destruct (L _ (or_introl eq_refl)) as (N1 & N2). inversion_clear N1 as [|? ? NI ND].
      destruct (N.eqb k 1); injection H as <- <-.
      * rewrite app_nil_r. constructor; cbn; auto; try discriminate. intros ks' [X|(k' & X)]; [|discriminate]. injection X as <-. split; [exact ND|]. intros u U. apply N2. now right.
      * constructor; cbn; auto; try discriminate; rewrite ?keys_erase.
        -- rewrite now_snoc. cbn. now rewrite A.
        -- intros u. rewrite stack_snoc. apply B.
        -- now apply NoDup_filter.
        -- intros u X. apply in_filter_ne in X as (X & _). auto.
        -- intros ks' [X|(k' & X)]; [discriminate|]. injection X as <- <-. split; [exact ND|]. intros u U. apply in_filter_ne. split; [apply N2; now right|]. intros ->. auto.
    + destruct (L _ (or_intror (ex_intro _ k eq_refl))) as (N1 & N2). injection H as <- <-. constructor; cbn; auto; try discriminate; [rewrite now_snoc; exact A|intros u; rewrite stack_snoc; apply B|].
      intros ks' [X|(k' & X)]; [|discriminate]. injection X as <-. auto.
    + injection H as <- <-. destruct (J _ _ eq_refl) as (J1 & J2).
      assert (UP : forall u g, In g (upd (v_stack x) t (f :: v_stack x t) u) -> In g (v_stack x u) \/ (g = f /\ u = t)).
      { intros u g. unfold upd. destruct (N.eqb_spec u t) as [->|]; [|auto]. intros [<-|X]; auto. }
      constructor; cbn; auto; try discriminate.
      * rewrite now_snoc; exact A.
      * intros u. rewrite stack_snoc. cbn. rewrite N.eqb_sym. unfold upd. destruct (N.eqb_spec u t) as [->|]; [now rewrite B|apply B].
      * intros u g X. apply UP in X as [X|(-> & _)]; [eauto|exact J1].
      * intros u. unfold upd. destruct (N.eqb_spec u t) as [->|]; [|auto]. constructor; auto.
      * intros u w g X Y. apply UP in X as [X|(-> & ->)], Y as [Y|(Z & ->)]; subst; auto; [eauto|now elim (J2 u)|now elim (J2 w)].
      * intros ks [X|(k & X)]; discriminate.
    + injection H as <- <-. rewrite app_nil_r. constructor; cbn; auto; try discriminate.
      * intros u g X. apply in_filter_ne. split; [eauto|]. intros ->. now apply (K t f eq_refl u).
      * intros g X. apply in_filter_ne in X as (X & _). auto.
      * intros ks [X|(k & X)]; discriminate.
Qed.
Lemma run_si h x : vrun h x -> SI x h.
Proof. induction 1; [exact si_init|eapply si_step; eassumption]. Qed.

(* ------------------------------------------------------------------ the threads request *)
(** From [Q t : ~ In _ l /\ ~ In _ l]. *)
Tactic Notation "qq" constr(q) tactic3(tac) := let a := fresh in let b := fresh in destruct q as (a & b); solve [apply a; tac | apply b; tac].
Definition ex_moment (pre : list vev) (a : vev) (mid : list vev) (P : list vev -> Prop) : Prop := exists m1 m2, mid = m1 ++ m2 /\ P (pre ++ a :: m1).
Lemma moment_more pre a mid es P : ex_moment pre a mid P -> ex_moment pre a (mid ++ es) P.
Proof. intros (m1 & m2 & -> & X). exists m1, (m2 ++ es). split; [now rewrite app_assoc|exact X]. Qed.
Lemma moment_now (pre mid : list vev) a (P : list vev -> Prop) : P (pre ++ a :: mid) -> ex_moment pre a mid P.
Proof. intros X. exists mid, []. split; [now rewrite app_nil_r|exact X]. Qed.
Lemma now_mid (pre mid : list vev) a : no_change (a :: mid) -> now (pre ++ a :: mid) = now pre.
Proof.
  rewrite now_snoc. generalize (now pre). induction (a :: mid) as [|e l IH]; intros n Q; [reflexivity|]. cbn.
  rewrite IH; [|intros t; split; intros X; qq (Q t) (now right)]. destruct e; try reflexivity; exfalso; qq (Q t) (now left).
Qed.
Lemma stack_mid (pre mid : list vev) a t : no_move t (a :: mid) -> stack (pre ++ a :: mid) t = stack pre t.
Proof.
  rewrite stack_snoc. generalize (stack pre t). induction (a :: mid) as [|e l IH]; intros n Q; [reflexivity|]. cbn.
  rewrite IH; [|intros f; split; intros X; qq (Q f) (now right)]. destruct e as [| | | |u f|u f| | | | | |]; try reflexivity;
    (destruct (N.eqb_spec u t) as [->|]; [|reflexivity]; exfalso; qq (Q f) (now left)).
Qed.
Lemma no_change_dec (mid : list vev) : no_change mid \/ exists t, In (ENew t) mid \/ In (EDel t) mid.
Proof.
  induction mid as [|e l IH]; [left; intros t; split; intros []|]. destruct IH as [IH|(t & [X|X])]; [|right; exists t; left; now right|right; exists t; right; now right].
  destruct e; try (left; intros u; destruct (IH u) as (I1 & I2); split; (intros [X|X]; [discriminate|auto])); right; exists t; [left|right]; now left.
Qed.
Lemma no_pop_dec (t : N) (mid : list vev) : no_pop t mid \/ exists f, In (EPop t f) mid.
Proof.
  induction mid as [|e l IH]; [left; intros f []|]. destruct IH as [IH|(f & X)]; [|right; exists f; now right].
  destruct e as [| | | |u f|u f| | | | | |]; try (left; intros g [X|X]; [discriminate|now apply (IH g)]).
  destruct (N.eqb_spec u t) as [->|NE]; [right; exists f; now left|]. left. intros g [X|X]; [congruence|now apply (IH g)].
Qed.
Lemma no_change_app a b : no_change (a ++ b) -> no_change a.
Proof. intros Q t. split; intros X; qq (Q t) (apply in_or_app; now left). Qed.
Lemma no_exit_app a b : no_exit (a ++ b) -> no_exit a.
Proof. intros Q t X. apply (Q t), in_or_app. now left. Qed.
Lemma no_event_app a b : no_event (a ++ b) -> no_event a.
Proof. intros Q t. split; intros X; qq (Q t) (apply in_or_app; now left). Qed.
Lemma no_move_app t a b : no_move t (a ++ b) -> no_move t a.
Proof. intros Q f. split; intros X; qq (Q f) (apply in_or_app; now left). Qed.
Lemma no_pop_app t a b : no_pop t (a ++ b) -> no_pop t a.
Proof. intros Q f X. apply (Q f), in_or_app. now left. Qed.

Record RI (x : VS) (pre mid : list vev) (used i : nat) (acc : list N) : Prop := {
  r1 : no_change mid -> used = length (keys (v_ent x)) /\ acc = keys (firstn i (v_ent x)) /\ keys (v_ent x) = now pre;
  r2 : no_exit mid -> no_change mid \/ (used < length (keys (v_ent x)))%nat;
  r3 : forall t, In t acc -> ex_moment pre EAskT mid (fun h => In t (now h));
  r4 : NoDup acc;
  r5 : forall t, In t acc -> t < v_nt x /\ forall j, nth_error (v_ent x) j = Some (Some t) -> (j < i)%nat;
  r6 : no_event mid -> no_change mid \/ (used <> length (keys (v_ent x)) /\ pend (v_m x) <> None) }.
Record TI (x : VS) (pre mid : list vev) (r : option (list N)) : Prop := {
  t1 : no_exit mid -> forall l, r = Some l -> ex_moment pre EAskT mid (fun h => l = now h);
  t2 : r = None -> ~ no_change mid;
  t3 : forall l, r = Some l -> NoDup l /\ forall t, In t l -> ex_moment pre EAskT mid (fun h => In t (now h));
  t4 : no_change mid -> r = Some (now pre);
  t5 : no_event mid -> forall l, r = Some l -> ex_moment pre EAskT mid (fun h => l = now h) /\ forall t, pend (v_m x) <> Some t -> (In t l <-> In t (now (pre ++ EAskT :: mid))) }.

Lemma mid_env x x' es (E : env x x' es) : forall e, In e es -> match e with EAskT | EThreads _ | EAskS _ | EStack _ => False | _ => True end.
Proof. intros e X. destruct E; cbn in X; repeat destruct X as [X|X]; try contradiction; subst; try exact Logic.I. destruct H; subst; exact Logic.I. Qed.

Lemma ri_env x x' h pre mid used i acc es : SI x h -> h = pre ++ EAskT :: mid -> env x x' es -> RI x pre mid used i acc -> RI x' pre (mid ++ es) used i acc.
Proof.
  intros SX HH E [A B C D F G]. assert (C' : forall t, In t acc -> ex_moment pre EAskT (mid ++ es) (fun h => In t (now h))) by (intros t X; apply moment_more; auto).
  assert (KEEP : v_ent x' = v_ent x -> v_nt x' = v_nt x -> (forall t, ~ In (ENew t) es /\ ~ In (EDel t) es) -> (no_event es -> pend (v_m x) <> None -> pend (v_m x') <> None) ->
    RI x' pre (mid ++ es) used i acc).
  { intros E1 E2 E3 E4. assert (NC : no_change mid -> no_change (mid ++ es)) by (intros Q t; split; intros X; apply in_app_or in X as [X|X]; first [qq (Q t) (exact X)|qq (E3 t) (exact X)]).
    constructor; rewrite ?E1, ?E2; auto.
    - intros Q. apply no_change_app in Q. auto.
    - intros Q. apply no_exit_app in Q. destruct (B Q); auto.
    - intros Q. assert (Q' := no_event_app _ _ Q). destruct (G Q') as [Y|(Y & Z)]; [auto|]. right. split; [exact Y|]. apply E4; [|exact Z].
      intros t. split; intros X; qq (Q t) (apply in_or_app; now right). }
  destruct E.
  - apply KEEP; auto.
  - assert (KE : length (keys (v_ent x')) = S (length (keys (v_ent x)))) by (rewrite H, keys_app, app_length; cbn; destruct c; rewrite ?keys_compact; lia).
    constructor; auto.
    + intros Q. exfalso. qq (Q (v_nt x)) (apply in_or_app; right; now left).
    + intros Q. right. rewrite KE. apply no_exit_app in Q. destruct (B Q) as [Y|Y]; [apply A in Y as (-> & _); lia|lia].
    + intros t X. destruct (F t X) as (F1 & F2). split; [rewrite H1; lia|]. intros j Y. rewrite H in Y.
      destruct (Nat.lt_ge_cases j (length (if c then compact (v_ent x) else v_ent x))) as [L|L].
      * rewrite nth_error_app1 in Y by exact L. destruct c; [|now apply F2]. destruct (@compact_nth (v_ent x) (s_nd SX) j t Y) as (k & K1 & K2). apply F2 in K2. lia.
      * rewrite nth_error_app2 in Y by exact L. destruct (j - _)%nat as [|n]; [injection Y as Y; lia|destruct n; discriminate].
    + intros Q. apply no_event_app in Q. right. destruct (G Q) as [Y|(_ & Y)]; [|congruence]. apply A in Y as (-> & _). rewrite KE, H3. split; [lia|discriminate].
  - assert (KE : (length (keys (v_ent x')) < length (keys (v_ent x)))%nat) by (rewrite H0, keys_erase; now apply filter_lt).
    constructor; auto.
    + intros Q. exfalso. qq (Q t) (apply in_or_app; right; now left).
    + intros Q. exfalso. apply (Q t), in_or_app. right. now left.
    + intros u X. destruct (F u X) as (F1 & F2). split; [now rewrite H2|]. intros j Y. rewrite H0 in Y. apply erase_nth in Y. auto.
    + intros Q. apply no_event_app in Q. right. destruct (G Q) as [Y|(_ & Y)]; [|congruence]. apply A in Y as (-> & _). rewrite H4. split; [lia|discriminate].
  - apply KEEP; auto.
    + intros u. split; (intros [X|[]]; destruct H; subst; discriminate).
    + intros Q. exfalso. destruct H; subst; qq (Q t) (now left).
  - apply KEEP; auto; try congruence. intros u; split; intros [X|[]]; discriminate.
  - apply KEEP; auto; try congruence. intros u; split; intros [X|[]]; discriminate.
  - apply KEEP; auto; try congruence. intros u; split; intros [X|[]]; discriminate.
  - apply KEEP; auto; try congruence. intros u; split; intros [X|[]]; discriminate.
Qed.
Lemma ti_env x x' h pre mid r es : SI x h -> h = pre ++ EAskT :: mid -> env x x' es -> TI x pre mid r -> TI x' pre (mid ++ es) r.
Proof.
  intros S HH E [A B C D F]. constructor.
  - intros Q l R. apply moment_more. apply no_exit_app in Q. auto.
  - intros R Q. apply no_change_app in Q. now apply (B R).
  - intros l R. destruct (C l R) as (C1 & C2). split; [exact C1|]. intros t X. apply moment_more. auto.
  - intros Q. apply no_change_app in Q. auto.
  - intros Q l R. assert (Q' := no_event_app _ _ Q). destruct (F Q' l R) as (F1 & F2). split; [now apply moment_more|].
    intros t P. change (pre ++ EAskT :: mid ++ es) with (pre ++ (EAskT :: mid) ++ es). rewrite app_assoc, now_snoc.
    assert (KEEP : pend (v_m x) = None -> In t l <-> In t (now (pre ++ EAskT :: mid))) by (intros Z; apply F2; rewrite Z; discriminate).
    destruct E; cbn; try (now apply KEEP).
    + rewrite (KEEP H2). rewrite H3 in P. split; [intros X; apply in_or_app; now left|]. intros X. apply in_app_or in X as [X|[X|[]]]; [exact X|congruence].
    + rewrite (KEEP H3). rewrite H4 in P. rewrite in_filter_ne. split; [intros X; split; [exact X|congruence]|tauto].
    + exfalso. destruct H; subst; qq (Q t0) (apply in_or_app; right; now left).
Qed.

(* ------------------------------------------------------------------ the stackTrace request *)
Record KI (x : VS) (pre mid : list vev) (t : N) (i : nat) (acc : list N) : Prop := {
  k0 : In t (now pre);
  k1 : no_move t mid -> acc = firstn i (v_stack x t) /\ v_stack x t = stack pre t;
  k2 : forall f, In f acc -> ex_moment pre (EAskS t) mid (fun h => In f (stack h t));
  k3 : no_pop t mid -> forall f, In f (stack pre t) -> In f acc \/ In f (skipn i (v_stack x t)) }.
Record AI (pre mid : list vev) (t : N) (r : option (list N)) : Prop := {
  a1 : no_move t mid -> In t (now pre) -> r = Some (stack pre t);
  a2 : r = None -> ~ In t (now pre) \/ exists f, In (EPop t f) mid;
  a3 : forall l, r = Some l -> forall f, In f l -> ex_moment pre (EAskS t) mid (fun h => In f (stack h t));
  a4 : no_pop t mid -> In t (now pre) -> exists l, r = Some l /\ incl (stack pre t) l;
  a5 : ~ In t (now pre) -> r = None }.
Lemma ai_more pre mid t r es : AI pre mid t r -> AI pre (mid ++ es) t r.
Proof.
  intros [A B C D E]. constructor; auto.
  - intros Q. apply no_move_app in Q. auto.
  - intros R. destruct (B R) as [X|(f & X)]; [now left|]. right. exists f. apply in_or_app. now left.
  - intros l R f X. apply moment_more. eauto.
  - intros Q. apply no_pop_app in Q. auto.
Qed.
Lemma ki_env x x' pre mid t i acc es : env x x' es -> KI x pre mid t i acc -> KI x' pre (mid ++ es) t i acc.
Proof.
  intros E [A B C D]. assert (C' : forall f, In f acc -> ex_moment pre (EAskS t) (mid ++ es) (fun h => In f (stack h t))) by (intros f X; apply moment_more; auto).
  assert (KEEP : v_stack x' t = v_stack x t -> KI x' pre (mid ++ es) t i acc).
  { intros H. constructor; rewrite ?H; auto; intros Q; [apply no_move_app in Q|apply no_pop_app in Q]; auto. }
  destruct E; try (apply KEEP; congruence).
  - destruct (N.eqb_spec t t0) as [EQ|NE]; [subst t0|apply KEEP; rewrite H0, upd_other; auto].
    constructor; auto; rewrite H0, ?upd_same.
    + intros Q. exfalso. qq (Q f) (apply in_or_app; right; now left).
    + intros Q g X. apply no_pop_app in Q. destruct (D Q g X) as [Y|Y]; [now left|right]. now apply skipn_cons_in.
  - destruct (N.eqb_spec t t0) as [EQ|NE]; [subst t0|apply KEEP; rewrite H1, upd_other; auto].
    constructor; auto; intros Q; exfalso; [qq (Q f) (apply in_or_app; right; now left)|apply (Q f), in_or_app; right; now left].
Qed.
Lemma in_env x x' (mid : list vev) t f es : env x x' es -> (no_pop t mid -> In f (v_stack x t)) -> no_pop t (mid ++ es) -> In f (v_stack x' t).
Proof.
  intros E H Q. assert (Q' := no_pop_app _ _ Q). specialize (H Q'). destruct E; try congruence.
  - rewrite H1. unfold upd. destruct (N.eqb_spec t t0) as [EQ|]; [subst; now right|exact H].
  - rewrite H2. unfold upd. destruct (N.eqb_spec t t0) as [EQ|]; [subst|exact H]. exfalso. apply (Q f0), in_or_app. right. now left.
Qed.

(* ------------------------------------------------------------------ all together *)
Definition not_ask (e : vev) : Prop := match e with EAskT | EThreads _ | EAskS _ | EStack _ => False | _ => True end.
Definition QI (x : VS) (h : list vev) : Prop :=
  match v_q x with
  | QIdle => True
  | QIter used i acc => exists pre mid, h = pre ++ EAskT :: mid /\ Forall not_ask mid /\ RI x pre mid used i acc
  | QThreads r => exists pre mid, h = pre ++ EAskT :: mid /\ Forall not_ask mid /\ TI x pre mid r
  | QStack t i acc => exists pre mid, h = pre ++ EAskS t :: mid /\ Forall not_ask mid /\ KI x pre mid t i acc
  | QFrame t i f acc => exists pre mid, h = pre ++ EAskS t :: mid /\ Forall not_ask mid /\ KI x pre mid t i (acc ++ [f]) /\ (no_pop t mid -> In f (v_stack x t))
  | QStackAns r => exists pre t mid, h = pre ++ EAskS t :: mid /\ Forall not_ask mid /\ AI pre mid t r
  end.
Lemma env_not_ask x x' es : env x x' es -> Forall not_ask es.
Proof. intros E. apply Forall_forall. intros e X. destruct E; cbn in X; repeat destruct X as [X|X]; try contradiction; subst; try exact Logic.I. destruct H; subst; exact Logic.I. Qed.
Lemma nth_uniq e : NoDup (keys e) -> forall j k t, nth_error e j = Some (Some t) -> nth_error e k = Some (Some t) -> j = k.
Proof.
  induction e as [|[a|] e IH]; intros ND j k t X Y; [destruct j; discriminate| |].
  - cbn in ND. inversion_clear ND. assert (N : forall m, nth_error e m = Some (Some a) -> False) by (intros m Z; apply H; apply in_keys; eauto).
    destruct j as [|j], k as [|k]; cbn in X, Y; try reflexivity; try (injection X as ->); try (injection Y as ->); try (exfalso; eapply N; eassumption). f_equal. eauto.
  - destruct j as [|j], k as [|k]; cbn in X, Y; try discriminate. f_equal. eauto.
Qed.
Lemma no_move_pop t mid : no_move t mid -> no_pop t mid.
Proof. intros Q f. apply (Q f). Qed.

Lemma qi_step x h l x' es : SI x h -> QI x h -> vstep x l = Some (x', es) -> QI x' (h ++ es).
Proof.
  intros SX Q H. destruct (@strat_step x h l x' es SX H) as [L|(EQ & E)].
  2:{ assert (NA := env_not_ask E). unfold QI in *. rewrite EQ. destruct (v_q x) as [|used i acc|r|t i acc|t i f acc|r].
      - exact Logic.I.
      - destruct Q as (pre & mid & HH & N & Q). exists pre, (mid ++ es). csplit; [rewrite HH, <- app_assoc; reflexivity|now apply Forall_app|]. eapply ri_env; eassumption.
      - destruct Q as (pre & mid & HH & N & Q). exists pre, (mid ++ es). csplit; [rewrite HH, <- app_assoc; reflexivity|now apply Forall_app|]. eapply ti_env; eassumption.
      - destruct Q as (pre & mid & HH & N & Q). exists pre, (mid ++ es). csplit; [rewrite HH, <- app_assoc; reflexivity|now apply Forall_app|]. eapply ki_env; eassumption.
      - destruct Q as (pre & mid & HH & N & Q & I). exists pre, (mid ++ es). csplit; [rewrite HH, <- app_assoc; reflexivity|now apply Forall_app|eapply ki_env; eassumption|]. eapply in_env; eassumption.
      - destruct Q as (pre & t & mid & HH & N & Q). exists pre, t, (mid ++ es). csplit; [rewrite HH, <- app_assoc; reflexivity|now apply Forall_app|]. now apply ai_more. }
  destruct L as [-> |[(t & ->)| ->]]; cbn in H.
  - destruct (v_q x); try discriminate. injection H as <- <-. cbn. exists h, []. csplit; [reflexivity|constructor|]. constructor; cbn; try tauto.
    + intros _. csplit; try reflexivity. exact (s_now SX).
    + intros _. left. intros t. split; intros [].
    + constructor.
  - destruct (v_q x); try discriminate. injection H as <- <-. unfold QI. cbn. destruct (mem t (keys (v_ent x))) eqn:M.
    + apply mem_In in M. rewrite (s_now SX) in M. exists h, []. csplit; [reflexivity|constructor|]. constructor; cbn; try tauto.
      * intros _. split; [reflexivity|apply (s_stack SX)].
      * intros _ f X. right. now rewrite (s_stack SX).
    + apply mem_not_In in M. rewrite (s_now SX) in M. exists h, t, []. csplit; [reflexivity|constructor|]. constructor; try tauto; try discriminate.
  - unfold req_step in H. unfold QI in Q. destruct (v_q x) as [|used i acc|r|t i acc|t i f acc|r] eqn:QQ; try discriminate.
    + destruct Q as (pre & mid & HH & N & Q). destruct Q as [A B C D F G]. destruct (Nat.eqb_spec (length (keys (v_ent x))) used) as [U|U].
      * destruct (nxt (skipn i (v_ent x))) as [(t, n)|] eqn:NX; injection H as <- <-; rewrite app_nil_r; cbn; exists pre, mid; (csplit; [exact HH|exact N|]).
        -- destruct (nxt_spec _ NX) as (n' & -> & X1 & X2 & X3).
           assert (X : nth_error (v_ent x) (i + n') = Some (Some t)).
           { rewrite <- X1. clear. revert i. induction (v_ent x) as [|a l IH]; intros [|i]; cbn; try reflexivity; [now destruct (i + n')%nat, n'|apply IH]. }
           assert (IN : In t (keys (v_ent x))) by (apply in_keys; eauto).
           constructor; cbn; auto.
           ++ intros W. destruct (A W) as (A1 & A2 & A3). csplit; auto. rewrite A2. change (S n') with (1 + n')%nat. rewrite keys_firstn. cbn [Nat.add]. now rewrite X2.
           ++ intros u W. apply in_app_or in W as [W|[<-|[]]]; [auto|]. apply moment_now. rewrite <- HH, <- (s_now SX). exact IN.
           ++ apply nodup_snoc; [exact D|]. intros W. destruct (F t W) as (_ & F2). apply F2 in X. lia.
           ++ intros u W. apply in_app_or in W as [W|[<-|[]]].
              ** destruct (F u W) as (F1 & F2). split; [exact F1|]. intros j Y. apply F2 in Y. lia.
              ** split; [now apply (s_lt SX)|]. intros j Y. rewrite (@nth_uniq (v_ent x) (s_nd SX) j (i + n')%nat t Y X). lia.
        -- apply nxt_none in NX.
           assert (FULL : keys (firstn i (v_ent x)) = keys (v_ent x)) by (rewrite <- (firstn_skipn i (v_ent x)) at 2; rewrite keys_app, NX; now rewrite app_nil_r).
           assert (CUR : no_change mid -> acc = now h) by (intros W; destruct (A W) as (_ & -> & _); rewrite FULL; exact (s_now SX)).
           constructor; cbn; try discriminate.
           ++ intros W l X. injection X as <-. apply moment_now. rewrite <- HH. destruct (B W) as [Y|Y]; [auto|lia].
           ++ intros l X. injection X as <-. auto.
           ++ intros W. destruct (A W) as (_ & -> & A3). now rewrite FULL, A3.
           ++ intros W l X. injection X as <-. destruct (G W) as [Y|(Y & _)]; [|congruence]. apply CUR in Y. rewrite <- HH. split; [apply moment_now; now rewrite <- HH|]. intros t _. now rewrite Y.
      * injection H as <- <-. rewrite app_nil_r. cbn. exists pre, mid. csplit; [exact HH|exact N|]. constructor; cbn; try discriminate.
        -- intros _ W. destruct (A W) as (A1 & _). congruence.
        -- intros W. destruct (A W) as (A1 & _). congruence.
    + injection H as <- <-. exact Logic.I.
    + destruct Q as (pre & mid & HH & N & Q). destruct Q as [A B C D]. destruct (nth_error (v_stack x t) i) as [f|] eqn:NE; injection H as <- <-; rewrite app_nil_r; cbn.
      * assert (IN : In f (v_stack x t)) by (eapply nth_error_In; exact NE). exists pre, mid. csplit; [exact HH|exact N| |auto]. constructor; cbn [v_stack v_q with_q]; auto.
        -- intros W. destruct (B W) as (B1 & B2). split; [|exact B2]. rewrite B1. symmetry. exact (firstn_nth _ _ NE).
        -- intros g W. apply in_app_or in W as [W|[<-|[]]]; [auto|]. apply moment_now. rewrite <- HH, <- (s_stack SX). exact IN.
        -- intros W g X. destruct (D W g X) as [Y|Y]; [left; apply in_or_app; now left|]. rewrite (skipn_nth _ _ NE) in Y. destruct Y as [<-|Y]; [left; apply in_or_app; right; now left|now right].
      * apply nth_error_None in NE. exists pre, t, mid. csplit; [exact HH|exact N|]. constructor; try discriminate.
        -- intros W _. destruct (B W) as (-> & B2). rewrite firstn_all2 by exact NE. now rewrite B2.
        -- intros l X. injection X as <-. exact C.
        -- intros W _. exists acc. split; [reflexivity|]. intros g X. destruct (D W g X) as [Y|Y]; [exact Y|]. rewrite skipn_all2 in Y by exact NE. contradiction.
        -- intros W. contradiction.
    + destruct Q as (pre & mid & HH & N & Q & I). destruct (mem f (v_frames x)) eqn:M; injection H as <- <-; rewrite app_nil_r; cbn.
      * exists pre, mid. csplit; [exact HH|exact N|]. destruct Q; constructor; auto.
      * apply mem_not_In in M. assert (NP : ~ no_pop t mid) by (intros W; apply M, (s_fr SX t); auto). exists pre, t, mid. csplit; [exact HH|exact N|]. constructor; try discriminate.
        -- intros W _. elim NP. now apply no_move_pop.
        -- intros _. destruct (no_pop_dec t mid); [contradiction|auto].
        -- intros W. contradiction.
        -- reflexivity.
    + injection H as <- <-. exact Logic.I.
Qed.
Lemma run_qi h x : vrun h x -> QI x h.
Proof. intros R. induction R; [exact Logic.I|]. eapply qi_step; [apply run_si; eassumption|assumption|eassumption]. Qed.

Lemma vstep_one x l x' es : vstep x l = Some (x', es) -> es = [] \/ exists e, es = [e].
Proof.
  intros H. destruct l as [c| |t|t| | | | |t|]; cbn in H.
  - destruct (v_m x); try discriminate. injection H as _ <-. eauto.
  - destruct (v_m x); try discriminate. injection H as _ <-. eauto.
  - destruct (v_m x); try discriminate. destruct (mem _ _); [|discriminate]. injection H as _ <-. eauto.
  - destruct (v_m x), (v_stack x t); try discriminate. destruct (mem _ _); [|discriminate]. injection H as _ <-. eauto.
  - destruct (v_m x); try discriminate. injection H as _ <-. eauto.
  - destruct (v_m x); try discriminate. injection H as _ <-. eauto.
  - unfold main_step in H. destruct (v_m x) as [|t|[|k ks]|k ks|t f|t f|]; try discriminate; try destruct (N.eqb k 1); injection H as _ <-; eauto.
  - destruct (v_q x); try discriminate. injection H as _ <-. eauto.
  - destruct (v_q x); try discriminate. injection H as _ <-. eauto.
  - unfold req_step in H. destruct (v_q x) as [|used i acc|r|t i acc|t i f acc|r]; try discriminate.
    + destruct (Nat.eqb _ _); [destruct (nxt _) as [(t, n)|]|]; injection H as _ <-; eauto.
    + injection H as _ <-. eauto.
    + destruct (nth_error _ _); injection H as _ <-; eauto.
    + destruct (mem _ _); injection H as _ <-; eauto.
    + injection H as _ <-. eauto.
Qed.
Lemma split_snoc {A} (h pre : list A) e x post : h ++ [e] = pre ++ x :: post -> (post = [] /\ pre = h /\ x = e) \/ exists post', post = post' ++ [e] /\ h = pre ++ x :: post'.
Proof.
  intros H. destruct post as [|y post] using rev_ind; [left|right; clear IHpost].
  - apply app_inj_tail in H as (-> & ->). auto.
  - change (pre ++ x :: post ++ [y]) with (pre ++ (x :: post) ++ [y]) in H. rewrite app_assoc in H. apply app_inj_tail in H as (-> & ->). eauto.
Qed.
Lemma at_event (P : list vev -> vev -> Prop) : (forall h x l x' e, vrun h x -> vstep x l = Some (x', [e]) -> P h e) ->
  forall h x, vrun h x -> forall pre e post, h = pre ++ e :: post -> P pre e.
Proof.
  intros ST h x R. induction R as [|h x1 l x2 es R IH E].
  - intros [|? ?] e post X; discriminate.
  - intros pre e post X. destruct (vstep_one _ _ E) as [-> |(e0 & ->)]; [rewrite app_nil_r in X; eauto|].
    apply split_snoc in X as [(_ & -> & ->)|(post' & _ & X)]; [eapply ST; eauto|eauto].
Qed.
(** The last request is unique. *)
Lemma last_split {A} (Q : A -> Prop) a b : ~ Q a -> ~ Q b -> forall p p' m m' : list A, p ++ a :: m = p' ++ b :: m' -> Forall Q m -> Forall Q m' -> p = p' /\ a = b /\ m = m'.
Proof.
  intros NA NB p. induction p as [|c p IH]; intros [|d p'] m m' H F F'; cbn in H.
  - injection H as -> ->. auto.
  - injection H as -> ->. apply Forall_app in F as (_ & F). inversion_clear F. contradiction.
  - injection H as -> <-. apply Forall_app in F' as (_ & F'). inversion_clear F'. contradiction.
  - injection H as -> H. destruct (IH _ _ _ H F F') as (-> & -> & ->). auto.
Qed.
Lemma emit_threads x l x' r : vstep x l = Some (x', [EThreads r]) -> v_q x = QThreads r.
Proof.
  intros H. destruct l as [c| |t|t| | | | |t|]; cbn in H.
  - destruct (v_m x); discriminate.
  - destruct (v_m x); discriminate.
  - destruct (v_m x); try discriminate. destruct (mem _ _); discriminate.
  - destruct (v_m x), (v_stack x t); try discriminate. destruct (mem _ _); discriminate.
  - destruct (v_m x); discriminate.
  - destruct (v_m x); discriminate.
  - unfold main_step in H. destruct (v_m x) as [|t|[|k ks]|k ks|t f|t f|]; try discriminate; try destruct (N.eqb k 1); discriminate.
  - destruct (v_q x); discriminate.
  - destruct (v_q x); discriminate.
  - unfold req_step in H. destruct (v_q x) as [|used i acc|r0|t i acc|t i f acc|r0]; try discriminate.
    + destruct (Nat.eqb _ _); [destruct (nxt _) as [(t, n)|]|]; discriminate.
    + injection H as _ <-. reflexivity.
    + destruct (nth_error _ _); discriminate.
    + destruct (mem _ _); discriminate.
Qed.
Lemma emit_stack x l x' r : vstep x l = Some (x', [EStack r]) -> v_q x = QStackAns r.
Proof.
  intros H. destruct l as [c| |t|t| | | | |t|]; cbn in H.
  - destruct (v_m x); discriminate.
  - destruct (v_m x); discriminate.
  - destruct (v_m x); try discriminate. destruct (mem _ _); discriminate.
  - destruct (v_m x), (v_stack x t); try discriminate. destruct (mem _ _); discriminate.
  - destruct (v_m x); discriminate.
  - destruct (v_m x); discriminate.
  - unfold main_step in H. destruct (v_m x) as [|t|[|k ks]|k ks|t f|t f|]; try discriminate; try destruct (N.eqb k 1); discriminate.
  - destruct (v_q x); discriminate.
  - destruct (v_q x); discriminate.
  - unfold req_step in H. destruct (v_q x) as [|used i acc|r0|t i acc|t i f acc|r0]; try discriminate.
    + destruct (Nat.eqb _ _); [destruct (nxt _) as [(t, n)|]|]; discriminate.
    + destruct (nth_error _ _); discriminate.
    + destruct (mem _ _); discriminate.
    + injection H as _ <-. reflexivity.
Qed.

(* ------------------------------------------------------------------ theorems *)
Lemma na_ask : ~ not_ask EAskT. Proof. intros []. Qed.
Lemma threads_facts h x pre mid r post : vrun h x -> h = pre ++ EAskT :: mid ++ EThreads r :: post -> ~ In EAskT mid ->
  exists x0, vrun (pre ++ EAskT :: mid) x0 /\ TI x0 pre mid r.
Proof.
  intros R E NI.
  refine (@at_event (fun h e => forall r, e = EThreads r -> forall pre mid, h = pre ++ EAskT :: mid -> ~ In EAskT mid -> exists x0, vrun h x0 /\ TI x0 pre mid r) _ h x R (pre ++ EAskT :: mid) (EThreads r) post _ r eq_refl pre mid eq_refl NI);
    [|rewrite E, <- app_assoc; reflexivity].
  clear. intros h x l x' e R E r -> pre mid HH NI. apply emit_threads in E. assert (Q := run_qi R). unfold QI in Q. rewrite E in Q.
  destruct Q as (pre' & mid' & H' & N & Q). exists x. split; [exact R|].
  assert (G : pre = pre' /\ mid = mid').
  { rewrite HH in H'. clear -NI N H'. revert pre' H'. induction pre as [|c p IH]; intros [|d p'] H; cbn in H.
    - injection H as ->. auto.
    - injection H as <- H. exfalso. apply NI. rewrite H. apply in_or_app. right. now left.
    - injection H as -> H. exfalso. rewrite <- H in N. apply Forall_app in N as (_ & N). inversion_clear N. contradiction.
    - injection H as -> H. destruct (IH _ H) as (-> & ->). auto. }
  destruct G as (-> & ->). exact Q.
Qed.
Lemma stack_facts h x pre t mid r post : vrun h x -> h = pre ++ EAskS t :: mid ++ EStack r :: post -> (forall u, ~ In (EAskS u) mid) -> AI pre mid t r.
Proof.
  intros R E NI.
  refine (@at_event (fun h e => forall r, e = EStack r -> forall pre mid, h = pre ++ EAskS t :: mid -> (forall u, ~ In (EAskS u) mid) -> AI pre mid t r) _ h x R (pre ++ EAskS t :: mid) (EStack r) post _ r eq_refl pre mid eq_refl NI);
    [|rewrite E, <- app_assoc; reflexivity].
  clear. intros h x l x' e R E r -> pre mid HH NI. apply emit_stack in E. assert (Q := run_qi R). unfold QI in Q. rewrite E in Q.
  destruct Q as (pre' & t' & mid' & H' & N & Q).
  assert (G : pre = pre' /\ t = t' /\ mid = mid').
  { rewrite HH in H'. clear -NI N H'. revert pre' H'. induction pre as [|c p IH]; intros [|d p'] H; cbn in H.
    - injection H as -> ->. auto.
    - injection H as <- H. exfalso. apply (NI t'). rewrite H. apply in_or_app. right. now left.
    - injection H as -> H. exfalso. rewrite <- H in N. apply Forall_app in N as (_ & N). inversion_clear N. contradiction.
    - injection H as -> H. destruct (IH _ H) as (-> & -> & ->). auto. }
  destruct G as (-> & -> & ->). exact Q.
Qed.

(** A thread list contains threads only that existed at some moment since the request, and
    each once; it is an error only if a thread came or went meanwhile. *)
Theorem C86_threads_existed h x pre mid r post : vrun h x -> h = pre ++ EAskT :: mid ++ EThreads r :: post -> ~ In EAskT mid ->
  match r with
  | Some l => NoDup l /\ forall t, In t l -> exists m1 m2, mid = m1 ++ m2 /\ In t (now (pre ++ EAskT :: m1))
  | None => exists t, In (ENew t) mid \/ In (EDel t) mid
  end.
Proof.
  intros R E NI. destruct (@threads_facts h x pre mid r post R E NI) as (x0 & R0 & [A B C D F]). destruct r as [l|].
  - exact (C l eq_refl).
  - destruct (no_change_dec mid) as [Q|Q]; [now elim (B eq_refl)|exact Q].
Qed.
Print Assumptions C86_threads_existed.

(** If no thread exits meanwhile the list is the list of some moment since the request. *)
Theorem C86_threads_moment_partial h x pre mid l post : vrun h x -> h = pre ++ EAskT :: mid ++ EThreads (Some l) :: post -> ~ In EAskT mid ->
  no_exit mid -> exists m1 m2, mid = m1 ++ m2 /\ l = now (pre ++ EAskT :: m1).
Proof. intros R E NI Q. destruct (@threads_facts h x pre mid (Some l) post R E NI) as (x0 & R0 & [A B C D F]). exact (A Q l eq_refl). Qed.
Print Assumptions C86_threads_moment_partial.

(** A stack trace contains frames only that were on that thread's stack at some moment since
    the request; it is an error only if the thread was not there or a frame of it was left
    meanwhile. *)
Theorem C86_stack_existed h x pre t mid r post : vrun h x -> h = pre ++ EAskS t :: mid ++ EStack r :: post -> (forall u, ~ In (EAskS u) mid) ->
  match r with
  | Some l => In t (now pre) /\ forall f, In f l -> exists m1 m2, mid = m1 ++ m2 /\ In f (stack (pre ++ EAskS t :: m1) t)
  | None => ~ In t (now pre) \/ exists f, In (EPop t f) mid
  end.
Proof.
  intros R E NI. destruct (@stack_facts h x pre t mid r post R E NI) as [A B C D F]. destruct r as [l|]; [|now apply B].
  split; [|exact (C l eq_refl)]. destruct (mem t (now pre)) eqn:M; [now apply mem_In|]. apply mem_not_In, F in M. discriminate.
Qed.
Print Assumptions C86_stack_existed.

(** If no frame of the thread is left meanwhile, the trace misses none of its frames; if
    none is entered either, it is the stack. *)
Theorem C86_stack_complete_partial h x pre t mid r post : vrun h x -> h = pre ++ EAskS t :: mid ++ EStack r :: post -> (forall u, ~ In (EAskS u) mid) ->
  In t (now pre) ->
  (no_pop t mid -> exists l, r = Some l /\ forall f, In f (stack pre t) -> In f l) /\
  (no_move t mid -> r = Some (stack pre t)).
Proof. intros R E NI I. destruct (@stack_facts h x pre t mid r post R E NI) as [A B C D F]. split; intros Q; [exact (D Q I)|exact (A Q I)]. Qed.
Print Assumptions C86_stack_complete_partial.

Lemma stopped_quiet h x : vrun h x -> forall pre m, h = pre ++ EStop :: m -> ~ In EGo m ->
  v_m x = MStop /\ no_change m /\ (forall t, no_move t m) /\ no_event m.
Proof.
  intros R. induction R as [|h x l x' es R IH E]; intros pre m X NG; [destruct pre; discriminate|].
  assert (SX := run_si R).
  destruct (@strat_step x h l x' es SX E) as [L|(EQ & EN)].
  - destruct (si_req SX L E) as (_ & _ & _ & _ & _ & EM & _). rewrite EM.
    destruct (vstep_one _ _ E) as [-> |(e & ->)]; [rewrite app_nil_r in X; eauto|].
    assert (EA : ~ not_ask e).
    { destruct L as [-> |[(t & ->)| ->]]; cbn in E.
      - destruct (v_q x); try discriminate. injection E as _ <-. exact (fun z => z).
      - destruct (v_q x); try discriminate. injection E as _ <-. exact (fun z => z).
      - unfold req_step in E. destruct (v_q x) as [|used i acc|r0|t i acc|t i f acc|r0]; try discriminate.
        + destruct (Nat.eqb _ _); [destruct (nxt _) as [(t, n)|]|]; discriminate.
        + injection E as _ <-. exact (fun z => z).
        + destruct (nth_error _ _); discriminate.
        + destruct (mem _ _); discriminate.
        + injection E as _ <-. exact (fun z => z). }
    apply split_snoc in X as [(-> & -> & EE)|(m' & -> & X)]; [exfalso; apply EA; rewrite <- EE; exact Logic.I|].
    destruct (IH _ _ X) as (A & B & C & D); [intros Y; apply NG, in_or_app; now left|]. csplit; [exact A| | |].
    + intros t. split; intros Y; (apply in_app_or in Y as [Y|[Y|[]]]; [qq (B t) (exact Y)|apply EA; rewrite Y; exact Logic.I]).
    + intros t f. split; intros Y; (apply in_app_or in Y as [Y|[Y|[]]]; [qq (C t f) (exact Y)|apply EA; rewrite Y; exact Logic.I]).
    + intros t. split; intros Y; (apply in_app_or in Y as [Y|[Y|[]]]; [qq (D t) (exact Y)|apply EA; rewrite Y; exact Logic.I]).
  - assert (NS : (exists e, es = [e] /\ e <> EStop /\ e <> EGo) \/ es = [] -> v_m x <> MStop -> v_m x' = MStop /\ no_change m /\ (forall t, no_move t m) /\ no_event m).
    { intros ES NM. exfalso. apply NM. destruct ES as [(e & -> & N1 & N2)| ->].
      - apply split_snoc in X as [(-> & -> & EE)|(m' & -> & X)]; [congruence|]. destruct (IH _ _ X) as (A & _); [intros Y; apply NG, in_or_app; now left|exact A].
      - rewrite app_nil_r in X. destruct (IH _ _ X NG) as (A & _). exact A. }
    destruct EN; try (apply NS; [|assumption]; first [right; reflexivity|left; eexists; split; [reflexivity|split; discriminate]]).
    + apply NS; [|assumption]. left. eexists. split; [reflexivity|]. destruct H; subst; split; discriminate.
    + apply split_snoc in X as [(-> & -> & _)|(m' & -> & X)].
      * csplit; [assumption| | |]; intros t; try intros f; split; intros [].
      * exfalso. destruct (IH _ _ X) as (A & _); [intros Y; apply NG, in_or_app; now left|]. congruence.
    + apply split_snoc in X as [(_ & _ & Y)|(m' & -> & X)]; [discriminate|]. exfalso. apply NG, in_or_app. right. now left.
Qed.
(** While the playbook is stopped, both are exact. *)
Theorem C86_exact_while_stopped h x pre m0 mid r post : vrun h x ->
  (h = pre ++ EStop :: m0 ++ EAskT :: mid ++ EThreads r :: post -> ~ In EGo (m0 ++ mid) -> ~ In EAskT mid -> r = Some (now pre)) /\
  (forall t, h = pre ++ EStop :: m0 ++ EAskS t :: mid ++ EStack r :: post -> ~ In EGo (m0 ++ mid) -> (forall u, ~ In (EAskS u) mid) ->
    r = if mem t (now pre) then Some (stack pre t) else None).
Proof.
  assert (PRE : forall h x, vrun h x -> forall a b, h = a ++ b -> exists y, vrun a y).
  { clear. intros h x R. induction R as [|h x l x' es R IH E]; intros a b X.
    - destruct a; [|discriminate]. eexists. constructor.
    - destruct (vstep_one _ _ E) as [-> |(e & ->)]; [rewrite app_nil_r in X; eauto|].
      destruct b as [|y b] using rev_ind; [rewrite app_nil_r in X; subst; eexists; econstructor; eassumption|]. rewrite app_assoc in X. apply app_inj_tail in X as (X & _). eauto. }
  intros R. split.
  - intros E NG NI.
    destruct (PRE _ _ R (pre ++ EStop :: m0 ++ EAskT :: mid) (EThreads r :: post)) as (y & Y); [rewrite E; rewrite <- app_assoc; cbn; rewrite <- app_assoc; reflexivity|].
    destruct (stopped_quiet Y _ _ eq_refl) as (_ & Q & _ & _); [intros X; apply NG; apply in_app_or in X as [X|[X|X]]; [apply in_or_app; now left|discriminate|apply in_or_app; now right]|].
    destruct (@threads_facts h x (pre ++ EStop :: m0) mid r post R) as (x0 & _ & F); [rewrite E, <- app_assoc; reflexivity|exact NI|].
    assert (Q0 : no_change mid) by (intros t; split; intros X; qq (Q t) (apply in_or_app; right; now right)).
    rewrite (t4 F Q0). f_equal. apply now_mid. intros t; split; (intros [X|X]; [discriminate|qq (Q t) (apply in_or_app; now left)]).
  - intros t E NG NI.
    destruct (PRE _ _ R (pre ++ EStop :: m0 ++ EAskS t :: mid) (EStack r :: post)) as (y & Y); [rewrite E; rewrite <- app_assoc; cbn; rewrite <- app_assoc; reflexivity|].
    destruct (stopped_quiet Y _ _ eq_refl) as (_ & Q & M & _); [intros X; apply NG; apply in_app_or in X as [X|[X|X]]; [apply in_or_app; now left|discriminate|apply in_or_app; now right]|].
    assert (F : AI (pre ++ EStop :: m0) mid t r) by (eapply stack_facts; [exact R|rewrite E, <- app_assoc; reflexivity|exact NI]).
    assert (N0 : now (pre ++ EStop :: m0) = now pre) by (apply now_mid; intros u; split; (intros [X|X]; [discriminate|qq (Q u) (apply in_or_app; now left)])).
    destruct (mem t (now pre)) eqn:T.
    + apply mem_In in T. rewrite (a1 F).
      * f_equal. apply stack_mid. intros f; split; (intros [X|X]; [discriminate|qq (M t f) (apply in_or_app; now left)]).
      * intros f; split; intros X; qq (M t f) (apply in_or_app; right; now right).
      * now rewrite N0.
    + apply mem_not_In in T. apply (a5 F). now rewrite N0.
Qed.
Print Assumptions C86_exact_while_stopped.

(* ------------------------------------------------------------------ what the client shows *)
Definition PI (x : VS) (h : list vev) : Prop :=
  match v_m x with MStarted t => In t (now h) | MExited t _ => ~ In t (now h) | _ => True end.
Lemma run_pi h x : vrun h x -> PI x h.
Proof.
  intros R. induction R as [|h x l x' es R IH E]; [exact Logic.I|]. assert (SX := run_si R). assert (SX' := run_si (@vrun_step h x l x' es R E)).
  assert (RQ : is_req l -> PI x' (h ++ es)).
  { intros L. destruct (si_req SX L E) as (EE & _ & _ & _ & _ & EM & _). unfold PI in *. rewrite EM, <- (s_now SX'), EE, (s_now SX). exact IH. }
  destruct l as [c| |t|t| | | | |t|]; try (apply RQ; unfold is_req; eauto; fail); clear RQ; unfold PI in *; cbn in E.
  - destruct (v_m x); try discriminate. injection E as <- <-. cbn. rewrite now_snoc. cbn. apply in_or_app. right. now left.
  - destruct (v_m x); try discriminate. injection E as <- <-. exact Logic.I.
  - destruct (v_m x); try discriminate. destruct (mem _ _); [|discriminate]. injection E as <- <-. exact Logic.I.
  - destruct (v_m x), (v_stack x t); try discriminate. destruct (mem _ _); [|discriminate]. injection E as <- <-. exact Logic.I.
  - destruct (v_m x); try discriminate. injection E as <- <-. exact Logic.I.
  - destruct (v_m x); try discriminate. injection E as <- <-. exact Logic.I.
  - unfold main_step in E. destruct (v_m x) as [|t|[|k ks]|k ks|t f|t f|]; try discriminate; try destruct (N.eqb k 1); injection E as <- <-; try exact Logic.I.
    cbn. rewrite now_snoc. cbn. rewrite in_filter_ne. tauto.
Qed.
Lemma client_snoc h es : client (h ++ es) = fold_left (fun l e => match e with EStarted t => if mem t l then l else l ++ [t] | EExited t => filter (fun u => negb (N.eqb u t)) l | EThreads (Some l') => l' | _ => l end) es (client h).
Proof. unfold client. now rewrite fold_left_app. Qed.
Definition listings_undisturbed (h : list vev) : Prop :=
  forall pre mid r post, h = pre ++ EAskT :: mid ++ EThreads r :: post -> ~ In EAskT mid -> no_event mid.
Lemma run_client h x : vrun h x -> listings_undisturbed h -> forall t, pend (v_m x) <> Some t -> (In t (client h) <-> In t (now h)).
Proof.
  intros R. induction R as [|h x l x' es R IH E]; intros G t P; [reflexivity|]. assert (SX := run_si R). assert (SX' := run_si (@vrun_step h x l x' es R E)).
  specialize (IH (fun pre mid r post X => G pre mid r (post ++ es) (eq_trans (f_equal (fun z => z ++ es) X) (ltac:(rewrite <- app_assoc; cbn; rewrite <- app_assoc; reflexivity))))).
  destruct (@strat_step x h l x' es SX E) as [L|(EQ & EN)].
  - destruct (si_req SX L E) as (EE & _ & _ & _ & _ & EM & _). rewrite EM in P.
    rewrite <- (s_now SX'), EE, (s_now SX).
    destruct (vstep_one _ _ E) as [-> |(e & ->)]; [rewrite app_nil_r; auto|]. rewrite client_snoc. cbn.
    destruct e as [u|u|u|u|u f|u f| | | |[l'|]|u|r]; auto.
    + exfalso. destruct (s_now SX'). destruct L as [-> |[(w & ->)| ->]]; cbn in E; try (destruct (v_q x); discriminate).
      unfold req_step in E. destruct (v_q x) as [|used i acc|r0|w i acc|w i f acc|r0]; try discriminate; [destruct (Nat.eqb _ _); [destruct (nxt _) as [(w, n)|]|]|destruct (nth_error _ _)|destruct (mem _ _)]; discriminate.
    + exfalso. destruct (s_now SX'). destruct L as [-> |[(w & ->)| ->]]; cbn in E; try (destruct (v_q x); discriminate).
      unfold req_step in E. destruct (v_q x) as [|used i acc|r0|w i acc|w i f acc|r0]; try discriminate; [destruct (Nat.eqb _ _); [destruct (nxt _) as [(w, n)|]|]|destruct (nth_error _ _)|destruct (mem _ _)]; discriminate.
    + assert (E0 := E). apply emit_threads in E. assert (Q := run_qi R). unfold QI in Q. rewrite E in Q. destruct Q as (pre & mid & HH & N & Q).
      assert (NI : ~ In EAskT mid) by (intros X; rewrite Forall_forall in N; now apply N in X).
      assert (NE : no_event mid) by (apply (G pre mid (Some l') []); [rewrite HH, <- app_assoc; reflexivity|exact NI]).
      destruct (t5 Q NE eq_refl) as (_ & T). rewrite HH. now apply T.
  - assert (PX := run_pi R). unfold PI in PX. rewrite client_snoc, now_snoc. destruct EN; cbn; try (apply IH; congruence).
    + rewrite IH by congruence. split; [intros X; apply in_or_app; now left|]. intros X. apply in_app_or in X as [X|[X|[]]]; [exact X|congruence].
    + rewrite in_filter_ne, IH by congruence. split; [intros X; split; [exact X|congruence]|tauto].
    + destruct (N.eqb_spec t t0) as [EQ0|NE].
      * subst t0. destruct H as [-> | ->].
        -- assert (M : v_m x = MStarted t) by now apply H6. rewrite M in PX. split; [auto|]. intros _. cbn. destruct (mem t (client h)) eqn:MM; [now apply mem_In|]. apply in_or_app. right. now left.
        -- assert (M : exists ks, v_m x = MExited t ks).
           { destruct (v_m x) as [|u|ks|u ks|u f|u f|]; cbn in H3; try discriminate; injection H3 as ->; [|eauto]. exfalso. assert (Z : EExited t = EStarted t) by now apply H6. discriminate. }
           destruct M as (ks & M). rewrite M in PX. cbn. rewrite in_filter_ne. split; [tauto|]. intros X. contradiction.
      * assert (I := IH t ltac:(congruence)). destruct H as [-> | ->]; cbn.
        -- destruct (mem t0 (client h)); [exact I|]. rewrite in_app_iff. cbn. rewrite I. split; [intros [X|[X|[]]]; [exact X|congruence]|tauto].
        -- rewrite in_filter_ne. tauto.
Qed.
(** A client that does what the messages say shows the threads that exist, whenever the
    strategy thread is not between a change and its event, if no thread started or exited
    while one of its listings was being answered. *)
Theorem C86_client_list_partial h x : vrun h x -> listings_undisturbed h ->
  (forall t, v_m x <> MStarted t) -> (forall t ks, v_m x <> MExited t ks) -> forall t, In t (client h) <-> In t (now h).
Proof.
  intros R G A B t. apply (run_client R G). destruct (v_m x) as [|u|ks|u ks|u f|u f|]; cbn; try discriminate; [now elim (A u)|now elim (B u ks)].
Qed.
Print Assumptions C86_client_list_partial.

(* ------------------------------------------------------------------ concrete runs *)
Fixpoint vgo (x : VS) (h : list vev) (ls : list vlabel) : option (VS * list vev) :=
  match ls with
  | [] => Some (x, h)
  | l :: ls => match vstep x l with Some (x', es) => vgo x' (h ++ es) ls | None => None end
  end.
Lemma vgo_run ls : forall x h x' h', vrun h x -> vgo x h ls = Some (x', h') -> vrun h' x'.
Proof.
  induction ls as [|l ls IH]; intros x h x' h' R E; cbn in E; [injection E as <- <-; exact R|].
  destruct (vstep x l) as [(x1, es)|] eqn:S; [|discriminate]. eapply IH; [|exact E]. econstructor; eassumption.
Qed.
Ltac runs ls :=
  destruct (vgo v_init [] ls) as [(x, h)|] eqn:E; [|vm_compute in E; discriminate];
  pose proof (@vgo_run ls v_init [] x h vrun_nil E) as R; vm_compute in E; injection E as <- <-.

(** A refreshed inventory replaces a thread while the list is read: the answer is no error
    and has both threads, which never existed together. *)
Theorem C86_threads_moment_refuted : exists h x pre mid post, vrun h x /\ h = pre ++ EAskT :: mid ++ EThreads (Some [1; 2; 3]) :: post /\
  ~ In EAskT mid /\ forall m1 m2, mid = m1 ++ m2 -> now (pre ++ EAskT :: m1) <> [1; 2; 3].
Proof.
  runs [LNew false; LMain; LThreads; LReq; LReq; LExit; LMain; LMain; LMain; LMain; LNew false; LReq; LReq; LReq].
  eexists _, _, [ENew 2; EStarted 2], [EDel 2; EExited 2; ENew 3], []. csplit; [exact R|reflexivity|cbn; intuition discriminate|].
  intros m1 m2 X. destruct m1 as [|a [|b [|c [|d m1]]]]; cbn in X; inversion X; subst; vm_compute; discriminate.
Qed.
Print Assumptions C86_threads_moment_refuted.

(** Reading the list can fail while the first task of another host starts. *)
Theorem C86_threads_answer_refuted : exists h x, vrun h x /\ In (EThreads None) h.
Proof. runs [LThreads; LReq; LNew false; LReq; LReq]. eexists _, _. split; [exact R|]. cbn. tauto. Qed.
Print Assumptions C86_threads_answer_refuted.

(** A stack trace misses the frame of the include that is still running (2: the task, left
    while the trace was read; 1: the include). *)
Theorem C86_stack_complete_refuted : exists h x pre mid post, vrun h x /\ h = pre ++ EAskS 2 :: mid ++ EStack (Some [2]) :: post /\
  In 1 (stack pre 2) /\ In 1 (stack h 2).
Proof.
  runs [LNew false; LMain; LPush 2; LMain; LPush 2; LMain; LStack 2; LReq; LReq; LPop 2; LMain; LReq; LReq].
  eexists _, _, [ENew 2; EStarted 2; EPush 2 1; EPush 2 2], [EPop 2 2], []. csplit; [exact R|reflexivity|vm_compute; tauto|vm_compute; tauto].
Qed.
Print Assumptions C86_stack_complete_refuted.

(** A frame is shown twice. *)
Theorem C86_stack_distinct_refuted : exists h x, vrun h x /\ In (EStack (Some [1; 1])) h.
Proof. runs [LNew false; LMain; LPush 2; LMain; LStack 2; LReq; LReq; LPush 2; LMain; LReq; LReq; LReq; LReq]. eexists _, _. split; [exact R|]. cbn. tauto. Qed.
Print Assumptions C86_stack_distinct_refuted.

(** A thread that exits while a listing is answered stays in the client's list. *)
Theorem C86_client_list_refuted : exists h x, vrun h x /\ v_m x = MIdle /\ v_q x = QIdle /\ client h = [1; 2] /\ now h = [1].
Proof.
  runs [LNew false; LMain; LThreads; LReq; LReq; LReq; LExit; LMain; LMain; LMain; LMain; LReq].
  eexists _, _. csplit; [exact R|reflexivity..].
Qed.
Print Assumptions C86_client_list_refuted.

(** The hypotheses are met: a stop, both requests during it, two threads and two frames. *)
Example C86_stopped_run : exists h x pre m0 mid post, vrun h x /\ h = pre ++ EStop :: m0 ++ EAskS 2 :: mid ++ EStack (Some [2; 1]) :: post /\
  m0 = [EAskT; EThreads (Some [1; 2; 3])] /\ ~ In EGo (m0 ++ mid) /\ now pre = [1; 2; 3] /\ stack pre 2 = [2; 1] /\ listings_undisturbed h.
Proof.
  runs [LNew false; LMain; LNew true; LMain; LPush 2; LMain; LPush 2; LMain; LStop; LThreads; LReq; LReq; LReq; LReq; LReq; LStack 2; LReq; LReq; LReq; LReq; LReq; LReq; LGo].
  eexists _, _, [ENew 2; EStarted 2; ENew 3; EStarted 3; EPush 2 1; EPush 2 2], [EAskT; EThreads (Some [1; 2; 3])], [], [EGo].
  csplit; [exact R|reflexivity|reflexivity|cbn; intuition discriminate|reflexivity|reflexivity|].
  intros pre mid r post X _. assert (F : forall e, In e mid -> match e with EThreads _ => True | EAskS _ | EStack _ | EGo => True | _ => False end).
  { do 7 (destruct pre as [|? pre]; [discriminate|injection X as _ X]). destruct pre as [|? pre].
    2:{ exfalso. injection X as _ X. do 4 (destruct pre as [|? pre]; [discriminate|injection X as _ X]). destruct pre; discriminate. }
    injection X as X. intros e Y. assert (Z : In e (mid ++ EThreads r :: post)) by (apply in_or_app; now left). rewrite <- X in Z. cbn in Z.
    repeat destruct Z as [Z|Z]; subst; try exact Logic.I. contradiction. }
  intros t. split; intros Y; now apply F in Y.
Qed.
