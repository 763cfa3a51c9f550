(** C28: a stopped thread goes on only after the client resumed it, and then it does. *)
From Verif Require Import PyBase PyDict DbgTypes ThreadModel LockModel.
Set Implicit Arguments.
Local Open Scope N_scope.
#[local] Arguments dkeys : simpl never.
#[local] Arguments dset : simpl never.
#[local] Arguments ddel : simpl never.
#[local] Arguments dget : simpl never.
Ltac csplit := repeat match goal with |- _ /\ _ => split end.

(** No request makes a thread wait: strategy/debug.py:671, 675, 688, 943-959. *)
Definition todo_wf (todo : list (scope * TState)) : Prop := forall sc st, In (sc, st) todo -> st <> TWait.

(** Whatever the scheduler does, some action is possible until an event in [Q] is shown,
    and one is shown after finitely many actions. *)
Inductive will_show (Q : lev -> Prop) : LS -> Prop :=
| will_later s : (exists l s' es, lstep s l = Some (s', es)) ->
    (forall l s' es, lstep s l = Some (s', es) -> (exists e, In e es /\ Q e) \/ will_show Q s') -> will_show Q s.

(* ------------------------------------------------------------------ invariant *)
Definition s_tid (p : spc) : option N :=
  match p with
  | SAcq _ t | SDecide _ t | SEmit _ t | SCheck _ t | SWait _ t | SBlocked _ t | SReacq _ t | SFin _ t _ => Some t
  | _ => None end.
Definition s_holds (p : spc) : bool :=
  match p with SDecide _ _ | SEmit _ _ | SCheck _ _ | SWait _ _ | SFin _ _ _ => true | _ => false end.
Definition r_holds (p : rpc) : bool := match p with RIter _ _ _ _ | RNotify | RRel _ => true | _ => false end.
Definition state_of (tid : N) (s : LS) : option TState := option_map t_state (dget (l_threads s) tid).

(** Keys a request took from the dict earlier. *)
Definition old_keys (s : LS) (c : list N) : Prop :=
  incl c (dkeys (l_threads s)) \/
  (forall k, In k c -> In k (dkeys (l_threads s)) -> k = 1 \/ exists ks, l_s s = SExit ks /\ In k ks).

Record LInv (s : LS) : Prop := {
  v_nd : NoDup (dkeys (l_threads s));
  v_lt : forall k, In k (dkeys (l_threads s)) -> k < l_next s;
  v_next : 2 <= l_next s;
  v_tid : forall tid, s_tid (l_s s) = Some tid -> In tid (dkeys (l_threads s)) /\ tid <> 1;
  v_lock : l_lock s = if s_holds (l_s s) then Some OStrategy else if r_holds (l_r s) then Some OReceive else None;
  v_excl : s_holds (l_s s) && r_holds (l_r s) = false;
  v_exit : forall ks, l_s s = SExit ks -> forall k, In k (dkeys (l_threads s)) -> k = 1 \/ In k ks;
  v_emit : forall v tid, (l_s s = SEmit v tid \/ l_s s = SWait v tid) -> state_of tid s = Some TWait;
  v_todo : todo_wf (l_todo s);
  v_acq : forall sc ks st, l_r s = RAcq sc ks st -> st <> TWait /\
     match sc with One t => ks = [t] | Live => True | Copy => old_keys s ks /\ forall k, In k ks -> k < l_next s end;
  v_iter : forall live ks rest st, l_r s = RIter live ks rest st -> st <> TWait /\ incl rest ks /\
     ((live = false /\ exists t, ks = [t] /\ (rest = [t] \/ rest = [])) \/
      (live = true /\ forall v tid, l_s s = SBlocked v tid \/ l_s s = SReacq v tid -> ks = dkeys (l_threads s)) \/
      (live = false /\ old_keys s ks /\ forall k, In k ks -> k < l_next s));
  v_lost : forall v tid, l_s s = SBlocked v tid -> l_notified s = false -> state_of tid s <> Some TWait ->
     l_r s = RNotify \/ exists live ks rest st, l_r s = RIter live ks rest st /\ incl rest (dkeys (l_threads s)) /\
       (live = true -> ks = dkeys (l_threads s)) }.

Lemma linv_init todo : todo_wf todo -> LInv (l_init todo).
Proof.
  intros W. constructor; cbn; try discriminate; auto; try lia.
  - change (NoDup [1]). constructor; [intros []|constructor].
  - intros k X. change (In k [1]) in X. destruct X as [<-|[]]. lia.
  - intros v tid [X|X]; discriminate.
Qed.

Lemma decide_wait v t t' ev : decide v t = (t', Some ev) -> t_state t' = TWait.
Proof.
  destruct v; cbn.
  - unfold should_break. destruct (break_step_over t task); [intros X; injection X as <- _; reflexivity|].
    destruct (break_step_out t task); [intros X; injection X as <- _; reflexivity|].
    destruct (break_step_in t); [intros X; injection X as <- _; reflexivity|].
    destruct bp; [|discriminate]. destruct (tstate_eqb (t_state t) TStepOut); [discriminate|intros X; injection X as <- _; reflexivity].
  - unfold should_stop_on_exception. match goal with |- context [match ?x with Some _ => _ | None => _ end] => destruct x as [(m, tx)|] end; [|discriminate].
    intros X; injection X as <- _. reflexivity.
Qed.
Lemma set_state_wait st t : st <> TWait -> t_state (set_state st t) <> TWait.
Proof.
  intros N. destruct st; unfold set_state; cbn; try congruence; try discriminate; destruct (t_stopped t) as [n|]; cbn; try discriminate; try congruence.
  destruct (is_include n); discriminate.
Qed.


(** An action that keeps the keys keeps everything that is about keys. *)
Lemma old_keys_same s s' c : dkeys (l_threads s') = dkeys (l_threads s) -> (forall ks, l_s s = SExit ks -> l_s s' = SExit ks) -> old_keys s c -> old_keys s' c.
Proof.
  intros E X [H|H]; [left|right]; rewrite E; auto. intros k A B. destruct (H k A B) as [C|(ks & C & D)]; eauto.
Qed.

Lemma step_linv s l s' es : LInv s -> lstep s l = Some (s', es) -> LInv s'.
Proof.
  intros I H. pose proof I as I0. destruct I as [ND LT NX TI LK EX XT EM TD AQ IT LO].
  destruct l as [h| |v tid| |fail]; cbn [lstep] in H.
  - (* LNew *)
    destruct (l_s s) eqn:P; try discriminate. injection H as <- <-.
    assert (FR : ~ In (l_next s) (dkeys (l_threads s))) by (intros X; apply LT in X; lia).
    set (t := mkThread (l_next s) (Some h) [] TContinue None) in *.
    assert (KEY : forall k, In k (dkeys (dset (l_threads s) (l_next s) t)) <-> k = l_next s \/ In k (dkeys (l_threads s))) by (intros k; apply In_dkeys_dset).
    assert (OK : forall c, old_keys s c -> (forall k, In k c -> k < l_next s) ->
       old_keys (mkLS (dset (l_threads s) (l_next s) t) (l_next s + 1) (l_lock s) (l_notified s) SIdle (l_r s) (l_todo s)) c).
    { intros c [O|O] B.
      - left. intros k X. cbn. apply KEY. right. now apply O.
      - right. cbn. intros k X Y. apply KEY in Y. destruct Y as [->|Y]; [apply B in X; lia|]. destruct (O k X Y) as [Z|(ks & Z & _)]; auto. congruence. }
    constructor; cbn; auto; try discriminate.
    + now apply NoDup_dset.
    + intros k X. apply KEY in X. destruct X as [->|X]; [lia|]. apply LT in X. lia.
    + lia.
    + intros v tid [X|X]; discriminate.
    + intros sc ks st E. destruct (AQ sc ks st E) as (A & B). split; auto. destruct sc; auto. destruct B as (B1 & B2). split; auto. intros k X. apply B2 in X. lia.
    + intros live ks rest st E. destruct (IT live ks rest st E) as (A & B & C). csplit; auto. destruct C as [C|[(C1 & C2)|(C1 & C2 & C3)]]; auto.
      * right; left. split; auto. intros v tid [X|X]; discriminate.
      * right; right. csplit; auto. intros k X. apply C3 in X. lia.
  - (* LExit *)
    destruct (l_s s) eqn:P; try discriminate. injection H as <- <-.
    assert (OK : forall c, old_keys s c -> old_keys (with_s (SExit (dkeys (l_threads s))) s) c).
    { intros c [O|O]; [now left|]. right. cbn. intros k X Y. destruct (O k X Y) as [Z|(ks & Z & _)]; auto. congruence. }
    constructor; cbn; auto; try discriminate.
    + intros ks E. injection E as <-. auto.
    + intros v tid [X|X]; discriminate.
    + intros sc ks st E. destruct (AQ sc ks st E) as (A & B). split; auto. destruct sc; auto. destruct B; auto.
    + intros live ks rest st E. destruct (IT live ks rest st E) as (A & B & C). csplit; auto. destruct C as [C|[(C1 & C2)|(C1 & C2 & C3)]]; [auto| |right; right; auto].
      right; left. split; auto. intros v tid [X|X]; discriminate.
  - (* LVisit *)
    destruct (l_s s) eqn:P; try discriminate. destruct (dhas (l_threads s) tid && negb (N.eqb tid 1)) eqn:C; [|discriminate]. injection H as <- <-.
    apply andb_true_iff in C. destruct C as (C1 & C2). apply dhas_In in C1. apply negb_true_iff, N.eqb_neq in C2.
    assert (OK : forall c, old_keys s c -> old_keys (with_s (SAcq v tid) s) c).
    { intros c O. apply (@old_keys_same s); [reflexivity|intros ks X; congruence|exact O]. }
    constructor; cbn; auto; try discriminate.
    + intros k E. injection E as <-. auto.
    + intros v0 tid0 [X|X]; discriminate.
    + intros sc ks st E. destruct (AQ sc ks st E) as (A & B). split; auto. destruct sc; auto. destruct B; auto.
    + intros live ks rest st E. destruct (IT live ks rest st E) as (A & B & D). csplit; auto. destruct D as [D|[(D1 & D2)|(D1 & D2 & D3)]]; [auto| |right; right; auto].
      right; left. split; auto. intros v0 tid0 [X|X]; discriminate.
  - (* the strategy thread *)
    assert (GEN : forall p lock, (lock = if s_holds p then Some OStrategy else if r_holds (l_r s) then Some OReceive else None) ->
       (forall ks, l_s s <> SExit ks) -> (forall ks, p <> SExit ks) -> s_holds p && r_holds (l_r s) = false -> (forall t, s_tid p = Some t -> s_tid (l_s s) = Some t) ->
       (forall v tid, p = SEmit v tid \/ p = SWait v tid -> state_of tid s = Some TWait) ->
       (forall v tid, p = SReacq v tid -> exists v', l_s s = SBlocked v' tid) -> (forall v tid, p <> SBlocked v tid) ->
       LInv (with_s p (with_lock lock s))).
    { intros p lock E1 E2 E2' E3 E4 E5 E6 E7.
      assert (OK : forall c, old_keys s c -> old_keys (with_s p (with_lock lock s)) c) by (intros c O; apply (@old_keys_same s); [reflexivity|intros ks X; exfalso; eapply E2; eauto|exact O]).
      constructor; cbn; auto.
      - intros ks X. exfalso. eapply E2'; eauto.
      - intros sc ks st E. destruct (AQ sc ks st E) as (A & B). split; auto. destruct sc; auto. destruct B; auto.
      - intros live ks rest st E. destruct (IT live ks rest st E) as (A & B & D). csplit; auto. destruct D as [D|[(D1 & D2)|(D1 & D2 & D3)]]; [auto| |right; right; auto].
        right; left. split; auto. intros v tid [X|X]; [exfalso; eapply E7; eauto|]. destruct (E6 _ _ X) as (v' & Y). eapply D2; eauto.
      - intros v tid X. exfalso. eapply E7; eauto. }
    assert (UPD : forall tid t p, In tid (dkeys (l_threads s)) -> tid <> 1 -> s_holds (l_s s) = true -> s_holds p = true -> s_tid p = Some tid ->
       (forall v k, p = SEmit v k \/ p = SWait v k -> t_state t = TWait) ->
       LInv (with_s p (with_threads (dset (l_threads s) tid t) s))).
    { intros tid t p K N1 SH SP ST EW. assert (DK : dkeys (dset (l_threads s) tid t) = dkeys (l_threads s)) by now apply dkeys_dset_in.
      assert (RH : r_holds (l_r s) = false) by (destruct (r_holds (l_r s)); auto; rewrite SH in EX; discriminate).
      assert (OK : forall c, old_keys s c -> old_keys (with_s p (with_threads (dset (l_threads s) tid t) s)) c).
      { intros c O. apply (@old_keys_same s); [exact DK|intros ks X; rewrite X in SH; discriminate|exact O]. }
      constructor; cbn; rewrite ?DK; auto.
      - intros k E. rewrite ST in E. injection E as <-. auto.
      - rewrite LK, SH, SP. reflexivity.
      - now rewrite RH, andb_false_r.
      - intros ks X. rewrite X in SP. discriminate.
      - intros v k X. unfold state_of. cbn. assert (k = tid). { destruct X as [X|X]; rewrite X in ST; injection ST as ->; reflexivity. } subst k.
        rewrite dget_dset_same. cbn. f_equal. eapply EW; eauto.
      - intros sc ks st E. destruct (AQ sc ks st E) as (A & B). split; auto. destruct sc; auto. destruct B; auto.
      - intros live ks rest st E. rewrite E in RH. discriminate.
      - intros v k X. rewrite X in SP. discriminate. }
    cbn [lstep] in H. unfold strategy_step in H. destruct (l_s s) as [|ks|v tid|v tid|v tid|v tid|v tid|v tid|v tid|v tid stopped|] eqn:P; try discriminate.
    + destruct ks as [|k ks].
      * injection H as <- <-.
        assert (OK : forall c, old_keys s c -> old_keys (with_s SIdle s) c).
        { intros c [O|O]; [now left|]. right. cbn. intros k X Y. destruct (O k X Y) as [Z|(ks & Z & Q)]; auto. rewrite P in Z. injection Z as <-. contradiction. }
        constructor; cbn; auto; try discriminate.
        -- intros v tid [X|X]; discriminate.
        -- intros sc ks st E. destruct (AQ sc ks st E) as (A & B). split; auto. destruct sc; auto. destruct B; auto.
        -- intros live ks rest st E. destruct (IT live ks rest st E) as (A & B & D). csplit; auto. destruct D as [D|[(D1 & D2)|(D1 & D2 & D3)]]; [auto| |right; right; auto].
           right; left. split; auto. intros v tid [X|X]; discriminate.
      * destruct (N.eqb_spec k 1) as [->|NK]; injection H as <- <-.
        -- assert (OK : forall c, old_keys s c -> old_keys (with_s (SExit ks) s) c).
           { intros c [O|O]; [now left|]. right. cbn. intros k X Y. destruct (O k X Y) as [Z|(ks0 & Z & Q)]; auto. rewrite P in Z. injection Z as <-. destruct Q as [<-|Q]; eauto. }
           constructor; cbn; auto; try discriminate.
           ++ intros ks0 E. injection E as <-. intros k X. destruct (XT _ eq_refl k X) as [Y|[Y|Y]]; auto.
           ++ intros v tid [X|X]; discriminate.
           ++ intros sc c st E. destruct (AQ sc c st E) as (A & B). split; auto. destruct sc; auto. destruct B; auto.
           ++ intros live c rest st E. destruct (IT live c rest st E) as (A & B & D). csplit; auto. destruct D as [D|[(D1 & D2)|(D1 & D2 & D3)]]; [auto| |right; right; auto].
              right; left. split; auto. intros v tid [X|X]; discriminate.
        -- assert (KEY : forall x, In x (dkeys (ddel (l_threads s) k)) <-> x <> k /\ In x (dkeys (l_threads s))) by (intros x; now apply In_dkeys_ddel).
           assert (OK : forall c, old_keys (with_s (SExit ks) (with_threads (ddel (l_threads s) k) s)) c).
           { intros c. right. cbn. intros x X Y. apply KEY in Y. destruct Y as (Y1 & Y2). destruct (XT _ eq_refl x Y2) as [Z|[Z|Z]]; auto; [congruence|]. eauto. }
           constructor; cbn; auto; try discriminate.
           ++ now apply NoDup_ddel.
           ++ intros x X. apply KEY in X. now apply LT.
           ++ intros ks0 E. injection E as <-. intros x X. apply KEY in X. destruct X as (X1 & X2). destruct (XT _ eq_refl x X2) as [Y|[Y|Y]]; auto. congruence.
           ++ intros v tid [X|X]; discriminate.
           ++ intros sc c st E. destruct (AQ sc c st E) as (A & B). split; auto. destruct sc; auto. destruct B; auto.
           ++ intros live c rest st E. destruct (IT live c rest st E) as (A & B & D). csplit; auto. destruct D as [D|[(D1 & D2)|(D1 & D2 & D3)]]; [auto| |right; right; auto].
              right; left. split; auto. intros v tid [X|X]; discriminate.
    + destruct (l_lock s) eqn:L; [discriminate|]. injection H as <- <-. cbn in LK. apply GEN; cbn; try discriminate; auto; try (intros; discriminate).
      * destruct (r_holds (l_r s)); [discriminate|reflexivity].
      * intros v0 k [X|X]; discriminate.
    + destruct (TI tid eq_refl) as (K & N1). destruct (dget (l_threads s) tid) as [t|] eqn:T; [|discriminate].
      pose proof (@decide_wait v t) as DW. destruct (decide v t) as (t', [ev|]); injection H as <- <-; apply UPD; auto.
      * intros v0 k _. eapply DW; eauto.
      * intros v0 k [X|X]; discriminate.
    + injection H as <- <-. assert (E : with_s (SCheck v tid) s = with_s (SCheck v tid) (with_lock (l_lock s) s)) by (destruct s; reflexivity).
      rewrite E. apply GEN; cbn; try discriminate; auto; try (intros; discriminate). intros v0 k [X|X]; discriminate.
    + destruct (TI tid eq_refl) as (K & N1). destruct (dget (l_threads s) tid) as [t|] eqn:T; [|discriminate]. injection H as <- <-.
      match goal with |- LInv (with_s ?p s) => assert (E : with_s p s = with_s p (with_lock (l_lock s) s)) by (destruct s; reflexivity) end. rewrite E.
      destruct (is_wait t) eqn:IW; apply GEN; cbn; try discriminate; auto; try (intros; discriminate).
      * intros v0 k [X|X]; [discriminate|]. injection X as <- <-. unfold state_of. rewrite T. cbn. f_equal. unfold is_wait in IW. destruct (t_state t); auto; discriminate.
      * intros v0 k [X|X]; discriminate.
    + injection H as <- <-. cbn in LK. cbn in EX.
      assert (W : state_of tid s = Some TWait) by (eapply EM; eauto).
      assert (OK : forall c, old_keys s c -> old_keys (with_s (SBlocked v tid) (with_lock None (with_notified false s))) c) by (intros c O; apply (@old_keys_same s); [reflexivity|intros ks X; congruence|exact O]).
      constructor; cbn; auto; try discriminate.
      * now rewrite EX.
      * intros v0 k [X|X]; discriminate.
      * intros sc c st E. destruct (AQ sc c st E) as (A & B). split; auto. destruct sc; auto. destruct B; auto.
      * intros live c rest st E. rewrite E in EX. discriminate.
      * intros v0 k X _ NW. injection X as <- <-. exfalso. apply NW. exact W.
    + destruct (l_notified s) eqn:NT; [|discriminate]. injection H as <- <-.
      assert (E : with_s (SReacq v tid) s = with_s (SReacq v tid) (with_lock (l_lock s) s)) by (destruct s; reflexivity).
      rewrite E. apply GEN; cbn; try discriminate; auto; try (intros; discriminate).
      * intros v0 k [X|X]; discriminate.
      * intros v0 k X. injection X as <- <-. eauto.
    + destruct (l_lock s) eqn:L; [discriminate|]. injection H as <- <-. cbn in LK. apply GEN; cbn; try discriminate; auto; try (intros; discriminate).
      * destruct (r_holds (l_r s)); [discriminate|reflexivity].
      * intros v0 k [X|X]; discriminate.
    + destruct (TI tid eq_refl) as (K & N1). destruct (dget (l_threads s) tid) as [t|] eqn:T; [|discriminate]. injection H as <- <-. cbn in EX.
      match goal with |- LInv (with_s (if ?b then _ else _) _) => destruct b end; apply GEN; cbn; rewrite ?EX; try discriminate; auto; try (intros; discriminate);
        intros v0 k [X|X]; discriminate.
  - (* the receive thread *)
    unfold receive_step in H. destruct (l_r s) as [|sc ks st|live ks rest st| |ok] eqn:R.
    + destruct (l_todo s) as [|(sc, st) todo] eqn:TO; [discriminate|]. injection H as <- <-.
      assert (OK : forall c, old_keys s c -> old_keys (mkLS (l_threads s) (l_next s) (l_lock s) (l_notified s) (l_s s)
         (RAcq sc (match sc with One tid => [tid] | Live => [] | Copy => dkeys (l_threads s) end) st) todo) c) by (intros c O; exact O).
      constructor; cbn; auto; try discriminate.
      * intros sc0 st0 X. apply (TD sc0 st0). now right.
      * intros sc0 ks st0 E. injection E as <- <- <-. split; [apply (TD sc st); now left|]. destruct sc; auto. split; auto. left. intros k X. exact X.
      * intros v tid E NT NW. destruct (LO v tid E NT NW) as [X|(a & b & c & d & X & _)]; discriminate.
    + destruct (l_lock s) eqn:L; [discriminate|]. injection H as <- <-. cbn in LK.
      assert (SH : s_holds (l_s s) = false) by (destruct (s_holds (l_s s)); [discriminate|reflexivity]).
      destruct (AQ sc ks st eq_refl) as (ST & Q).
      constructor; cbn; rewrite ?SH; auto; try discriminate.
      * intros live c rest st0 E. injection E as <- <- <- <-. csplit; auto.
        -- intros x X; exact X.
        -- destruct sc; cbn.
           ++ left. split; auto. exists tid. auto.
           ++ right; left. split; auto.
           ++ right; right. destruct Q. auto.
      * intros v tid E NT NW. destruct (LO v tid E NT NW) as [X|(a & b & c & d & X & _)]; discriminate.
    + destruct (IT live ks rest st eq_refl) as (ST & IN & Q).
      assert (SH : s_holds (l_s s) = false) by (destruct (s_holds (l_s s)); auto).
      assert (ERR : forall ok, (forall v tid, l_s s = SBlocked v tid -> l_notified s = false -> state_of tid s <> Some TWait -> False) -> LInv (with_r (RRel ok) s)).
      { intros ok NO. constructor; cbn; rewrite ?SH; auto; try discriminate.
        - rewrite LK, SH. reflexivity.
        - intros v tid E NT NW. exfalso. eapply NO; eauto. }
      assert (LO' : forall v tid, l_s s = SBlocked v tid -> l_notified s = false -> state_of tid s <> Some TWait ->
         incl rest (dkeys (l_threads s)) /\ (live = true -> ks = dkeys (l_threads s))).
      { intros v tid E NT NW. destruct (LO v tid E NT NW) as [X|(a & b & c & d & X & Y)]; [discriminate|]. injection X as <- <- <- <-. exact Y. }
      destruct fail.
      * destruct (live && negb (eqb ks (dkeys (l_threads s)))) eqn:C; [|discriminate]. injection H as <- <-. apply ERR.
        intros v tid E NT NW. destruct (LO' v tid E NT NW) as (_ & X). apply andb_true_iff in C. destruct C as (C1 & C2). rewrite (X C1) in C2.
        apply negb_true_iff in C2. rewrite eqb_refl in C2. discriminate.
      * destruct rest as [|k rest].
        -- injection H as <- <-. constructor; cbn; rewrite ?SH; auto; try discriminate. rewrite LK, SH. reflexivity.
        -- destruct (dget (l_threads s) k) as [t|] eqn:T.
           2:{ injection H as <- <-. apply ERR. intros v tid E NT NW. destruct (LO' v tid E NT NW) as (X & _). apply dget_None in T. apply T. apply X. now left. }
           injection H as <- <-. assert (K : In k (dkeys (l_threads s))) by (eapply dget_Some_key; eauto).
           set (t' := set_state st t) in *. assert (DK : dkeys (dset (l_threads s) k t') = dkeys (l_threads s)) by now apply dkeys_dset_in.
           assert (OK : forall c, old_keys s c -> old_keys (with_r (RIter live ks rest st) (with_threads (dset (l_threads s) k t') s)) c).
           { intros c O. apply (@old_keys_same s); [exact DK|auto|exact O]. }
           constructor; cbn; rewrite ?DK, ?SH; auto; try discriminate.
           ++ rewrite LK, SH. reflexivity.
           ++ intros v tid [E|E]; rewrite E in SH; discriminate.
           ++ intros live0 c rest0 st0 E. injection E as <- <- <- <-. csplit; auto.
              ** intros x X. apply IN. now right.
              ** destruct Q as [(Q1 & x & Q2 & Q3)|[(Q1 & Q2)|(Q1 & Q2 & Q3)]]; [|right; left; auto|right; right; auto].
                 --- left. split; auto. exists x. split; auto. right. destruct Q3 as [Q3|Q3]; [injection Q3 as _ Q3; exact Q3|discriminate].
           ++ intros v tid E NT NW. right. exists live, ks, rest, st. split; auto.
              destruct (N.eq_dec tid k) as [->|NE].
              ** destruct Q as [(Q1 & x & Q2 & Q3)|[(Q1 & Q2)|(Q1 & Q2 & Q3)]].
                 --- split; [|congruence]. destruct Q3 as [Q3|Q3]; [injection Q3 as _ ->; intros y []|discriminate].
                 --- specialize (Q2 v k (or_introl E)). split; auto. intros x X. rewrite <- Q2. apply IN. now right.
                 --- split; [|congruence]. destruct Q2 as [Q2|Q2].
                     +++ intros x X. apply Q2, IN. now right.
                     +++ exfalso. rewrite E in TI. destruct (TI k eq_refl) as (T1 & T2). destruct (Q2 k) as [Z|(x & Z & _)]; auto; [apply IN; now left|congruence].
              ** destruct (LO' v tid E NT) as (X1 & X2).
                 { unfold state_of in NW |- *. cbn in NW. rewrite dget_dset_other in NW; auto. }
                 split; auto. intros x X. apply X1. now right.
    + injection H as <- <-. assert (SH : s_holds (l_s s) = false) by (destruct (s_holds (l_s s)); auto).
      constructor; cbn; rewrite ?SH; auto; try discriminate. rewrite LK, SH. reflexivity.
    + injection H as <- <-. assert (SH : s_holds (l_s s) = false) by (destruct (s_holds (l_s s)); auto).
      constructor; cbn; rewrite ?SH; auto; try discriminate.
      intros v tid E NT NW. destruct (LO v tid E NT NW) as [X|(a & b & c & d & X & _)]; discriminate.
Qed.

Lemma run_linv todo h s : todo_wf todo -> lrun (l_init todo) h s -> LInv s.
Proof.
  intros W R. remember (l_init todo) as s0. induction R as [|s h s1 l s2 es R IH E]; subst; [now apply linv_init|].
  eapply step_linv; eauto.
Qed.

(* ------------------------------------------------------------------ history *)
(** What the events say about a thread: not stopped, stopped, stopped and resumed. *)
Definition upd (tid : N) (x : option bool) (e : lev) : option bool :=
  match e with
  | EStop k => if N.eqb k tid then Some false else x
  | ESet k _ => if N.eqb k tid then option_map (fun _ => true) x else x
  | EGo k | EEnd k => if N.eqb k tid then None else x
  end.
Definition status (tid : N) (h : list lev) : option bool := fold_left (upd tid) h None.
Lemma status_snoc tid h e : status tid (h ++ [e]) = upd tid (status tid h) e.
Proof. unfold status. now rewrite fold_left_app. Qed.

Definition at_stop (p : spc) : option N :=
  match p with SCheck _ t | SWait _ t | SBlocked _ t | SReacq _ t | SFin _ t true => Some t | _ => None end.
Definition is_fin (p : spc) : bool := match p with SFin _ _ true => true | _ => false end.
Definition waits (s : LS) (tid : N) : bool := match dget (l_threads s) tid with Some t => is_wait t | None => false end.
Record HInv (s : LS) (h : list lev) : Prop := {
  h_st : forall tid, status tid h = if eqb (at_stop (l_s s)) (Some tid) then Some (negb (waits s tid)) else None;
  h_fin : forall tid, at_stop (l_s s) = Some tid -> is_fin (l_s s) = true -> waits s tid = false;
  h_ok : forall tid pre e post, h = pre ++ e :: post -> e = EGo tid \/ e = EEnd tid -> status tid pre <> Some false }.

Lemma waits_state s tid : state_of tid s = Some TWait -> waits s tid = true.
Proof. unfold state_of, waits. destruct (dget (l_threads s) tid) as [t|]; [|discriminate]. cbn. intros E. injection E as E. unfold is_wait. now rewrite E. Qed.
Lemma not_waits_state s tid : waits s tid = false -> state_of tid s <> Some TWait.
Proof. intros W E. apply waits_state in E. congruence. Qed.

Lemma ok_nil (tid : N) (pre : list lev) e post : [] = pre ++ e :: post -> False.
Proof. destruct pre; discriminate. Qed.
Lemma ok_snoc (P : list lev -> lev -> Prop) h e : (forall pre x post, h = pre ++ x :: post -> P pre x) -> P h e ->
  forall pre x post, h ++ [e] = pre ++ x :: post -> P pre x.
Proof.
  intros A B pre x post E. destruct post as [|y post] using rev_ind.
  - apply app_inj_tail in E. destruct E as (<- & <-). exact B.
  - clear IHpost. change (pre ++ x :: post ++ [y]) with (pre ++ (x :: post) ++ [y]) in E. rewrite app_assoc in E. apply app_inj_tail in E. destruct E as (E & _). eauto.
Qed.

Lemma step_hinv s l s' es h : LInv s -> LInv s' -> HInv s h -> lstep s l = Some (s', es) -> HInv s' (h ++ es).
Proof.
  intros I I' [ST FN OK] H.
  assert (QUIET : at_stop (l_s s') = at_stop (l_s s) -> (is_fin (l_s s') = true -> forall tid, at_stop (l_s s) = Some tid -> waits s tid = false) ->
     (forall tid, waits s' tid = waits s tid \/ at_stop (l_s s) = None) -> es = [] -> HInv s' (h ++ es)).
  { intros E1 E2 E3 ->. rewrite app_nil_r. constructor; auto.
    - intros tid. rewrite E1, ST. destruct (E3 tid) as [X|X]; [now rewrite X|]. now rewrite X.
    - intros tid A B. rewrite E1 in A. destruct (E3 tid) as [X|X]; [rewrite X|congruence]. auto. }
  destruct l as [h0| |v tid| |fail]; cbn [lstep] in H.
  - destruct (l_s s) eqn:P; try discriminate. injection H as <- <-. apply QUIET; cbn; try rewrite P; auto; discriminate.
  - destruct (l_s s) eqn:P; try discriminate. injection H as <- <-. apply QUIET; cbn; try rewrite P; auto; discriminate.
  - destruct (l_s s) eqn:P; try discriminate. destruct (dhas (l_threads s) tid && negb (N.eqb tid 1)); [|discriminate]. injection H as <- <-. apply QUIET; cbn; try rewrite P; auto; discriminate.
  - unfold strategy_step in H. destruct (l_s s) as [|ks|v tid|v tid|v tid|v tid|v tid|v tid|v tid|v tid stopped|] eqn:P; try discriminate.
    + destruct ks as [|k ks]; [|destruct (N.eqb k 1)]; injection H as <- <-; apply QUIET; cbn; try rewrite P; auto; discriminate.
    + destruct (l_lock s); [discriminate|]. injection H as <- <-. apply QUIET; cbn; try rewrite P; auto; discriminate.
    + destruct (dget (l_threads s) tid) as [t|]; [|discriminate]. destruct (decide v t) as (t', [ev|]); injection H as <- <-; apply QUIET; cbn; try rewrite P; auto; discriminate.
    + injection H as <- <-. assert (W : waits s tid = true) by (apply waits_state; eapply (v_emit I); eauto).
      constructor; cbn [l_s with_s at_stop is_fin]; try discriminate.
      * intros k. rewrite status_snoc, ST. cbn. unfold waits in *. cbn. destruct (N.eqb_spec tid k) as [->|NE].
        -- rewrite W. reflexivity.
        -- reflexivity.
      * intros k pre e post. revert pre e post. apply (@ok_snoc (fun pre e => e = EGo k \/ e = EEnd k -> status k pre <> Some false)); [eauto|]. intros [X|X]; discriminate.
    + destruct (dget (l_threads s) tid) as [t|] eqn:T; [|discriminate]. injection H as <- <-.
      apply QUIET; cbn; try rewrite P; auto; destruct (is_wait t) eqn:IW; cbn; auto; try discriminate.
      intros _ k E. injection E as <-. unfold waits. now rewrite T.
    + injection H as <- <-. apply QUIET; cbn; try rewrite P; auto; discriminate.
    + destruct (l_notified s); [|discriminate]. injection H as <- <-. apply QUIET; cbn; try rewrite P; auto; discriminate.
    + destruct (l_lock s); [discriminate|]. injection H as <- <-. apply QUIET; cbn; try rewrite P; auto; discriminate.
    + destruct (dget (l_threads s) tid) as [t|] eqn:T; [|discriminate]. cbv zeta in H. injection H as <- <-.
      match goal with |- HInv (with_s (if ?b then _ else _) _) _ => set (ends := b) end.
      assert (E : (if ends then EEnd tid else EGo tid) = EGo tid \/ (if ends then EEnd tid else EGo tid) = EEnd tid) by (destruct ends; auto).
      set (e := if ends then EEnd tid else EGo tid) in *.
      assert (AS : at_stop (if ends then SDone else SIdle) = None) by (destruct ends; reflexivity).
      constructor; cbn [l_s with_s with_lock]; rewrite ?AS; try discriminate.
      * intros k. rewrite status_snoc, ST. assert (U : forall x, upd k x e = if N.eqb tid k then None else x) by (intros x; destruct E as [-> | ->]; reflexivity).
        rewrite U. cbn [at_stop]. destruct (N.eqb_spec tid k) as [->|NE]; [reflexivity|]. destruct stopped; [|reflexivity].
        destruct (eqb_spec (Some tid) (Some k)) as [X|X]; [congruence|reflexivity].
      * intros k pre e0 post. revert pre e0 post. apply (@ok_snoc (fun pre e0 => e0 = EGo k \/ e0 = EEnd k -> status k pre <> Some false)); [eauto|].
        intros X. assert (k = tid) by (destruct E as [E|E], X as [X|X]; rewrite E in X; try discriminate; injection X; auto). subst k.
        rewrite ST. cbn [at_stop]. destruct stopped; [|discriminate]. destruct (eqb_spec (Some tid) (Some tid)); [|discriminate].
        rewrite (FN tid); auto. discriminate.
  - unfold receive_step in H. destruct (l_r s) as [|sc ks st|live ks rest st| |ok] eqn:R.
    + destruct (l_todo s) as [|(sc, st) todo]; [discriminate|]. injection H as <- <-. apply QUIET; auto.
    + destruct (l_lock s); [discriminate|]. injection H as <- <-. apply QUIET; auto.
    + destruct (v_iter I R) as (NW & _). assert (SH : s_holds (l_s s) = false) by (pose proof (v_excl I) as X; rewrite R in X; destruct (s_holds (l_s s)); auto).
      destruct fail; [destruct (live && _); [|discriminate]; injection H as <- <-; apply QUIET; auto|].
      destruct rest as [|k rest]; [injection H as <- <-; apply QUIET; auto|].
      destruct (dget (l_threads s) k) as [t|] eqn:T; [|injection H as <- <-; apply QUIET; auto].
      injection H as <- <-. set (s2 := with_r _ _). assert (PS : l_s s2 = l_s s) by reflexivity.
      assert (W2 : forall tid, waits s2 tid = if N.eqb k tid then false else waits s tid).
      { intros tid. unfold waits, s2. cbn. rewrite dget_dset. change (eqb k tid) with (N.eqb k tid). destruct (N.eqb_spec k tid); auto.
        pose proof (@set_state_wait st t NW) as X. unfold is_wait. destruct (t_state (set_state st t)); auto; congruence. }
      constructor; rewrite ?PS.
      * intros tid. rewrite status_snoc, ST, W2. cbn [upd]. destruct (N.eqb_spec k tid) as [->|NE]; [|reflexivity]. destruct (eqb (at_stop (l_s s)) (Some tid)); reflexivity.
      * intros tid A B. destruct (l_s s); try discriminate.
      * intros tid pre e post. revert pre e post. apply (@ok_snoc (fun pre e => e = EGo tid \/ e = EEnd tid -> status tid pre <> Some false)); [eauto|]. intros [X|X]; discriminate.
    + injection H as <- <-. apply QUIET; auto.
    + injection H as <- <-. apply QUIET; auto.
Qed.
Lemma run_hinv todo h s : todo_wf todo -> lrun (l_init todo) h s -> HInv s h.
Proof.
  intros W R. remember (l_init todo) as s0. induction R as [|s h s1 l s2 es R IH E]; subst.
  - constructor; cbn; try discriminate; auto. intros tid pre e post X. exfalso. eapply ok_nil; eauto.
  - pose proof (run_linv W R) as I. eapply step_hinv; eauto. eapply step_linv; eauto.
Qed.

Lemma status_stopped tid pre mid : (forall st, ~ In (ESet tid st) mid) ->
  (forall a e b, mid = a ++ e :: b -> e = EGo tid \/ e = EEnd tid -> status tid (pre ++ EStop tid :: a) <> Some false) ->
  status tid (pre ++ EStop tid :: mid) = Some false.
Proof.
  induction mid as [|e mid IH] using rev_ind; intros NS OK.
  - rewrite status_snoc. cbn. now rewrite N.eqb_refl.
  - assert (S : status tid (pre ++ EStop tid :: mid) = Some false).
    { apply IH.
      - intros st X. apply (NS st). apply in_or_app. now left.
      - intros a e0 b -> X. eapply OK; eauto. rewrite <- app_assoc. reflexivity. }
    change (pre ++ EStop tid :: mid ++ [e]) with (pre ++ (EStop tid :: mid) ++ [e]). rewrite app_assoc, status_snoc, S.
    destruct e as [k|k st|k|k]; cbn; destruct (N.eqb_spec k tid) as [->|]; auto.
    + exfalso. apply (NS st). apply in_or_app. right. now left.
    + exfalso. eapply (OK mid (EGo tid) []); auto.
    + exfalso. eapply (OK mid (EEnd tid) []); auto.
Qed.

(** Between a stopped event of a thread and its task going on (or its run ending), a
    request set the thread's state. *)
Theorem C28_only_after_resume todo h s tid pre mid e post : todo_wf todo -> lrun (l_init todo) h s ->
  h = pre ++ EStop tid :: mid ++ e :: post -> e = EGo tid \/ e = EEnd tid -> exists st, In (ESet tid st) mid.
Proof.
  intros W R E X. destruct (run_hinv W R) as [_ _ OK].
  assert (D : (exists st, In (ESet tid st) mid) \/ forall st, ~ In (ESet tid st) mid).
  { clear. induction mid as [|x mid IH]; [right; intros st []|]. destruct IH as [(st & IH)|IH]; [left; exists st; now right|].
    destruct x as [k|k st|k|k]; try (right; intros st0 [Y|Y]; [discriminate|now apply (IH st0)]).
    destruct (N.eq_dec k tid) as [->|NE]; [left; exists st; now left|]. right. intros st0 [Y|Y]; [congruence|now apply (IH st0)]. }
  destruct D as [D|D]; auto. exfalso.
  apply (OK tid (pre ++ EStop tid :: mid) e post); auto.
  - rewrite E, <- app_assoc. reflexivity.
  - apply status_stopped; auto. intros a e0 b -> Y. apply (OK tid (pre ++ EStop tid :: a) e0 (b ++ e :: post)); auto.
    rewrite E, <- app_assoc. cbn. now rewrite <- app_assoc.
Qed.
Print Assumptions C28_only_after_resume.

(* ------------------------------------------------------------------ progress *)
Definition r_work (s : LS) : nat :=
  let K := length (dkeys (l_threads s)) in
  length (l_todo s) * (K + 12) +
  match l_r s with
  | RIdle => 0
  | RAcq Live _ _ => K + 11
  | RAcq _ ks _ => length ks + 11
  | RIter _ _ rest _ => length rest + 10
  | RNotify => 9
  | RRel _ => 1
  end.
Definition s_work (s : LS) : nat :=
  match l_s s with
  | SCheck _ _ => 2 | SWait _ _ => 1 | SBlocked _ _ => if l_notified s then 4 else 0 | SReacq _ _ => 3 | SFin _ _ _ => 1 | _ => 0
  end.
Definition work (s : LS) : nat := r_work s + s_work s.

Lemma progress_step s l s' es tid : LInv s -> at_stop (l_s s) = Some tid -> waits s tid = false -> lstep s l = Some (s', es) ->
  (exists e, In e es /\ (e = EGo tid \/ e = EEnd tid)) \/ (at_stop (l_s s') = Some tid /\ waits s' tid = false /\ (work s' < work s)%nat).
Proof.
  intros I A W H. destruct l as [h0| |v t0| |fail]; cbn [lstep] in H.
  - destruct (l_s s); discriminate.
  - destruct (l_s s); discriminate.
  - destruct (l_s s); discriminate.
  - unfold strategy_step in H. destruct (l_s s) as [|ks|v k|v k|v k|v k|v k|v k|v k|v k stopped|] eqn:P; try discriminate.
    + cbn in A. injection A as ->. destruct (dget (l_threads s) tid) as [t|] eqn:T; [|discriminate]. injection H as <- <-.
      assert (IW : is_wait t = false) by (unfold waits in W; now rewrite T in W). rewrite IW. right. csplit; auto. unfold work, r_work, s_work. cbn. rewrite P. lia.
    + cbn in A. injection A as ->. exfalso. pose proof (@v_emit _ I v tid (or_intror P)) as X. apply waits_state in X. congruence.
    + cbn in A. injection A as ->. destruct (l_notified s) eqn:NT; [|discriminate]. injection H as <- <-. right. csplit; auto. unfold work, r_work, s_work. cbn. rewrite P, NT. lia.
    + cbn in A. injection A as ->. destruct (l_lock s); [discriminate|]. injection H as <- <-. right. csplit; auto. unfold work, r_work, s_work. cbn. rewrite P. lia.
    + destruct stopped; [|discriminate]. cbn in A. injection A as ->. destruct (dget (l_threads s) tid) as [t|] eqn:T; [|discriminate]. cbv zeta in H. injection H as <- <-.
      left. eexists. split; [left; reflexivity|]. match goal with |- context [if ?b then _ else _] => destruct b end; auto.
  - right. assert (K1 : (1 <= length (dkeys (l_threads s)))%nat).
    { destruct (@v_tid _ I tid) as (X & _); [destruct (l_s s) as [|ks|v k|v k|v k|v k|v k|v k|v k|v k [|]|]; try discriminate; exact A|]. destruct (dkeys (l_threads s)); [contradiction|cbn; lia]. }
    unfold receive_step in H. destruct (l_r s) as [|sc ks st|live ks rest st| |ok] eqn:R.
    + destruct (l_todo s) as [|(sc, st) todo] eqn:TD; [discriminate|]. injection H as <- <-. csplit; auto. unfold work, r_work, s_work. cbn. rewrite R, TD. destruct sc; cbn; lia.
    + destruct (l_lock s); [discriminate|]. injection H as <- <-. csplit; auto. unfold work, r_work, s_work. cbn. rewrite R. destruct sc; cbn; lia.
    + destruct (v_iter I R) as (NW & _).
      destruct fail; [destruct (live && _); [|discriminate]; injection H as <- <-; csplit; auto; unfold work, r_work, s_work; cbn; rewrite R; lia|].
      destruct rest as [|k rest]; [injection H as <- <-; csplit; auto; unfold work, r_work, s_work; cbn; rewrite R; cbn; lia|].
      destruct (dget (l_threads s) k) as [t|] eqn:T; [|injection H as <- <-; csplit; auto; unfold work, r_work, s_work; cbn; rewrite R; lia].
      injection H as <- <-. csplit; auto.
      * unfold waits. cbn. rewrite dget_dset. destruct (eqb_spec k tid) as [->|NE]; [|exact W].
        pose proof (@set_state_wait st t NW) as X. unfold is_wait. destruct (t_state (set_state st t)); auto; congruence.
      * unfold work, r_work, s_work. cbn. rewrite R. rewrite dkeys_dset_in by (eapply dget_Some_key; eauto). cbn. lia.
    + injection H as <- <-. csplit; auto. unfold work, r_work, s_work. cbn. rewrite R. destruct (l_s s); try lia; destruct (l_notified s); lia.
    + injection H as <- <-. csplit; auto. unfold work, r_work, s_work. cbn. rewrite R. lia.
Qed.

Lemma can_step s tid : LInv s -> at_stop (l_s s) = Some tid -> waits s tid = false -> exists l s' es, lstep s l = Some (s', es).
Proof.
  intros I A W. destruct (r_holds (l_r s)) eqn:RH.
  - exists (LRecv false). cbn. unfold receive_step. destruct (l_r s) as [|sc ks st|live ks rest st| |ok]; try discriminate; eauto.
    destruct rest as [|k rest]; eauto. destruct (dget (l_threads s) k); eauto.
  - exists LStep. cbn. unfold strategy_step. pose proof (v_lock I) as LK. rewrite RH in LK.
    destruct (l_s s) as [|ks|v k|v k|v k|v k|v k|v k|v k|v k [|]|] eqn:P; try discriminate; cbn in A; injection A as ->; cbn in LK.
    + destruct (@v_tid _ I tid) as (X & _); [now rewrite P|]. apply dget_key_ex in X. destruct X as (t & ->). eauto.
    + eauto.
    + destruct (l_notified s) eqn:NT; [eauto|]. exfalso. destruct (@v_lost _ I v tid P NT (not_waits_state _ _ W)) as [X|(a & b & c & d & X & _)]; rewrite X in RH; discriminate.
    + rewrite LK. eauto.
    + destruct (@v_tid _ I tid) as (X & _); [now rewrite P|]. apply dget_key_ex in X. destruct X as (t & ->). eauto.
Qed.

Lemma will_go n : forall s tid, (work s < n)%nat -> LInv s -> at_stop (l_s s) = Some tid -> waits s tid = false -> will_show (fun e => e = EGo tid \/ e = EEnd tid) s.
Proof.
  induction n as [|n IH]; intros s tid L I A W; [lia|]. constructor; [eapply can_step; eauto|].
  intros l s' es H. destruct (@progress_step s l s' es tid I A W H) as [X|(X1 & X2 & X3)]; [now left|]. right. apply IH; auto; [lia|]. eapply step_linv; eauto.
Qed.

Lemma status_resumed tid pre mid st : In (ESet tid st) mid -> (forall e, In e mid -> e <> EStop tid /\ e <> EGo tid /\ e <> EEnd tid) ->
  status tid (pre ++ EStop tid :: mid) = Some true.
Proof.
  intros S N. assert (G : forall m x, (forall e, In e m -> e <> EStop tid /\ e <> EGo tid /\ e <> EEnd tid) -> (exists b, x = Some b /\ (b = true \/ exists st, In (ESet tid st) m)) -> fold_left (upd tid) m x = Some true).
  { induction m as [|e m IH]; intros x NN (b & -> & D).
    - destruct D as [-> |(st0 & [])]. reflexivity.
    - cbn [fold_left]. apply IH; [intros e0 X; apply NN; now right|]. destruct (NN e (or_introl eq_refl)) as (N1 & N2 & N3).
      destruct e as [k|k st0|k|k]; cbn; destruct (N.eqb_spec k tid) as [->|NE]; try congruence; try (exists b; split; [reflexivity|]; destruct D as [D|(st1 & [D|D])]; eauto; congruence).
      exists true. auto. }
  unfold status. rewrite fold_left_app. cbn [fold_left]. apply G; auto. exists false. split; [cbn; rewrite N.eqb_refl; reflexivity|eauto].
Qed.

(** Once a request has set the state of a stopped thread, the thread goes on (or its run
    ends), whatever the scheduler does. *)
Theorem C28_resumed_goes_on todo s tid pre mid st : todo_wf todo -> lrun (l_init todo) (pre ++ EStop tid :: mid) s ->
  In (ESet tid st) mid -> (forall e, In e mid -> e <> EStop tid /\ e <> EGo tid /\ e <> EEnd tid) ->
  will_show (fun e => e = EGo tid \/ e = EEnd tid) s.
Proof.
  intros W R S N. pose proof (run_linv W R) as I. destruct (run_hinv W R) as [ST _ _].
  specialize (ST tid). rewrite (@status_resumed tid pre mid st S N) in ST. destruct (eqb_spec (at_stop (l_s s)) (Some tid)) as [A|]; [|discriminate].
  injection ST as ST. eapply will_go; eauto. destruct (waits s tid); auto.
Qed.
Print Assumptions C28_resumed_goes_on.

(** Until then it can be resumed: the receive thread is never kept out for good. *)
Theorem C28_requests_served todo h s : todo_wf todo -> lrun (l_init todo) h s -> l_r s <> RIdle ->
  (exists v tid, l_s s = SBlocked v tid) -> exists s' es, lstep s (LRecv false) = Some (s', es).
Proof.
  intros W R NR (v & tid & P). pose proof (run_linv W R) as I. pose proof (v_lock I) as LK. rewrite P in LK. cbn in LK.
  cbn. unfold receive_step. destruct (l_r s) as [|sc ks st|live ks rest st| |ok]; try congruence; cbn in LK; rewrite ?LK; eauto.
  destruct rest as [|k rest]; eauto. destruct (dget (l_threads s) k); eauto.
Qed.
Print Assumptions C28_requests_served.

(** A request that resumes the thread reaches it: it sets the thread's state, whatever
    the scheduler does. *)
Record pend (tid : N) (st : TState) (s : LS) : Prop := {
  p_at : at_stop (l_s s) = Some tid;
  p_w : waits s tid = true;
  p_f : is_fin (l_s s) = false;
  p_r : match l_r s with
        | RIdle => exists sc rest, l_todo s = (sc, st) :: rest /\ (sc = One tid \/ sc = Live \/ sc = Copy)
        | RAcq sc ks st' => st' = st /\ (sc = Live \/ (In tid ks /\ incl ks (dkeys (l_threads s))))
        | RIter live ks rest st' => st' = st /\ In tid rest /\ incl rest (dkeys (l_threads s)) /\ (live = true -> ks = dkeys (l_threads s))
        | _ => False
        end }.
Definition pw (s : LS) : nat :=
  (match l_r s with RIdle => 3 + length (dkeys (l_threads s)) | RAcq Live _ _ => 2 + length (dkeys (l_threads s)) | RAcq _ ks _ => 2 + length ks | RIter _ _ rest _ => length rest | _ => 0 end) +
  match l_s s with SBlocked _ _ => if l_notified s then 5 else 0 | SReacq _ _ => 4 | SCheck _ _ => 3 | SWait _ _ => 2 | _ => 0 end.

Lemma pend_step s l s' es tid st : LInv s -> pend tid st s -> lstep s l = Some (s', es) ->
  In (ESet tid st) es \/ (pend tid st s' /\ (pw s' < pw s)%nat).
Proof.
  intros I [A W F P] H.
  assert (KT : In tid (dkeys (l_threads s))).
  { apply (@v_tid _ I tid). destruct (l_s s) as [|ks|v k|v k|v k|v k|v k|v k|v k|v k [|]|]; try discriminate; exact A. }
  assert (K1 : (1 <= length (dkeys (l_threads s)))%nat) by (destruct (dkeys (l_threads s)); [contradiction|cbn; lia]).
  destruct l as [h0| |v t0| |fail]; cbn [lstep] in H.
  - destruct (l_s s); discriminate.
  - destruct (l_s s); discriminate.
  - destruct (l_s s); discriminate.
  - right. unfold strategy_step in H. destruct (l_s s) as [|ks|v k|v k|v k|v k|v k|v k|v k|v k stopped|] eqn:Q; try discriminate.
    + cbn in A. injection A as ->. destruct (dget (l_threads s) tid) as [t|] eqn:T; [|discriminate]. injection H as <- <-.
      assert (IW : is_wait t = true) by (unfold waits in W; now rewrite T in W). rewrite IW. split; [constructor; auto|]. unfold pw. cbn. rewrite Q. lia.
    + injection H as <- <-. split; [constructor; auto|]. unfold pw. cbn. rewrite Q. lia.
    + destruct (l_notified s) eqn:NT; [|discriminate]. injection H as <- <-. split; [constructor; auto|]. unfold pw. cbn. rewrite Q, NT. lia.
    + destruct (l_lock s); [discriminate|]. injection H as <- <-. split; [constructor; auto|]. unfold pw. cbn. rewrite Q. lia.
    + destruct stopped; [|discriminate]. cbn in A. injection A as ->. exfalso.
      discriminate F.
  - unfold receive_step in H. destruct (l_r s) as [|sc ks st0|live ks rest st0| |ok] eqn:R; try contradiction.
    + right. destruct P as (sc & rest & TD & C). rewrite TD in H. injection H as <- <-. split.
      * constructor; auto. cbn. split; auto. destruct C as [-> |[-> | ->]]; auto; right; split; try (intros x X; exact X); auto; cbn; auto. intros x [<-|[]]. exact KT.
      * unfold pw. cbn. rewrite R. destruct C as [-> |[-> | ->]]; cbn; lia.
    + right. destruct P as (-> & P). destruct (l_lock s); [discriminate|]. injection H as <- <-. split.
      * constructor; auto. cbn. csplit; auto; destruct sc; auto; destruct P as [P|(P1 & P2)]; auto; try discriminate; intros x X; exact X.
      * unfold pw. cbn. rewrite R. destruct sc; cbn; lia.
    + destruct P as (-> & P1 & P2 & P3). destruct fail.
      { exfalso. destruct live; cbn [andb] in H; [|discriminate]. rewrite P3 in H by auto. rewrite eqb_refl in H. discriminate. }
      destruct rest as [|k rest]; [contradiction|]. destruct (dget (l_threads s) k) as [t|] eqn:T.
      * injection H as <- <-. destruct (N.eq_dec k tid) as [->|NE]; [left; now left|]. right.
        assert (KK : dkeys (dset (l_threads s) k (set_state st t)) = dkeys (l_threads s)) by (apply dkeys_dset_in; eapply dget_Some_key; eauto).
        split.
        -- constructor; auto.
           ++ unfold waits. cbn. rewrite dget_dset. destruct (eqb_spec k tid); [congruence|exact W].
           ++ cbn. rewrite KK. csplit; auto. destruct P1; congruence. intros x X. apply P2. now right.
        -- unfold pw. cbn. rewrite R. cbn. lia.
      * exfalso. assert (X : In k (dkeys (l_threads s))) by (apply P2; now left). apply dget_key_ex in X. destruct X as (t & X). congruence.
Qed.
Lemma pend_can s tid st : LInv s -> pend tid st s -> exists l s' es, lstep s l = Some (s', es).
Proof.
  intros I [A W F P]. pose proof (v_lock I) as LK. destruct (s_holds (l_s s)) eqn:SH.
  - exists LStep. cbn. unfold strategy_step. destruct (l_s s) as [|ks|v k|v k|v k|v k|v k|v k|v k|v k [|]|] eqn:Q; try discriminate; eauto.
    destruct (@v_tid _ I k) as (X & _); [now rewrite Q|]. apply dget_key_ex in X. destruct X as (t & ->). eauto.
  - exists (LRecv false). cbn. unfold receive_step. destruct (l_r s) as [|sc ks st0|live ks rest st0| |ok]; try contradiction; cbn in LK.
    + destruct P as (sc & rest & -> & _). eauto.
    + rewrite LK. eauto.
    + destruct rest as [|k rest]; eauto. destruct (dget (l_threads s) k); eauto.
Qed.
Lemma will_set n : forall s tid st, (pw s < n)%nat -> LInv s -> pend tid st s -> will_show (fun e => e = ESet tid st) s.
Proof.
  induction n as [|n IH]; intros s tid st L I P; [lia|]. constructor; [eapply pend_can; eauto|].
  intros l s' es H. destruct (@pend_step s l s' es tid st I P H) as [X|(X1 & X2)]; [left; eauto|]. right. apply IH; auto; [lia|]. eapply step_linv; eauto.
Qed.
Theorem C28_request_reaches_thread todo s tid st sc rest pre mid : todo_wf todo -> lrun (l_init todo) (pre ++ EStop tid :: mid) s ->
  (forall e, In e mid -> e <> EStop tid /\ e <> EGo tid /\ e <> EEnd tid /\ forall st, e <> ESet tid st) ->
  l_r s = RIdle -> l_todo s = (sc, st) :: rest -> (sc = One tid \/ sc = Live \/ sc = Copy) ->
  will_show (fun e => e = ESet tid st) s.
Proof.
  intros W R N RI TD SC. pose proof (run_linv W R) as I. destruct (run_hinv W R) as [ST FN OK].
  assert (S : status tid (pre ++ EStop tid :: mid) = Some false).
  { apply status_stopped; [intros st0 X; destruct (N _ X) as (_ & _ & _ & Y); now apply (Y st0)|].
    intros a e b E Y. exfalso. assert (X : In e mid) by (rewrite E; apply in_or_app; right; now left). destruct (N e X) as (_ & N2 & N3 & _). destruct Y; congruence. }
  rewrite ST in S. destruct (eqb_spec (at_stop (l_s s)) (Some tid)) as [A|]; [|discriminate]. injection S as S.
  assert (WT : waits s tid = true) by (destruct (waits s tid); auto; discriminate).
  eapply will_set with (n := Datatypes.S (pw s)); auto. constructor; auto.
  - destruct (is_fin (l_s s)) eqn:F; auto. rewrite (FN tid A eq_refl) in WT. discriminate.
  - rewrite RI. eauto.
Qed.
Print Assumptions C28_request_reaches_thread.

(* ------------------------------------------------------------------ concrete runs *)
Definition demo_host := mkHost 100 (s "A").
Definition demo_task : Node := mkNode (KTask ActOther) 7 (s "t") None InBlock None.
Fixpoint go (x : LS) (h : list lev) (ls : list llabel) : option (LS * list lev) :=
  match ls with
  | [] => Some (x, h)
  | l :: ls => match lstep x l with Some (x', es) => go x' (h ++ es) ls | None => None end
  end.
Lemma go_run ls : forall x0 x h x' h', lrun x0 h x -> go x h ls = Some (x', h') -> lrun x0 h' x'.
Proof.
  induction ls as [|l ls IH]; intros x0 x h x' h' R E; cbn in E; [injection E as <- <-; exact R|].
  destruct (lstep x l) as [(x1, es)|] eqn:S; [|discriminate]. eapply IH; [|exact E]. econstructor; eauto.
Qed.
Definition stop_it := [LNew demo_host; LVisit (VStart demo_task (Some 3)) 2; LStep; LStep; LStep; LStep; LStep].
(** The task stops at a breakpoint and the thread waits; then the hypotheses of
    [C28_request_reaches_thread] hold with a continue for all threads to come. *)
Example C28_reached : exists x, lrun (l_init [(Live, TContinue)]) ([] ++ EStop 2 :: []) x /\ l_s x = SBlocked (VStart demo_task (Some 3)) 2 /\
  l_r x = RIdle /\ l_todo x = [(Live, TContinue)].
Proof.
  destruct (go (l_init [(Live, TContinue)]) [] stop_it) as [(x, h)|] eqn:E; [|vm_compute in E; discriminate].
  exists x. pose proof (go_run stop_it (lrun_nil _) E) as R. vm_compute in E. injection E as <- <-. auto.
Qed.
(** The request is picked up before the stop is announced and waits for the lock; the
    wake-up is not lost. *)
Example C28_resumed_early : exists x, lrun (l_init [(One 2, TStepOver)]) ([EStop 2; ESet 2 TStepOver; EGo 2]) x.
Proof.
  destruct (go (l_init [(One 2, TStepOver)]) [] ([LNew demo_host; LVisit (VStart demo_task (Some 3)) 2; LStep; LRecv false; LStep; LStep; LStep; LStep; LRecv false; LRecv false; LRecv false; LRecv false; LRecv false; LStep; LStep; LStep; LStep])) as [(x, h)|] eqn:E; [|vm_compute in E; discriminate].
  exists x. pose proof (go_run _ (lrun_nil _) E) as R. vm_compute in E. injection E as <- <-. exact R.
Qed.
(** A continue for all threads can be answered with an error because a new thread was
    added during its loop; no stopped thread is involved then. *)
Example C28_continue_can_fail : exists x, lrun (l_init [(Live, TContinue)]) [ESet 1 TContinue] x /\ l_r x = RRel false.
Proof.
  destruct (go (l_init [(Live, TContinue)]) [] [LRecv false; LRecv false; LRecv false; LNew demo_host; LRecv true]) as [(x, h)|] eqn:E; [|vm_compute in E; discriminate].
  exists x. pose proof (go_run _ (lrun_nil _) E) as R. vm_compute in E. injection E as <- <-. auto.
Qed.
