(** C84: the answer to a resume request and the stopped events around it. *)
From Verif Require Import PyBase PyDict DbgTypes ThreadModel LockModel LockProps AckModel.
Set Implicit Arguments.
Local Open Scope N_scope.
#[local] Arguments dkeys : simpl never.
#[local] Arguments dset : simpl never.
#[local] Arguments ddel : simpl never.
#[local] Arguments dget : simpl never.

(* ------------------------------------------------------------------ specification *)
Definition locks (h : list aev) : list lev := flat_map (fun e => match e with AEv x => [x] | AAns _ => [] end) h.
Definition acks (h : list aev) : list bool := flat_map (fun e => match e with AEv _ => [] | AAns ok => [ok] end) h.
(** Which threads' states were set, and to what. *)
Definition sets (h : list aev) : list (N * TState) := flat_map (fun e => match e with AEv (ESet k st) => [(k, st)] | _ => [] end) h.
Definition stops (h : list aev) : list N := flat_map (fun e => match e with AEv (EStop k) => [k] | _ => [] end) h.
(** What the client receives of it. *)
Definition seen (h : list aev) : list aev := filter (fun e => match e with AEv (EStop _) | AAns _ => true | _ => false end) h.
(** No request is being processed and none is to be answered. *)
Definition quiet (a : AckS) : Prop := l_r (a_ls a) = RIdle /\ a_owe a = None.
Definition exists_in (a : AckS) (k : N) : Prop := In k (dkeys (l_threads (a_ls a))).
(** The thread has stopped and was not resumed since. *)
Definition stopped (k : N) (h : list aev) : Prop :=
  exists pre mid, h = pre ++ AEv (EStop k) :: mid /\ forall st, ~ In (AEv (ESet k st)) mid.
(** The threads a request may touch, and those it must, when [a1] and [a2] are the
    states before it and after its answer. *)
Definition may (sc : scope) (k : N) : Prop := match sc with One t => k = t | _ => True end.
Definition must (sc : scope) (a1 a2 : AckS) (k : N) : Prop := match sc with One t => k = t | _ => exists_in a1 k /\ exists_in a2 k end.

(* ------------------------------------------------------------------ projection *)
Lemma locks_app a b : locks (a ++ b) = locks a ++ locks b. Proof. apply flat_map_app. Qed.
Lemma acks_app a b : acks (a ++ b) = acks a ++ acks b. Proof. apply flat_map_app. Qed.
Lemma sets_app a b : sets (a ++ b) = sets a ++ sets b. Proof. apply flat_map_app. Qed.
Lemma stops_app a b : stops (a ++ b) = stops a ++ stops b. Proof. apply flat_map_app. Qed.
Lemma locks_map es : locks (map AEv es) = es.
Proof. induction es as [|e es IH]; cbn; [reflexivity|]. now f_equal. Qed.
Lemma acks_map es : acks (map AEv es) = [].
Proof. induction es; auto. Qed.
Lemma in_locks e h : In e (locks h) <-> In (AEv e) h.
Proof.
  unfold locks. rewrite in_flat_map. split.
  - intros (x & X & Y). destruct x; [|contradiction]. destruct Y as [-> |[]]. exact X.
  - intros X. exists (AEv e). split; [exact X|now left].
Qed.
Lemma in_sets k st h : In (k, st) (sets h) <-> In (AEv (ESet k st)) h.
Proof.
  unfold sets. rewrite in_flat_map. split.
  - intros (x & X & Y). destruct x as [[t|t u|t|t]|b]; try contradiction. destruct Y as [Y|[]]. injection Y as -> ->. exact X.
  - intros X. exists (AEv (ESet k st)). split; [exact X|now left].
Qed.

Lemma astep_cases a l a' es : astep a l = Some (a', es) ->
  (exists ok, l = AQueue /\ a_owe a = Some ok /\ a' = mkAck (a_ls a) None /\ es = [AAns ok]) \/
  (exists x s' es', l = ALock x /\ lstep (a_ls a) x = Some (s', es') /\ es = map AEv es' /\ a_ls a' = s' /\
     match x with LRecv _ => a_owe a = None /\ a_owe a' = match l_r (a_ls a) with RRel ok => Some ok | _ => None end
                | _ => a_owe a' = a_owe a end).
Proof.
  destruct l as [x|]; cbn.
  - intros H. right.
    destruct x as [h| |v tid| |fail]; (destruct (a_owe a) as [o|] eqn:O; try discriminate);
      match type of H with context [match ?z with Some _ => _ | None => _ end] => destruct z as [(s', es')|] eqn:E; [|discriminate] end;
      injection H as <- <-; eexists _, s', es'; cbn; (split; [reflexivity|]); rewrite ?E; auto.
  - destruct (a_owe a) as [ok|] eqn:O; [|discriminate]. intros H. injection H as <- <-. left. eauto.
Qed.
Lemma lrun_app a h b : lrun a h b -> forall g c, lrun b g c -> lrun a (h ++ g) c.
Proof. intros R g c Q. induction Q as [s|s g s1 l s2 es Q IH E]; [now rewrite app_nil_r|]. rewrite app_assoc. econstructor; eauto. Qed.
Lemma arun_app a h b : arun a h b -> forall g c, arun b g c -> arun a (h ++ g) c.
Proof. intros R g c Q. induction Q as [s|s g s1 l s2 es Q IH E]; [now rewrite app_nil_r|]. rewrite app_assoc. econstructor; eauto. Qed.
Lemma arun_lrun a h a' : arun a h a' -> lrun (a_ls a) (locks h) (a_ls a').
Proof.
  intros R. induction R as [a|a h a1 l a2 es R IH E]; [constructor|]. rewrite locks_app.
  destruct (astep_cases _ _ E) as [(ok & -> & _ & -> & ->)|(x & s' & es' & -> & L & -> & <- & _)].
  - cbn. rewrite app_nil_r. exact IH.
  - rewrite locks_map. econstructor; eauto.
Qed.
Lemma arun_linv todo h a : todo_wf todo -> arun (a_init todo) h a -> LInv (a_ls a).
Proof. intros W R. eapply run_linv; [exact W|]. apply (arun_lrun R). Qed.
Lemma lrun_linv s h s' : LInv s -> lrun s h s' -> LInv s'.
Proof. intros I R. induction R as [s|s h s1 l s2 es R IH E]; [exact I|]. eapply step_linv; [apply IH; exact I|exact E]. Qed.

(* ------------------------------------------------------------------ one answer each *)
Definition in_progress (a : AckS) : nat := match l_r (a_ls a), a_owe a with RIdle, None => 0 | _, _ => 1 end.
Lemma strat_frame s l s' es : (forall f, l <> LRecv f) -> lstep s l = Some (s', es) ->
  l_r s' = l_r s /\ l_todo s' = l_todo s /\ sets (map AEv es) = [] /\ l_next s <= l_next s' /\
  (forall k, In k (dkeys (l_threads s')) -> k = l_next s \/ In k (dkeys (l_threads s))).
Proof.
  intros NR H. destruct l as [h| |v tid| |f]; cbn in H; [| | | |now elim (NR f)].
  - destruct (l_s s); try discriminate. injection H as <- <-. cbn. csplit; auto; [lia|]. intros k X. now apply In_dkeys_dset in X.
  - destruct (l_s s); try discriminate. injection H as <- <-. cbn. csplit; auto; lia.
  - destruct (l_s s); try discriminate. destruct (_ && _); try discriminate. injection H as <- <-. cbn. csplit; auto; lia.
  - unfold strategy_step in H. destruct (l_s s) as [|ks|v tid|v tid|v tid|v tid|v tid|v tid|v tid|v tid stopped|] eqn:P; try discriminate.
    + destruct ks as [|k ks]; [|destruct (N.eqb k 1)]; injection H as <- <-; cbn; csplit; auto; try lia.
      intros j X. right. apply in_map_iff in X as (q & <- & X). apply In_ddel in X. apply in_map. exact X.
    + destruct (l_lock s); [discriminate|]. injection H as <- <-. cbn; csplit; auto; lia.
    + destruct (dget (l_threads s) tid) as [t|] eqn:T; [|discriminate].
      destruct (decide v t) as (t', [ev|]); injection H as <- <-; cbn; csplit; auto; try lia;
        (intros k X; right; rewrite dkeys_dset_in in X; [exact X|eapply dget_Some_key; eauto]).
    + injection H as <- <-. cbn; csplit; auto; lia.
    + destruct (dget (l_threads s) tid); [|discriminate]. injection H as <- <-. cbn; csplit; auto; lia.
    + injection H as <- <-. cbn; csplit; auto; lia.
    + destruct (l_notified s); [|discriminate]. injection H as <- <-. cbn; csplit; auto; lia.
    + destruct (l_lock s); [discriminate|]. injection H as <- <-. cbn; csplit; auto; lia.
    + destruct (dget (l_threads s) tid) as [t|] eqn:T; [|discriminate]. cbv zeta in H. injection H as <- <-.
      match goal with |- context [if ?b then SDone else _] => destruct b end; cbn; csplit; auto; lia.
Qed.

Ltac frame L := let F := fresh "F" in pose proof (fun N => @strat_frame _ _ _ _ N L) as F; specialize (F ltac:(intros ?; discriminate));
  let F1 := fresh "FR" in let F2 := fresh "FT" in let F3 := fresh "FS" in let F4 := fresh "FN" in let F5 := fresh "FK" in destruct F as (F1 & F2 & F3 & F4 & F5).
Lemma recv_frame s f s' es : LInv s -> lstep s (LRecv f) = Some (s', es) ->
  l_next s' = l_next s /\ dkeys (l_threads s') = dkeys (l_threads s) /\ l_s s' = l_s s /\
  match l_r s with
  | RIdle => exists sc st, l_todo s = (sc, st) :: l_todo s' /\ es = [] /\
      l_r s' = RAcq sc (match sc with One t => [t] | Live => [] | Copy => dkeys (l_threads s) end) st
  | RAcq sc ks st => l_todo s' = l_todo s /\ es = [] /\
      exists ks', ks' = match sc with Live => dkeys (l_threads s) | _ => ks end /\ l_r s' = RIter (match sc with Live => true | _ => false end) ks' ks' st
  | RIter live ks rest st => l_todo s' = l_todo s /\
      ((l_r s' = RRel false /\ es = []) \/ (rest = [] /\ l_r s' = RNotify /\ es = []) \/
       exists k rest', rest = k :: rest' /\ es = [ESet k st] /\ l_r s' = RIter live ks rest' st)
  | RNotify => l_todo s' = l_todo s /\ es = [] /\ l_r s' = RRel true
  | RRel ok => l_todo s' = l_todo s /\ es = [] /\ l_r s' = RIdle
  end.
Proof.
  intros I H. cbn in H. unfold receive_step in H. destruct (l_r s) as [|sc ks st|live ks rest st| |ok] eqn:R.
  - destruct (l_todo s) as [|(sc, st) r] eqn:T; [discriminate|]. injection H as <- <-. cbn. csplit; auto. exists sc, st. auto.
  - destruct (l_lock s); [discriminate|]. injection H as <- <-. cbn. csplit; auto. eauto.
  - destruct f.
    + destruct (_ && _); [|discriminate]. injection H as <- <-. cbn. csplit; auto.
    + destruct rest as [|k rest].
      * injection H as <- <-. cbn. csplit; auto.
      * destruct (dget (l_threads s) k) as [t|] eqn:T; injection H as <- <-; cbn; csplit; auto.
        -- apply dkeys_dset_in. eapply dget_Some_key; eauto.
        -- right; right. eauto.
  - injection H as <- <-. cbn. csplit; auto.
  - injection H as <- <-. cbn. csplit; auto.
Qed.

Lemma owe_idle todo h a : todo_wf todo -> arun (a_init todo) h a -> a_owe a <> None -> l_r (a_ls a) = RIdle.
Proof.
  intros W R. remember (a_init todo) as a0. induction R as [a|a h a1 l a2 es R IH E]; subst; [now intros X|].
  specialize (IH eq_refl). pose proof (arun_linv W R) as I.
  destruct (astep_cases _ _ E) as [(ok & -> & O & -> & ->)|(x & s' & es' & -> & L & -> & <- & O)]; [now intros X|].
  destruct x as [hh| |v tid| |f]; try (rewrite O; intros X; frame L; rewrite FR; now apply IH).
  destruct O as (_ & ->). destruct (@recv_frame _ _ _ _ I L) as (_ & _ & _ & M). destruct (l_r (a_ls a1)); try (now intros X); intros _; apply M.
Qed.

(** Every request is answered once: the requests sent are those answered, the one being
    worked on, and those still to be read. *)
Theorem C84_one_answer_each todo h a : todo_wf todo -> arun (a_init todo) h a ->
  (length todo = length (acks h) + in_progress a + length (l_todo (a_ls a)))%nat.
Proof.
  intros W R. remember (a_init todo) as a0. induction R as [a|a h a1 l a2 es R IH E]; subst; [reflexivity|].
  specialize (IH eq_refl). pose proof (arun_linv W R) as I. pose proof (owe_idle W R) as OI. rewrite acks_app, app_length.
  unfold in_progress in *.
  destruct (astep_cases _ _ E) as [(ok & -> & O & -> & ->)|(x & s' & es' & -> & L & -> & <- & O)].
  - cbn. rewrite O in *. rewrite OI in * by discriminate. lia.
  - rewrite acks_map. cbn [length]. destruct x as [hh| |v tid| |f]; try (rewrite O; frame L; rewrite FR, FT; lia).
    destruct O as (O1 & ->). rewrite O1 in IH. destruct (@recv_frame _ _ _ _ I L) as (_ & _ & _ & M). destruct (l_r (a_ls a1)) as [|sc ks st|live ks rest st| |ok].
    + destruct M as (sc & st & T & _ & ->). rewrite T in IH. cbn in IH. lia.
    + destruct M as (-> & _ & ks' & _ & ->). lia.
    + destruct M as (-> & [(-> & _)|[(_ & -> & _)|(k & r' & _ & _ & ->)]]); lia.
    + destruct M as (-> & _ & ->). lia.
    + destruct M as (-> & _ & ->). lia.
Qed.
Print Assumptions C84_one_answer_each.

(* ------------------------------------------------------------------ what an answer means *)
Section OneRequest.
Variables (a1 : AckS) (sc : scope) (st : TState) (tail : list (scope * TState)).
(** The keys the request goes through. *)
Definition Kok (ks : list N) (a : AckS) : Prop :=
  NoDup ks /\ (forall k, In k ks -> may sc k) /\ (forall k, must sc a1 a k -> In k ks).
Definition sete (k : N) : N * TState := (k, st).
Definition Phase (a : AckS) (h : list aev) : Prop :=
  (l_todo (a_ls a) = (sc, st) :: tail /\ l_r (a_ls a) = RIdle /\ a_owe a = None /\ sets h = [] /\ acks h = []) \/
  (l_todo (a_ls a) = tail /\
    ((exists ks, l_r (a_ls a) = RAcq sc ks st /\ a_owe a = None /\ sets h = [] /\ acks h = [] /\ (sc = Live \/ Kok ks a)) \/
     (exists live ks done rest, l_r (a_ls a) = RIter live ks rest st /\ a_owe a = None /\ ks = done ++ rest /\ sets h = map sete done /\ acks h = [] /\ Kok ks a) \/
     (exists ks, l_r (a_ls a) = RNotify /\ a_owe a = None /\ sets h = map sete ks /\ acks h = [] /\ Kok ks a) \/
     (exists ok ks done rest, ((l_r (a_ls a) = RRel ok /\ a_owe a = None) \/ (l_r (a_ls a) = RIdle /\ a_owe a = Some ok)) /\
        ks = done ++ rest /\ sets h = map sete done /\ acks h = [] /\ Kok ks a /\ (ok = true -> rest = [])) \/
     (exists ok ks done rest pre post, l_r (a_ls a) = RIdle /\ a_owe a = None /\ h = pre ++ AAns ok :: post /\
        ks = done ++ rest /\ sets pre = map sete done /\ acks pre = [] /\ sets post = [] /\ acks post = [] /\ Kok ks a /\ (ok = true -> rest = [])))) \/
  (length (l_todo (a_ls a)) < length tail)%nat.

End OneRequest.
Lemma kok_step a1 sc ks a a' : (forall k, exists_in a1 k -> k < l_next (a_ls a1)) -> l_next (a_ls a1) <= l_next (a_ls a) ->
  (forall k, exists_in a' k -> k = l_next (a_ls a) \/ exists_in a k) -> Kok a1 sc ks a -> Kok a1 sc ks a'.
Proof.
  intros LT LE M (A & B & C). split; [exact A|]. split; [exact B|]. intros k X. apply C. unfold must in *. destruct sc; auto; destruct X as (X & Y); split; auto;
    (destruct (M k Y) as [->|Z]; [apply LT in X; lia|exact Z]).
Qed.

Lemma phase_step a1 sc st tail a h l a' es : (forall k, exists_in a1 k -> k < l_next (a_ls a1)) -> LInv (a_ls a) -> l_next (a_ls a1) <= l_next (a_ls a) -> Phase a1 sc st tail a h -> astep a l = Some (a', es) ->
  l_next (a_ls a) <= l_next (a_ls a') /\ Phase a1 sc st tail a' (h ++ es).
Proof.
  intros LT I LE P E.
  destruct (astep_cases _ _ E) as [(ok & -> & O & -> & ->)|(x & s' & es' & -> & L & -> & <- & O)].
  - split; [reflexivity|]. destruct P as [(_ & _ & X & _)|[(T & P)|P]]; [congruence| |right; right; exact P].
    right; left. split; [exact T|]. destruct P as [(ks & _ & X & _)|[(lv & ks & dn & rs & _ & X & _)|[(ks & _ & X & _)|[(ok' & ks & dn & rs & [(_ & X)|(R & X)] & EK & SS & AC & K & DN)|(ok' & ks & dn & rs & pre & post & _ & X & _)]]]]; try congruence.
    rewrite O in X. injection X as <-. do 4 right. exists ok, ks, dn, rs, h, []. cbn. csplit; auto.
  - assert (CASE : (exists f, x = LRecv f) \/ (l_r (a_ls a') = l_r (a_ls a) /\ l_todo (a_ls a') = l_todo (a_ls a) /\ sets (map AEv es') = [] /\ l_next (a_ls a) <= l_next (a_ls a') /\
       (forall k, exists_in a' k -> k = l_next (a_ls a) \/ exists_in a k) /\ a_owe a' = a_owe a)).
    { destruct x as [hh| |v tid| |f]; [right|right|right|right|left; eauto]; frame L; auto 10. }
    destruct CASE as [(f & ->)|(FR & FT & FS & FN & FK & FO)].
    + destruct O as (O & OE). destruct (@recv_frame _ _ _ _ I L) as (RN & RK & _ & M). split; [rewrite RN; reflexivity|].
      assert (KK : forall ks, Kok a1 sc ks a -> Kok a1 sc ks a').
      { intros ks. apply kok_step; [exact LT|exact LE|]. unfold exists_in. intros k. rewrite RK. auto. }
      destruct P as [(T & R & _ & SS & AC)|[(T & P)|P]].
      * rewrite R in M, OE. destruct M as (sc' & st' & T' & -> & R'). rewrite T in T'. injection T' as <- <- T'.
        right; left. split; [auto|]. left. eexists. rewrite app_nil_r. csplit; eauto.
        destruct sc as [t| |]; [right|left; auto|right]; (split; [|split]).
        -- constructor; [intros []|constructor].
        -- intros k [EQ|[]]. exact (eq_sym EQ).
        -- intros k X. cbn in X. subst. now left.
        -- exact (v_nd I).
        -- intros k _. exact Logic.I.
        -- intros k (_ & X). unfold exists_in in X. rewrite RK in X. exact X.
      * destruct P as [(ks & R & _ & SS & AC & K)|[(lv & ks & dn & rs & R & _ & EK & SS & AC & K)|[(ks & R & _ & SS & AC & K)|[(ok' & ks & dn & rs & [(R & _)|(_ & X)] & EK & SS & AC & K & DN)|(ok' & ks & dn & rs & pre & post & R & _ & EH & EK & SS & AC & SP & AP & K & DN)]]]];
          [| | | |congruence|]; rewrite R in M, OE.
        -- destruct M as (T' & -> & ks' & EK & R'). right; left. split; [congruence|]. right; left. eexists _, ks', [], ks'. rewrite app_nil_r. csplit; eauto.
           destruct K as [-> |K].
           ++ subst ks'. split; [exact (v_nd I)|]. split; [intros k _; exact Logic.I|]. intros k (_ & X). unfold exists_in in X. rewrite RK in X. exact X.
           ++ apply KK in K. destruct sc; subst ks'; try exact K. split; [exact (v_nd I)|]. split; [intros k _; exact Logic.I|]. intros k (_ & X). unfold exists_in in X. rewrite RK in X. exact X.
        -- destruct M as (T' & [(R' & ->)|[(-> & R' & ->)|(k & rs' & -> & -> & R')]]); right; left; (split; [congruence|]).
           ++ do 3 right. left. exists false, ks, dn, rs. rewrite app_nil_r. csplit; auto. discriminate.
           ++ do 2 right. left. exists ks. rewrite app_nil_r in *. subst dn. csplit; auto.
           ++ right. left. eexists _, ks, (dn ++ [k]), rs'. rewrite sets_app, acks_app, SS, AC, map_app, <- app_assoc. cbn. csplit; auto. exact R'.
        -- destruct M as (T' & -> & R'). right; left. split; [congruence|]. do 3 right. left. exists true, ks, ks, []. rewrite !app_nil_r. csplit; auto.
        -- destruct M as (T' & -> & R'). right; left. split; [congruence|]. do 3 right. left. exists ok', ks, dn, rs. rewrite app_nil_r. csplit; auto.
        -- destruct M as (sc' & st' & T' & _ & _). right; right. rewrite <- T, T'. cbn. lia.
      * right; right. assert (X : (length (l_todo (a_ls a')) <= length (l_todo (a_ls a)))%nat); [|lia].
        destruct (l_r (a_ls a)); [destruct M as (q & u & -> & _); cbn; lia|..]; destruct M as (-> & _); lia.
    + split; [exact FN|]. assert (KK : forall ks, Kok a1 sc ks a -> Kok a1 sc ks a') by (intros ks; now apply kok_step).
      assert (AE : acks (map AEv es') = []) by apply acks_map.
      unfold Phase. rewrite FR, FT, FO, !sets_app, !acks_app, FS, AE, !app_nil_r.
      destruct P as [P|[(T & P)|P]]; [now left|right; left; split; [exact T|]|now right; right].
      destruct P as [(ks & R & OO & SS & AC & K)|[(lv & ks & dn & rs & R & OO & EK & SS & AC & K)|[(ks & R & OO & SS & AC & K)|[(ok' & ks & dn & rs & R & EK & SS & AC & K & DN)|(ok' & ks & dn & rs & pre & post & R & OO & EH & EK & SS & AC & SP & AP & K & DN)]]]].
      * left. exists ks. csplit; auto. destruct K; auto.
      * right; left. exists lv, ks, dn, rs. csplit; auto.
      * right; right; left. exists ks. csplit; auto.
      * do 3 right; left. exists ok', ks, dn, rs. csplit; auto.
      * do 4 right. exists ok', ks, dn, rs, pre, (post ++ map AEv es'). rewrite sets_app, acks_app, SP, AP, FS, AE, EH, <- app_assoc. csplit; auto.
Qed.
Lemma phase_run a1 sc st tail h a : (forall k, exists_in a1 k -> k < l_next (a_ls a1)) -> LInv (a_ls a1) -> Phase a1 sc st tail a1 [] -> arun a1 h a -> LInv (a_ls a) /\ l_next (a_ls a1) <= l_next (a_ls a) /\ Phase a1 sc st tail a h.
Proof.
  intros LT I P R. revert LT I P. induction R as [b|b h x l y es R IH E]; intros LT I P; [csplit; auto; reflexivity|].
  destruct (IH LT I P) as (I1 & L1 & P1). destruct (phase_step l LT I1 L1 P1 E) as (L2 & P2). csplit; auto; [|lia].
  eapply lrun_linv; [exact I|]. eapply (@arun_lrun b). econstructor; eauto.
Qed.

(** When a request was handled between two quiet moments, there is one answer; the states
    the request set were set before it, each thread once, and an answer of success means
    that all the threads it is about were set. *)
Theorem C84_answer_means_done todo h1 a1 h2 a2 sc st : todo_wf todo -> arun (a_init todo) h1 a1 -> quiet a1 -> arun a1 h2 a2 -> quiet a2 ->
  l_todo (a_ls a1) = (sc, st) :: l_todo (a_ls a2) ->
  exists ok pre post ks, h2 = pre ++ AAns ok :: post /\ acks pre = [] /\ acks post = [] /\ sets post = [] /\
    sets pre = map (fun k => (k, st)) ks /\ NoDup ks /\ (forall k, In k ks -> may sc k) /\
    (ok = true -> forall k, must sc a1 a2 k -> In k ks).
Proof.
  intros W R1 (Q1 & O1) R2 (Q2 & O2) T. pose proof (arun_linv W R1) as I.
  destruct (@phase_run a1 sc st (l_todo (a_ls a2)) h2 a2 (v_lt I) I) as (_ & _ & P); [left; auto|exact R2|].
  destruct P as [(X & _)|[(_ & P)|X]]; [exfalso; apply (f_equal (@length _)) in X; cbn in X; lia| |lia].
  destruct P as [(ks & R & _)|[(lv & ks & dn & rs & R & _)|[(ks & R & _)|[(ok' & ks & dn & rs & [(R & _)|(_ & X)] & _)|(ok & ks & dn & rs & pre & post & _ & _ & -> & EK & SS & AC & SP & AP & (K1 & K2 & K3) & DN)]]]]; try congruence.
  exists ok, pre, post, dn. subst ks. csplit; auto.
  - clear -K1. induction dn; [constructor|]. inversion K1; subst. constructor; auto. intros X. apply H1, in_or_app. now left.
  - intros k X. apply K2, in_or_app. now left.
  - intros -> k X. apply K3 in X. rewrite DN, app_nil_r in X by reflexivity. exact X.
Qed.
Print Assumptions C84_answer_means_done.

(* ------------------------------------------------------------------ stops *)
(** A stopped event is sent only while no thread is stopped. *)
Lemma stop_alone todo h s : todo_wf todo -> lrun (l_init todo) h s -> forall pre k post, h = pre ++ EStop k :: post -> forall j, status j pre = None.
Proof.
  intros W R. remember (l_init todo) as s0. induction R as [s|s h s1 l s2 es R IH E]; subst.
  - intros pre k post X. exfalso. eapply ok_nil; eauto.
  - specialize (IH eq_refl). pose proof (run_linv W R) as I. destruct (run_hinv W R) as [ST _ _].
    assert (C : es = [] \/ exists e, es = [e] /\ forall k, e = EStop k -> at_stop (l_s s1) = None).
    { destruct l as [h0| |v tid| |f].
      - cbn in E. destruct (l_s s1); try discriminate. injection E as _ <-. auto.
      - cbn in E. destruct (l_s s1); try discriminate. injection E as _ <-. auto.
      - cbn in E. destruct (l_s s1); try discriminate. destruct (_ && _); try discriminate. injection E as _ <-. auto.
      - cbn in E. unfold strategy_step in E. destruct (l_s s1) as [|ks|v tid|v tid|v tid|v tid|v tid|v tid|v tid|v tid stp|] eqn:P; try discriminate;
          repeat match type of E with
          | context [match ?x with _ => _ end] => destruct x; try discriminate
          end; injection E as _ <-; auto; right; eexists; (split; [reflexivity|]); intros k X; try discriminate; reflexivity.
      - destruct (@recv_frame _ _ _ _ I E) as (_ & _ & _ & M). destruct (l_r s1).
        + destruct M as (? & ? & _ & -> & _). auto.
        + destruct M as (_ & -> & _). auto.
        + destruct M as (_ & [(_ & ->)|[(_ & _ & ->)|(k & r' & _ & -> & _)]]); auto. right. eexists. split; [reflexivity|]. intros k0 X. discriminate.
        + destruct M as (_ & -> & _). auto.
        + destruct M as (_ & -> & _). auto. }
    destruct C as [-> |(e & -> & C)]; [rewrite app_nil_r; exact IH|].
    assert (G : forall pre x post, h ++ [e] = pre ++ x :: post -> forall k, x = EStop k -> forall j, status j pre = None).
    { apply (@ok_snoc (fun pre x => forall k, x = EStop k -> forall j, status j pre = None)).
      - intros pre x post X k -> j. eapply IH. exact X.
      - intros k -> j. rewrite ST, (C k eq_refl). destruct (eqb_spec None (Some j)); [discriminate|reflexivity]. }
    intros pre k post X. eapply G; [exact X|reflexivity].
Qed.

Lemma status_inv tid h : status tid h = Some false -> exists pre mid, h = pre ++ EStop tid :: mid /\ forall st, ~ In (ESet tid st) mid.
Proof.
  induction h as [|e h IH] using rev_ind; [discriminate|]. rewrite status_snoc. intros H.
  assert (KEEP : status tid h = Some false -> (forall st, e <> ESet tid st) -> exists pre mid, h ++ [e] = pre ++ EStop tid :: mid /\ forall st, ~ In (ESet tid st) mid).
  { intros S NE. destruct (IH S) as (pre & mid & -> & N). exists pre, (mid ++ [e]). split; [now rewrite <- app_assoc|].
    intros st X. apply in_app_or in X as [X|[X|[]]]; [now apply (N st)|now apply (NE st)]. }
  destruct e as [k|k st|k|k]; cbn in H; destruct (N.eqb_spec k tid) as [->|NE]; try discriminate; try (apply KEEP; [exact H|intros st0; congruence]).
  - exists h, []. split; [reflexivity|intros st []].
  - destruct (status tid h) as [x|]; discriminate.
Qed.
Lemma locks_split h : forall p e m, locks h = p ++ e :: m -> exists pre mid, h = pre ++ AEv e :: mid /\ locks pre = p /\ locks mid = m.
Proof.
  induction h as [|x h IH]; intros p e m H; [destruct p; discriminate|]. destruct x as [y|ok]; cbn in H.
  - destruct p as [|z p]; cbn in H; injection H as -> H.
    + exists [], h. auto.
    + destruct (IH p e m H) as (pre & mid & -> & E1 & E2). exists (AEv z :: pre), mid. rewrite <- E1, <- E2. auto.
  - destruct (IH p e m H) as (pre & mid & -> & E1 & E2). exists (AAns ok :: pre), mid. auto.
Qed.
Lemma stopped_status todo h a k : todo_wf todo -> arun (a_init todo) h a -> (stopped k h <-> status k (locks h) = Some false).
Proof.
  intros W R. pose proof (arun_lrun R) as R'. destruct (run_hinv W R') as [_ _ OK]. split.
  - intros (pre & mid & E & N). assert (EL : locks h = locks pre ++ EStop k :: locks mid) by (rewrite E, locks_app; reflexivity). rewrite EL. apply status_stopped.
    + intros st X. apply (N st), in_locks, X.
    + intros x e b X Y. apply (OK k (locks pre ++ EStop k :: x) e b); [|exact Y]. rewrite EL, X, <- app_assoc. reflexivity.
  - intros S. apply status_inv in S as (p & m & E & N). apply locks_split in E as (pre & mid & -> & _ & <-).
    exists pre, mid. split; [reflexivity|]. intros st X. apply (N st), in_locks, X.
Qed.

(** While a thread is stopped there is no further stopped event, of any thread. *)
Theorem C84_one_stop_at_a_time todo h a pre k mid j post : todo_wf todo -> arun (a_init todo) h a ->
  h = pre ++ AEv (EStop k) :: mid ++ AEv (EStop j) :: post -> exists st, In (AEv (ESet k st)) mid.
Proof.
  intros W R E. pose proof (arun_lrun R) as R'. destruct (run_hinv W R') as [_ _ OK].
  assert (EL : locks h = (locks pre ++ EStop k :: locks mid) ++ EStop j :: locks post) by (rewrite E, locks_app; cbn; fold (locks (mid ++ AEv (EStop j) :: post)); rewrite locks_app, <- app_assoc; reflexivity).
  pose proof (stop_alone W R' _ _ _ EL k) as N.
  assert (D : (exists st, In (ESet k st) (locks mid)) \/ forall st, ~ In (ESet k st) (locks mid)).
  { clear. induction (locks mid) as [|x m IH]; [right; intros st []|]. destruct IH as [(st & IH)|IH]; [left; exists st; now right|].
    destruct x as [i|i st|i|i]; try (right; intros st0 [Y|Y]; [discriminate|now apply (IH st0)]).
    destruct (N.eq_dec i k) as [->|NE]; [left; exists st; now left|]. right. intros st0 [Y|Y]; [congruence|now apply (IH st0)]. }
  destruct D as [(st & D)|D]; [exists st; now apply in_locks|]. exfalso. rewrite status_stopped in N; [discriminate|exact D|].
  intros x e b X Y. apply (OK k (locks pre ++ EStop k :: x) e (b ++ EStop j :: locks post)); [|exact Y]. rewrite EL, X. rewrite <- !app_assoc. cbn. rewrite <- app_assoc. reflexivity.
Qed.
Print Assumptions C84_one_stop_at_a_time.

(** A client that knows a thread is stopped and sends one request that resumes it knows,
    when the answer is there and nothing else is on its way, whether the thread is
    stopped again: it is if and only if a stopped event of it came, before or after the
    answer. *)
Theorem C84_stopped_client_can_tell_partial todo h1 a1 h2 a2 sc st k : todo_wf todo -> arun (a_init todo) h1 a1 -> quiet a1 -> stopped k h1 ->
  arun a1 h2 a2 -> quiet a2 -> l_todo (a_ls a1) = (sc, st) :: l_todo (a_ls a2) -> may sc k -> acks h2 = [true] ->
  (stopped k (h1 ++ h2) <-> In k (stops h2)).
Proof.
  intros W R1 Q1 S1 R2 Q2 T MAY AC. pose proof (arun_app R1 R2) as R. pose proof (arun_lrun R1) as L1. pose proof (arun_lrun R) as L.
  destruct (run_hinv W L) as [ST FN OK]. destruct (run_hinv W L1) as [ST1 _ _].
  pose proof S1 as SS1. apply (stopped_status k W R1) in SS1.
  destruct (C84_answer_means_done W R1 Q1 R2 Q2 T) as (ok & pre & post & ks & EH & A1 & A2 & SP & SE & ND & _ & MUST).
  assert (ok = true) as -> by (rewrite EH, acks_app, A1 in AC; cbn in AC; injection AC as ->; reflexivity). specialize (MUST eq_refl).
  assert (SETS : sets h2 = map (fun k => (k, st)) ks) by (rewrite EH, sets_app, SE; cbn; fold (sets post); now rewrite SP, app_nil_r).
  assert (AT : forall s h, LInv s -> HInv s h -> status k h = Some false -> In k (dkeys (l_threads s))).
  { intros s h I [X _ _] Y. rewrite X in Y. destruct (eqb_spec (at_stop (l_s s)) (Some k)) as [Z|]; [|discriminate].
    apply (v_tid I). destruct (l_s s) as [|?|? ?|? ?|? ?|? ?|? ?|? ?|? ?|? ? []|]; try discriminate; exact Z. }
  assert (IK : In k ks).
  { destruct (in_dec N.eq_dec k ks) as [X|X]; [exact X|]. exfalso. apply X, MUST.
    assert (NS : forall u, ~ In (AEv (ESet k u)) h2).
    { intros u Y. apply in_sets in Y. rewrite SETS in Y. apply in_map_iff in Y as (q & Y & Z). injection Y as -> _. auto. }
    assert (S2 : stopped k (h1 ++ h2)).
    { destruct S1 as (p & m & -> & N). exists p, (m ++ h2). split; [now rewrite <- app_assoc|]. intros u Y. apply in_app_or in Y as [Y|Y]; [now apply (N u)|now apply (NS u)]. }
    apply (stopped_status k W R) in S2. destruct sc; [exact MAY|split|split].
    - eapply AT; [eapply run_linv; [exact W|exact L1]|eapply run_hinv; [exact W|exact L1]|exact SS1].
    - eapply AT; [eapply run_linv; [exact W|exact L]|eapply run_hinv; [exact W|exact L]|exact S2].
    - eapply AT; [eapply run_linv; [exact W|exact L1]|eapply run_hinv; [exact W|exact L1]|exact SS1].
    - eapply AT; [eapply run_linv; [exact W|exact L]|eapply run_hinv; [exact W|exact L]|exact S2]. }
  assert (STOPS : forall g i, In i (stops g) <-> In (AEv (EStop i)) g).
  { intros g i. unfold stops. rewrite in_flat_map. split.
    - intros (x & X & Y). destruct x as [[t|t u|t|t]|b]; try contradiction. destruct Y as [-> |[]]. exact X.
    - intros X. exists (AEv (EStop i)). split; [exact X|now left]. }
  assert (SET2 : In (AEv (ESet k st)) h2) by (apply in_sets; rewrite SETS; now apply in_map with (f := fun x => (x, st))).
  rewrite STOPS. split.
  - intros (p & m & E & N). destruct (app_eq_app _ _ _ _ E) as (l & [(E1 & E2)|(E1 & E2)]).
    + destruct l as [|x l]; cbn in E2.
      * rewrite <- E2. now left.
      * exfalso. injection E2 as <- E2. apply (N st). rewrite E2. apply in_or_app. now right.
    + rewrite E2. apply in_or_app. right. now left.
  - intros X. apply in_split in X as (x & y & E).
    assert (ONE : forall u, ~ In (AEv (ESet k u)) y).
    { assert (X : exists u, In (AEv (ESet k u)) x).
      { destruct S1 as (p & m & E1 & N1). destruct (@C84_one_stop_at_a_time todo (h1 ++ h2) a2 p k (m ++ x) k y W R) as (u & X).
        - rewrite E1, E, <- !app_assoc. reflexivity.
        - exists u. apply in_app_or in X as [X|X]; [|exact X]. now apply N1 in X. }
      destruct X as (u & X). intros u' Y. apply in_sets in X, Y. rewrite E, sets_app in SETS. cbn in SETS. fold (sets y) in SETS.
      apply in_split in X as (x1 & x2 & X), Y as (y1 & y2 & Y). rewrite X, Y in SETS. clear -SETS ND. apply (f_equal (map fst)) in SETS. rewrite map_map, map_id in SETS.
      rewrite <- SETS, !map_app in ND. cbn in ND. rewrite <- app_assoc in ND. cbn in ND.
      apply NoDup_remove_2 in ND. apply ND. apply in_or_app. right. apply in_or_app. right. apply in_or_app. right. now left. }
    exists (h1 ++ x), y. split; [rewrite E, <- app_assoc; reflexivity|exact ONE].
Qed.
Print Assumptions C84_stopped_client_can_tell_partial.

(* ------------------------------------------------------------------ concrete runs *)
Fixpoint ago (a : AckS) (ls : list alabel) : option (AckS * list aev) :=
  match ls with
  | [] => Some (a, [])
  | l :: ls => match astep a l with
               | Some (a', es) => match ago a' ls with Some (a2, h) => Some (a2, es ++ h) | None => None end
               | None => None end
  end.
Lemma ago_run ls : forall a a' h, ago a ls = Some (a', h) -> arun a h a'.
Proof.
  induction ls as [|l ls IH]; intros a a' h E; cbn in E; [injection E as <- <-; constructor|].
  destruct (astep a l) as [(a1, es)|] eqn:S; [|discriminate]. destruct (ago a1 ls) as [(a2, g)|] eqn:G; [|discriminate]. injection E as <- <-.
  eapply arun_app; [|apply IH; exact G]. change es with ([] ++ es). econstructor; [constructor|exact S].
Qed.
Definition S_ (n : nat) : list alabel := repeat (ALock LStep) n.
Definition R_ (n : nat) : list alabel := repeat (ALock (LRecv false)) n.
Definition V_ : list alabel := [ALock (LVisit (VStart demo_task (Some 3)) 2)].
Definition N_ : list alabel := [ALock (LNew demo_host)].

(** "First the response, then the stopped event" is not what happens: the thread can stop
    at the next task before the step request is answered. *)
Theorem C84_response_first_refuted :
  ~ (forall todo h a pre k st mid post, todo_wf todo -> arun (a_init todo) h a ->
     h = pre ++ AEv (ESet k st) :: mid ++ AEv (EStop k) :: post -> acks mid <> []).
Proof.
  intros X. destruct (ago (a_init [(One 2, TStepIn)]) (N_ ++ V_ ++ S_ 5 ++ R_ 6 ++ S_ 4 ++ V_ ++ S_ 3 ++ [AQueue])) as [(a, h)|] eqn:E; [|vm_compute in E; discriminate].
  pose proof (ago_run _ _ E) as R. vm_compute in E. injection E as <- <-.
  eapply (X _ _ _ [AEv (EStop 2)] 2 TStepIn [AEv (EGo 2)] [AAns true]); [|exact R|reflexivity|reflexivity].
  intros sc st [Y|[]]. injection Y as <- <-. discriminate.
Qed.
Print Assumptions C84_response_first_refuted.

(** A client that sends the request before it knows of the stop cannot tell: it receives
    the same stopped event and the same answer whether the thread is stopped or runs. *)
Theorem C84_early_request_ambiguous_refuted : exists todo h h' a a', todo_wf todo /\
  arun (a_init todo) h a /\ arun (a_init todo) h' a' /\ quiet a /\ quiet a' /\ l_todo (a_ls a) = [] /\ l_todo (a_ls a') = [] /\
  seen h = seen h' /\ stopped 2 h /\ ~ stopped 2 h'.
Proof.
  exists [(Live, TContinue)].
  destruct (ago (a_init [(Live, TContinue)]) (N_ ++ R_ 7 ++ V_ ++ S_ 3 ++ [AQueue])) as [(a, h)|] eqn:E; [|vm_compute in E; discriminate].
  destruct (ago (a_init [(Live, TContinue)]) (N_ ++ V_ ++ S_ 5 ++ R_ 7 ++ [AQueue])) as [(a', h')|] eqn:E'; [|vm_compute in E'; discriminate].
  exists h, h', a, a'. pose proof (ago_run _ _ E) as R. pose proof (ago_run _ _ E') as R'. vm_compute in E, E'. injection E as <- <-. injection E' as <- <-.
  csplit; try reflexivity; try assumption; try (split; reflexivity).
  - intros sc st [Y|[]]. injection Y as <- <-. discriminate.
  - exists [AEv (ESet 1 TContinue); AEv (ESet 2 TContinue)], [AAns true]. split; [reflexivity|]. intros st [X|[]]. discriminate.
  - intros (pre & mid & X & N). destruct pre as [|x [|x' [|x2 [|x3 pre]]]]; cbn in X; try discriminate X.
    + injection X as <-. apply (N TContinue). cbn. auto.
    + injection X as _ _ _ X. destruct pre; discriminate.
Qed.
Print Assumptions C84_early_request_ambiguous_refuted.

(** The hypotheses of [C84_stopped_client_can_tell_partial] are met, with both outcomes:
    after a step the thread stops again before the answer, or it does not. *)
Example C84_both_outcomes : exists h1 a1 h2 a2 h2' a2', arun (a_init [(One 2, TStepIn)]) h1 a1 /\ quiet a1 /\ stopped 2 h1 /\
  arun a1 h2 a2 /\ quiet a2 /\ arun a1 h2' a2' /\ quiet a2' /\ l_todo (a_ls a1) = (One 2, TStepIn) :: l_todo (a_ls a2) /\ l_todo (a_ls a2') = l_todo (a_ls a2) /\
  acks h2 = [true] /\ acks h2' = [true] /\ stops h2 = [2] /\ stops h2' = [].
Proof.
  destruct (ago (a_init [(One 2, TStepIn)]) (N_ ++ V_ ++ S_ 5)) as [(a1, h1)|] eqn:E; [|vm_compute in E; discriminate].
  pose proof (ago_run _ _ E) as R. vm_compute in E. injection E as <- <-. eexists _, _.
  match type of R with arun _ _ ?x => set (a1 := x) in * end.
  destruct (ago a1 (R_ 6 ++ S_ 4 ++ V_ ++ S_ 3 ++ [AQueue])) as [(a2, h2)|] eqn:E2; [|vm_compute in E2; discriminate].
  destruct (ago a1 (R_ 6 ++ [AQueue])) as [(a3, h3)|] eqn:E3; [|vm_compute in E3; discriminate].
  pose proof (ago_run _ _ E2) as R2. pose proof (ago_run _ _ E3) as R3. vm_compute in E2, E3. injection E2 as <- <-. injection E3 as <- <-.
  eexists _, _, _, _. split; [exact R|]. split; [split; reflexivity|]. split; [exists [], []; split; [reflexivity|intros st []]|].
  split; [exact R2|]. split; [split; reflexivity|]. split; [exact R3|]. split; [split; reflexivity|]. csplit; reflexivity.
Qed.
