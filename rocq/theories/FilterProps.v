(** C87: changing the exception filters while the playbook goes on. *)
From Verif Require Import PyBase DbgTypes ThreadModel FilterModel.
Set Implicit Arguments.
Ltac csplit := repeat match goal with |- _ /\ _ => split end.

(* ------------------------------------------------------------------ specification *)
(** The filters before and after the change the debuggee is at, which are the same when it
    is at none; a change lasts from a request to its response. *)
Definition change (c : (list pystr * list pystr) * bool) (e : fev) : (list pystr * list pystr) * bool :=
  match e with EAsk fs => ((snd (fst c), fs), true) | EAnswer => ((snd (fst c), snd (fst c)), false) | _ => c end.
Definition status (h : list fev) := fold_left change h (([], []), false).
Definition old (h : list fev) : list pystr := fst (fst (status h)).
Definition new (h : list fev) : list pystr := snd (fst (status h)).
Definition changing (h : list fev) : bool := snd (status h).
(** What the filters say of a finished task. *)
Definition judge (w : Fin) (fs : list pystr) : option Stopped :=
  snd (should_stop_on_exception (fi_task w) (fi_res w) (mem (s "on_error") fs) (mem (s "on_unreachable") fs) (mem (s "on_skipped") fs) (fi_thread w)).
(** Filters the client had asked for at some moment between [pre] and the end of [mid]. *)
Definition around (pre mid : list fev) (fs : list pystr) : Prop := fs = old pre \/ fs = new pre \/ In (EAsk fs) mid.
Definition no_request (mid : list fev) : Prop := forall fs, ~ In (EAsk fs) mid.

(* ------------------------------------------------------------------ the dicts *)
Definition asks (h : list fev) : list (list pystr) := [] :: flat_map (fun e => match e with EAsk fs => [fs] | _ => [] end) h.
Definition FI (x : FS) (h : list fev) : Prop :=
  match f_q x with
  | QIdle => f_dicts x = asks h /\ changing h = false
  | QAnswer => f_dicts x = asks h /\ changing h = true
  | QClear fs => asks h = f_dicts x ++ [fs] /\ f_dicts x <> [] /\ changing h = true
  | QAdd fs => changing h = true /\ exists D d, f_dicts x = D ++ [d] /\ asks h = D ++ [d ++ fs]
  end.
Lemma asks_app h es : asks (h ++ es) = asks h ++ flat_map (fun e => match e with EAsk fs => [fs] | _ => [] end) es.
Proof. unfold asks. cbn. now rewrite flat_map_app. Qed.
Lemma asks_ne h : asks h <> []. Proof. discriminate. Qed.
Lemma status_snoc h e : status (h ++ [e]) = change (status h) e.
Proof. unfold status. now rewrite fold_left_app. Qed.
Lemma fi_step x h l x' es : FI x h -> fstep x l = Some (x', es) -> FI x' (h ++ es).
Proof.
  intros I H. assert (ES : forall e, match e with EBegin _ | EJudged _ _ => True | _ => False end -> asks (h ++ [e]) = asks h /\ changing (h ++ [e]) = changing h).
  { intros e E. split; [rewrite asks_app|unfold changing; rewrite status_snoc]; destruct e; try contradiction; cbn; now rewrite ?app_nil_r. }
  destruct l as [w| |fs|]; cbn in H.
  - destruct (f_m x); try discriminate. injection H as <- <-. unfold FI in *. cbn. destruct (ES (EBegin w) Logic.I) as (-> & ->). exact I.
  - destruct (f_m x) as [|w fl|w fl ob|w fl]; try discriminate; injection H as <- <-; unfold FI in *; cbn; rewrite ?app_nil_r; try exact I.
    destruct (ES (EJudged w (snd (should_stop_on_exception (fi_task w) (fi_res w) (flag 0 fl) (flag 1 fl) (flag 2 fl) (fi_thread w)))) Logic.I) as (-> & ->). exact I.
  - unfold FI in *. destruct (f_q x); try discriminate. injection H as <- <-. cbn. destruct I as (-> & _). rewrite asks_app. cbn. csplit; [reflexivity|discriminate|]. unfold changing. now rewrite status_snoc.
  - unfold FI in *. destruct (f_q x) as [|fs|[|f fs]|]; try discriminate; injection H as <- <-; cbn; rewrite ?app_nil_r.
    + destruct I as (A & B & C). split; [exact C|]. exists (f_dicts x), []. auto.
    + destruct I as (C & D & d & A & B). rewrite A, B, app_nil_r. auto.
    + destruct I as (C & D & d & A & B). split; [exact C|]. exists D, (d ++ [f]). rewrite A. rewrite removelast_last, last_last. split; [reflexivity|]. rewrite B, <- app_assoc. reflexivity.
    + destruct I as (A & B). rewrite asks_app, A. cbn. rewrite app_nil_r. split; [reflexivity|]. unfold changing. now rewrite status_snoc.
Qed.
Lemma run_fi h x : frun h x -> FI x h.
Proof. induction 1; [split; reflexivity|eapply fi_step; eassumption]. Qed.

(** The requested filters are the last ones, or the last but one. *)
Lemma asks_last h x : frun h x -> last (asks h) [] = new h /\ (changing h = false -> old h = new h) /\ (forall D fs, asks h = D ++ [fs] -> D <> [] -> changing h = true -> last D [] = old h).
Proof.
  intros R. induction R as [|h x l x' es R (A & B & C) E]; [csplit; [reflexivity|reflexivity|intros; discriminate]|].
  assert (I := run_fi R).
  assert (es = [] \/ exists e, es = [e]) as [-> |(e & ->)].
  { destruct l; cbn in E; [destruct (f_m x)|destruct (f_m x)|destruct (f_q x)|destruct (f_q x) as [|fs|[|f fs]|]]; try discriminate; injection E as _ <-; eauto. }
  - rewrite app_nil_r. auto.
  - unfold old, new, changing in *. rewrite status_snoc, asks_app. destruct e as [w|w o|fs|]; cbn [change flat_map app fst snd]; rewrite ?app_nil_r; auto.
    + assert (CH : snd (status h) = false).
      { unfold FI, changing in I. destruct l; cbn in E; [destruct (f_m x)|destruct (f_m x)|destruct (f_q x)|destruct (f_q x) as [|fs0|[|f fs0]|]]; try discriminate. apply I. }
      csplit; [now rewrite last_last|discriminate|]. intros D g X _ _. apply app_inj_tail in X as (<- & _). exact A.
    + csplit; [exact A|reflexivity|discriminate].
Qed.

(* ------------------------------------------------------------------ the judgement *)
Definition calm (pre mid : list fev) : Prop := changing pre = false /\ no_request mid.
Lemma around_step pre m e : (around pre m (old (pre ++ m)) /\ around pre m (new (pre ++ m))) ->
  around pre (m ++ [e]) (old (pre ++ m ++ [e])) /\ around pre (m ++ [e]) (new (pre ++ m ++ [e])).
Proof.
  intros (A & B). assert (W : forall fs, around pre m fs -> around pre (m ++ [e]) fs) by (intros fs [X|[X|X]]; [now left|right; now left|right; right; apply in_or_app; now left]).
  rewrite app_assoc. unfold old, new in *. rewrite status_snoc. destruct e as [w|w o|fs|]; cbn; auto. split; [auto|]. right. right. apply in_or_app. right. now left.
Qed.
Lemma around_all pre mid : around pre mid (old (pre ++ mid)) /\ around pre mid (new (pre ++ mid)).
Proof.
  induction mid as [|e m IH] using rev_ind; [rewrite app_nil_r; split; [now left|right; now left]|]. apply around_step. exact IH.
Qed.
Lemma calm_keep pre mid : calm pre mid -> changing (pre ++ mid) = false /\ new (pre ++ mid) = new pre.
Proof.
  intros (A & B). revert B. induction mid as [|e m IH] using rev_ind; intros B; [rewrite app_nil_r; auto|].
  destruct IH as (C & D); [intros fs X; apply (B fs), in_or_app; now left|]. rewrite app_assoc. unfold changing, new in *. rewrite status_snoc.
  destruct e as [w|w o|fs|]; cbn; auto. exfalso. apply (B fs), in_or_app. right. now left.
Qed.
Lemma calm_no_asks pre mid : no_request mid -> asks (pre ++ mid) = asks pre.
Proof.
  intros B. rewrite asks_app. induction mid as [|e m IH]; cbn; [now rewrite app_nil_r|].
  assert (B' : no_request m) by (intros fs X; apply (B fs); now right). destruct e as [w|w o|fs|]; cbn; auto. exfalso. apply (B fs). now left.
Qed.
Definition RD (pre mid : list fev) (fl : list bool) : Prop := forall k b, nth_error fl k = Some b ->
  (b = true -> exists fs, around pre mid fs /\ In (nth k names []) fs) /\ (calm pre mid -> b = mem (nth k names []) (new pre)).
Definition GD (x : FS) (h pre mid : list fev) (ob : nat) : Prop :=
  (ob < length (f_dicts x))%nat /\ around pre mid (nth ob (asks h) []) /\ (calm pre mid -> nth ob (asks h) [] = new pre).
Definition plain (e : fev) : Prop := match e with EBegin _ => False | _ => True end.
Definition MI (x : FS) (h : list fev) : Prop :=
  match f_m x with
  | MIdle => True
  | MLoad w fl => exists pre mid, h = pre ++ EBegin w :: mid /\ Forall plain mid /\ RD (pre ++ [EBegin w]) mid fl /\ (length fl < 3)%nat
  | MGet w fl ob => exists pre mid, h = pre ++ EBegin w :: mid /\ Forall plain mid /\ RD (pre ++ [EBegin w]) mid fl /\ (length fl < 3)%nat /\ GD x h (pre ++ [EBegin w]) mid ob
  | MJudge w fl => exists pre mid, h = pre ++ EBegin w :: mid /\ Forall plain mid /\ RD (pre ++ [EBegin w]) mid fl /\ length fl = 3%nat
  end.
Lemma around_more pre mid es fs : around pre mid fs -> around pre (mid ++ es) fs.
Proof. intros [X|[X|X]]; [now left|right; now left|right; right; apply in_or_app; now left]. Qed.
Lemma calm_less pre mid es : calm pre (mid ++ es) -> calm pre mid.
Proof. intros (A & B). split; [exact A|]. intros fs X. apply (B fs), in_or_app. now left. Qed.
Lemma rd_more pre mid es fl : RD pre mid fl -> RD pre (mid ++ es) fl.
Proof.
  intros A k b X. destruct (A k b X) as (B & C). split.
  - intros Y. destruct (B Y) as (fs & D & E). exists fs. split; [now apply around_more|exact E].
  - intros Y. apply calm_less in Y. auto.
Qed.
(** The length of the asked lists and of the dicts. *)
Lemma fi_len x h : FI x h -> (length (f_dicts x) <= length (asks h))%nat /\ (0 < length (f_dicts x))%nat.
Proof.
  intros I. unfold FI in I. destruct (f_q x) as [|fs|fs|].
  - destruct I as (-> & _). cbn. lia.
  - destruct I as (-> & N & _). rewrite app_length. cbn. destruct (f_dicts x); [congruence|cbn; lia].
  - destruct I as (_ & D & d & -> & ->). rewrite !app_length. cbn. lia.
  - destruct I as (-> & _). cbn. lia.
Qed.
Lemma fi_incl x h ob f : FI x h -> (ob < length (f_dicts x))%nat -> In f (nth ob (f_dicts x) []) -> In f (nth ob (asks h) []).
Proof.
  intros I L X. unfold FI in I. destruct (f_q x) as [|fs|fs|].
  - destruct I as (<- & _). exact X.
  - destruct I as (-> & N & _). now rewrite app_nth1 by exact L.
  - destruct I as (_ & D & d & A & ->). rewrite A in *. destruct (Nat.lt_ge_cases ob (length D)) as [Y|Y].
    + rewrite app_nth1 in * by exact Y. exact X.
    + rewrite app_length in L. cbn in L. replace ob with (length D) in * by lia. rewrite !nth_middle in *. apply in_or_app. now left.
  - destruct I as (<- & _). exact X.
Qed.
Lemma fi_calm x h ob : FI x h -> changing h = false -> nth ob (f_dicts x) [] = nth ob (asks h) [].
Proof. intros I C. unfold FI in I. destruct (f_q x) as [|fs|fs|]; try (destruct I as (A & I); try destruct I as (_ & I); congruence). Qed.
Lemma nth_last {A} (l : list A) d : nth (length l - 1) l d = last l d.
Proof.
  induction l as [|a l IH] using rev_ind; [reflexivity|]. rewrite last_last, app_length. cbn. replace (length l + 1 - 1)%nat with (length l) by lia. apply nth_middle.
Qed.

Lemma mi_step x h l x' es : frun h x -> MI x h -> fstep x l = Some (x', es) -> MI x' (h ++ es).
Proof.
  intros R M H. assert (I := run_fi R). assert (IX : FI x' (h ++ es)) by (eapply fi_step; eassumption).
  assert (Q : (exists fs, l = LSet fs) \/ l = LReq -> f_m x' = f_m x -> (length (f_dicts x) <= length (f_dicts x'))%nat -> MI x' (h ++ es)).
  { intros L EM EL. assert (PL : Forall plain es).
    { destruct L as [(fs & ->)| ->]; cbn in H; [destruct (f_q x)|destruct (f_q x) as [|fs|[|f fs]|]]; try discriminate; injection H as _ <-; repeat constructor. }
    unfold MI in *. rewrite EM. destruct (f_m x) as [|w fl|w fl ob|w fl]; [exact Logic.I| | |].
    - destruct M as (pre & mid & -> & A & B & C). exists pre, (mid ++ es). csplit; [now rewrite <- app_assoc|now apply Forall_app|now apply rd_more|exact C].
    - destruct M as (pre & mid & HH & A & B & C & D1 & D2 & D3). exists pre, (mid ++ es). unfold GD. csplit; [rewrite HH; now rewrite <- app_assoc|now apply Forall_app|now apply rd_more|exact C|lia| |].
      + rewrite asks_app, app_nth1 by (pose proof (@fi_len x h I); lia). now apply around_more.
      + intros Y. rewrite asks_app, app_nth1 by (pose proof (@fi_len x h I); lia). apply D3. now apply calm_less in Y.
    - destruct M as (pre & mid & -> & A & B & C). exists pre, (mid ++ es). csplit; [now rewrite <- app_assoc|now apply Forall_app|now apply rd_more|exact C]. }
  destruct l as [w| |fs|]; cbn [fstep] in H.
  - destruct (f_m x); try discriminate. injection H as <- <-. unfold MI. cbn. exists h, []. csplit; [reflexivity|constructor| |lia]. intros [|k] b X; discriminate.
  - clear Q. unfold MI in M. destruct (f_m x) as [|w fl|w fl ob|w fl]; try discriminate; injection H as <- <-; rewrite ?app_nil_r in *; unfold MI; cbn [f_m].
    + destruct M as (pre & mid & HH & A & B & C). exists pre, mid. csplit; auto. destruct (@fi_len x h I) as (L1 & L2).
      destruct (around_all (pre ++ [EBegin w]) mid) as (AO & AN). rewrite <- app_assoc in AO, AN. cbn in AO, AN. rewrite <- HH in AO, AN. destruct (asks_last R) as (T1 & T2 & T3).
      assert (Z : nth (length (f_dicts x) - 1) (asks h) [] = new h \/ (changing h = true /\ nth (length (f_dicts x) - 1) (asks h) [] = old h)).
      { unfold FI in I. destruct (f_q x) as [|fs|fs|].
        - left. destruct I as (-> & _). now rewrite nth_last.
        - right. destruct I as (I1 & I2 & I3). split; [exact I3|]. rewrite I1, app_nth1 by lia. rewrite nth_last. eapply T3; eassumption.
        - left. destruct I as (_ & D & d & I1 & I2). rewrite I1, <- T1, I2, last_last, app_length. cbn. replace (length D + 1 - 1)%nat with (length D) by lia. apply nth_middle.
        - left. destruct I as (-> & _). now rewrite nth_last. }
      split; [cbn; lia|]. split; [destruct Z as [-> |(_ & ->)]; assumption|].
      intros CC. destruct (calm_keep CC) as (C1 & C2). rewrite <- app_assoc in C1, C2. cbn in C1, C2. rewrite <- HH in C1, C2. destruct Z as [-> |(Z & _)]; [exact C2|congruence].
    + destruct M as (pre & mid & HH & A & B & C & D1 & D2 & D3).
      assert (RD' : RD (pre ++ [EBegin w]) mid (fl ++ [mem (nth (length fl) names []) (nth ob (f_dicts x) [])])).
      { intros k b X. destruct (Nat.lt_ge_cases k (length fl)) as [L|L]; [rewrite nth_error_app1 in X by exact L; auto|].
        rewrite nth_error_app2 in X by exact L. destruct (k - length fl)%nat eqn:K; [|destruct n; discriminate]. injection X as <-. replace k with (length fl) by lia. split.
        - intros Y. apply mem_In in Y. exists (nth ob (asks h) []). split; [exact D2|]. eapply fi_incl; eassumption.
        - intros CC. assert (D4 := D3 CC). destruct (calm_keep CC) as (C1 & C2). rewrite <- app_assoc in C1, C2. cbn in C1, C2. rewrite <- HH in C1, C2.
          now rewrite (@fi_calm x h ob I C1), D4. }
      match goal with |- match (if ?b then _ else _) with _ => _ end => destruct b eqn:LT end; exists pre, mid; (csplit; [exact HH|exact A|exact RD'|]).
      * now apply Nat.ltb_lt in LT.
      * apply Nat.ltb_ge in LT. rewrite app_length in *. cbn [length] in *. lia.
    + exact Logic.I.
  - destruct (f_q x) eqn:QQ; try discriminate. injection H as <- <-. apply Q; [eauto|reflexivity|cbn; lia].
  - destruct (f_q x) as [|fs|[|f fs]|]; try discriminate; injection H as <- <-; (apply Q; [auto|reflexivity|cbn; rewrite ?app_length; cbn; try lia]).
    unfold FI in IX. destruct (f_dicts x) as [|d D] eqn:FD; [cbn; lia|]. rewrite <- FD. assert (LE : length (removelast (f_dicts x) ++ [last (f_dicts x) []]) = length (f_dicts x)) by (rewrite <- app_removelast_last; [reflexivity|congruence]).
    rewrite app_length in LE. cbn in LE. lia.
Qed.
Lemma run_mi h x : frun h x -> MI x h.
Proof. intros R. induction R; [exact Logic.I|]. eapply mi_step; eassumption. Qed.

(* ------------------------------------------------------------------ one event at a time *)
Lemma fstep_one x l x' es : fstep x l = Some (x', es) -> es = [] \/ exists e, es = [e].
Proof.
  destruct l; cbn [fstep]; [destruct (f_m x)|destruct (f_m x)|destruct (f_q x)|destruct (f_q x) as [|fs|[|f fs]|]]; intros H; try discriminate; injection H as _ <-; eauto.
Qed.
Lemma split_snoc {A} (h pre : list A) e x post : h ++ [e] = pre ++ x :: post -> (post = [] /\ pre = h /\ x = e) \/ exists post', post = post' ++ [e] /\ h = pre ++ x :: post'.
Proof.
  intros H. destruct post as [|y post] using rev_ind; [left|right; clear IHpost].
  - apply app_inj_tail in H as (-> & ->). auto.
  - change (pre ++ x :: post ++ [y]) with (pre ++ (x :: post) ++ [y]) in H. rewrite app_assoc in H. apply app_inj_tail in H as (-> & ->). eauto.
Qed.
Lemma at_event (P : list fev -> fev -> Prop) : (forall h x l x' e, frun h x -> fstep x l = Some (x', [e]) -> P h e) ->
  forall h x, frun h x -> forall pre e post, h = pre ++ e :: post -> P pre e.
Proof.
  intros ST h x R. induction R as [|h x1 l x2 es R IH E].
  - intros [|? ?] e post X; discriminate.
  - intros pre e post X. destruct (fstep_one _ _ E) as [-> |(e0 & ->)]; [rewrite app_nil_r in X; eauto|].
    apply split_snoc in X as [(_ & -> & ->)|(post' & _ & X)]; [eapply ST; eauto|eauto].
Qed.
Lemma emit_judged x l x' w o : fstep x l = Some (x', [EJudged w o]) -> exists fl, f_m x = MJudge w fl /\
  o = snd (should_stop_on_exception (fi_task w) (fi_res w) (flag 0 fl) (flag 1 fl) (flag 2 fl) (fi_thread w)).
Proof.
  destruct l; cbn [fstep].
  - destruct (f_m x); discriminate.
  - destruct (f_m x); try discriminate. intros H. injection H as _ <- <-. eauto.
  - destruct (f_q x); discriminate.
  - destruct (f_q x) as [|fs|[|f fs]|]; discriminate.
Qed.
Definition no_begin (mid : list fev) : Prop := forall w, ~ In (EBegin w) mid.
Lemma facts h x pre w mid w' o post : frun h x -> h = pre ++ EBegin w :: mid ++ EJudged w' o :: post -> no_begin mid ->
  w' = w /\ exists a b c, RD pre mid [a; b; c] /\ o = snd (should_stop_on_exception (fi_task w) (fi_res w) a b c (fi_thread w)).
Proof.
  intros R E NB.
  refine (@at_event (fun h e => forall w' o, e = EJudged w' o -> forall pre w mid, h = pre ++ EBegin w :: mid -> no_begin mid ->
    w' = w /\ exists a b c, RD pre mid [a; b; c] /\ o = snd (should_stop_on_exception (fi_task w) (fi_res w) a b c (fi_thread w))) _ h x R (pre ++ EBegin w :: mid) (EJudged w' o) post _ w' o eq_refl pre w mid eq_refl NB);
    [|rewrite E, <- app_assoc; reflexivity].
  clear. intros h x l x' e R E w' o -> pre w mid HH NB. apply emit_judged in E as (fl & E & ->). assert (Q := run_mi R). unfold MI in Q. rewrite E in Q.
  destruct Q as (pre' & mid' & H' & N & Q & L).
  assert (G : pre = pre' /\ w = w' /\ mid = mid').
  { rewrite HH in H'. clear -NB N H'. revert pre' H'. induction pre as [|c p IH]; intros [|d p'] H; cbn in H.
    - injection H as -> ->. auto.
    - injection H as <- H. exfalso. apply (NB w'). rewrite H. apply in_or_app. right. now left.
    - injection H as -> H. exfalso. rewrite <- H in N. apply Forall_app in N as (_ & N). inversion_clear N. contradiction.
    - injection H as -> H. destruct (IH _ H) as (-> & -> & ->). auto. }
  destruct G as (-> & -> & ->). split; [reflexivity|]. destruct fl as [|a [|b [|c [|]]]]; try discriminate. exists a, b, c. split; [|reflexivity].
  assert (ST : status (pre' ++ [EBegin w']) = status pre') by (now rewrite status_snoc).
  intros k y X. destruct (Q k y X) as (Q1 & Q2). unfold around, calm, changing, old, new in *. rewrite ST in *. auto.
Qed.
Lemma mem_t (f : pystr) (fs : list pystr) : In f fs -> mem f fs = true. Proof. apply mem_In. Qed.

(* ------------------------------------------------------------------ theorems *)
(** With no change of the filters under way, a result stops exactly if the filters last
    asked for say so, with the event they say. *)
Theorem C87_settled_exact h x pre w mid w' o post : frun h x -> h = pre ++ EBegin w :: mid ++ EJudged w' o :: post -> no_begin mid ->
  w' = w /\ (changing pre = false -> no_request mid -> o = judge w (new pre)).
Proof.
  intros R E NB. destruct (@facts h x pre w mid _ _ post R E NB) as (-> & a & b & c & Q & ->). split; [reflexivity|]. intros C N.
  assert (CC : calm pre mid) by (split; assumption).
  destruct (Q 0%nat a eq_refl) as (_ & A). destruct (Q 1%nat b eq_refl) as (_ & B). destruct (Q 2%nat c eq_refl) as (_ & D).
  rewrite (A CC), (B CC), (D CC). reflexivity.
Qed.
Print Assumptions C87_settled_exact.

(** Whatever changes meanwhile, a result that stops stops as some filters that the client
    had asked for then say. *)
Theorem C87_no_spurious_stop h x pre w mid w' ev post : frun h x -> h = pre ++ EBegin w :: mid ++ EJudged w' (Some ev) :: post -> no_begin mid ->
  exists fs, around pre mid fs /\ judge w fs = Some ev.
Proof.
  intros R E NB. destruct (@facts h x pre w mid _ _ post R E NB) as (-> & a & b & c & Q & O).
  destruct (Q 0%nat a eq_refl) as (A & _). destruct (Q 1%nat b eq_refl) as (B & _). destruct (Q 2%nat c eq_refl) as (D & _). cbn [nth names] in A, B, D.
  unfold judge. unfold should_stop_on_exception in *.
  destruct (r_failed (fi_res w) && negb (r_ignore_errors (fi_res w))).
  { destruct a; [|discriminate]. destruct (A eq_refl) as (fs & F & G). exists fs. split; [exact F|]. rewrite (mem_t _ _ G), O. reflexivity. }
  destruct (r_unreachable (fi_res w) && negb (r_ignore_unreachable (fi_res w))).
  { destruct b; [|discriminate]. destruct (B eq_refl) as (fs & F & G). exists fs. split; [exact F|]. rewrite (mem_t _ _ G), O. reflexivity. }
  destruct (r_skipped (fi_res w)); [|discriminate].
  destruct c; [|discriminate]. destruct (D eq_refl) as (fs & F & G). exists fs. split; [exact F|]. rewrite (mem_t _ _ G), O. reflexivity.
Qed.
Print Assumptions C87_no_spurious_stop.

(** So a result is judged by the filters of some moment, if those of some moment let it
    pass.  Missing: when every one of them says stop (see below). *)
Theorem C87_old_or_new_partial h x pre w mid w' o post : frun h x -> h = pre ++ EBegin w :: mid ++ EJudged w' o :: post -> no_begin mid ->
  (exists fs, around pre mid fs /\ judge w fs = None) -> exists fs, around pre mid fs /\ o = judge w fs.
Proof.
  intros R E NB (fs & F & G). destruct o as [ev|]; [|exists fs; auto]. destruct (@C87_no_spurious_stop h x pre w mid _ _ post R E NB) as (gs & A & B). exists gs. auto.
Qed.
Print Assumptions C87_old_or_new_partial.

(** A failure no filters let pass goes by unnoticed when the client only adds a filter: the
    debuggee forgets them all before it takes the new ones in. *)
Definition tk : Node := mkNode (KTask ActOther) 1%N (s "t") None InBlock None.
Definition failed : Result := mkResult true false false false false (Some (s "no")) None None None None.
Definition w0 : Fin := mkFin tk failed (mkThread 1%N None [1%N] TContinue None).
Definition unre : Result := mkResult false true false false false (Some (s "no")) None None None None.
Definition w1 : Fin := mkFin tk unre (mkThread 1%N None [1%N] TContinue None).
Fixpoint frun_fun (h : list fev) (x : FS) (ls : list flabel) : option (list fev * FS) :=
  match ls with [] => Some (h, x) | l :: ls => match fstep x l with Some (x', es) => frun_fun (h ++ es) x' ls | None => None end end.
Lemma frun_fun_run ls : forall h x h' x', frun h x -> frun_fun h x ls = Some (h', x') -> frun h' x'.
Proof.
  induction ls as [|l ls IH]; cbn [frun_fun]; intros h x h' x' R H; [now injection H as <- <-|].
  destruct (fstep x l) as [(y, es)|] eqn:E; [|discriminate]. eapply IH; [|exact H]. eapply frun_step; eassumption.
Qed.
Definition e1 : pystr := s "on_error". Definition e2 : pystr := s "on_unreachable".
Theorem C87_filter_kept_refuted : exists h x pre w mid post, frun h x /\ h = pre ++ EBegin w :: mid ++ EJudged w None :: post /\ no_begin mid /\
  (forall fs, around pre mid fs -> exists ev, judge w fs = Some ev).
Proof.
  set (ls := [LSet [e1]; LReq; LReq; LReq; LReq; LSet [e1; e2]; LReq; LEnd w0; LMain; LMain; LMain; LMain; LMain; LMain; LMain]).
  destruct (frun_fun [] f_init ls) as [(h, x)|] eqn:E; [|vm_compute in E; discriminate].
  exists h, x, [EAsk [e1]; EAnswer; EAsk [e1; e2]], w0, [], []. csplit.
  - eapply frun_fun_run; [apply frun_nil|exact E].
  - vm_compute in E. injection E as <- _. vm_compute. reflexivity.
  - intros v [].
  - intros fs [-> |[-> |[]]]; eexists; vm_compute; reflexivity.
Qed.
Print Assumptions C87_filter_kept_refuted.

(** Cases that meet the hypotheses: a stop and a pass with settled filters, a stop by the
    filters that a request under way is replacing, and by those it brings. *)
Ltac run ls H X E := destruct (frun_fun [] f_init ls) as [(H, X)|] eqn:E; [|vm_compute in E; discriminate].
Definition settled (w : Fin) : list flabel := [LSet [e1]; LReq; LReq; LReq; LReq; LEnd w; LMain; LMain; LMain; LMain; LMain; LMain; LMain].
Example C87_settled : forall w, w = w0 \/ w = w1 -> exists h x o, frun h x /\ h = [EAsk [e1]; EAnswer] ++ EBegin w :: [] ++ EJudged w o :: [] /\
  changing [EAsk [e1]; EAnswer] = false /\ (w = w0 -> o <> None) /\ (w = w1 -> o = None).
Proof.
  intros w [-> | ->].
  - run (settled w0) h x E. exists h, x, (judge w0 [e1]). csplit; [eapply frun_fun_run; [apply frun_nil|exact E]|vm_compute in E; injection E as <- _; vm_compute; reflexivity|reflexivity|intros _; vm_compute; discriminate|intros X; vm_compute in X; discriminate].
  - run (settled w1) h x E. exists h, x, None. csplit; [eapply frun_fun_run; [apply frun_nil|exact E]|vm_compute in E; injection E as <- _; vm_compute; reflexivity|reflexivity|intros X; vm_compute in X; discriminate|reflexivity].
Qed.
Example C87_changing : exists h x ev ev', frun h x /\ h = [EAsk [e1]; EAnswer] ++ EBegin w0 :: [EAsk [e2]] ++ EJudged w0 (Some ev) :: [EBegin w1; EJudged w1 (Some ev')] /\
  judge w0 [e2] = None /\ judge w1 [e1] = None.
Proof.
  run [LSet [e1]; LReq; LReq; LReq; LReq; LEnd w0; LMain; LSet [e2]; LReq; LMain; LReq; LMain; LMain; LMain; LMain; LMain; LEnd w1; LMain; LMain; LMain; LMain; LMain; LMain; LMain] h x E.
  destruct (judge w0 [e1]) as [ev|] eqn:J; [|vm_compute in J; discriminate].
  destruct (judge w1 [e2]) as [ev'|] eqn:J'; [|vm_compute in J'; discriminate].
  exists h, x, ev, ev'. csplit; [eapply frun_fun_run; [apply frun_nil|exact E]|vm_compute in E; injection E as <- _; vm_compute in J, J'; injection J as <-; injection J' as <-; vm_compute; reflexivity|vm_compute; reflexivity|vm_compute; reflexivity].
Qed.
