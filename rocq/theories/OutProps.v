(** C66: what the client is sent says what happened. *)
From Verif Require Import PyBase PyDict JsonModel JsonSpec JsonProofs JsonGrammar JsonProps MsgBase MsgTables MsgModel MsgSpec MsgProofs MsgProofs2 AdapterModel AdapterSpec AdapterProps DbgTypes WireSpec WireProofs OutSpec OutModel OutProofs.

Section Out.
Variable src_obj : Source -> pval.
Variable srcj : Source -> json.
Variable other : N -> pystr.
Variable tb : Cmd -> Z -> pystr.
Notation out_obj := (out_obj src_obj other tb).
Notation tells := (tells srcj other).
Hypothesis Hother : forall n, In (other n) (members E_Command).
Hypothesis Htb : forall c q, Forall scalar (tb c q).

(** the Source objects echoed are those the client sent *)
Definition src_good (x : Source) : Prop := wt (UObj C_Source) (src_obj x) /\ enc (src_obj x) = Ok (srcj x).

Lemma okeq {x y : json} {v} : enc v = Ok x -> enc v = Ok y -> y = x.
Proof. congruence. Qed.
Lemma ascii_sc t : asciib t = true -> Forall scalar t.
Proof. apply asciib_scalar. Qed.
(** [m P p]: the member at path [p] *)
Ltac m P := unfold num, text, member, body in *; match goal with |- at_ _ ?p = _ => eapply okeq; [|apply (P p); reflexivity]; try reflexivity end.
Ltac args := repeat (lazymatch goal with |- Forall (arg_ok _) _ => first [apply Forall_nil|apply Forall_cons] end);
  repeat match goal with |- arg_ok ?c (?k, ?v) => unfold arg_ok; cbn [fst]; 
    let f := eval vm_compute in (find_field c k) in change (find_field c k) with f; cbn [snd wta popt pn funp] end;
  try exact I.
Ltac good := apply mk_good; [reflexivity|vm_compute; reflexivity|vm_compute; reflexivity|args].

Lemma thread_ok t : Forall scalar (ti_name t) -> wt (UObj C_Thread) (thread_obj t) /\ forall j, enc (thread_obj t) = Ok j -> thread_tells j t.
Proof.
  intros Hs. assert (W : wt (UObj C_Thread) (thread_obj t)) by (good; exact Hs).
  split; [exact W|]. intros j E. pose proof (path_val_ok _ _ _ W E) as P. split; m P.
Qed.
Lemma var_ok v : Forall (Forall scalar) [vi_name v; vi_value v; vi_type v] -> wt (UObj C_Variable) (var_obj v) /\ forall j, enc (var_obj v) = Ok j -> var_tells j v.
Proof.
  intros Hs. assert (H1 := Forall_inv Hs). apply Forall_inv_tail in Hs. assert (H2 := Forall_inv Hs). apply Forall_inv_tail, Forall_inv in Hs.
  assert (W : wt (UObj C_Variable) (var_obj v)) by (good; assumption).
  split; [exact W|]. intros j E. pose proof (path_val_ok _ _ _ W E) as P. repeat split; m P.
Qed.
Lemma scope_ok x : Forall scalar (si_name x) -> wt (UObj C_Scope) (scope_obj x) /\ forall j, enc (scope_obj x) = Ok j -> scope_tells j x.
Proof.
  intros Hs. assert (W : wt (UObj C_Scope) (scope_obj x)) by (good; assumption).
  split; [exact W|]. intros j E. pose proof (path_val_ok _ _ _ W E) as P. do 4 (split; [m P|]).
  exists (expensive (si_name x)). split; [m P|]. unfold expensive. rewrite mem_In. cbn [In]. intuition congruence.
Qed.
Lemma bp_ok b : src_good (bp_source b) -> Forall (Forall scalar) (otext (bp_message b)) ->
  wt (UObj C_Breakpoint) (bp_obj src_obj b) /\ forall j, enc (bp_obj src_obj b) = Ok j -> bp_tells srcj j b.
Proof.
  intros [S1 S2] Hs. assert (W : wt (UObj C_Breakpoint) (bp_obj src_obj b)).
  { unfold bp_obj. destruct (src_obj (bp_source b)) as [| | | | | | |c at0] eqn:Es; try (destruct S1; fail).
    good.
    - destruct (bp_message b); cbn [popt wta wt jsonval fdef]; [apply Forall_inv in Hs; exact Hs|reflexivity].
    - exact S1.
    - destruct (bp_line b); first [exact I|reflexivity].
    - destruct (bp_end b); first [exact I|reflexivity]. }
  split; [exact W|]. intros j E. pose proof (path_val_ok _ _ _ W E) as P. 
  repeat split.
  - m P. - m P.
  - unfold str_opt. destruct (bp_message b) eqn:Em; m P; rewrite Em; reflexivity.
  - m P. exact S2.
  - unfold int_opt. destruct (bp_line b) eqn:Em; m P; rewrite Em; reflexivity.
  - unfold int_opt. destruct (bp_end b) eqn:Em; m P; rewrite Em; reflexivity.
Qed.

Lemma basename_from_spec p : forall cur, ~ In 47%N cur ->
  (~ In 47%N p /\ basename_from cur p = cur ++ p) \/
  (exists d, p = d ++ 47%N :: basename_from cur p /\ ~ In 47%N (basename_from cur p)).
Proof.
  induction p as [|c p IH]; intros cur Hc; cbn [basename_from]; [left; rewrite app_nil_r; auto|].
  destruct (N.eqb_spec c 47) as [->|Hn].
  - right. destruct (IH [] (fun H => H)) as [[H1 H2]|(d & H1 & H2)].
    + exists []. rewrite H2. cbn. auto.
    + exists (47%N :: d). split; auto. cbn. f_equal. exact H1.
  - assert (Hc' : ~ In 47%N (cur ++ [c])) by (rewrite in_app_iff; cbn; intuition).
    destruct (IH _ Hc') as [[H1 H2]|(d & H1 & H2)].
    + left. split; [cbn; intuition|]. rewrite H2, <- app_assoc. reflexivity.
    + right. exists (c :: d). split; auto. cbn. f_equal. exact H1.
Qed.
Lemma basename_last p : last_part p (basename p).
Proof.
  unfold basename. destruct (basename_from_spec p [] (fun H => H)) as [[H1 H2]|(d & H1 & H2)].
  - exists []. rewrite H2. cbn. auto.
  - exists (d ++ [47%N]). rewrite <- app_assoc. cbn. rewrite <- H1. split; auto. split; auto. right. now exists d.
Qed.
Lemma basename_scalar p : Forall scalar p -> Forall scalar (basename p).
Proof.
  intros H. destruct (basename_last p) as (d & E & _). rewrite E in H. now apply Forall_app in H.
Qed.
Lemma at_app j p q : at_ j (p ++ q) = at_ (at_ j p) q.
Proof.
  revert j. induction p as [|k p IH]; intros j; [reflexivity|]. cbn [app at_]. destruct j; cbn [at_]; try (destruct q; reflexivity).
  destruct (dget d k); [apply IH|destruct q; reflexivity].
Qed.
Lemma frame_ok f : Forall scalar (fi_name f) -> Forall scalar (fi_path f) ->
  wt (UObj C_StackFrame) (frame_obj f) /\ forall j, enc (frame_obj f) = Ok j -> frame_tells j f.
Proof.
  intros H1 H2.
  assert (WS : wt (UObj C_Source) (mk C_Source [(s "name", PStr (basename (fi_path f))); (s "path", PStr (fi_path f))]))
    by (good; [now apply basename_scalar|assumption]).
  assert (W : wt (UObj C_StackFrame) (frame_obj f)) by (unfold frame_obj; good; assumption).
  split; [exact W|]. intros j E. pose proof (path_val_ok _ _ _ W E) as P.
  assert (Hsrc := P [s "source"] _ eq_refl). pose proof (path_val_ok _ _ _ WS Hsrc) as PS.
  split; [m P|]. split; [m P|]. split; [m P|].
  change [s "source"; s "path"] with ([s "source"] ++ [s "path"]). change [s "source"; s "name"] with ([s "source"] ++ [s "name"]). rewrite !at_app.
  split; [m PS|]. exists (basename (fi_path f)). split; [m PS|apply basename_last].
Qed.

Lemma items_ok {A} (f : A -> pval) (P : json -> A -> Prop) l j :
  (forall x, In x l -> forall j, enc (f x) = Ok j -> P j x) -> enc (PList (map f l)) = Ok j -> items P j l.
Proof.
  intros H E. apply enc_arr in E as (js & -> & F). exists js. split; [reflexivity|].
  induction F as [|j x js l Hj F IH]; constructor; [apply H; [now left|exact Hj]|]. apply IH. intros y Hy. apply H. now right.
Qed.

Definition fine (o : Out) : Prop :=
  ack_ok o /\ Forall (Forall scalar) (out_texts o) /\ Forall (fun b => src_good (bp_source b)) (out_bps o).


Ltac seqd := match goal with |- context [set_seq (mk ?c ?k) ?n] => change (set_seq (mk c k) n) with (mk c ((s "seq", PInt n) :: k)) end.
Ltac start W := match goal with |- context [enc (mk ?c ?k)] => assert (W : wt (UObj c) (mk c k)) end.
Ltac fin W j P := destruct (mk_members _ _ W) as (j & E & Wf & _); pose proof (path_val_ok _ _ _ W E) as P; exists j; split; [exact E|]; split; [exact Wf|];
   split; [m P|].
Ltac resp P := split; [m P|split; [m P|split; m P]].
Ltac evt P := split; m P.

(** Every message the debuggee queues for the client is JSON that says what happened: the answered request and its outcome,
    or the event, with all its details under their DAP names. *)
Lemma out_tells n o : fine o -> exists j, enc (set_seq (out_obj o) n) = Ok j /\ wfj j /\ tells j n o.
Proof.
  intros (HA & HT & HS). destruct o as [q l|b|st t|e| |c q|q all|q v ty|q l|q l tot|q l|q l|q v|c q]; cbn [OutModel.out_obj].
  - seqd. start W. { good. apply wt_list_map. intros b Hb. cbn [out_bps out_texts] in *. rewrite Forall_forall in HS, HT. apply bp_ok; auto.
      apply Forall_forall. intros t Ht. apply HT. apply in_flat_map. eauto. }
    fin W j P. cbn [OutSpec.tells]. split; [resp P|]. eapply items_ok; [|exact (P [s "body"; s "breakpoints"] _ eq_refl)].
    intros b Hb. cbn [out_bps out_texts] in *. rewrite Forall_forall in HS, HT. apply bp_ok; auto. apply Forall_forall. intros t Ht. apply HT. apply in_flat_map. eauto.
  - cbn [out_bps out_texts flat_map] in *. rewrite app_nil_r in HT. destruct (bp_ok b (Forall_inv HS) HT) as [W1 T1]. seqd. start W. { good; [apply ascii_sc; reflexivity|exact W1]. }
    fin W j P. split; [evt P|]. split; [m P|]. apply T1. exact (P [s "body"; s "breakpoint"] _ eq_refl).
  - seqd. start W. { good. destruct st; apply ascii_sc; reflexivity. }
    fin W j P. split; [evt P|]. split; [m P; now destruct st|m P].
  - cbn [out_texts] in HT. seqd. start W. { good.
      - unfold reason_value. cbn [wt]. split; [reflexivity|]. destruct (st_reason e); vm_compute; tauto.
      - exact (Forall_inv HT).
      - apply Forall_inv_tail in HT. destruct (st_text e); [exact (Forall_inv HT)|reflexivity].
      - apply wt_list_map. intros. exact I. }
    fin W j P. split; [evt P|]. split; [m P; now destruct (st_reason e)|]. split; [m P|]. split; [m P|]. split; [|split].
    + unfold str_opt. destruct (st_text e) eqn:Em; m P; rewrite Em; reflexivity.
    + eapply items_ok; [|exact (P [s "body"; s "hitBreakpointIds"] _ eq_refl)]. intros x _ jx Hx. injection Hx as <-. reflexivity.
    + m P.
  - seqd. start W; [good|]. fin W j P. evt P.
  - cbn [ack_ok] in HA. cbn [In] in HA. repeat (destruct HA as [<-|HA]; [cbn [ack_class]; seqd; start W; [good|]; fin W j P; resp P|]). destruct HA.
  - seqd. start W; [good|]. fin W j P. split; [resp P|m P].
  - cbn [out_texts] in HT. seqd. start W. { good; [exact (Forall_inv HT)|]. apply Forall_inv_tail in HT. destruct ty; [exact (Forall_inv HT)|reflexivity]. }
    fin W j P. split; [resp P|]. split; [m P|]. split; [|m P]. unfold str_opt. destruct ty eqn:Em; m P.
  - cbn [out_texts] in HT. rewrite Forall_map, Forall_forall in HT. seqd. start W. { good. apply wt_list_map. intros x Hx. now apply scope_ok, HT. }
    fin W j P. split; [resp P|]. eapply items_ok; [|exact (P [s "body"; s "scopes"] _ eq_refl)]. intros x Hx. now apply scope_ok, HT.
  - cbn [out_texts] in HT. apply Forall_app in HT as [T1 T2]. rewrite Forall_map, Forall_forall in T1, T2. seqd. start W. { good. apply wt_list_map. intros x Hx. apply frame_ok; auto. }
    fin W j P. split; [resp P|]. split; [|m P]. eapply items_ok; [|exact (P [s "body"; s "stackFrames"] _ eq_refl)]. intros x Hx. apply frame_ok; auto.
  - cbn [out_texts] in HT. rewrite Forall_map, Forall_forall in HT. seqd. start W. { good. apply wt_list_map. intros x Hx. now apply thread_ok, HT. }
    fin W j P. split; [resp P|]. eapply items_ok; [|exact (P [s "body"; s "threads"] _ eq_refl)]. intros x Hx. now apply thread_ok, HT.
  - cbn [out_texts] in HT. assert (HT' : forall x, In x l -> Forall (Forall scalar) [vi_name x; vi_value x; vi_type x]).
    { intros x Hx. apply Forall_forall. intros t Ht. rewrite Forall_forall in HT. apply HT. apply in_flat_map. eauto. }
    seqd. start W. { good. apply wt_list_map. intros x Hx. now apply var_ok, HT'. }
    fin W j P. split; [resp P|]. eapply items_ok; [|exact (P [s "body"; s "variables"] _ eq_refl)]. intros x Hx. now apply var_ok, HT'.
  - cbn [out_texts] in HT. seqd. start W. { good; [exact (Forall_inv HT)|exact (Forall_inv (Forall_inv_tail HT))]. }
    fin W j P. split; [resp P|]. repeat split; m P.
  - seqd. start W. { good.
      - split; [reflexivity|]. destruct c; try (vm_compute; tauto). apply Hother.
      - cbn [wt jsonval]. apply Forall_app. split; [apply ascii_sc; reflexivity|]. constructor; [vm_compute; auto|]. apply Htb. }
    fin W j P. split; [resp P; now destruct c|]. exists (tb c q). m P.
Qed.
End Out.
