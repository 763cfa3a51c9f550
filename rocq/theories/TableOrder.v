(** C83: what the client was last told about a breakpoint, when setting breakpoints and
    loading files overlap. *)
From Verif Require Import PyBase PyDict DbgTypes BpModel BpSpec TableModel TableProps TableSeq.
From Coq Require Import ZifyBool ZifyNat ZifyN.
Set Implicit Arguments.
Local Open Scope Z_scope.
#[local] Arguments dget : simpl never.
#[local] Arguments dset : simpl never.
#[local] Arguments Z.add : simpl never.
#[local] Arguments N.add : simpl never.
#[local] Arguments set_tab : simpl never.

(* ------------------------------------------------------------------ specification *)
(** The breakpoints in change events and in responses to setBreakpoints. *)
Definition changes (out : list Out) : list Breakpoint := flat_map (fun m => match m with OBpEvent b => [b] | _ => [] end) out.
Definition answers (out : list Out) : list Breakpoint := flat_map (fun m => match m with OBps _ l => l | _ => [] end) out.
Definition about (id : N) (b : Breakpoint) : bool := N.eqb (bp_id b) id.
(** The newest change event about a breakpoint. *)
Definition last_change (out : list Out) (id : N) : option Breakpoint := find (about id) (rev (changes out)).

(* ------------------------------------------------------------------ proofs *)
Lemma changes_app a b : changes (a ++ b) = changes a ++ changes b.
Proof. apply flat_map_app. Qed.
Lemma answers_app a b : answers (a ++ b) = answers a ++ answers b.
Proof. apply flat_map_app. Qed.
Lemma last_change_app a b id : last_change (a ++ b) id = match last_change b id with Some v => Some v | None => last_change a id end.
Proof. unfold last_change. rewrite changes_app, rev_app_distr, find_app. reflexivity. Qed.
Lemma last_told_app a b id : last_told (map Some (a ++ b)) id = match last_told (map Some b) id with Some v => Some v | None => last_told (map Some a) id end.
Proof. unfold last_told. rewrite map_app, flat_map_app, rev_app_distr, find_app. reflexivity. Qed.
Lemma last_change_in out id v : last_change out id = Some v -> In (OBpEvent v) out /\ bp_id v = id.
Proof.
  unfold last_change. intros H. apply find_some in H as (H & E). apply N.eqb_eq in E. split; [|exact E]. apply in_rev in H. apply in_flat_map in H as (m & M & H).
  destruct m; try contradiction. destruct H as [<-|[]]. exact M.
Qed.
Lemma last_change_none out id : (forall b, In (OBpEvent b) out -> bp_id b <> id) -> last_change out id = None.
Proof. intros H. destruct (last_change out id) as [v|] eqn:E; [|reflexivity]. apply last_change_in in E as (A & B). now apply H in A. Qed.
Lemma told_change out id : ~ In id (map bp_id (answers out)) -> last_told (map Some out) id = last_change out id.
Proof.
  induction out as [|m out IH] using rev_ind; intros N; [reflexivity|]. rewrite answers_app, map_app in N. rewrite last_told_app, last_change_app, IH by (intros I; apply N, in_or_app; auto).
  replace (last_told (map Some [m]) id) with (last_change [m] id); [reflexivity|]. destruct m; try reflexivity.
  unfold last_change, last_told. cbn. rewrite app_nil_r. symmetry.
  match goal with |- find ?f ?r = None => destruct (find f r) as [v|] eqn:F; [|reflexivity] end. exfalso. apply find_some in F as (F & E). apply N.eqb_eq in E. apply N, in_or_app. right. cbn.
  rewrite app_nil_r. apply in_map_iff. exists v. split; [exact E|now apply in_rev].
Qed.

Lemma nodup_l {A} (a b : list A) : NoDup (a ++ b) -> NoDup a.
Proof. induction a as [|v a IH]; cbn; intros H; constructor; inversion H; subst; auto. intros I. apply H2, in_or_app. auto. Qed.
Lemma nodup_r {A} (a b : list A) : NoDup (a ++ b) -> NoDup b.
Proof. induction a as [|v a IH]; cbn; intros H; auto. inversion H; auto. Qed.

#[local] Arguments last_change : simpl never.
#[local] Arguments answers : simpl never.
Definition acc_of (x : TS) : list Breakpoint :=
  match x_b x with BCalc _ _ _ acc | BIns _ _ _ _ _ _ acc | BSay _ acc => acc | _ => [] end.
Definition pend (x : TS) : list N :=
  map bp_id (acc_of x) ++ match x_b x with BIns _ _ id _ _ _ _ => [id] | _ => [] end.
Record OInv (x : TS) : Prop := {
  o_x : XInv x;
  o_st : forall k b, dget (x_objs x) k = Some b -> lb_id b = k;
  o_ins : forall j kn id sb bp l acc, x_b x = BIns j kn id sb bp l acc -> bp_id bp = id;
  o_ev : forall bp, In (OBpEvent bp) (x_out x) -> dget (x_objs x) (bp_id bp) <> None;
  o_nd : NoDup (map bp_id (answers (x_out x)) ++ pend x);
  o_lt : forall i, In i (map bp_id (answers (x_out x)) ++ pend x) -> (i < x_ctr x)%N;
  o_val : forall k b, dget (x_objs x) k = Some b ->
    match last_change (x_out x) k with
    | Some v => lb_bp b = v
    | None => forall bp, In bp (answers (x_out x)) \/ In bp (acc_of x) -> bp_id bp = k -> lb_bp b = bp end }.

Lemma oinv_init maps : OInv (table_init maps).
Proof.
  constructor; cbn; try discriminate; try tauto; [apply xinv_init|intros bp [E|[]]; discriminate|apply NoDup_nil|intros i []].
Qed.

Lemma calculate_id id src line fl bp : calculate id src line fl = Ok bp -> bp_id bp = id.
Proof.
  unfold calculate. destruct (walk_back _ _ _) as [st|e]; [|discriminate]. cbn [bind]. destruct (walk_fwd _ _ _) as [e|e]; [|discriminate]. cbn [bind]. intros H. injection H as <-. reflexivity.
Qed.
Lemma change_say_other out m id : match m with OBpEvent _ => False | _ => True end -> last_change (out ++ [m]) id = last_change out id.
Proof. intros H. rewrite last_change_app. destruct m; try contradiction; reflexivity. Qed.
Lemma ans_say_other out m : match m with OBps _ _ => False | _ => True end -> answers (out ++ [m]) = answers out.
Proof. intros H. rewrite answers_app. destruct m; try contradiction; apply app_nil_r. Qed.

Lemma a_step_oinv x x' es : OInv x -> a_step x = Some (x', es) -> OInv x'.
Proof.
  intros I H. assert (X : XInv x') by (apply (@step_xinv x LA x' es); [apply (o_x I)|exact H]).
  destruct (a_step_tabs x H) as (E1 & E2 & E3 & E4 & E5 & E6 & _).
  assert (K : (x_objs x' = x_objs x /\ x_out x' = x_out x) \/
    exists k b bp fl, dget (x_objs x) k = Some b /\ calculate (lb_id b) (lb_source b) (sb_line (lb_sb b)) fl = Ok bp /\
      x_objs x' = dset (x_objs x) k (mkLB (lb_id b) (lb_source b) (lb_sb b) bp (lb_actual b) (lb_srcpath b)) /\ x_out x' = x_out x ++ [OBpEvent bp]).
  { unfold a_step in H. destruct (x_a x) as [|p l ob n i|p l ty|p l ty|p l ty|p|p ob n i|] eqn:P; try discriminate;
    repeat match goal with H : (match ?x with _ => _ end) = Some _ |- _ => destruct x eqn:?; try discriminate H end; injection H as <- <-; cbn; auto.
    right. eauto 10. }
  assert (AC : acc_of x' = acc_of x) by (unfold acc_of; now rewrite E3). assert (PE : pend x' = pend x) by (unfold pend; now rewrite AC, E3).
  destruct I as [IX O1 O2 O3 O4 O5 O6]. destruct K as [(A & B)|(k & b & bp & fl & D & C & A & B)].
  - constructor; rewrite ?A, ?B, ?AC, ?PE, ?E4, ?E3; auto.
  - pose proof (calculate_id _ _ _ _ C) as CI. rewrite (O1 _ _ D) in CI.
    constructor; rewrite ?A, ?B, ?AC, ?PE, ?E4, ?E3, ?(@ans_say_other _ (OBpEvent bp)) by exact Logic.I; auto.
    + intros k0 b0. rewrite dget_dset. destruct (eqb_spec k k0) as [<-|NE]; [|apply O1]. intros Y. injection Y as <-. cbn. now apply O1.
    + intros b0 Y. rewrite dget_dset. destruct (eqb_spec k (bp_id b0)) as [E|NE]; [discriminate|]. apply in_app_or in Y as [Y|[Y|[]]]; [now apply O3|]. injection Y as <-. congruence.
    + intros k0 b0. rewrite dget_dset, last_change_app. unfold last_change at 1. cbn. unfold about. rewrite CI. destruct (eqb_spec k k0) as [<-|NE].
      * rewrite !N.eqb_refl. intros Y. injection Y as <-. reflexivity.
      * destruct (N.eqb_spec k k0); [congruence|]. apply O6.
Qed.
Lemma b_step_oinv x x' : OInv x -> b_step x = Some x' -> OInv x'.
Proof.
  intros I H. destruct (b_step_inv (o_x I) H) as (X & _). destruct I as [IX O1 O2 O3 O4 O5 O6]. unfold b_step in H. unfold pend, acc_of in *.
  destruct (x_b x) as [|j l|j kn l|j kn l acc|j kn id sb bp l acc|j acc|j] eqn:P; try discriminate.
  - injection H as <-. constructor; cbn; auto. discriminate.
  - injection H as <-. constructor; cbn; auto. discriminate.
  - cbn [map] in *. rewrite app_nil_r in *. 
    assert (LT : forall k b, dget (x_objs x) k = Some b -> (k < x_ctr x)%N) by (apply (c_lt IX)).
    destruct l as [|sb l].
    + injection H as <-. constructor; cbn; rewrite ?app_nil_r; auto. discriminate.
    + cbv zeta in H. destruct (j_mod j); [|destruct kn; [destruct (calculate _ _ _ _) as [bp|e] eqn:C|]]; injection H as <-.
      * constructor; cbn; try discriminate; auto.
        -- rewrite app_nil_r, map_app, app_assoc. cbn. apply NoDup_app_one; [exact O4|]. intros Y. apply O5 in Y. lia.
        -- intros i. rewrite app_nil_r, map_app, app_assoc. intros Y. apply in_app_or in Y as [Y|[<-|[]]]; [apply O5 in Y|cbn]; lia.
        -- intros k b D. specialize (O6 k b D). destruct (last_change (x_out x) k); [exact O6|]. intros bp [Y|Y] E; [auto|]. apply in_app_or in Y as [Y|[<-|[]]]; [auto|]. cbn in E. apply LT in D. lia.
      * constructor; cbn; auto.
        -- intros j0 kn0 i0 sb0 bp0 l0 acc0 Y. injection Y as <- <- <- <- <- <- <-. eapply calculate_id; eauto.
        -- rewrite app_assoc. apply NoDup_app_one; [exact O4|]. intros Y. apply O5 in Y. lia.
        -- intros i. rewrite app_assoc. intros Y. apply in_app_or in Y as [Y|[<-|[]]]; [apply O5 in Y|]; lia.
      * constructor; cbn; try discriminate; auto.
        -- rewrite app_nil_r. now apply nodup_l in O4.
        -- intros i. rewrite app_nil_r. intros Y. assert (In i (map bp_id (answers (x_out x)) ++ map bp_id acc)) as Z by (apply in_or_app; auto). apply O5 in Z. lia.
        -- intros k b D. specialize (O6 k b D). destruct (last_change (x_out x) k); [exact O6|]. intros bp [Y|[]] E. auto.
      * constructor; cbn; auto.
        -- intros j0 kn0 i0 sb0 bp0 l0 acc0 Y. injection Y as <- <- <- <- <- <- <-. reflexivity.
        -- rewrite app_assoc. apply NoDup_app_one; [exact O4|]. intros Y. apply O5 in Y. lia.
        -- intros i. rewrite app_assoc. intros Y. apply in_app_or in Y as [Y|[<-|[]]]; [apply O5 in Y|]; lia.
  - destruct (c_ins IX P) as (L & N). pose proof (O2 _ _ _ _ _ _ _ eq_refl) as E0. injection H as <-.
    assert (NI : ~ In id (map bp_id (answers (x_out x)) ++ map bp_id acc)).
    { rewrite app_assoc in O4. apply NoDup_remove_2 in O4. now rewrite app_nil_r in O4. }
    constructor; cbn; try discriminate; auto.
    + intros k b. rewrite dget_dset. destruct (eqb_spec id k) as [<-|NE]; [|apply O1]. intros Y. injection Y as <-. reflexivity.
    + intros b Y. rewrite dget_dset. destruct (eqb_spec id (bp_id b)); [discriminate|now apply O3].
    + rewrite app_nil_r, map_app. cbn. now rewrite E0.
    + intros i. rewrite app_nil_r, map_app. cbn. rewrite E0. apply O5.
    + intros k b. rewrite dget_dset. destruct (eqb_spec id k) as [<-|NE].
      * intros Y. injection Y as <-. cbn. rewrite last_change_none by (intros b Y E; apply O3 in Y; rewrite E in Y; congruence).
        intros b Y E. assert (Z : In b (answers (x_out x)) \/ In b acc \/ b = bp) by (destruct Y as [Y|Y]; [auto|]; apply in_app_or in Y as [Y|[<-|[]]]; auto).
        destruct Z as [Z|[Z|Z]]; [..|now subst]; exfalso; apply NI, in_or_app; [left|right]; apply in_map_iff; eauto.
      * intros D. specialize (O6 k b D). destruct (last_change (x_out x) k); [exact O6|]. intros b0 [Y|Y] E; [auto|]. apply in_app_or in Y as [Y|[<-|[]]]; [auto|congruence].
  - injection H as <-. cbn in O4, O5. rewrite app_nil_r in O4, O5.
    assert (AN : answers (x_out x ++ [OBps (j_seq j) acc]) = answers (x_out x) ++ acc) by (rewrite answers_app; change (answers [OBps (j_seq j) acc]) with (acc ++ []); now rewrite app_nil_r).
    constructor; cbn; rewrite ?AN, ?map_app, ?app_nil_r; try discriminate; auto.
    + intros b Y. apply in_app_or in Y as [Y|[Y|[]]]; [now apply O3|discriminate].
    + intros k b D. rewrite change_say_other by exact Logic.I. specialize (O6 k b D). destruct (last_change (x_out x) k); [exact O6|]. intros b0 [Y|[]] E. apply in_app_or in Y. auto.
  - injection H as <-. cbn in O4, O5. rewrite app_nil_r in O4, O5. 
    constructor; cbn; rewrite ?ans_say_other, ?app_nil_r by exact Logic.I; try discriminate; auto.
    + intros b Y. apply in_app_or in Y as [Y|[Y|[]]]; [now apply O3|discriminate].
    + intros k b D. rewrite change_say_other by exact Logic.I. now apply O6.
Qed.
Lemma step_oinv x l x' es : OInv x -> tstep x l = Some (x', es) -> OInv x'.
Proof.
  intros I H. pose proof (@step_xinv x l x' es (o_x I) H) as X. destruct l as [p n|p n ty| |j l| |]; cbn in H.
  - destruct (x_a x); try discriminate. injection H as <- <-. destruct I. constructor; auto.
  - destruct (x_a x); try discriminate. injection H as <- <-. destruct I. constructor; auto.
  - eapply a_step_oinv; eauto.
  - destruct (x_b x) eqn:P; try discriminate. injection H as <- <-. destruct I as [IX O1 O2 O3 O4 O5 O6]. unfold pend, acc_of in *. rewrite P in *. constructor; cbn in *; auto. discriminate.
  - destruct (b_step x) as [x1|] eqn:B; [|discriminate]. injection H as <- <-. eapply b_step_oinv; eauto.
  - destruct (x_b x) eqn:P; try discriminate. injection H as <- <-. destruct I as [IX O1 O2 O3 O4 O5 O6]. unfold pend, acc_of in *. rewrite P in *. constructor; unfold pend, acc_of; cbn in *; rewrite ?P; auto.
Qed.
Lemma run_oinv maps h x : trun (table_init maps) h x -> OInv x.
Proof. intros R. remember (table_init maps) as x0 eqn:E. induction R as [x|x h x1 l x2 es R IH S]; [subst; apply oinv_init|]. eapply step_oinv; [now apply IH|exact S]. Qed.

(** Whatever the two threads are doing: a stored breakpoint is as the newest change event
    about it says and, if there was none, as the response that announced it says. *)
Theorem C83_newest_change_else_answer maps h x b : trun (table_init maps) h x -> In b (current x) ->
  match last_change (x_out x) (lb_id b) with
  | Some v => lb_bp b = v
  | None => forall bp, In bp (answers (x_out x)) -> bp_id bp = lb_id b -> lb_bp b = bp
  end.
Proof.
  intros R H. pose proof (run_oinv R) as I. unfold current, bps_of in H. apply in_flat_map in H as (k & _ & H). destruct (dget (x_objs x) k) as [b'|] eqn:D; [|contradiction]. destruct H as [->|[]].
  rewrite (o_st I _ D). pose proof (o_val I _ D) as V. destruct (last_change (x_out x) k); auto.
Qed.
Print Assumptions C83_newest_change_else_answer.
(** So the client's view, which is the last thing it was told, is current unless a change
    event was sent before the response that announced the breakpoint. *)
Theorem C83_view_is_current_partial maps h x b o1 seq l o2 : trun (table_init maps) h x -> In b (current x) ->
  x_out x = o1 ++ OBps seq l :: o2 -> In (lb_id b) (map bp_id l) -> last_change o1 (lb_id b) = None ->
  last_told (map Some (x_out x)) (lb_id b) = Some (lb_bp b).
Proof.
  intros R H E L N. pose proof (@C83_newest_change_else_answer maps h x b R H) as V. pose proof (run_oinv R) as I. pose proof (o_nd I) as ND. rewrite E in *. clear E.
  change (OBps seq l :: o2) with ([OBps seq l] ++ o2) in *. rewrite !last_told_app, !last_change_app in *. rewrite !answers_app, !map_app, <- !app_assoc in ND. rewrite N in V.
  rewrite told_change; cycle 1.
  { intros Y. apply nodup_r in ND. replace (answers [OBps seq l]) with l in ND by (unfold answers; cbn; now rewrite app_nil_r).
    apply in_split in L as (l1 & l2 & L). rewrite L, <- app_assoc in ND. cbn in ND. apply NoDup_remove_2 in ND. apply ND. apply in_or_app. right. apply in_or_app. right. apply in_or_app. now left. }
  destruct (last_change o2 (lb_id b)) as [v|]; [now rewrite V|]. change (last_change [OBps seq l] (lb_id b)) with (@None Breakpoint) in V. cbv iota in V.
  unfold last_told. cbn. rewrite app_nil_r. destruct (find (fun b0 => N.eqb (bp_id b0) (lb_id b)) (rev l)) as [v|] eqn:F.
  - apply find_some in F as (F & E). apply N.eqb_eq in E. f_equal. symmetry. apply V; [|exact E]. rewrite !answers_app. apply in_or_app. right. apply in_or_app. left. unfold answers. cbn. rewrite app_nil_r. now apply in_rev.
  - exfalso. apply in_map_iff in L as (v & E & L). apply in_rev in L. eapply find_none in F; [|exact L]. cbn in F. rewrite E, N.eqb_refl in F. discriminate.
Qed.
Print Assumptions C83_view_is_current_partial.

(** The file is loaded after the breakpoint was stored and before its response is sent. *)
Definition crossing := [LSet demo_job [mkSB 3 None 0]; LB; LB; LB; LB; LReg (s "/p.yml") 3 1; LA; LA; LA; LA; LA; LA; LB; LB].
(** In general it does not hold: with both threads done, the breakpoint is in force at
    line 3 while the last thing the client was told is that the file is not loaded. *)
Theorem C83_view_refuted : exists h x b told_bp, trun (table_init []) h x /\ quiet x /\ current x = [b] /\ bp_verified (lb_bp b) = true /\
  find (bp_matches (s "/p.yml") 3) (current x) = Some b /\
  last_told (map Some (x_out x)) (lb_id b) = Some told_bp /\ bp_verified told_bp = false.
Proof.
  destruct (tgo (table_init []) [] crossing) as [(x, h)|] eqn:E; [|vm_compute in E; discriminate].
  exists h, x. pose proof (tgo_run _ (trun_nil _) E) as R. vm_compute in E. injection E as E1 E2. rewrite <- E2, <- E1 in R. rewrite <- E1, <- E2. eexists. eexists.
  split; [exact R|]. split; [split; [left|]; reflexivity|]. split; [vm_compute; reflexivity|]. split; [reflexivity|]. split; [vm_compute; reflexivity|]. split; [vm_compute; reflexivity|reflexivity].
Qed.
Print Assumptions C83_view_refuted.
(** With the response sent before the file is loaded the partial theorem applies. *)
Example C83_in_order : exists h x b o1 seq l o2, trun (table_init []) h x /\ In b (current x) /\ x_out x = o1 ++ OBps seq l :: o2 /\ In (lb_id b) (map bp_id l) /\
  last_change o1 (lb_id b) = None /\ o2 <> [] /\ bp_verified (lb_bp b) = true.
Proof.
  destruct (tgo (table_init []) [] [LSet demo_job [mkSB 3 None 0]; LB; LB; LB; LReg (s "/p.yml") 3 1; LA; LA; LB; LB; LB; LA; LA; LA; LA]) as [(x, h)|] eqn:E; [|vm_compute in E; discriminate].
  exists h, x. pose proof (tgo_run _ (trun_nil _) E) as R. vm_compute in E. injection E as E1 E2. rewrite <- E2, <- E1 in R. rewrite <- E1, <- E2. eexists. exists [OInitialized]. do 3 eexists.
  split; [exact R|]. split; [left; vm_compute; reflexivity|]. split; [reflexivity|]. split; [left; reflexivity|]. split; [reflexivity|]. split; [discriminate|reflexivity].
Qed.
