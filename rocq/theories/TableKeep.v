(** C88: breakpoints stay in force while the client changes them (TableModel). *)
From Verif Require Import PyBase PyDict DbgTypes BpModel TableModel TableProps.
From Coq Require Import ZifyBool ZifyNat ZifyN.
Set Implicit Arguments.
Local Open Scope Z_scope.
#[local] Arguments dget : simpl never.
#[local] Arguments dset : simpl never.
#[local] Arguments set_tab : simpl never.
#[local] Arguments eqb : simpl never.
Ltac csplit := repeat match goal with |- _ /\ _ => split end.

(* ------------------------------------------------------------------ specification *)
(** The breakpoints the client wants in each of its files, before and after the last
    request or disconnect: the request replaces those of its file, and sets none if it says
    that the file is modified. *)
Definition ask (c : (pystr -> list SourceBreakpoint) * (pystr -> list SourceBreakpoint)) (e : tlabel * list tev) :=
  match fst e with
  | LSet j l => (snd c, fun p => if eqb (py_or_empty (src_path (j_src j))) p then (if j_mod j then [] else l) else snd c p)
  | LClear => (fun _ => [], fun _ => [])
  | _ => c
  end.
Definition asked (h : list (tlabel * list tev)) := fold_left ask h (fun _ => [], fun _ => []).
Definition before h : pystr -> list SourceBreakpoint := fst (asked h).
Definition after h : pystr -> list SourceBreakpoint := snd (asked h).
(** What the table holds for a file, in order. *)
Definition stored (x : TS) (p : pystr) : list SourceBreakpoint := map lb_sb (filter (fun b => eqb (lb_srcpath b) p) (current x)).
(** Requests and their answers. *)
Definition is_set (l : tlabel) : bool := match l with LSet _ _ => true | _ => false end.
Definition is_answer (o : Out) : bool := match o with OBps _ _ | OError CSetBreakpoints _ => true | _ => false end.
Definition requests (h : list (tlabel * list tev)) : nat := length (filter (fun e => is_set (fst e)) h).
Definition answers (x : TS) : nat := length (filter is_answer (x_out x)).
Definition settled h x : Prop := requests h = answers x.
(** No setBreakpoints request was answered with an error. *)
Definition no_error (x : TS) : Prop := forall q, ~ In (OError CSetBreakpoints q) (x_out x).

(* ------------------------------------------------------------------ the table *)
Definition info (b : LineBp) : pystr * SourceBreakpoint := (lb_srcpath b, lb_sb b).
Definition of_info (p : pystr) (l : list (pystr * SourceBreakpoint)) : list SourceBreakpoint := map snd (filter (fun q => eqb (fst q) p) l).
Lemma stored_info x p : stored x p = of_info p (map info (current x)).
Proof.
  unfold stored, of_info. induction (current x) as [|b l IH]; cbn; [reflexivity|]. destruct (eqb (lb_srcpath b) p); cbn; now rewrite IH.
Qed.
Lemma of_info_app p a b : of_info p (a ++ b) = of_info p a ++ of_info p b.
Proof. unfold of_info. now rewrite filter_app, map_app. Qed.
Lemma info_same x x' ids : (forall k, In k ids -> option_map info (dget (x_objs x') k) = option_map info (dget (x_objs x) k)) -> map info (bps_of x' ids) = map info (bps_of x ids).
Proof.
  intros H. unfold bps_of. induction ids as [|k l IH]; cbn; [reflexivity|]. rewrite !map_app, IH by (intros q X; apply H; now right). f_equal.
  specialize (H k (or_introl eq_refl)). destruct (dget (x_objs x') k), (dget (x_objs x) k); cbn in *; congruence.
Qed.
Lemma stored_same x x' : tab x' (x_cur x') = tab x (x_cur x) -> (forall k, option_map info (dget (x_objs x') k) = option_map info (dget (x_objs x) k)) -> forall p, stored x' p = stored x p.
Proof. intros T H p. rewrite !stored_info. unfold current. rewrite T. f_equal. apply info_same. auto. Qed.
Lemma stored_bind x x' p0 : let f := fun k => match dget (x_objs x) k with Some b => negb (eqb (lb_srcpath b) p0) | None => false end in
  x_objs x' = x_objs x -> tab x' (x_cur x') = filter f (tab x (x_cur x)) -> forall p, stored x' p = if eqb p0 p then [] else stored x p.
Proof.
  intros f EO T p. unfold stored, current. rewrite T. clear T. unfold bps_of. rewrite EO. induction (tab x (x_cur x)) as [|k l IH]; cbn; [now destruct (eqb p0 p)|].
  unfold f at 1. destruct (dget (x_objs x) k) as [b|] eqn:D; cbn; [|exact IH]. destruct (eqb_spec (lb_srcpath b) p0) as [E|E]; cbn.
  - rewrite IH. destruct (eqb_spec p0 p) as [F|F]; [reflexivity|]. destruct (eqb_spec (lb_srcpath b) p) as [G|G]; [congruence|reflexivity].
  - rewrite D. cbn. destruct (eqb_spec (lb_srcpath b) p) as [G|G]; cbn; rewrite IH; destruct (eqb_spec p0 p) as [F|F]; try reflexivity. congruence.
Qed.
Lemma stored_ins x x' id b : x_objs x' = dset (x_objs x) id b -> tab x' (x_cur x') = tab x (x_cur x) ++ [id] -> ~ In id (tab x (x_cur x)) ->
  forall p, stored x' p = if eqb (lb_srcpath b) p then stored x p ++ [lb_sb b] else stored x p.
Proof.
  intros EO T N p. rewrite !stored_info. unfold current. rewrite T. rewrite bps_app, map_app, of_info_app.
  rewrite (@info_same x x' (tab x (x_cur x))).
  - unfold bps_of at 2. cbn. rewrite EO, dget_dset. destruct (eqb_spec id id); [|congruence]. cbn. unfold of_info at 2. cbn.
    destruct (eqb (lb_srcpath b) p); cbn; [reflexivity|apply app_nil_r].
  - intros k K. rewrite EO, dget_dset. destruct (eqb_spec id k) as [->|]; [contradiction|reflexivity].
Qed.

(* ------------------------------------------------------------------ the invariant *)
Definition pre (x : TS) (a b : list SourceBreakpoint) : Prop := exists rest, b = a ++ rest /\ (no_error x -> rest = []).
Definition KI (x : TS) h : Prop :=
  match x_b x with
  | BIdle => (forall p, pre x (stored x p) (after h p)) /\ requests h = answers x
  | BRead j l | BBind j _ l => (forall p, pre x (stored x p) (before h p)) /\ (forall p, after h p = if eqb (j_spath j) p then (if j_mod j then [] else l) else before h p) /\ requests h = S (answers x)
  | BCalc j _ l _ => (forall p, j_spath j <> p -> pre x (stored x p) (after h p)) /\ (after h (j_spath j) = stored x (j_spath j) ++ (if j_mod j then [] else l)) /\ (forall p, j_spath j <> p -> after h p = before h p) /\ requests h = S (answers x)
  | BIns j _ _ sb _ l _ => j_mod j = false /\ (forall p, j_spath j <> p -> pre x (stored x p) (after h p)) /\ (after h (j_spath j) = stored x (j_spath j) ++ sb :: l) /\ (forall p, j_spath j <> p -> after h p = before h p) /\ requests h = S (answers x)
  | BSay j _ => (forall p, pre x (stored x p) (after h p)) /\ requests h = S (answers x)
  | BErr j => (forall p, exists rest, after h p = stored x p ++ rest) /\ (forall p, j_spath j <> p -> pre x (stored x p) (after h p)) /\ requests h = S (answers x)
  end.
Lemma asked_snoc h e : asked (h ++ [e]) = ask (asked h) e.
Proof. unfold asked. now rewrite fold_left_app. Qed.
Lemma requests_snoc h e : requests (h ++ [e]) = (requests h + if is_set (fst e) then 1 else 0)%nat.
Proof. unfold requests. rewrite filter_app, app_length. cbn. now destruct (is_set (fst e)). Qed.
Lemma pre_out x x' a b : (no_error x' -> no_error x) -> pre x a b -> pre x' a b.
Proof. intros H (r & E & F). exists r. auto. Qed.
Lemma a_step_keep x x' es : a_step x = Some (x', es) -> (forall k, option_map info (dget (x_objs x') k) = option_map info (dget (x_objs x) k)) /\ answers x' = answers x /\ (no_error x' <-> no_error x).
Proof.
  intros H. unfold a_step in H. destruct (x_a x) as [|p l ob n i|p l ty|p l ty|p l ty|p|p ob n i|] eqn:P; try discriminate;
  repeat match goal with H : (match ?x with _ => _ end) = Some _ |- _ => destruct x eqn:?; try discriminate H end; injection H as <- <-; try (csplit; [reflexivity|reflexivity|split; auto]); cbn.
  csplit.
  - intros k. rewrite dget_dset. match goal with |- context [eqb ?a k] => destruct (eqb_spec a k) as [<-|NE] end; [|reflexivity]. 
    match goal with X : dget (x_objs x) _ = Some _ |- _ => rewrite X end. reflexivity.
  - unfold answers. cbn. rewrite filter_app, app_length. cbn. lia.
  - unfold no_error. cbn. split; intros H q X; apply (H q); [apply in_or_app; now left|]. apply in_app_or in X as [X|[X|[]]]; [exact X|discriminate].
Qed.
Lemma ki_step x h l x' es : XInv x -> KI x h -> tstep x l = Some (x', es) -> KI x' (h ++ [(l, es)]).
Proof.
  intros I K H. destruct l as [p0 n|p0 n ty| |j l| |]; cbn in H.
  - destruct (x_a x); try discriminate. injection H as <- <-. unfold KI, before, after in *. rewrite asked_snoc, requests_snoc, Nat.add_0_r. exact K.
  - destruct (x_a x); try discriminate. injection H as <- <-. unfold KI, before, after in *. rewrite asked_snoc, requests_snoc, Nat.add_0_r. exact K.
  - destruct (a_step_tabs x H) as (E1 & E2 & E3 & _). destruct (a_step_keep x H) as (E4 & E5 & E6).
    assert (SS : forall p, stored x' p = stored x p) by (apply stored_same; [unfold tab; now rewrite E1, E2|exact E4]).
    assert (PP : forall a b, pre x a b -> pre x' a b) by (intros a b; apply pre_out; apply E6).
    unfold KI, before, after in *. rewrite asked_snoc, requests_snoc, Nat.add_0_r, E3, E5. cbn [ask fst]. destruct (x_b x) as [|j l|j kn l|j kn l acc|j kn id sb bp l acc|j acc|j]; repeat rewrite !SS;
    repeat match goal with K : _ /\ _ |- _ => destruct K end; csplit; auto; intros; rewrite ?SS; auto.
  - destruct (x_b x) eqn:B; try discriminate. injection H as <- <-. unfold KI, before, after in *. rewrite B in K. rewrite asked_snoc, requests_snoc. cbn. destruct K as (K1 & K2). csplit; [exact K1|reflexivity|]. rewrite K2. unfold answers. cbn. apply Nat.add_1_r.
  - destruct (b_step x) as [y|] eqn:B; [|discriminate]. injection H as <- <-. 
    assert (AS : asked (h ++ [(LB, [])]) = asked h) by apply asked_snoc. unfold KI, before, after in *. rewrite AS, requests_snoc, Nat.add_0_r. clear AS.
    unfold b_step in B. destruct (x_b x) as [|j l|j kn l|j kn l acc|j kn id sb bp l acc|j acc|j] eqn:P; try discriminate.
    + injection B as <-. exact K.
    + injection B as <-. cbn [x_b with_b]. destruct K as (K1 & K2 & K3).
      match goal with |- context [stored ?y _] => assert (SB := fun E1 E2 => @stored_bind x y (j_spath j) E1 E2) end.
      cbv zeta in SB. assert (SB' := SB eq_refl). clear SB. match type of SB' with ?A -> _ => assert (T : A) end.
      { unfold tab at 1. cbn. rewrite nth_snoc, Nat.eqb_refl. reflexivity. }
      specialize (SB' T). csplit; auto.
      * intros p NE. rewrite SB', K2. destruct (eqb_spec (j_spath j) p); [contradiction|]. exact (K1 p).
      * rewrite SB', K2. destruct (eqb_spec (j_spath j) (j_spath j)); [reflexivity|congruence].
      * intros p NE. rewrite K2. destruct (eqb_spec (j_spath j) p); [contradiction|reflexivity].
    + destruct l as [|sb l].
      * injection B as <-. cbn [x_b with_b]. destruct K as (K1 & K2 & K3 & K4). split; [|exact K4]. intros p. destruct (eqb_spec (j_spath j) p) as [<-|NE]; [|exact (K1 p NE)].
        exists []. split; [|auto]. rewrite K2. now destruct (j_mod j).
      * cbv zeta in B. destruct K as (K1 & K2 & K3 & K4). destruct (j_mod j) eqn:M.
        { injection B as <-. cbn [x_b with_b]. rewrite M. csplit; auto. }
        destruct kn; [destruct (calculate _ _ _ _)|]; injection B as <-; cbn [x_b with_b]; csplit; auto.
        intros p. destruct (eqb_spec (j_spath j) p) as [<-|NE]; [eexists; exact K2|]. destruct (K1 p NE) as (r & R & _). exists r. exact R.
    + injection B as <-. cbn [x_b with_b]. destruct K as (M & K1 & K2 & K3 & K4). rewrite M.
      destruct (c_ins I P) as (L & N).
      match goal with |- context [stored ?y _] => assert (SB := fun E1 E2 => @stored_ins x y id (mkLB id (j_src j) sb bp (j_apath x j) (j_spath j)) E1 E2) end.
      assert (SB' := SB eq_refl). clear SB. match type of SB' with ?A -> _ => assert (T : A) end.
      { unfold tab at 1. cbn. rewrite nth_upd by apply (c_cur I). now rewrite Nat.eqb_refl. }
      specialize (SB' T). match type of SB' with ?A -> _ => assert (NI : A) end.
      { intros X. destruct (c_in I _ _ X) as (b & D). congruence. }
      specialize (SB' NI). cbn [lb_srcpath lb_sb] in SB'. csplit; auto.
      * intros p NE. rewrite SB'. destruct (eqb_spec (j_spath j) p); [contradiction|]. exact (K1 p NE).
      * rewrite SB'. destruct (eqb_spec (j_spath j) (j_spath j)); [|congruence]. rewrite K2, <- app_assoc. reflexivity.
    + injection B as <-. cbn [x_b with_b]. destruct K as (K1 & K2). split.
      * intros p. specialize (K1 p). eapply pre_out; [|exact K1]. intros Q q X. apply (Q q). cbn. apply in_or_app. now left.
      * unfold answers in *. cbn. rewrite filter_app, app_length. cbn. lia.
    + injection B as <-. cbn [x_b with_b]. destruct K as (K1 & _ & K2). split.
      * intros p. destruct (K1 p) as (r & R). exists r. split; [exact R|]. intros Q. exfalso. apply (Q (j_seq j)). cbn. apply in_or_app. right. now left.
      * unfold answers in *. cbn. rewrite filter_app, app_length. cbn. lia.
  - destruct (x_b x) eqn:B; try discriminate. injection H as <- <-. unfold KI, before, after in *. rewrite B in K. rewrite asked_snoc, requests_snoc, Nat.add_0_r. cbn [x_b with_maps with_cur with_tabs]. rewrite B. split; [|apply K].
    intros p. exists []. split; [|auto]. cbn. unfold stored, current, tab. cbn. now rewrite nth_snoc, Nat.eqb_refl.
Qed.
Lemma run_ki maps h x : trun (table_init maps) h x -> KI x h.
Proof.
  intros R. remember (table_init maps) as x0. induction R as [x0|x0 h x1 l x2 es R IH S]; subst.
  - split; [|reflexivity]. intros p. exists []. auto.
  - eapply ki_step; [|now apply IH|exact S]. eapply run_xinv; [apply (xinv_init maps)|exact R].
Qed.

(** The file of the last request. *)
Definition file_of (c : option pystr) (e : tlabel * list tev) : option pystr := match fst e with LSet j _ => Some (py_or_empty (src_path (j_src j))) | _ => c end.
Definition last_file (h : list (tlabel * list tev)) : option pystr := fold_left file_of h None.
Definition job_of (x : TS) : option job :=
  match x_b x with BIdle => None | BRead j _ | BBind j _ _ | BCalc j _ _ _ | BIns j _ _ _ _ _ _ | BSay j _ | BErr j => Some j end.
Lemma run_file maps h x j : trun (table_init maps) h x -> job_of x = Some j -> last_file h = Some (j_spath j).
Proof.
  intros R. remember (table_init maps) as x0. revert j. induction R as [x0|x0 h x1 l x2 es R IH S]; subst; intros j J; [discriminate|].
  specialize (IH eq_refl). unfold last_file in *. rewrite fold_left_app. cbn. destruct l as [p0 n|p0 n ty| |j0 l| |]; cbn in S |- *.
  - destruct (x_a x1); try discriminate. injection S as <- <-. exact (IH j J).
  - destruct (x_a x1); try discriminate. injection S as <- <-. exact (IH j J).
  - destruct (a_step_tabs x1 S) as (E1 & E2 & E3 & _). apply IH. unfold job_of in *. now rewrite E3 in J.
  - destruct (x_b x1); try discriminate. injection S as <- <-. cbn in J. injection J as <-. reflexivity.
  - destruct (b_step x1) as [y|] eqn:B; [|discriminate]. injection S as <- <-. unfold b_step in B. unfold job_of in *. destruct (x_b x1) as [|j1 l|j1 kn l|j1 kn l acc|j1 kn id sb bp l acc|j1 acc|j1] eqn:P; try discriminate.
    + injection B as <-. exact (IH j J).
    + injection B as <-. exact (IH j J).
    + destruct l as [|sb l]; [injection B as <-; exact (IH j J)|]. cbv zeta in B. destruct (j_mod j1); [|destruct kn; [destruct (calculate _ _ _ _)|]]; injection B as <-; exact (IH j J).
    + injection B as <-. exact (IH j J).
    + injection B as <-. discriminate.
    + injection B as <-. discriminate.
  - destruct (x_b x1) eqn:B; try discriminate. injection S as <- <-. unfold job_of in *. cbn in J. rewrite B in J. discriminate.
Qed.

(* ------------------------------------------------------------------ theorems *)
(** Once every request has been answered, and none with an error, the table holds for each
    file what the last request for it asked for, in order, whatever the strategy thread
    looked up or registered meanwhile. *)
Theorem C88_settled_exact maps h x p : trun (table_init maps) h x -> settled h x -> no_error x -> stored x p = after h p.
Proof.
  intros R ST NE. pose proof (run_ki R) as K. unfold KI, settled in *.
  destruct (x_b x) as [|j l|j kn l|j kn l acc|j kn id sb bp l acc|j acc|j]; repeat match goal with K : _ /\ _ |- _ => destruct K end; try lia.
  destruct (H p) as (r & E & F). rewrite E, (F NE). now rewrite app_nil_r.
Qed.
Print Assumptions C88_settled_exact.

(** Also when some were answered with errors it holds nothing else: for each file the first
    so many breakpoints of the last request. *)
Theorem C88_settled_prefix maps h x p : trun (table_init maps) h x -> settled h x -> exists rest, after h p = stored x p ++ rest.
Proof.
  intros R ST. pose proof (run_ki R) as K. unfold KI, settled in *.
  destruct (x_b x) as [|j l|j kn l|j kn l acc|j kn id sb bp l acc|j acc|j]; repeat match goal with K : _ /\ _ |- _ => destruct K end; try lia.
  destruct (H p) as (r & E & _). eauto.
Qed.
Print Assumptions C88_settled_prefix.

(** While one is being handled it does so for every other file. *)
Theorem C88_other_files_kept maps h x p : trun (table_init maps) h x -> no_error x -> last_file h <> Some p -> stored x p = after h p.
Proof.
  intros R NE L. pose proof (run_ki R) as K. pose proof (fun j => @run_file maps h x j R) as F. unfold KI, job_of in *.
  assert (D : forall a b, pre x a b -> a = b) by (intros a b (r & E & G); rewrite E, (G NE); now rewrite app_nil_r).
  destruct (x_b x) as [|j l|j kn l|j kn l acc|j kn id sb bp l acc|j acc|j] eqn:P;
    try (assert (N : j_spath j <> p) by (intros X; apply L; rewrite <- X; now apply F)).
  - apply D, K.
  - destruct K as (K1 & K2 & _). rewrite K2. destruct (eqb_spec (j_spath j) p); [contradiction|]. apply D, K1.
  - destruct K as (K1 & K2 & _). rewrite K2. destruct (eqb_spec (j_spath j) p); [contradiction|]. apply D, K1.
  - apply D, K. exact N.
  - apply D, K. exact N.
  - apply D, K.
  - apply D, K. exact N.
Qed.
Print Assumptions C88_other_files_kept.

(** Nothing outdated is ever found: what a lookup answers was asked for by the last request
    for its file, or by the one before it. *)
Lemma in_stored x b : In b (current x) -> In (lb_sb b) (stored x (lb_srcpath b)).
Proof. intros I. unfold stored. apply in_map, filter_In. split; [exact I|]. now destruct (eqb_spec (lb_srcpath b) (lb_srcpath b)). Qed.
Theorem C88_no_stale_hit maps h x p line x1 h' x2 x3 b : trun (table_init maps) h x ->
  tstep x (LLook p line) = Some (x1, []) -> trun x1 h' x2 -> silent h' -> tstep x2 LA = Some (x3, [TAnswer (Some b)]) ->
  In (lb_sb b) (after h (lb_srcpath b)) \/ (In (lb_sb b) (before h (lb_srcpath b)) /\ ~ settled h x /\ last_file h = Some (lb_srcpath b)).
Proof.
  intros R E R' SI H. destruct (@C58_answer_is_a_snapshot maps h x p line x1 h' x2 x3 _ R E R' SI H) as [X|[X|(r & X & F)]]; try discriminate.
  injection X as <-. destruct F as (l1 & l2 & C & _). assert (I : In b (current x)) by (rewrite C; apply in_or_app; right; now left).
  apply in_stored in I. pose proof (run_ki R) as K. pose proof (fun j => @run_file maps h x j R) as F. unfold KI, job_of, settled in *.
  assert (D : forall u v w, pre x u v -> In w u -> In w v) by (intros u v w (q & Q & _) W; rewrite Q; apply in_or_app; now left).
  destruct (x_b x) as [|j l|j kn l|j kn l acc|j kn id sb bp l acc|j acc|j] eqn:P.
  - left. eapply D; [apply K|exact I].
  - destruct K as (K1 & K2 & K3). rewrite K2. destruct (eqb_spec (j_spath j) (lb_srcpath b)) as [Y|Y].
    + right. csplit; [eapply D; [apply K1|exact I]|lia|rewrite <- Y; now apply F].
    + left. eapply D; [apply K1|exact I].
  - destruct K as (K1 & K2 & K3). rewrite K2. destruct (eqb_spec (j_spath j) (lb_srcpath b)) as [Y|Y].
    + right. csplit; [eapply D; [apply K1|exact I]|lia|rewrite <- Y; now apply F].
    + left. eapply D; [apply K1|exact I].
  - left. destruct K as (K1 & K2 & _). destruct (eqb_spec (j_spath j) (lb_srcpath b)) as [Y|Y]; [|eapply D; [now apply K1|exact I]].
    rewrite <- Y in *. rewrite K2. apply in_or_app. now left.
  - left. destruct K as (_ & K1 & K2 & _). destruct (eqb_spec (j_spath j) (lb_srcpath b)) as [Y|Y]; [|eapply D; [now apply K1|exact I]].
    rewrite <- Y in *. rewrite K2. apply in_or_app. now left.
  - left. eapply D; [apply K|exact I].
  - left. destruct K as (K1 & _). destruct (K1 (lb_srcpath b)) as (q & Q). rewrite Q. apply in_or_app. now left.
Qed.
Print Assumptions C88_no_stale_hit.

(** A breakpoint that both the old and the new request name is out of force while the new
    one is being handled: here a second breakpoint is added to a file with one, and the
    task on the first is not stopped at. *)
Definition sb3 := mkSB 3 None 0.
Definition hits (x : TS) (sb : SourceBreakpoint) (p : pystr) (line : Z) : Prop := exists b, first_on_line p line (current x) (Some b) /\ lb_sb b = sb.
Theorem C88_kept_refuted : exists h x j l h' x1 x2 x3 h'' x4, trun (table_init []) h x /\ settled h x /\ no_error x /\ hits x sb3 (s "/p.yml") 3 /\
  trun x ((LSet j l, []) :: h') x1 /\ In sb3 l /\ tstep x1 (LLook (s "/p.yml") 3) = Some (x2, []) /\ tstep x2 LA = Some (x3, [TAnswer None]) /\
  trun x3 h'' x4 /\ no_error x4 /\ hits x4 sb3 (s "/p.yml") 3.
Proof.
  destruct (tgo (table_init []) [] [LSet demo_job [sb3]; LB; LB; LB; LB; LB; LB]) as [(x, h)|] eqn:E; [|vm_compute in E; discriminate].
  pose proof (tgo_run _ (trun_nil _) E) as R. vm_compute in E. injection E as E1 E2.
  destruct (tgo x [] [LSet demo_job two_bps; LB; LB]) as [(x1, h1)|] eqn:E'; [|rewrite <- E1 in E'; vm_compute in E'; discriminate].
  pose proof (tgo_run _ (trun_nil x) E') as R'. rewrite <- E1 in E'. vm_compute in E'. injection E' as E3 E4.
  destruct (tstep x1 (LLook (s "/p.yml") 3)) as [(x2, es)|] eqn:L; [|rewrite <- E3 in L; vm_compute in L; discriminate].
  assert (L' := L). rewrite <- E3 in L'. vm_compute in L'. injection L' as E5 E6.
  destruct (tstep x2 LA) as [(x3, es3)|] eqn:A; [|rewrite <- E5 in A; vm_compute in A; discriminate].
  assert (A' := A). rewrite <- E5 in A'. vm_compute in A'. injection A' as E7 E8.
  destruct (tgo x3 [] [LB; LB; LB; LB; LB; LB]) as [(x4, h4)|] eqn:E9; [|rewrite <- E7 in E9; vm_compute in E9; discriminate].
  pose proof (tgo_run _ (trun_nil x3) E9) as R4. rewrite <- E7 in E9. vm_compute in E9. injection E9 as E9 E10.
  exists h, x, demo_job, two_bps, (tl h1), x1, x2, x3, h4, x4.
  assert (HT : forall y, find (bp_matches (s "/p.yml") 3) (current y) <> None -> (forall b, find (bp_matches (s "/p.yml") 3) (current y) = Some b -> lb_sb b = sb3) -> hits y sb3 (s "/p.yml") 3).
  { intros y N Q. destruct (find (bp_matches (s "/p.yml") 3) (current y)) as [b|] eqn:F; [|congruence]. exists b. split; [rewrite <- F; apply find_on_line|auto]. }
  csplit.
  - exact R.
  - rewrite <- E1, <- E2. reflexivity.
  - rewrite <- E1. intros q X. cbn in X. repeat destruct X as [X|X]; try discriminate. contradiction.
  - apply HT; rewrite <- E1; [vm_compute; discriminate|]. intros b X. vm_compute in X. injection X as <-. reflexivity.
  - rewrite <- E4 in R' |- *. exact R'.
  - now left.
  - rewrite L, <- E6. reflexivity.
  - rewrite A, <- E8. reflexivity.
  - exact R4.
  - rewrite <- E9. intros q X. cbn in X. repeat destruct X as [X|X]; try discriminate. contradiction.
  - apply HT; rewrite <- E9; [vm_compute; discriminate|]. intros b X. vm_compute in X. injection X as <-. reflexivity.
Qed.
Print Assumptions C88_kept_refuted.

(** A run that meets the hypotheses of the positive theorems: requests for two files, the
    second not answered yet, with a lookup that hits in the first meanwhile. *)
Definition job_b := mkJob 8 (mkSource (Some (s "/b.yml")) 0) false.
Example C88_nonvacuous : exists h x x1 x2 b, trun (table_init []) h x /\ no_error x /\ ~ settled h x /\ last_file h = Some (s "/b.yml") /\
  stored x (s "/p.yml") = two_bps /\ after h (s "/p.yml") = two_bps /\ stored x (s "/b.yml") = [] /\
  tstep x (LLook (s "/p.yml") 4) = Some (x1, []) /\ tstep x1 LA = Some (x2, [TAnswer (Some b)]) /\ lb_sb b = sb3.
Proof.
  destruct (tgo (table_init []) [] (first_in ++ [LB; LB; LB; LSet job_b [sb3]; LB; LB])) as [(x, h)|] eqn:E; [|vm_compute in E; discriminate].
  pose proof (tgo_run _ (trun_nil _) E) as R. vm_compute in E. injection E as E1 E2.
  destruct (tstep x (LLook (s "/p.yml") 4)) as [(x1, es)|] eqn:L; [|rewrite <- E1 in L; vm_compute in L; discriminate].
  assert (L' := L). rewrite <- E1 in L'. vm_compute in L'. injection L' as E5 E6.
  destruct (tstep x1 LA) as [(x3, es3)|] eqn:A; [|rewrite <- E5 in A; vm_compute in A; discriminate].
  assert (A' := A). rewrite <- E5 in A'. vm_compute in A'. injection A' as E7 E8.
  exists h, x, x1, x3. eexists. csplit.
  - exact R.
  - rewrite <- E1. intros q X. cbn in X. repeat destruct X as [X|X]; try discriminate. contradiction.
  - rewrite <- E1, <- E2. discriminate.
  - rewrite <- E2. reflexivity.
  - rewrite <- E1. reflexivity.
  - rewrite <- E2. reflexivity.
  - rewrite <- E1. reflexivity.
  - rewrite L, <- E6. reflexivity.
  - rewrite A, <- E8. reflexivity.
  - reflexivity.
Qed.

(** The prefix can be proper: a request whose second breakpoint cannot be placed (a line
    before the first) is answered with an error, and the first stays. *)
Example C88_error_keeps_some : exists h x, trun (table_init []) h x /\ settled h x /\ ~ no_error x /\
  stored x (s "/p.yml") = [sb3] /\ after h (s "/p.yml") = [sb3; mkSB (-9) None 0].
Proof.
  destruct (tgo (table_init []) [] [LReg (s "/p.yml") 1 1; LA; LA; LA; LA; LA; LSet demo_job [sb3; mkSB (-9) None 0]; LB; LB; LB; LB; LB; LB]) as [(x, h)|] eqn:E; [|vm_compute in E; discriminate].
  pose proof (tgo_run _ (trun_nil _) E) as R. vm_compute in E. injection E as E1 E2.
  exists h, x. csplit.
  - exact R.
  - rewrite <- E1, <- E2. reflexivity.
  - rewrite <- E1. intros N. apply (N 7). cbn. auto 10.
  - rewrite <- E1. reflexivity.
  - rewrite <- E2. reflexivity.
Qed.
