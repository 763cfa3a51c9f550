(** C58: looking up and registering breakpoints while the client changes them. *)
From Verif Require Import PyBase PyDict DbgTypes BpModel TableModel.
From Coq Require Import ZifyBool ZifyNat ZifyN.
Set Implicit Arguments.
Local Open Scope Z_scope.
#[local] Arguments dget : simpl never.
#[local] Arguments dset : simpl never.
#[local] Arguments Z.add : simpl never.
Ltac csplit := repeat match goal with |- _ /\ _ => split end.

(* ------------------------------------------------------------------ dict objects *)
Lemma tab_out x ob : (length (x_tabs x) <= ob)%nat -> tab x ob = [].
Proof. intros H. unfold tab. now apply nth_overflow. Qed.
Lemma nth_snoc {A} (l : list A) v d i : nth i (l ++ [v]) d = if Nat.eqb i (length l) then v else nth i l d.
Proof.
  destruct (Nat.eqb_spec i (length l)) as [->|N]; [rewrite app_nth2, Nat.sub_diag by lia; reflexivity|].
  destruct (Nat.ltb i (length l)) eqn:L; [apply app_nth1; lia|]. rewrite !nth_overflow; auto; rewrite ?app_length; cbn; lia.
Qed.
Lemma nth_upd l c v i : (c < length l)%nat -> nth i (set_tab c v l) [] = if Nat.eqb i c then v else nth i l [].
Proof.
  unfold set_tab. intros H. revert l i H. induction c as [|c IH]; intros [|a l] i H; cbn [length] in H; try lia.
  - cbn. destruct i; reflexivity.
  - cbn [firstn app skipn]. destruct i as [|i]; [reflexivity|]. cbn [nth Nat.eqb]. apply IH. lia.
Qed.
Lemma upd_length l c v : (c < length l)%nat -> length (set_tab c v l) = length l.
Proof. intros H. unfold set_tab. rewrite !app_length, firstn_length, skipn_length. cbn [length]. lia. Qed.
#[local] Arguments set_tab : simpl never.

Lemma NoDup_app_one {A} (l : list A) v : NoDup l -> ~ In v l -> NoDup (l ++ [v]).
Proof.
  intros H N. induction H as [|a l H1 H2 IH]; cbn; [constructor; [intros []|constructor]|]. constructor.
  - intros X. apply in_app_or in X. destruct X as [X|[X|[]]]; [auto|]. apply N. left. congruence.
  - apply IH. intros X. apply N. now right.
Qed.

Record XInv (x : TS) : Prop := {
  c_cur : (x_cur x < length (x_tabs x))%nat;
  c_in : forall ob k, In k (tab x ob) -> exists b, dget (x_objs x) k = Some b;
  c_lt : forall k b, dget (x_objs x) k = Some b -> (k < x_ctr x)%N;
  c_nd : forall ob, NoDup (tab x ob);
  c_ins : forall j kn id sb bp l acc, x_b x = BIns j kn id sb bp l acc -> (id < x_ctr x)%N /\ dget (x_objs x) id = None }.

Lemma xinv_init maps : XInv (table_init maps).
Proof.
  constructor; cbn; try discriminate; auto.
  - intros [|[|ob]] k H; cbn in H; contradiction.
  - intros [|[|ob]]; constructor.
Qed.

(** What an action may change. *)
Definition grows (x x' : TS) : Prop :=
  (forall ob, (ob < length (x_tabs x))%nat -> exists e, tab x' ob = tab x ob ++ e) /\ (length (x_tabs x) <= length (x_tabs x'))%nat.
Lemma grows_refl x : grows x x.
Proof. split; auto. intros ob _. exists []. now rewrite app_nil_r. Qed.
Lemma grows_eq x x' : x_tabs x' = x_tabs x -> grows x x'.
Proof. intros E. split; [|now rewrite E]. intros ob _. exists []. rewrite app_nil_r. unfold tab. now rewrite E. Qed.
Lemma grows_trans x y z : grows x y -> grows y z -> grows x z.
Proof.
  intros (A & B) (C & D). split; [|lia]. intros ob H. destruct (A ob H) as (e & E). destruct (C ob) as (f & F); [lia|]. exists (e ++ f). rewrite F, E. now rewrite app_assoc.
Qed.

Lemma b_step_inv x x' : XInv x -> b_step x = Some x' ->
  XInv x' /\ grows x x' /\ x_a x' = x_a x /\ (forall k b, dget (x_objs x) k = Some b -> dget (x_objs x') k = Some b) /\ x_src x' = x_src x /\ x_maps x' = x_maps x.
Proof.
  intros I H. destruct I as [C1 C2 C3 C5 C4]. unfold b_step in H. destruct (x_b x) as [|j l|j kn l|j kn l acc|j kn id sb bp l acc|j acc|j] eqn:P; try discriminate.
  - injection H as <-. split; [constructor; cbn; auto; discriminate|]. split; [apply grows_eq; reflexivity|]. auto.
  - injection H as <-. set (keep := filter _ _). split.
    + constructor; cbn; auto; try discriminate.
      * rewrite app_length; cbn; lia.
      * intros ob k X. unfold tab in X. cbn in X. rewrite nth_snoc in X. destruct (Nat.eqb ob (length (x_tabs x))); [|eapply C2; exact X].
        apply filter_In in X. destruct X as (X & _). eapply C2; exact X.
      * intros ob. unfold tab. cbn. rewrite nth_snoc. destruct (Nat.eqb ob (length (x_tabs x))); [apply NoDup_filter|]; apply C5.
    + split; [|auto]. split; [|cbn; rewrite app_length; cbn; lia]. intros ob L. exists []. rewrite app_nil_r. unfold tab. cbn. rewrite nth_snoc. destruct (Nat.eqb_spec ob (length (x_tabs x))); [lia|reflexivity].
  - assert (G : forall x1, x_tabs x1 = x_tabs x -> x_cur x1 = x_cur x -> x_objs x1 = x_objs x -> x_ctr x1 = (x_ctr x + 1)%N ->
       (forall j kn id sb bp l acc, x_b x1 = BIns j kn id sb bp l acc -> id = x_ctr x) -> XInv x1).
    { intros x1 E1 E2 E3 E4 E5. constructor; rewrite ?E2, ?E3, ?E4; unfold tab; rewrite ?E1; auto.
      - intros k b X. apply C3 in X. lia.
      - intros j0 kn0 id sb bp l0 acc0 X. apply E5 in X. subst id. split; [lia|]. destruct (dget (x_objs x) (x_ctr x)) as [b|] eqn:D; [|reflexivity]. apply C3 in D. lia. }
    destruct l as [|sb l]; [injection H as <-; split; [constructor; cbn; auto; discriminate|]; split; [apply grows_eq; reflexivity|auto]|].
    cbv zeta in H. destruct (j_mod j); [|destruct kn; [destruct (calculate _ _ _ _)|]]; injection H as <-;
      (split; [apply G; try reflexivity; cbn; congruence|]; split; [apply grows_eq; reflexivity|auto]).
  - destruct (C4 _ _ _ _ _ _ _ eq_refl) as (L & N). injection H as <-. split; [|split; [|split; [reflexivity|split; [|auto]]]].
    + constructor; cbn; try discriminate; auto.
      * rewrite upd_length; auto.
      * intros ob k X. unfold tab in X. cbn in X. rewrite nth_upd in X by auto. rewrite dget_dset. destruct (eqb_spec id k) as [->|NE]; [eauto|].
        destruct (Nat.eqb_spec ob (x_cur x)) as [->|]; [|eapply C2; exact X]. apply in_app_or in X. destruct X as [X|[X|[]]]; [eapply C2; exact X|congruence].
      * intros k b X. rewrite dget_dset in X. destruct (eqb_spec id k) as [->|NE]; [exact L|eauto].
      * intros ob. unfold tab. cbn. rewrite nth_upd by auto. destruct (Nat.eqb_spec ob (x_cur x)) as [->|]; [|apply C5].
        apply NoDup_app_one; [apply C5|]. intros X. destruct (C2 _ _ X) as (b & B). congruence.
    + split; [|cbn; rewrite upd_length; auto]. intros ob LB. unfold tab. cbn. rewrite nth_upd by auto.
      destruct (Nat.eqb_spec ob (x_cur x)) as [->|]; [exists [id]; reflexivity|exists []; now rewrite app_nil_r].
    + intros k b X. cbn. rewrite dget_dset. destruct (eqb_spec id k) as [->|NE]; congruence.
  - injection H as <-. split; [constructor; cbn; auto; discriminate|]. split; [apply grows_eq; reflexivity|auto].
  - injection H as <-. split; [constructor; cbn; auto; discriminate|]. split; [apply grows_eq; reflexivity|auto].
Qed.

Lemma a_step_tabs x x' es : a_step x = Some (x', es) -> x_tabs x' = x_tabs x /\ x_cur x' = x_cur x /\ x_b x' = x_b x /\ x_ctr x' = x_ctr x /\ x_maps x' = x_maps x /\
  (forall k, dget (x_objs x) k = None <-> dget (x_objs x') k = None) /\ (x_objs x' = x_objs x \/ exists p ob n i, x_a x = ALoop p ob n i).
Proof.
  intros H. unfold a_step in H. destruct (x_a x) as [|p l ob n i|p l ty|p l ty|p l ty|p|p ob n i|] eqn:P; try discriminate;
  repeat match goal with H : (match ?x with _ => _ end) = Some _ |- _ => destruct x eqn:?; try discriminate H end; injection H as <- <-; cbn; csplit; auto; try tauto; eauto 10.
  intros k. rewrite dget_dset. match goal with |- context [eqb ?a k] => destruct (eqb_spec a k) as [<-|NE] end; [|tauto]. split; intros Y; congruence.
Qed.

Lemma step_xinv x l x' es : XInv x -> tstep x l = Some (x', es) -> XInv x'.
Proof.
  intros I H. destruct l as [p n|p n ty| |j l| |]; cbn in H.
  - destruct (x_a x); try discriminate. injection H as <- <-. destruct I. constructor; auto.
  - destruct (x_a x); try discriminate. injection H as <- <-. destruct I. constructor; auto.
  - destruct (a_step_tabs x H) as (E1 & E2 & E3 & E4 & E5 & E6 & _). destruct I as [C1 C2 C3 C5 C4]. constructor; rewrite ?E1, ?E2, ?E3, ?E4; auto.
    + intros ob k X. unfold tab in X. rewrite E1 in X. destruct (C2 ob k X) as (b & B). destruct (dget (x_objs x') k) as [b'|] eqn:D; [eauto|]. apply E6 in D. congruence.
    + intros k b X. destruct (dget (x_objs x) k) as [b'|] eqn:D; [eauto|]. apply E6 in D. congruence.
    + intros ob. unfold tab. rewrite E1. apply C5.
    + intros j kn id sb bp l acc X. destruct (C4 _ _ _ _ _ _ _ X) as (A & B). split; auto. now apply E6.
  - destruct (x_b x); try discriminate. injection H as <- <-. destruct I. constructor; auto. discriminate.
  - destruct (b_step x) as [x1|] eqn:B; [|discriminate]. injection H as <- <-. apply (b_step_inv I B).
  - destruct (x_b x) eqn:P; try discriminate. injection H as <- <-. destruct I as [C1 C2 C3 C5 C4]. constructor; cbn; auto.
    + rewrite app_length; cbn; lia.
    + intros ob k X. unfold tab in X. cbn in X. rewrite nth_snoc in X. destruct (Nat.eqb ob (length (x_tabs x))); [contradiction|eapply C2; exact X].
    + intros ob. unfold tab. cbn. rewrite nth_snoc. destruct (Nat.eqb ob (length (x_tabs x))); [constructor|apply C5].
Qed.
Lemma run_xinv x h x' : XInv x -> trun x h x' -> XInv x'.
Proof. intros I R. induction R as [x|x h x1 l x2 es R IH S]; [exact I|]. eapply step_xinv; [apply IH; exact I|exact S]. Qed.

(* ------------------------------------------------------------------ lookups *)
(** While a lookup is running nothing but the receive thread changes anything. *)
Record looking (x0 : TS) (p : pystr) (line : Z) (x : TS) (i : nat) : Prop := {
  k_a : x_a x = ALook p line (x_cur x0) (length (tab x0 (x_cur x0))) i;
  k_tab : exists e, tab x (x_cur x0) = tab x0 (x_cur x0) ++ e;
  k_len : (x_cur x0 < length (x_tabs x))%nat;
  k_obj : forall k b, dget (x_objs x0) k = Some b -> dget (x_objs x) k = Some b;
  k_no : find (bp_matches p line) (bps_of x0 (firstn i (tab x0 (x_cur x0)))) = None }.

Lemma looking_b x0 p line x i x' : XInv x -> looking x0 p line x i -> b_step x = Some x' -> looking x0 p line x' i.
Proof.
  intros I [A (e & T) L O N] H. destruct (b_step_inv I H) as (_ & (G & GL) & E & K & _ & _). constructor; auto; try congruence.
  - destruct (G _ L) as (e' & G'). exists (e ++ e'). now rewrite G', T, app_assoc.
  - lia.
Qed.
Lemma looking_clear x0 p line x i : looking x0 p line x i -> looking x0 p line (with_maps [] (with_cur (length (x_tabs x)) (with_tabs (x_tabs x ++ [[]]) x))) i.
Proof.
  intros [A (e & T) L O N]. constructor; auto.
  - exists e. unfold tab in *. cbn. rewrite nth_snoc. destruct (Nat.eqb_spec (x_cur x0) (length (x_tabs x))); [lia|exact T].
  - cbn. rewrite app_length; cbn; lia.
Qed.

Lemma firstn_S_nth {A} (l : list A) i v : nth_error l i = Some v -> firstn (S i) l = firstn i l ++ [v].
Proof. revert i. induction l as [|a l IH]; intros [|i] H; cbn in *; try discriminate; [congruence|]. f_equal. now apply IH. Qed.
Lemma nth_split {A} (l : list A) i v : nth_error l i = Some v -> l = firstn i l ++ v :: skipn (S i) l.
Proof. revert i. induction l as [|a l IH]; intros [|i] H; cbn in *; try discriminate; [congruence|]. f_equal. now apply IH. Qed.
Lemma bps_app x a b : bps_of x (a ++ b) = bps_of x a ++ bps_of x b.
Proof. unfold bps_of. now rewrite flat_map_app. Qed.
Lemma find_app {A} (f : A -> bool) a b : find f (a ++ b) = match find f a with Some v => Some v | None => find f b end.
Proof. induction a as [|v a IH]; cbn; auto. destruct (f v); auto. Qed.

(** The strategy thread's own action in a lookup. *)
Lemma looking_a x0 p line x i x' es : XInv x0 -> looking x0 p line x i -> a_step x = Some (x', es) ->
  (es = [] /\ looking x0 p line x' (S i)) \/ (es = [TAnswer (find (bp_matches p line) (current x0))] /\ x_a x' = AIdle) \/
  (es = [TRaised] /\ length (tab x (x_cur x0)) <> length (tab x0 (x_cur x0))).
Proof.
  intros I [A (e & T) L O N] H. unfold a_step, dict_next in H. rewrite A in H. set (ob := x_cur x0) in *.
  destruct (Nat.eqb_spec (length (tab x ob)) (length (tab x0 ob))) as [EL|EL]; [|injection H as <- <-; auto].
  assert (TE : tab x ob = tab x0 ob) by (rewrite T, app_length in EL; destruct e; [now rewrite app_nil_r in T|cbn in EL; lia]).
  rewrite TE in H. destruct (nth_error (tab x0 ob) i) as [k|] eqn:NE.
  - assert (IN : In k (tab x0 ob)) by (eapply nth_error_In; eauto). destruct (c_in I _ _ IN) as (b & B). rewrite (O _ _ B) in H.
    assert (ONE : bps_of x0 [k] = [b]) by (unfold bps_of; cbn; now rewrite B).
    destruct (bp_matches p line b) eqn:M; injection H as <- <-.
    + right; left. split; [|reflexivity]. do 2 f_equal. unfold current. fold ob. rewrite (nth_split _ _ NE).
      change (k :: skipn (S i) (tab x0 ob)) with ([k] ++ skipn (S i) (tab x0 ob)). rewrite !bps_app, !find_app, N, ONE. cbn. now rewrite M.
    + left. split; auto. constructor; auto; [exists e; exact T|]. fold ob. rewrite (firstn_S_nth _ _ NE), bps_app, find_app, N, ONE. cbn. now rewrite M.
  - right; left. injection H as <- <-. split; [|reflexivity]. do 2 f_equal. unfold current. fold ob.
    apply nth_error_None in NE. rewrite firstn_all2 in N by lia. now rewrite N.
Qed.

Definition silent (h : list (tlabel * list tev)) : Prop := forall l es, In (l, es) h -> es = [].

(** The first breakpoint of the list for this file and line. *)
Definition on_line (p : pystr) (line : Z) (b : LineBp) : Prop :=
  lb_actual b = p /\ (forall l, bp_line (lb_bp b) = Some l -> l <= line) /\ (forall e, bp_end (lb_bp b) = Some e -> line <= e).
Definition first_on_line (p : pystr) (line : Z) (l : list LineBp) (r : option LineBp) : Prop :=
  match r with
  | Some b => exists l1 l2, l = l1 ++ b :: l2 /\ on_line p line b /\ forall b', In b' l1 -> ~ on_line p line b'
  | None => forall b, In b l -> ~ on_line p line b
  end.
Lemma matches_on_line p line b : bp_matches p line b = true <-> on_line p line b.
Proof.
  unfold bp_matches, on_line. rewrite !andb_true_iff, eqb_eq. split.
  - intros ((A & B) & C). split; [exact A|]. split; intros x E; rewrite E in *; lia.
  - intros (A & B & C). split; [split; [exact A|]|].
    + destruct (bp_line (lb_bp b)) as [x|]; [specialize (B _ eq_refl); lia|reflexivity].
    + destruct (bp_end (lb_bp b)) as [x|]; [specialize (C _ eq_refl); lia|reflexivity].
Qed.
Lemma find_on_line p line l : first_on_line p line l (find (bp_matches p line) l).
Proof.
  induction l as [|b l IH]; cbn [find]; [intros b []|]. destruct (bp_matches p line b) eqn:M.
  - exists [], l. split; [reflexivity|]. split; [now apply matches_on_line|intros b' []].
  - assert (NM : ~ on_line p line b) by (rewrite <- matches_on_line; congruence). destruct (find (bp_matches p line) l) as [r|]; cbn [first_on_line] in *.
    + destruct IH as (l1 & l2 & -> & A & B). exists (b :: l1), l2. split; [reflexivity|]. split; [exact A|]. intros b' [<-|X]; auto.
    + intros b' [<-|X]; auto.
Qed.
(** A lookup that returns answers for the table as it was when the lookup began, whatever
    the receive thread did in the meantime; otherwise it raises. *)
Theorem C58_answer_is_a_snapshot maps h x p line x1 h' x2 x3 es : trun (table_init maps) h x ->
  tstep x (LLook p line) = Some (x1, []) -> trun x1 h' x2 -> silent h' -> tstep x2 LA = Some (x3, es) ->
  es = [] \/ es = [TRaised] \/ exists r, es = [TAnswer r] /\ first_on_line p line (current x) r.
Proof.
  intros R E R' SI H. pose proof (run_xinv (xinv_init maps) R) as I.
  assert (K : exists i, looking x p line x2 i).
  { clear H x3 es. cbn in E. destruct (x_a x) eqn:P; try discriminate. injection E as E.
    assert (K1 : looking x p line x1 0) by (rewrite <- E; constructor; cbn; auto; [exists []; unfold tab; cbn; now rewrite app_nil_r|apply (c_cur I)]).
    assert (I1 : XInv x1) by (rewrite <- E; destruct I; constructor; auto). clear E.
    induction R' as [x1|x1 h1 x2 l x3 es1 R1 IH S]; [eauto|].
    assert (I2 : XInv x2) by (eapply run_xinv; eauto).
    destruct IH as (i & K); auto; [intros l0 es0 X; eapply SI; apply in_or_app; left; exact X|].
    assert (es1 = []) by (eapply SI; apply in_or_app; right; left; reflexivity). subst es1.
    destruct l as [p0 n0|p0 n0 ty0| |j0 l0| |]; cbn in S.
    - rewrite (k_a K) in S. discriminate.
    - rewrite (k_a K) in S. discriminate.
    - destruct (looking_a I K S) as [(_ & X)|[(X & _)|(X & _)]]; try discriminate. eauto.
    - destruct (x_b x2); try discriminate. injection S as <-. exists i. destruct K; constructor; auto.
    - destruct (b_step x2) as [y|] eqn:B; [|discriminate]. injection S as <-. exists i. eapply looking_b; eauto.
    - destruct (x_b x2); try discriminate. injection S as <-. exists i. now apply looking_clear. }
  destruct K as (i & K). cbn in H. destruct (looking_a I K H) as [(X & _)|[(X & _)|(X & _)]]; auto.
  right; right. eexists. split; [exact X|apply find_on_line].
Qed.
Print Assumptions C58_answer_is_a_snapshot.

(* ------------------------------------------------------------------ no overlap *)
(** An action that is not the insertion of a breakpoint during a lookup or registration,
    with line numbers as lines are numbered. *)
Definition gentle (x : TS) (l : tlabel) : Prop :=
  match l with
  | LReg _ line _ => 0 <= line
  | LSet _ l => Forall (fun sb => 0 <= sb_line sb) l
  | LB => match x_b x with BIns _ _ _ _ _ _ _ => x_a x = AIdle | _ => True end
  | _ => True
  end.
Inductive grun : TS -> TS -> Prop :=
| grun_nil x : grun x x
| grun_step x x1 l x2 es : grun x x1 -> gentle x1 l -> tstep x1 l = Some (x2, es) -> grun x x2.

Definition fl_wf (fl : list (option Z)) : Prop := exists t r, fl = Some t :: r.
Lemma calculate_total fl id src q : fl_wf fl -> 0 <= q -> exists bp, calculate id src q fl = Ok bp.
Proof.
  intros (t & r & ->) Q. unfold calculate. set (fl := Some t :: r). set (len := Z.of_nat (length fl)).
  assert (LP : 1 <= len) by (unfold len, fl; cbn [length]; lia).
  assert (B : forall fuel st, 0 <= st < len -> (Z.to_nat st < fuel)%nat -> exists v, walk_back fuel fl st = Ok v).
  { induction fuel as [|f IH]; intros st H1 H2; [lia|]. cbn [walk_back]. unfold py_index. destruct (st <? 0) eqn:X; [lia|].
    destruct (nth_error fl (Z.to_nat st)) as [[v|]|] eqn:N; [eauto| |apply nth_error_None in N; unfold len in *; lia].
    destruct (Z.eq_dec st 0) as [->|NZ]; [cbn in N; discriminate|]. apply IH; lia. }
  assert (F : forall fuel e, 0 <= e -> (Z.to_nat (len - e) < fuel)%nat -> exists v, walk_fwd fuel fl e = Ok v).
  { induction fuel as [|f IH]; intros e H1 H2; [lia|]. cbn [walk_fwd]. fold len. destruct (e <? len) eqn:X; [|eauto].
    unfold py_index. destruct (e <? 0) eqn:Y; [lia|]. destruct (nth_error fl (Z.to_nat e)) as [[v|]|] eqn:N; [eauto| |apply nth_error_None in N; unfold len in *; lia].
    apply IH; lia. }
  destruct (B (S (Z.to_nat (Z.min q (len - 1) + len + 1))) (Z.min q (len - 1))) as (v & ->); [lia|lia|].
  cbn [bind]. destruct (F (S (Z.to_nat (len - (Z.min q (len - 1) + 1)))) (Z.min q (len - 1) + 1)) as (w & ->); [lia|lia|]. cbn [bind]. eauto.
Qed.

Definition sbs_ok (l : list SourceBreakpoint) : Prop := Forall (fun sb => 0 <= sb_line sb) l.
Record GInv (x : TS) : Prop := {
  g_x : XInv x;
  g_src : forall p fl, dget (x_src x) p = Some fl -> fl_wf fl;
  g_obj : forall k b, dget (x_objs x) k = Some b -> 0 <= sb_line (lb_sb b);
  g_b : match x_b x with BRead _ l | BBind _ _ l | BCalc _ _ l _ => sbs_ok l | BIns _ _ _ sb _ l _ => 0 <= sb_line sb /\ sbs_ok l | _ => True end;
  g_a : match x_a x with
        | ALook _ _ ob n _ => length (tab x ob) = n /\ (ob < length (x_tabs x))%nat
        | AReg1 _ line _ => 0 <= line
        | AReg2 p line _ => 0 <= line /\ dget (x_src x) p <> None
        | AReg3 p line _ => 0 <= line /\ exists fl, dget (x_src x) p = Some fl /\ line < Z.of_nat (length fl)
        | AReg4 p => dget (x_src x) p <> None
        | ALoop p ob n _ => length (tab x ob) = n /\ (ob < length (x_tabs x))%nat /\ dget (x_src x) p <> None
        | AIdle => True
        | AFailed => False
        end }.

Lemma setitem_wf fl line ty fl' : fl_wf fl -> 0 <= line -> py_setitem fl line (Some ty) = Some fl' -> fl_wf fl'.
Proof.
  intros (t & r & ->) L H. unfold py_setitem in H. destruct (line <? 0) eqn:X; [lia|]. destruct (Z.to_nat line) as [|n]; cbn in H.
  - injection H as <-. do 2 eexists; reflexivity.
  - destruct (set_nth r n (Some ty)); [|discriminate]. injection H as <-. do 2 eexists; reflexivity.
Qed.
Lemma setitem_ok {A} (fl : list A) line v : 0 <= line < Z.of_nat (length fl) -> exists fl', py_setitem fl line v = Some fl'.
Proof.
  intros H. unfold py_setitem. destruct (line <? 0) eqn:X; [lia|].
  assert (G : forall (l : list A) i, (i < length l)%nat -> exists l', set_nth l i v = Some l').
  { induction l as [|a l IH]; intros i L; cbn in L; [lia|]. destruct i as [|i]; cbn; [eauto|]. destruct (IH i) as (l' & ->); [lia|]. eauto. }
  apply G. lia.
Qed.

Lemma dset_src_ok (d : dict pystr (list (option Z))) p v : (forall q fl, dget d q = Some fl -> fl_wf fl) -> fl_wf v -> forall q fl, dget (dset d p v) q = Some fl -> fl_wf fl.
Proof. intros A B q fl H. rewrite dget_dset in H. destruct (eqb_spec p q); [injection H as <-; auto|eauto]. Qed.

Lemma a_step_ginv x x' es : GInv x -> a_step x = Some (x', es) -> GInv x' /\ ~ In TRaised es.
Proof.
  intros [X SR OB GB GA] H. assert (X' : XInv x') by (eapply (@step_xinv x LA); eauto).
  unfold a_step in H. destruct (x_a x) as [|p line ob n i|p line ty|p line ty|p line ty|p|p ob n i|] eqn:P; try discriminate.
  - unfold dict_next in H. destruct GA as (E & L). rewrite E, Nat.eqb_refl in H. destruct (nth_error (tab x ob) i) as [k|].
    + destruct (dget (x_objs x) k) as [b|]; [|discriminate]. destruct (bp_matches p line b); injection H as <- <-; (split; [constructor; auto; cbn; auto|intros C; cbn in C; tauto || (destruct C; [discriminate|contradiction])]).
    + injection H as <- <-. split; [constructor; auto; cbn; auto|intros [C|C]; [discriminate|contradiction]].
  - injection H as <- <-. split; [|auto]. constructor; auto; cbn.
    + intros q fl. destruct (dget (x_src x) p); [eauto|]. apply dset_src_ok; auto. do 2 eexists; reflexivity.
    + split; auto. destruct (dget (x_src x) p) eqn:D; [congruence|]. rewrite dget_dset. destruct (eqb_spec p p); congruence.
  - destruct GA as (GL & GS). destruct (dget (x_src x) p) as [fl|] eqn:D; [|congruence]. injection H as <- <-. split; [|auto].
    destruct (SR _ _ D) as (t & r & E). constructor; auto; cbn -[Z.add Z.sub Z.to_nat].
    + apply dset_src_ok; auto. rewrite E. do 2 eexists; reflexivity.
    + split; auto. eexists. rewrite dget_dset. destruct (eqb_spec p p); [|congruence]. split; [reflexivity|]. rewrite app_length, repeat_length. lia.
  - destruct GA as (GL & fl & D & LT). rewrite D in H. destruct (@setitem_ok _ fl line (Some ty)) as (fl' & S); [lia|]. rewrite S in H. injection H as <- <-. split; [|auto].
    constructor; auto; cbn.
    + apply dset_src_ok; auto. eapply setitem_wf; eauto.
    + rewrite dget_dset. destruct (eqb_spec p p); congruence.
  - injection H as <- <-. split; [|auto]. constructor; auto; cbn. csplit; auto. apply (c_cur X).
  - unfold dict_next in H. destruct GA as (E & L & GS). rewrite E, Nat.eqb_refl in H. destruct (nth_error (tab x ob) i) as [k|].
    + destruct (dget (x_objs x) k) as [b|] eqn:D; [|discriminate]. destruct (dget (x_src x) p) as [fl|] eqn:DS; [|discriminate].
      assert (GA' : length (tab x ob) = n /\ (ob < length (x_tabs x))%nat /\ dget (x_src x) p <> None) by (rewrite DS; auto).
      destruct (negb _); [injection H as <- <-; split; [constructor; auto; cbn; auto|auto]|].
      destruct (@calculate_total fl (lb_id b) (lb_source b) (sb_line (lb_sb b))) as (bp & C); [eapply SR; eauto|eapply OB; eauto|]. rewrite C in H.
      destruct (same_loc (lb_bp b) bp); injection H as <- <-; (split; [|auto]; constructor; auto; cbn; auto).
      intros k0 b0. rewrite dget_dset. destruct (eqb_spec k k0); [|eauto]. intros Y. injection Y as <-. cbn. eauto.
    + injection H as <- <-. split; [constructor; auto; cbn; auto|intros [C|C]; [discriminate|contradiction]].
Qed.

Lemma step_ginv x l x' es : GInv x -> gentle x l -> tstep x l = Some (x', es) -> GInv x' /\ ~ In TRaised es.
Proof.
  intros I G H. pose proof (@step_xinv x l x' es (g_x I) H) as X'. destruct l as [p n|p n ty| |j l| |]; cbn in H.
  - destruct I as [X SR OB GB GA]. destruct (x_a x); try discriminate. injection H as <- <-. split; [|auto]. constructor; auto; cbn. split; auto. apply (c_cur X).
  - destruct I as [X SR OB GB GA]. destruct (x_a x); try discriminate. injection H as <- <-. split; [|auto]. constructor; auto.
  - eapply a_step_ginv; eauto.
  - destruct I as [X SR OB GB GA]. destruct (x_b x); try discriminate. injection H as <- <-. split; [|auto]. constructor; auto.
  - destruct (b_step x) as [y|] eqn:B; [|discriminate]. injection H as <- <-. split; [|auto].
    destruct (b_step_inv (g_x I) B) as (_ & (GR & GL) & EA & EO & ES & EM). destruct I as [X SR OB GB GA].
    assert (TB : match x_b x with BIns _ _ _ _ _ _ _ => True | _ => forall ob, (ob < length (x_tabs x))%nat -> tab y ob = tab x ob end /\
      (forall k b, dget (x_objs y) k = Some b -> 0 <= sb_line (lb_sb b)) /\
      match x_b y with BRead _ l | BBind _ _ l | BCalc _ _ l _ => sbs_ok l | BIns _ _ _ sb _ l _ => 0 <= sb_line sb /\ sbs_ok l | _ => True end).
    { clear GA GR GL G X'. unfold b_step in B. destruct (x_b x) as [|j l|j kn l|j kn l acc|j kn id sb bp l acc|j acc|j]; try discriminate.
      - injection B as <-. cbn. auto.
      - injection B as <-. cbn. split; [|auto]. intros ob L. unfold tab. cbn. rewrite nth_snoc. destruct (Nat.eqb_spec ob (length (x_tabs x))); [lia|reflexivity].
      - destruct l as [|sb l]; [injection B as <-; cbn; auto|]. apply Forall_inv in GB as G1. apply Forall_inv_tail in GB as G2. cbv zeta in B.
        destruct (j_mod j); [|destruct kn; [destruct (calculate _ _ _ _)|]]; injection B as <-; cbn; auto.
      - injection B as <-. cbn. destruct GB as (G1 & G2). csplit; auto. intros k b. rewrite dget_dset. destruct (eqb_spec id k); [|eauto]. intros Y. injection Y as <-. exact G1.
      - injection B as <-. cbn. auto.
      - injection B as <-. cbn. auto. }
    destruct TB as (T1 & T2 & T3). constructor; auto; rewrite ?ES; auto. rewrite EA. assert (D : x_a x = AIdle \/ forall ob, (ob < length (x_tabs x))%nat -> tab y ob = tab x ob) by (unfold gentle in G; destruct (x_b x); auto).
    destruct D as [D|D]; [now rewrite D|]. destruct (x_a x); auto.
    + destruct GA as (E & L). rewrite D by auto. split; auto; lia.
    + destruct GA as (E & L & S). rewrite D by auto. csplit; auto; lia.
  - destruct I as [X SR OB GB GA]. destruct (x_b x) eqn:PB; try discriminate. injection H as <- <-. split; [|auto].
    assert (TB : forall ob, (ob < length (x_tabs x))%nat -> nth ob (x_tabs x ++ [[]]) [] = tab x ob) by (intros ob L; rewrite nth_snoc; destruct (Nat.eqb_spec ob (length (x_tabs x))); [lia|reflexivity]).
    constructor; auto; cbn.
    + now rewrite PB.
    + destruct (x_a x); try exact GA.
      * destruct GA as (E & L). unfold tab. cbn. rewrite TB, app_length by auto. cbn. split; auto; lia.
      * destruct GA as (E & L & S). unfold tab. cbn. rewrite TB, app_length by auto. cbn. csplit; auto; lia.
Qed.
Lemma run_ginv maps x : grun (table_init maps) x -> GInv x.
Proof.
  intros R. remember (table_init maps) as x0. induction R as [x0|x0 x1 l1 x2 es1 R IH G1 S]; subst.
  - constructor; cbn; auto; try discriminate. apply xinv_init.
  - apply (@step_ginv x1 l1 x2 es1); auto.
Qed.
(** Nothing is raised in the strategy thread as long as no breakpoint is inserted while a
    lookup or registration is running; replacing the table meanwhile does no harm. *)
Theorem C58_no_insertion_meanwhile_partial maps x l x' es : grun (table_init maps) x -> gentle x l -> tstep x l = Some (x', es) -> ~ In TRaised es.
Proof.
  intros R G H. apply (@step_ginv x l x' es); auto. eapply run_ginv; eauto.
Qed.
Print Assumptions C58_no_insertion_meanwhile_partial.

(* ------------------------------------------------------------------ the race *)
Fixpoint tgo (x : TS) (h : list (tlabel * list tev)) (ls : list tlabel) : option (TS * list (tlabel * list tev)) :=
  match ls with
  | [] => Some (x, h)
  | l :: ls => match tstep x l with Some (x', es) => tgo x' (h ++ [(l, es)]) ls | None => None end
  end.
Lemma tgo_run ls : forall x0 x h x' h', trun x0 h x -> tgo x h ls = Some (x', h') -> trun x0 h' x'.
Proof.
  induction ls as [|l ls IH]; intros x0 x h x' h' R E; cbn in E; [injection E as <- <-; exact R|].
  destruct (tstep x l) as [(x1, es)|] eqn:S; [|discriminate]. eapply IH; [|exact E]. econstructor; eauto.
Qed.
Definition demo_job := mkJob 7 (mkSource (Some (s "/p.yml")) 0) false.
Definition two_bps := [mkSB 3 None 0; mkSB 5 None 0].
Definition first_in := [LSet demo_job two_bps; LB; LB; LB; LB; LB].

(** A lookup that overlaps with a setBreakpoints request can raise, which ends the
    playbook. *)
Theorem C58_lookup_refuted : exists h x, trun (table_init []) h x /\ In (LLook (s "/q.yml") 1, []) h /\ In (LA, [TRaised]) h /\ x_a x = AFailed.
Proof.
  destruct (tgo (table_init []) [] (first_in ++ [LLook (s "/q.yml") 1; LB; LA])) as [(x, h)|] eqn:E; [|vm_compute in E; discriminate].
  exists h, x. pose proof (tgo_run _ (trun_nil _) E) as R. vm_compute in E. injection E as <- <-.
  csplit; [exact R|do 6 right; left; reflexivity|do 8 right; left; reflexivity|reflexivity].
Qed.
Print Assumptions C58_lookup_refuted.
(** So can a registration. *)
Theorem C58_register_refuted : exists h x, trun (table_init []) h x /\ In (LReg (s "/q.yml") 1 1, []) h /\ In (LA, [TRaised]) h /\ x_a x = AFailed.
Proof.
  destruct (tgo (table_init []) [] (first_in ++ [LReg (s "/q.yml") 1 1; LA; LA; LA; LA; LB; LA])) as [(x, h)|] eqn:E; [|vm_compute in E; discriminate].
  exists h, x. pose proof (tgo_run _ (trun_nil _) E) as R. vm_compute in E. injection E as <- <-.
  csplit; [exact R|do 6 right; left; reflexivity|do 12 right; left; reflexivity|reflexivity].
Qed.
Print Assumptions C58_register_refuted.

(** A run that meets the hypotheses: a lookup during which the table is replaced (the
    client takes its breakpoints back); it answers with the breakpoint that was there
    when it began. *)
Example C58_replaced_meanwhile : exists h x x1 h' x2 x3 b,
  trun (table_init []) h x /\ tstep x (LLook (s "/p.yml") 9) = Some (x1, []) /\ trun x1 h' x2 /\ silent h' /\
  tstep x2 LA = Some (x3, [TAnswer (Some b)]) /\ lb_id b = 1%N /\ current x2 = [].
Proof.
  destruct (tgo (table_init []) [] [LSet demo_job [mkSB 3 None 0]; LB; LB; LB; LB; LB; LB]) as [(x, h)|] eqn:E; [|vm_compute in E; discriminate].
  pose proof (tgo_run _ (trun_nil _) E) as R. vm_compute in E. injection E as E1 E2.
  destruct (tstep x (LLook (s "/p.yml") 9)) as [(x1, es)|] eqn:L; [|rewrite <- E1 in L; vm_compute in L; discriminate].
  destruct (tgo x1 [] [LSet demo_job []; LB; LB; LB]) as [(x2, h')|] eqn:E'; [|rewrite <- E1 in L; vm_compute in L; injection L as <- <-; vm_compute in E'; discriminate].
  pose proof (tgo_run _ (trun_nil x1) E') as R'.
  destruct (tstep x2 LA) as [(x3, es2)|] eqn:A; [|rewrite <- E1 in L; vm_compute in L; injection L as <- <-; vm_compute in E'; injection E' as <- <-; vm_compute in A; discriminate].
  assert (es = []) as -> by (rewrite <- E1 in L; vm_compute in L; congruence).
  exists h, x, x1, h', x2, x3. eexists. split; [exact R|]. split; [exact L|]. split; [exact R'|].
  rewrite <- E1 in L; vm_compute in L; injection L as <-; vm_compute in E'; injection E' as <- <-; vm_compute in A; injection A as <- <-.
  csplit; try reflexivity. intros l es0 X. repeat (destruct X as [X|X]; [injection X as _ <-; reflexivity|]). contradiction.
Qed.
