(** The parser of CliModel against CliSpec. *)
From Verif Require Import PyBase PyDict ExecModel CliModel CliSpec.
Local Open Scope N_scope.
Definition opts_of (a : action) : opts := match a with Connect => connect_opts | Dap => dap_opts | Listen => listen_opts end.

Lemma names_iff a n : In n (map fst (opts_of a)) <-> In n (names a).
Proof. destruct a; vm_compute; tauto. Qed.
Lemma mem_names a n : mem n (map fst (opts_of a)) = true <-> In n (names a).
Proof. rewrite mem_In. apply names_iff. Qed.
Lemma opts_nodup a : NoDup (map fst (opts_of a)).
Proof.
  assert (G : forall l : list pystr, (fix f l := match l with [] => true | x :: r => negb (mem x r) && f r end) l = true -> NoDup l).
  { induction l as [|x l IH]; intros H; [constructor|]. apply andb_true_iff in H as [H1 H2]. constructor; [|auto].
    intros I. apply mem_In in I. now rewrite I in H1. }
  apply G. destruct a; vm_compute; reflexivity.
Qed.
(** every option is -h or begins with --, and has no = *)
Lemma names_form a n : In n (names a) -> no_eq n /\ (n = s "-h" \/ (prefix_of (s "--") n /\ n <> s "--")).
Proof.
  intros I. assert (G : forallb (fun n => negb (mem 61 n) && (eqb n (s "-h") || (startswith n (s "--") && negb (eqb n (s "--"))))) (names a) = true) by (destruct a; vm_compute; reflexivity).
  rewrite forallb_forall in G. specialize (G n I). apply andb_true_iff in G as [G1 G2]. apply negb_true_iff in G1. split.
  - intros H. apply mem_In in H. rewrite H in G1. discriminate.
  - apply orb_true_iff in G2 as [G2|G2]; [left; now apply eqb_eq|right]. apply andb_true_iff in G2 as [G2 G3]. split; [now apply startswith_spec|].
    intros ->. apply negb_true_iff in G3. now rewrite eqb_refl in G3.
Qed.
Lemma kind_iff a n : (kind_of (opts_of a) n = KStore <-> In n (valued a)) /\ (kind_of (opts_of a) n = KFlag <-> In n (switches a)).
Proof.
  unfold kind_of. destruct (dget (opts_of a) n) as [k|] eqn:E.
  - apply dget_In in E. destruct a; vm_compute in E; repeat (destruct E as [E|E]; [injection E as <- <-; split; (split; [intros H; try discriminate H; vm_compute; tauto|intros H; vm_compute in H; try reflexivity; exfalso; intuition discriminate])|]); destruct E.
  - assert (N : ~ In n (names a)). { rewrite <- names_iff. intros I. apply in_map_iff in I as ((x, k) & <- & I). apply (In_dget _ _ _ (opts_nodup a)) in I. cbn in E. congruence. }
    unfold names in N. rewrite !in_app_iff in N. split; (split; [discriminate|tauto]).
Qed.

Lemma partition_spec t : forall p e, partition_eq t = (p, e) <-> no_eq p /\ match e with Some v => t = p ++ 61 :: v | None => t = p end.
Proof.
  induction t as [|c t IH]; intros p e; cbn [partition_eq].
  - split; [intros H; injection H as <- <-; split; [intros []|reflexivity]|]. intros [_ H]. destruct e; [destruct p; discriminate|now subst].
  - destruct (N.eqb_spec c 61) as [->|Hc].
    + split; [intros H; injection H as <- <-; split; [intros []|reflexivity]|]. intros [N H]. destruct e as [v|].
      * destruct p as [|x p]; [now injection H as <-|]. injection H as <- H. exfalso. apply N. now left.
      * subst p. exfalso. apply N. now left.
    + destruct (partition_eq t) as (p', e') eqn:E. split.
      * intros H. injection H as <- <-. destruct (proj1 (IH p' e') eq_refl) as [N H]. split.
        { intros [I|I]; [congruence|now apply N]. }
        destruct e'; cbn; congruence.
      * intros [N H]. assert (G : exists q, p = c :: q /\ (p', e') = (q, e)).
        { destruct p as [|x q]; [destruct e; [injection H as -> _; now elim Hc|discriminate]|].
          exists q. assert (x = c) by (destruct e; now injection H). subst x. split; [reflexivity|]. apply IH. split; [intros I; apply N; now right|]. destruct e; now injection H. }
        destruct G as (q & -> & G). now injection G as -> ->.
Qed.

Section P.
Variable neg : pystr -> bool.
Notation classify := (classify neg).
Notation positional := (positional neg).

Definition fallback (t : pystr) : cls := if neg t then CArg else if mem 32 t then CArg else CUnknown.
(** arguments that begin with -- *)
Lemma classify_dd a t p e : prefix_of (s "--") t -> partition_eq t = (p, e) ->
  classify (opts_of a) t = if mem p (map fst (opts_of a)) then COpt p e else
    match filter (fun n => startswith n p) (map fst (opts_of a)) with [] => fallback t | [n] => COpt n e | _ => CAmbiguous end.
Proof.
  intros (u & ->) HP. change (s "--" ++ u) with (45 :: 45 :: u) in *. unfold CliModel.classify.
  change (negb (45 =? 45)) with false. change (eqb (45 :: u) []) with false. cbv iota.
  unfold readings. rewrite HP. change (45 =? 45) with true. cbv iota. set (t := 45 :: 45 :: u) in *.
  destruct (proj1 (partition_spec t p e) HP) as [N H]. destruct e as [v|].
  - assert (M : mem t (map fst (opts_of a)) = false).
    { destruct (mem t _) eqn:M; [|reflexivity]. apply mem_names, names_form in M as [M _]. exfalso. apply M. rewrite H. apply in_or_app. right. now left. }
    rewrite M. destruct (mem p (map fst (opts_of a))); [reflexivity|].
    destruct (filter _ _) as [|n [|n' l]]; reflexivity.
  - rewrite H. destruct (mem p (map fst (opts_of a))); [reflexivity|].
    destruct (filter _ _) as [|n [|n' l]]; cbn [map fst snd]; rewrite <- ?H; reflexivity.
Qed.
(** arguments that begin with one - *)
Lemma classify_sd a c u : c <> 45 ->
  (prefix_of (s "-h") (45 :: c :: u) -> exists e, classify (opts_of a) (45 :: c :: u) = COpt (s "-h") e) /\
  (~ prefix_of (s "-h") (45 :: c :: u) -> classify (opts_of a) (45 :: c :: u) = fallback (45 :: c :: u)).
Proof.
  intros Hc. set (t := 45 :: c :: u).
  assert (SW : forall n, In n (map fst (opts_of a)) -> startswith n t = true -> n = t /\ n = s "-h").
  { intros n I H. apply startswith_spec in H as (r & E). apply names_iff, names_form in I as [_ [->|[(r' & E') _]]].
    - change (45 :: 104 :: [] = 45 :: c :: u ++ r) in E. injection E as <- E. destruct u; [now split|discriminate].
    - rewrite E' in E. change (45 :: 45 :: r' = 45 :: c :: u ++ r) in E. injection E as E _. congruence. }
  unfold CliModel.classify, t. change (negb (45 =? 45)) with false. change (eqb (c :: u) []) with false. cbv iota. fold t. split.
  - intros (r & E). injection E as -> ->.
    destruct (mem t (map fst (opts_of a))) eqn:M.
    { apply mem_In in M. destruct (SW t M) as [_ E]. { apply startswith_spec. exists []. now rewrite app_nil_r. } rewrite <- E. eauto. }
    destruct r as [|x r]; [exfalso; assert (I : In t (names a)) by (destruct a; vm_compute; tauto); apply mem_names in I; congruence|].
    assert (R : readings (opts_of a) t = [(s "-h", Some (x :: r))]) by (destruct a; vm_compute; reflexivity).
    destruct (partition_eq t) as (p, [v|]) eqn:HP; [destruct (mem p (map fst (opts_of a))) eqn:MP|]; [|rewrite R; cbn; eauto|rewrite R; cbn; eauto].
    apply partition_spec in HP as [N H]. apply mem_names, names_form in MP as [_ [->|[(q & ->) _]]]; [eauto|]. injection H as H _. discriminate.
  - intros NH.
    assert (NI : ~ In t (names a)). { intros I. apply names_form in I as [_ [E|[(r & E) _]]]; [apply NH; exists []; now rewrite app_nil_r|injection E as E _; congruence]. }
    assert (M : mem t (map fst (opts_of a)) = false) by (destruct (mem t _) eqn:M; [apply mem_names in M; contradiction|reflexivity]). rewrite M.
    assert (R : readings (opts_of a) t = []).
    { unfold readings, t. apply N.eqb_neq in Hc. rewrite Hc.
      assert (G : forall l, (forall n, In n l -> In n (map fst (opts_of a))) -> flat_map (fun n => if eqb n [45; c] then [(n, Some u)] else if startswith n (45 :: c :: u) then [(n, None)] else []) l = []).
      { induction l as [|n l IH]; intros L; [reflexivity|]. cbn [flat_map]. rewrite IH by (intros; apply L; now right). rewrite app_nil_r.
        destruct (eqb n [45; c]) eqn:E1.
        - apply eqb_eq in E1. subst n. exfalso. specialize (L _ (or_introl eq_refl)). apply names_iff, names_form in L as [_ [E|[(r & E) _]]].
          + injection E as ->. apply NH. now exists u.
          + injection E as E _. subst c. discriminate.
        - destruct (startswith n (45 :: c :: u)) eqn:E2; [|reflexivity]. exfalso. destruct (SW n (L _ (or_introl eq_refl)) E2) as [-> E]. apply NH. exists []. now rewrite app_nil_r. }
      now rewrite G. }
    destruct (partition_eq t) as (p, [v|]) eqn:HP; [destruct (mem p (map fst (opts_of a))) eqn:MP|]; rewrite ?R; try reflexivity.
    apply partition_spec in HP as [N H]. apply mem_names, names_form in MP as [_ [->|[(q & ->) _]]].
    + exfalso. apply NH. now exists (61 :: v).
    + injection H as H _. congruence.
Qed.

Lemma fallback_arg t : fallback t = CArg <-> (neg t = true \/ In 32 t).
Proof.
  unfold fallback. destruct (neg t); [tauto|]. destruct (mem 32 t) eqn:M; split; auto; [intros _; right; now apply mem_In|discriminate|].
  intros [H|H]; [discriminate|]. apply mem_In in H. congruence.
Qed.
Lemma fallback_other t : match fallback t with CArg | CUnknown => True | _ => False end.
Proof. unfold fallback. destruct (neg t); [exact I|]. now destruct (mem 32 t). Qed.

Lemma filter_nil {A} (f : A -> bool) l : filter f l = [] <-> forall x, In x l -> f x = false.
Proof.
  induction l as [|y l IH]; cbn [filter]; [split; [intros _ x []|reflexivity]|]. destruct (f y) eqn:E; split.
  - discriminate.
  - intros H. specialize (H y (or_introl eq_refl)). congruence.
  - intros H x [->|I]; [exact E|]. now apply IH.
  - intros H. apply IH. intros x I. apply H. now right.
Qed.

Lemma positional_iff a t : positional a t <-> t <> s "--" /\ classify (opts_of a) t = CArg.
Proof.
  destruct t as [|c t]; [split; [intros _; split; [discriminate|reflexivity]|intros _; left; discriminate]|].
  destruct (N.eqb_spec c 45) as [->|Hc].
  2:{ split; [|intros _; left; cbn; congruence]. intros _. split; [intros E; injection E as E _; congruence|].
      unfold CliModel.classify. apply N.eqb_neq in Hc. now rewrite Hc. }
  destruct t as [|c u]; [split; [intros _; split; [discriminate|]|intros _; right; left; reflexivity]; destruct a; vm_compute; reflexivity|].
  destruct (N.eqb_spec c 45) as [->|Hc].
  - set (t := 45 :: 45 :: u). destruct (partition_eq t) as (p, e) eqn:HP. pose proof (classify_dd a t p e (ex_intro _ u eq_refl) HP) as C.
    destruct (proj1 (partition_spec _ _ _) HP) as [NE HT].
    assert (PP : prefix_of (s "--") p).
    { destruct e as [v|]; [|subst p; now exists u]. destruct p as [|x [|y q]]; try discriminate HT. injection HT as <- <- _. now exists q. }
    split.
    + intros [H|[H|(H1 & H2 & H3)]]; [now elim H|discriminate|].
      assert (HN : forall o, In o (names a) -> ~ prefix_of p o).
      { apply H1; auto. destruct e; eauto. }
      assert (TD : t <> s "--").
      { intros E. apply (H1 t (ex_intro _ u eq_refl)) with (o := s "--help"); [rewrite E; vm_compute; intuition discriminate|now left|destruct a; vm_compute; tauto|]. rewrite E. now exists (s "help"). }
      split; [exact TD|]. rewrite C. 
      assert (M : mem p (map fst (opts_of a)) = false). { destruct (mem p _) eqn:M; [|reflexivity]. apply mem_names in M. exfalso. apply (HN p M). exists []. now rewrite app_nil_r. }
      rewrite M. replace (filter _ _) with (@nil pystr); [now apply fallback_arg|]. symmetry. apply filter_nil. intros n I.
      destruct (startswith n p) eqn:S; [|reflexivity]. apply startswith_spec in S. apply names_iff in I. now elim (HN n I).
    + intros [TD HC]. right. right. rewrite C in HC. destruct (mem p (map fst (opts_of a))) eqn:M; [discriminate|].
      destruct (filter (fun n => startswith n p) (map fst (opts_of a))) as [|n [|n' l]] eqn:F; [|discriminate|discriminate]. split; [|split].
      * intros w PW NW HW o IO PO. assert (w = p).
        { destruct HW as [->|(v & E)].
          - assert (X : partition_eq w = (w, None)) by (apply partition_spec; auto). rewrite HP in X. now injection X as ->.
          - assert (X : partition_eq t = (w, Some v)) by (apply partition_spec; auto). rewrite HP in X. now injection X as ->. }
        subst w. pose proof (proj1 (filter_nil _ _) F o (proj2 (names_iff a o) IO)) as S. apply startswith_spec in PO. congruence.
      * intros (r & E). injection E as E _. discriminate.
      * now apply fallback_arg.
  - destruct (classify_sd a c u Hc) as [A B]. split.
    + intros [H|[H|(H1 & H2 & H3)]]; [now elim H|discriminate|]. split; [intros E; injection E as E _; congruence|]. rewrite (B H2). now apply fallback_arg.
    + intros [_ HC]. right. right. destruct (startswith (45 :: c :: u) (s "-h")) eqn:S.
      * apply startswith_spec in S. destruct (A S) as (e & E). congruence.
      * assert (NH : ~ prefix_of (s "-h") (45 :: c :: u)) by (intros P; apply startswith_spec in P; congruence). split; [|split; [exact NH|]].
        { intros w (r & ->) _ [E|(v & E)]; injection E as E _; congruence. }
        rewrite (B NH) in HC. now apply fallback_arg.
Qed.

(** an argument read as an option *)
Definition written (t w : pystr) (e : option pystr) : Prop := match e with Some v => t = w ++ 61 :: v | None => t = w end.
Lemma denotes_classify a t w o e : denotes a w o -> written t w e -> o <> s "-h" -> classify (opts_of a) t = COpt o e.
Proof.
  intros (IO & NW & D) HW NH.
  assert (PW : prefix_of (s "--") w). { destruct D as [->|D]; [|tauto]. destruct (names_form a o IO) as [_ [E|[P _]]]; [congruence|exact P]. }
  assert (HP : partition_eq t = (w, e)) by (apply partition_spec; split; auto).
  assert (PT : prefix_of (s "--") t). { destruct PW as (r & ->). destruct e; cbn in HW; subst t; [rewrite <- app_assoc|]; eexists; reflexivity. }
  rewrite (classify_dd a t w e PT HP). destruct D as [->|(_ & NI & PO & U)].
  - apply mem_names in IO. now rewrite IO.
  - assert (M : mem w (map fst (opts_of a)) = false) by (destruct (mem w _) eqn:M; [apply mem_names in M; contradiction|reflexivity]). rewrite M.
    assert (F : forall x, In x (filter (fun n => startswith n w) (map fst (opts_of a))) -> x = o).
    { intros x I. apply filter_In in I as [I S]. apply startswith_spec in S. apply U; [now apply names_iff|exact S]. }
    assert (I : In o (filter (fun n => startswith n w) (map fst (opts_of a)))). { apply filter_In. split; [now apply names_iff|]. now apply startswith_spec. }
    pose proof (NoDup_filter (fun n => startswith n w) (opts_nodup a)) as ND.
    destruct (filter _ _) as [|x [|y l]]; [destruct I|now rewrite (F x (or_introl eq_refl))|].
    exfalso. apply NoDup_cons_iff in ND as [ND _]. apply ND. left. rewrite (F x (or_introl eq_refl)). apply F. right. now left.
Qed.
Lemma classify_opt a t o e : classify (opts_of a) t = COpt o e -> o = s "-h" \/ exists w, denotes a w o /\ written t w e.
Proof.
  intros C. destruct t as [|c t]; [discriminate|]. destruct (N.eqb_spec c 45) as [->|Hc].
  2:{ unfold CliModel.classify in C. apply N.eqb_neq in Hc. rewrite Hc in C. discriminate. }
  destruct t as [|c u]; [destruct a; vm_compute in C; discriminate|]. destruct (N.eqb_spec c 45) as [->|Hc].
  - right. set (t := 45 :: 45 :: u) in *. destruct (partition_eq t) as (p, e') eqn:HP. rewrite (classify_dd a t p e' (ex_intro _ u eq_refl) HP) in C.
    destruct (proj1 (partition_spec _ _ _) HP) as [NE HT]. destruct (mem p (map fst (opts_of a))) eqn:M.
    + injection C as <- <-. apply mem_names in M. exists p. split; [split; [exact M|split; [exact NE|now left]]|exact HT].
    + destruct (filter (fun n => startswith n p) (map fst (opts_of a))) as [|n [|n' l]] eqn:F; [|injection C as <- <-|discriminate].
      { pose proof (fallback_other t) as X. rewrite C in X. destruct X. }
      assert (I : In n [n]) by now left. rewrite <- F in I. apply filter_In in I as [I S]. apply startswith_spec in S.
      exists p. split; [|exact HT]. split; [now apply names_iff|]. split; [exact NE|]. right. split; [|split; [|split; [exact S|]]].
      * destruct e' as [v|]; [|subst p; now exists u]. destruct p as [|x [|y q]]; try discriminate HT. injection HT as <- <- _. now exists q.
      * intros X. apply mem_names in X. congruence.
      * intros o' I' P'. assert (X : In o' [n]). { rewrite <- F. apply filter_In. split; [now apply names_iff|]. now apply startswith_spec. } destruct X as [<-|[]]. reflexivity.
  - left. destruct (classify_sd a c u Hc) as [A B]. destruct (startswith (45 :: c :: u) (s "-h")) eqn:S.
    + apply startswith_spec in S. destruct (A S) as (e' & E). rewrite E in C. now injection C.
    + rewrite B in C; [pose proof (fallback_other (45 :: c :: u)) as X; rewrite C in X; destruct X|]. intros X. apply startswith_spec in X. congruence.
Qed.
Lemma ambiguous_iff a t : ambiguous neg (opts_of a) t = true <-> clash a t.
Proof.
  unfold ambiguous. split.
  - intros H. destruct (classify (opts_of a) t) eqn:C; try discriminate. clear H. destruct t as [|c t]; [discriminate|]. destruct (N.eqb_spec c 45) as [->|Hc].
    2:{ unfold CliModel.classify in C. apply N.eqb_neq in Hc. rewrite Hc in C. discriminate. }
    destruct t as [|c u]; [destruct a; vm_compute in C; discriminate|]. destruct (N.eqb_spec c 45) as [->|Hc].
    + set (t := 45 :: 45 :: u) in *. destruct (partition_eq t) as (p, e') eqn:HP. rewrite (classify_dd a t p e' (ex_intro _ u eq_refl) HP) in C.
      destruct (proj1 (partition_spec _ _ _) HP) as [NE HT]. destruct (mem p (map fst (opts_of a))) eqn:M; [discriminate|].
      destruct (filter (fun n => startswith n p) (map fst (opts_of a))) as [|n [|n' l]] eqn:F; [|discriminate|].
      { pose proof (fallback_other t) as X. rewrite C in X. destruct X. }
      exists p. split; [destruct e'; eauto|]. split; [exact NE|]. split.
      { destruct e' as [v|]; [|subst p; now exists u]. destruct p as [|x [|y q]]; try discriminate HT. injection HT as <- <- _. now exists q. }
      split; [intros X; apply mem_names in X; congruence|].
      assert (G : forall x, In x (n :: n' :: l) -> In x (names a) /\ prefix_of p x).
      { intros x I. rewrite <- F in I. apply filter_In in I as [I S]. apply startswith_spec in S. split; [now apply names_iff|exact S]. }
      exists n, n'. destruct (G n (or_introl eq_refl)). destruct (G n' (or_intror (or_introl eq_refl))).
      pose proof (NoDup_filter (fun n => startswith n p) (opts_nodup a)) as ND. rewrite F in ND. apply NoDup_cons_iff in ND as [ND _].
      repeat split; auto. intros ->. apply ND. now left.
    + destruct (classify_sd a c u Hc) as [A B]. exfalso. destruct (startswith (45 :: c :: u) (s "-h")) eqn:S.
      * apply startswith_spec in S. destruct (A S) as (e' & E). congruence.
      * rewrite B in C; [pose proof (fallback_other (45 :: c :: u)) as X; rewrite C in X; destruct X|]. intros X. apply startswith_spec in X. congruence.
  - intros (w & HW & NW & PW & NI & o1 & o2 & I1 & I2 & NE & P1 & P2).
    assert (HP : exists e, partition_eq t = (w, e)). { destruct HW as [E|(v & E)]; [exists None|exists (Some v)]; apply partition_spec; auto. }
    destruct HP as (e & HP).
    assert (PT : prefix_of (s "--") t). { destruct PW as (r & ->). destruct HW as [->|(v & ->)]; [|rewrite <- app_assoc]; eexists; reflexivity. }
    rewrite (classify_dd a t w e PT HP).
    assert (M : mem w (map fst (opts_of a)) = false) by (destruct (mem w _) eqn:M; [apply mem_names in M; contradiction|reflexivity]). rewrite M.
    assert (G : forall o, In o (names a) -> prefix_of w o -> In o (filter (fun n => startswith n w) (map fst (opts_of a)))).
    { intros o I P. apply filter_In. split; [now apply names_iff|]. now apply startswith_spec. }
    pose proof (G o1 I1 P1) as G1. pose proof (G o2 I2 P2) as G2. destruct (filter _ _) as [|x [|y l]]; [destruct G1| |reflexivity].
    destruct G1 as [<-|[]], G2 as [<-|[]]. congruence.
Qed.

(** * walk *)
Definition pair_of (x : setting) : pystr * option pystr := match x with Sep o _ v | Eq o _ v => (o, Some v) | Switch o _ => (o, None) end.
Lemma denotes_dd a w o : denotes a w o -> w <> s "--".
Proof.
  intros (I & N & [->|(_ & _ & _ & U)]) E.
  - apply names_form in I as [_ [->|[_ NE]]]; [discriminate|contradiction].
  - assert (A : s "--help" = o) by (apply U; [destruct a; vm_compute; tauto|rewrite E; now exists (s "help")]).
    assert (B : s "--log-file" = o) by (apply U; [destruct a; vm_compute; tauto|rewrite E; now exists (s "log-file")]).
    rewrite <- A in B. discriminate.
Qed.
Lemma written_dd a w o e t : denotes a w o -> written t w e -> t <> s "--".
Proof.
  intros D W. destruct e as [v|]; cbn in W; [|subst; eauto using denotes_dd]. intros E. rewrite E in W.
  assert (X : In 61 (s "--")) by (rewrite W; apply in_or_app; right; now left). vm_compute in X. intuition discriminate.
Qed.
Lemma opt_not_h a o : In o (valued a) \/ In o (switches a) -> o <> s "-h".
Proof. intros H ->. destruct a; vm_compute in H; intuition discriminate. Qed.

Lemma eqb_dd t : eqb t (s "--") = false <-> t <> s "--".
Proof. apply eqb_neq. Qed.
Lemma walk_back a l : forall fuel rest, (length (flat_map text_of l ++ rest) < fuel)%nat -> Forall (setting_ok neg a) l -> rest_ok neg a rest ->
  walk neg (opts_of a) fuel (flat_map text_of l ++ rest) = Some (map pair_of l, rest).
Proof.
  induction l as [|x l IH]; intros fuel rest HF HS HR.
  - cbn [flat_map app map]. destruct fuel as [|fuel]; [inversion HF|]. cbn [walk]. destruct rest as [|t r]; [reflexivity|].
    cbn [rest_ok] in HR. destruct HR as [->|HR]; [now rewrite eqb_refl|]. apply positional_iff in HR as [HD HC]. apply eqb_dd in HD. now rewrite HD, HC.
  - apply Forall_cons_iff in HS as [HX HS]. destruct fuel as [|fuel]; [inversion HF|]. cbn [flat_map map pair_of]. rewrite <- app_assoc in *. destruct x as [o w v|o w v|o w]; cbn [text_of app] in *; cbn [walk].
    + destruct HX as (HV & HD & HP). assert (C := denotes_classify a w w o None HD eq_refl (opt_not_h a o (or_introl HV))).
      rewrite (proj2 (eqb_dd w) (denotes_dd a w o HD)), C, (proj2 (proj1 (kind_iff a o)) HV).
      apply positional_iff in HP as [HN HC]. apply eqb_dd in HN. rewrite HN, HC. rewrite IH; auto. cbn [length flat_map text_of app] in HF. lia.
    + destruct HX as (HV & HD). assert (W : written (w ++ 61 :: v) w (Some v)) by reflexivity. assert (C := denotes_classify a _ w o _ HD W (opt_not_h a o (or_introl HV))).
      rewrite (proj2 (eqb_dd _) (written_dd a w o _ _ HD W)), C, (proj2 (proj1 (kind_iff a o)) HV). rewrite IH; auto. cbn [length flat_map text_of app] in HF. lia.
    + destruct HX as (HV & HD). assert (C := denotes_classify a w w o None HD eq_refl (opt_not_h a o (or_intror HV))).
      rewrite (proj2 (eqb_dd w) (denotes_dd a w o HD)), C, (proj2 (proj2 (kind_iff a o)) HV). rewrite IH; auto. cbn [length flat_map text_of app] in HF. lia.
Qed.
Lemma add_some {A B} (a : A) (r : option (list A * B)) x y : add a r = Some (x, y) -> exists l, r = Some (l, y) /\ x = a :: l.
Proof. destruct r as [(l, z)|]; [|discriminate]. intros H. injection H as <- <-. eauto. Qed.
Lemma walk_fwd a fuel : forall ts ps rest, walk neg (opts_of a) fuel ts = Some (ps, rest) ->
  exists l, ts = flat_map text_of l ++ rest /\ Forall (setting_ok neg a) l /\ rest_ok neg a rest /\ ps = map pair_of l.
Proof.
  induction fuel as [|fuel IH]; intros ts ps rest H; [discriminate|]. cbn [walk] in H. destruct ts as [|t r].
  { injection H as <- <-. exists []. repeat split; constructor. }
  destruct (eqb t (s "--")) eqn:HD.
  { injection H as <- <-. apply eqb_eq in HD. exists []. repeat split; [constructor|]. now left. }
  apply eqb_neq in HD. destruct (classify (opts_of a) t) as [|o e| |] eqn:C; try discriminate.
  { injection H as <- <-. exists []. repeat split; [constructor|]. right. now apply positional_iff. }
  assert (DW : kind_of (opts_of a) o <> KHelp -> exists w, denotes a w o /\ written t w e).
  { intros K. destruct (classify_opt a t o e C) as [->|X]; [|exact X]. exfalso. apply K. destruct a; reflexivity. }
  destruct (kind_of (opts_of a) o) eqn:K; [discriminate| |].
  - apply (proj2 (kind_iff a o)) in K. destruct e; [discriminate|]. apply add_some in H as (ps' & H & ->). apply IH in H as (l & -> & HS & HR & ->).
    destruct DW as (w & D & W); [discriminate|]. cbn in W. subst t. exists (Switch o w :: l). repeat split; auto. constructor; [split; auto|auto].
  - apply (proj1 (kind_iff a o)) in K. destruct DW as (w & D & W); [discriminate|]. destruct e as [v|].
    + apply add_some in H as (ps' & H & ->). apply IH in H as (l & -> & HS & HR & ->). cbn in W. subst t. exists (Eq o w v :: l). repeat split; auto. constructor; [split; auto|auto].
    + cbn in W. subst t. destruct r as [|v r]; [discriminate|]. destruct (eqb v (s "--")) eqn:HV; [discriminate|]. apply eqb_neq in HV.
      destruct (classify (opts_of a) v) eqn:CV; try discriminate. apply add_some in H as (ps' & H & ->). apply IH in H as (l & -> & HS & HR & ->).
      exists (Sep o w v :: l). repeat split; auto. constructor; [repeat split; auto|auto]; try apply D. now apply positional_iff.
Qed.
End P.
