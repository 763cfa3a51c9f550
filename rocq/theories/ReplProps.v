(** C53: the debug console commands. *)
From Verif Require Import PyBase PyDict DbgTypes AdapterModel ThreadModel StratModel ReplModel.
Set Implicit Arguments.
Local Open Scope N_scope.
Ltac csplit := repeat match goal with |- _ /\ _ => split end.

(** * Vocabulary *)
(** Blanks between words; a plain character means itself. *)
Definition blanks (w : pystr) : Prop := Forall (fun c => In c [32; 9; 13; 10]) w.
Definition plain (x : pystr) : Prop := Forall (fun c => ~ In c [32; 9; 13; 10; 34; 39; 92]) x.
(** Text whose quoting is complete. *)
Inductive dq : pystr -> Prop :=
| dq_nil : dq [] | dq_char c r : c <> 34 -> c <> 92 -> dq r -> dq (c :: r) | dq_esc c r : dq r -> dq (92 :: c :: r).
Inductive quoting : pystr -> Prop :=
| q_nil : quoting []
| q_char c r : ~ In c [34; 39; 92] -> quoting r -> quoting (c :: r)
| q_esc c r : quoting r -> quoting (92 :: c :: r)
| q_single x r : ~ In 39 x -> quoting r -> quoting (39 :: x ++ 39 :: r)
| q_double x r : dq x -> quoting r -> quoting (34 :: x ++ 34 :: r).
(** A word that asks for help: -h..., or a beginning of --help, alone or with =value. *)
Definition help_word (t : pystr) : Prop :=
  (exists r, t = s "-h" ++ r) \/ (exists p q, s "help" = p ++ q /\ ((p <> [] /\ t = s "--" ++ p) \/ exists r, t = s "--" ++ p ++ s "=" ++ r)).
(** Some word in front of any "--" asks for help. *)
Definition asks_help (ws : list pystr) : Prop := exists a h b, ws = a ++ h :: b /\ ~ In (s "--") a /\ help_word h.
(** The Unicode white space, and text without the white space in front of it. *)
Definition white : list N :=
  [9; 10; 11; 12; 13; 28; 29; 30; 31; 32; 133; 160; 5760; 8192; 8193; 8194; 8195; 8196; 8197; 8198; 8199; 8200; 8201; 8202; 8232; 8233; 8239; 8287; 12288].
Definition stripped (text e : pystr) : Prop :=
  exists w, text = w ++ e /\ (forall c, In c w -> In c white) /\ match e with [] => True | c :: _ => ~ In c white end.
(** How a name is written: plainly, or in quotes. *)
Inductive spells : pystr -> pystr -> Prop :=
| sp_plain c r : plain (c :: r) -> c <> 45 -> ~ In c white -> spells (c :: r) (c :: r)
| sp_quoted q c r : q = 34 \/ q = 39 -> ~ In q (c :: r) -> ~ In 92 (c :: r) -> c <> 45 -> spells (q :: (c :: r) ++ [q]) (c :: r).

Lemma white_iff c : py_space c = true <-> In c white.
Proof.
  split.
  - unfold py_space. rewrite !orb_true_iff, !andb_true_iff, !N.eqb_eq, !N.leb_le. intros H.
    assert (X : c <= 13 /\ 9 <= c \/ 28 <= c <= 32 \/ 8192 <= c <= 8202 \/ c = 133 \/ c = 160 \/ c = 5760 \/ c = 8232 \/ c = 8233 \/ c = 8239 \/ c = 8287 \/ c = 12288) by tauto.
    clear H. unfold white. cbn [In].
    destruct X as [X|[X|[X|X]]]; [| | |intuition congruence].
    + assert (Y : c = 9 \/ c = 10 \/ c = 11 \/ c = 12 \/ c = 13) by lia. intuition congruence.
    + assert (Y : c = 28 \/ c = 29 \/ c = 30 \/ c = 31 \/ c = 32) by lia. intuition congruence.
    + assert (Y : c = 8192 \/ c = 8193 \/ c = 8194 \/ c = 8195 \/ c = 8196 \/ c = 8197 \/ c = 8198 \/ c = 8199 \/ c = 8200 \/ c = 8201 \/ c = 8202) by lia. intuition congruence.
  - intros H. unfold white in H. repeat (destruct H as [<-|H]; [reflexivity|]). destruct H.
Qed.
Lemma white_no c : ~ In c white -> py_space c = false.
Proof. rewrite <- white_iff. now destruct (py_space c). Qed.
Lemma stripped_lstrip text e : stripped text e -> lstrip text = e.
Proof.
  intros (w & -> & W & E). induction w as [|c w IH]; cbn [app lstrip].
  - destruct e as [|c e]; [reflexivity|]. cbn [lstrip]. now rewrite white_no.
  - replace (py_space c) with true by (symmetry; apply white_iff, W; now left). apply IH. intros x X. apply W. now right.
Qed.
Lemma lstrip_stripped text : stripped text (lstrip text).
Proof.
  induction text as [|c r (w & E & W & X)]; cbn [lstrip]; [exists []; cbn; tauto|]. destruct (py_space c) eqn:P.
  - exists (c :: w). split; [cbn; now rewrite <- E|]. split; [|exact X]. intros x [<-|H]; [now apply white_iff|auto].
  - exists []. split; [reflexivity|]. split; [contradiction|]. rewrite <- white_iff. congruence.
Qed.
Lemma sp_true c : In c [32; 9; 13; 10] -> sh_space c = true.
Proof. intros [<-|[<-|[<-|[<-|[]]]]]; reflexivity. Qed.
Lemma sp_iff c : sh_space c = true <-> In c [32; 9; 13; 10].
Proof.
  split; [|apply sp_true]. unfold sh_space. intros H. repeat (apply orb_prop in H as [H|H]); apply N.eqb_eq in H; subst; cbn; tauto.
Qed.
Lemma py_sp c : sh_space c = true -> py_space c = true.
Proof. intros H. apply sp_iff in H as [<-|[<-|[<-|[<-|[]]]]]; reflexivity. Qed.
Lemma sp_false c : ~ In c [32; 9; 13; 10] -> sh_space c = false.
Proof. intros H. destruct (sh_space c) eqn:E; [|reflexivity]. exfalso. now apply H, sp_iff. Qed.
Lemma lstrip_blanks w r : blanks w -> lstrip (w ++ r) = lstrip r.
Proof. induction 1 as [|c w H _ IH]; [reflexivity|]. cbn [lstrip app]. now rewrite (py_sp _ (sp_true H)). Qed.
Lemma shlex_blanks w r : blanks w -> shlex (w ++ r) LSpace false [] = shlex r LSpace false [].
Proof. induction 1 as [|c w H _ IH]; [reflexivity|]. cbn [shlex app]. rewrite (sp_true H). cbn. exact IH. Qed.
Lemma plain_c c : ~ In c [32; 9; 13; 10; 34; 39; 92] -> sh_space c = false /\ (c =? 39) || (c =? 34) = false /\ (c =? 92) = false.
Proof.
  intros H. csplit; [apply sp_false; cbn in *; tauto|apply orb_false_intro; apply N.eqb_neq; intros ->; apply H; cbn; tauto|apply N.eqb_neq; intros ->; apply H; cbn; tauto].
Qed.
Lemma shlex_plain x : plain x -> forall r q tok, shlex (x ++ r) LWord q tok = shlex r LWord q (tok ++ x).
Proof.
  induction 1 as [|c x H _ IH]; intros r q tok; [now rewrite app_nil_r|]. destruct (plain_c H) as (A & B & C). cbn [shlex app]. rewrite A, B, C, IH, <- app_assoc. reflexivity.
Qed.
Definition gap (g r : pystr) : Prop := blanks g /\ (g = [] -> r = []).
(** A plain word at the start. *)
Lemma shlex_word x g r : plain x -> x <> [] -> gap g r -> shlex_split (x ++ g ++ r) = bind (shlex_split r) (fun t => Ok (x :: t)).
Proof.
  intros P NE (B & G). destruct x as [|c x]; [congruence|]. inversion P as [|? ? H P']; subst. destruct (plain_c H) as (A & A1 & A2).
  unfold shlex_split at 1. cbn [shlex app]. rewrite A, A1, A2, (shlex_plain P'). cbn [app]. destruct g as [|g1 g].
  - rewrite (G eq_refl). reflexivity.
  - inversion B as [|? ? Bg B']; subst. cbn [shlex app]. rewrite (sp_true Bg). cbn [eqb andb orb negb]. rewrite (shlex_blanks r B'). reflexivity.
Qed.
(** Quoting is complete iff the text can be split. *)
Lemma dq_app x r : dq x -> forall q tok, exists tok', shlex (x ++ r) (LQuote 34) q tok = shlex r (LQuote 34) (match x with [] => q | _ => true end) tok' .
Proof.
  induction 1 as [|c x H1 H2 D IH|c x D IH]; intros q tok; [eexists; reflexivity| |].
  - cbn [shlex app]. apply N.eqb_neq in H1, H2. rewrite H1, H2. cbn [andb]. destruct (IH true (tok ++ [c])) as (t' & ->). exists t'. destruct x; reflexivity.
  - cbn [shlex app]. change (92 =? 34) with false. change (92 =? 92) with true. change (34 =? 34) with true. cbn [andb].
    edestruct IH as (t' & ->). exists t'. destruct x; reflexivity.
Qed.
Lemma sq_app x r : ~ In 39 x -> forall q tok, exists tok', shlex (x ++ r) (LQuote 39) q tok = shlex r (LQuote 39) (match x with [] => q | _ => true end) tok'.
Proof.
  induction x as [|c x IH]; intros H q tok; [eexists; reflexivity|]. cbn [shlex app].
  assert (c =? 39 = false) as -> by (apply N.eqb_neq; intros ->; apply H; now left). rewrite andb_comm. cbn [N.eqb Pos.eqb andb].
  destruct (IH (fun I => H (or_intror I)) true (tok ++ [c])) as (t' & ->). exists t'. destruct x; reflexivity.
Qed.
Lemma quoting_ok l : quoting l -> forall st q tok, st = LSpace \/ st = LWord -> is_ok (shlex l st q tok) = true.
Proof.
  induction 1 as [|c r H Q IH|c r Q IH|x r H Q IH|x r D Q IH]; intros st q tok ST.
  - cbn [shlex]. destruct ST as [-> | ->]; destruct (negb q && eqb tok []); reflexivity.
  - cbn [shlex]. assert (SP : is_ok (if negb (eqb tok []) || q then bind (shlex r LSpace false []) (fun x => Ok (tok :: x)) else shlex r LSpace q tok) = true).
    { destruct (negb (eqb tok []) || q); [|apply IH; auto]. specialize (IH LSpace false [] (or_introl eq_refl)). destruct (shlex r LSpace false []); [reflexivity|discriminate]. }
    assert (N1 : c =? 39 = false) by (apply N.eqb_neq; intros ->; apply H; cbn; tauto). assert (N2 : c =? 34 = false) by (apply N.eqb_neq; intros ->; apply H; cbn; tauto). assert (N3 : c =? 92 = false) by (apply N.eqb_neq; intros ->; apply H; cbn; tauto).
    rewrite N1, N2, N3. cbn [orb]. destruct ST as [-> | ->]; (destruct (sh_space c); [exact SP|apply IH; auto]).
  - destruct ST as [-> | ->]; cbn [shlex]; change (sh_space 92) with false; change ((92 =? 39) || (92 =? 34)) with false; change (92 =? 92) with true; cbv iota; apply IH; auto.
  - assert (G : forall q tok, is_ok (shlex (x ++ 39 :: r) (LQuote 39) q tok) = true).
    { intros q' tok'. destruct (@sq_app x (39 :: r) H q' tok') as (t' & ->). cbn [shlex]. change (39 =? 39) with true. cbv iota. apply IH. auto. }
    destruct ST as [-> | ->]; cbn [shlex]; change (sh_space 39) with false; change ((39 =? 39) || (39 =? 34)) with true; change (39 =? 92) with false; cbv iota; apply G.
  - assert (G : forall q tok, is_ok (shlex (x ++ 34 :: r) (LQuote 34) q tok) = true).
    { intros q' tok'. destruct (@dq_app x (34 :: r) D q' tok') as (t' & ->). cbn [shlex]. change (34 =? 34) with true. cbv iota. apply IH. auto. }
    destruct ST as [-> | ->]; cbn [shlex]; change (sh_space 34) with false; change ((34 =? 39) || (34 =? 34)) with true; change (34 =? 92) with false; cbv iota; apply G.
Qed.
Definition closes (st : lst) (l : pystr) : Prop :=
  match st with
  | LSpace | LWord => quoting l
  | LQuote q => exists x r, l = x ++ q :: r /\ quoting r /\ (q = 39 -> ~ In 39 x) /\ (q = 34 -> dq x)
  | LEsc None => exists c r, l = c :: r /\ quoting r
  | LEsc (Some q) => exists c l', l = c :: l' /\ exists x r, l' = x ++ q :: r /\ quoting r /\ (q = 39 -> ~ In 39 x) /\ (q = 34 -> dq x)
  end.
Definition q_wf (st : lst) : Prop := match st with LQuote q => q = 39 \/ q = 34 | LEsc (Some q) => q = 34 | _ => True end.
Lemma ok_quoting l : forall st q tok, q_wf st -> is_ok (shlex l st q tok) = true -> closes st l.
Proof.
  induction l as [|c r IH]; intros st q tok WF E.
  { destruct st as [| |qc|[b|]]; cbn in E; try discriminate; constructor. }
  assert (PL : forall st', st' = LSpace \/ st' = LWord -> is_ok (shlex (c :: r) st' q tok) = true -> quoting (c :: r)).
  { intros st' ST E'. destruct (N.eqb_spec c 92) as [-> |N92].
    - assert (X : is_ok (shlex r (LEsc None) q tok) = true) by (destruct ST as [-> | ->]; exact E'). apply IH in X; [|exact I]. destruct X as (c' & r' & -> & Q). now constructor.
    - destruct (N.eqb_spec c 39) as [-> |N39].
      { assert (X : is_ok (shlex r (LQuote 39) q tok) = true) by (destruct ST as [-> | ->]; exact E'). apply IH in X; [|now left]. destruct X as (x & r' & -> & Q & H & _). apply q_single; auto. }
      destruct (N.eqb_spec c 34) as [-> |N34].
      { assert (X : is_ok (shlex r (LQuote 34) q tok) = true) by (destruct ST as [-> | ->]; exact E'). apply IH in X; [|now right]. destruct X as (x & r' & -> & Q & _ & H). apply q_double; auto. }
      constructor; [intros [A|[A|[A|[]]]]; congruence|]. apply N.eqb_neq in N92, N39, N34.
      assert (X : exists st q tok, (st = LSpace \/ st = LWord) /\ is_ok (shlex r st q tok) = true).
      { destruct ST as [-> | ->]; cbn [shlex] in E'; rewrite N92, N39, N34 in E'; cbn [orb] in E'; (destruct (sh_space c); [destruct (negb (eqb tok []) || q)|]);
          [exists LSpace, false, (@nil N); split; [now left|]; destruct (shlex r LSpace false []); [reflexivity|discriminate]|eexists _, _, _; split; [|exact E']; auto|eexists _, _, _; split; [|exact E']; auto
          |exists LSpace, false, (@nil N); split; [now left|]; destruct (shlex r LSpace false []); [reflexivity|discriminate]|eexists _, _, _; split; [|exact E']; auto|eexists _, _, _; split; [|exact E']; auto]. }
      destruct X as (st1 & q1 & tok1 & S1 & X). apply IH in X; [|destruct S1 as [-> | ->]; exact I]. destruct S1 as [-> | ->]; exact X. }
  destruct st as [| |qc|[b|]].
  - apply (PL LSpace); auto.
  - apply (PL LWord); auto.
  - cbn [shlex] in E. cbn [q_wf] in WF. destruct (N.eqb_spec c qc) as [-> |NE].
    + apply IH in E; [|exact I]. exists [], r. cbn. csplit; auto. intros _. constructor.
    + destruct ((c =? 92) && (qc =? 34)) eqn:ES.
      * apply andb_prop in ES as (E1 & E2). apply N.eqb_eq in E1, E2. subst. apply IH in E; [|reflexivity]. destruct E as (c & l' & -> & x & r' & -> & Q & H1 & H2).
        exists (92 :: c :: x), r'. csplit; auto; [intros A; discriminate A|]. intros _. apply dq_esc. auto.
      * apply IH in E; [|exact WF]. destruct E as (x & r' & -> & Q & H1 & H2). exists (c :: x), r'. csplit; auto; [intros -> [A|A]; [congruence|now apply H1]|]. intros ->. constructor; auto. intros ->. discriminate ES.
  - cbn [shlex] in E. cbn [q_wf] in WF. apply IH in E; [|now right]. destruct E as (x & r' & -> & Q & H1 & H2). exists c, (x ++ b :: r'). split; [reflexivity|]. exists x, r'. auto.
  - cbn [shlex] in E. apply IH in E; [|exact I]. exists c, r. auto.
Qed.
Lemma quoting_iff l : is_ok (shlex_split l) = true <-> quoting l.
Proof. split; [intros E; exact (@ok_quoting l LSpace false [] I E)|intros Q; now apply (@quoting_ok l Q LSpace); left]. Qed.
Lemma shlex_err l : forall st q tok e, shlex l st q tok = Err e -> e = ValueError.
Proof.
  induction l as [|c r IH]; intros st q tok e E.
  - cbn [shlex] in E. destruct st as [| |qc|[b|]]; try (destruct (negb q && eqb tok []); discriminate); congruence.
  - assert (SP : forall e, (if negb (eqb tok []) || q then bind (shlex r LSpace false []) (fun x => Ok (tok :: x)) else shlex r LSpace q tok) = Err e -> e = ValueError).
    { intros e'. destruct (negb (eqb tok []) || q); [|eauto]. destruct (shlex r LSpace false []) eqn:S; [discriminate|]. cbn. intros X. injection X as <-. eauto. }
    destruct st as [| |qc|[b|]]; cbn [shlex] in E; repeat match type of E with (if ?b then _ else _) = _ => destruct b; eauto end; eauto.
Qed.
(** Characters of the words come from the text. *)
Lemma shlex_chars l : forall st q tok toks, shlex l st q tok = Ok toks -> forall t, In t toks -> forall c, In c t -> In c tok \/ In c l \/ c = 92.
Proof.
  induction l as [|c r IH]; intros st q tok toks E t I x X.
  - cbn [shlex] in E. destruct st as [| |qc|b]; try discriminate; (destruct (negb q && eqb tok []); injection E as <-; [destruct I|destruct I as [<-|[]]; auto]).
  - assert (W : forall st' q' tok' toks, shlex r st' q' tok' = Ok toks -> (forall y, In y tok' -> In y tok \/ y = c \/ y = 92) -> In t toks -> In x tok \/ In x (c :: r) \/ x = 92).
    { intros st' q' tok' toks' E' SUB I'. destruct (IH _ _ _ _ E' t I' x X) as [A|[A|A]]; [apply SUB in A as [A|[A|A]]; subst; cbn; tauto|cbn; tauto|tauto]. }
    assert (SP : forall toks, (if negb (eqb tok []) || q then bind (shlex r LSpace false []) (fun x => Ok (tok :: x)) else shlex r LSpace q tok) = Ok toks -> In t toks -> In x tok \/ In x (c :: r) \/ x = 92).
    { intros toks'. destruct (negb (eqb tok []) || q); [|intros; eapply W; eauto; tauto]. destruct (shlex r LSpace false []) eqn:S; [|discriminate]. cbn [bind]. intros A. injection A as <-. intros [<-|A]; [tauto|]. eapply W; eauto. intros y []. }
    assert (AP : forall y l, In y (tok ++ l) -> (forall z, In z l -> z = c \/ z = 92) -> In y tok \/ y = c \/ y = 92) by (intros y l A B; apply in_app_or in A as [A|A]; auto).
    destruct st as [| |qc|[b|]]; cbn [shlex] in E; repeat match type of E with (if ?b then _ else _) = _ => destruct b; eauto end; try (eapply W; [exact E| |exact I]; intros y Y; auto;
      try (destruct Y as [Y|[]]; auto; fail); try (eapply AP; [exact Y|]; intros z Z; destruct Z as [Z|[]]; auto; fail)); eapply AP; [exact Y|]; intros z Z; apply in_app_or in Z as [Z|Z]; [destruct (negb (c =? 92) && negb (c =? b)); [destruct Z as [Z|[]]; auto|destruct Z]|destruct Z as [Z|[]]; auto].
Qed.

Section C.
Variable neg_number : pystr -> bool.
Variable drops_dd : bool.
Variable message : list pystr -> pystr.
Notation parse := (parse_repl_args neg_number drops_dd message).
Notation sub_args := (sub_args neg_number).
Notation classify := (classify neg_number).

Lemma before_eq_spec r : before_eq r = r \/ exists x, r = before_eq r ++ s "=" ++ x.
Proof.
  induction r as [|c r IH]; [now left|]. cbn. destruct (N.eqb_spec c 61) as [-> |NE]; [right; now exists r|]. destruct IH as [-> |(x & E)]; [now left|right]. exists x. cbn. now f_equal.
Qed.
Lemma help_iff t : t <> s "--" -> is_help t = true -> help_word t.
Proof.
  intros NE H. unfold is_help in H. destruct t as [|a [|b t]]; try discriminate. apply andb_prop in H as (A & H). apply N.eqb_eq in A. subst a. destruct (N.eqb_spec b 45) as [-> |N2].
  - right. apply startswith_spec in H as (q & E). exists (before_eq t), q. split; [exact E|]. destruct (before_eq_spec t) as [B|(x & B)]; [left|right].
    + rewrite B. split; [intros ->; apply NE; reflexivity|reflexivity].
    + exists x. rewrite <- B. reflexivity.
  - apply N.eqb_eq in H. subst b. left. now exists t.
Qed.
Lemma classify_help t : t <> s "--" -> classify t = KHelp -> help_word t.
Proof.
  intros NE. unfold ReplModel.classify. destruct t as [|c r]; [discriminate|]. destruct (negb (c =? 45)); [discriminate|]. destruct (eqb r []); [discriminate|]. destruct (is_help (c :: r)) eqn:H; [intros _; now apply help_iff|].
  destruct (neg_number (c :: r)); [discriminate|]. destruct (has_space (c :: r)); discriminate.
Qed.
Lemma help_classify t : help_word t -> classify t = KHelp.
Proof.
  intros H. assert (is_help t = true /\ exists a b r, t = a :: b :: r /\ a = 45) as (I & a & b & r & -> & ->).
  { destruct H as [(r & ->)|(p & q & E & [(NE & ->)|(r & ->)])].
    - split; [reflexivity|]. now exists 45, 104, r.
    - split; [|now exists 45, 45, p]. cbn. apply startswith_spec. exists q. rewrite E. f_equal. clear NE. assert (N : ~ In 61 p) by (intros X; assert (Y : In 61 (s "help")) by (rewrite E; apply in_or_app; now left); vm_compute in Y; repeat (destruct Y as [Y|Y]; [discriminate Y|]); destruct Y).
      clear E. induction p as [|c p IH]; [reflexivity|]. cbn. destruct (N.eqb_spec c 61) as [->|]; [exfalso; apply N; now left|]. f_equal. apply IH. intros X. apply N. now right.
    - split; [|now exists 45, 45, (p ++ s "=" ++ r)]. cbn. apply startswith_spec. exists q. rewrite E. f_equal. assert (N : ~ In 61 p) by (intros X; assert (Y : In 61 (s "help")) by (rewrite E; apply in_or_app; now left); vm_compute in Y; repeat (destruct Y as [Y|Y]; [discriminate Y|]); destruct Y).
      clear E. induction p as [|c p IH]; [reflexivity|]. cbn [app before_eq]. destruct (N.eqb_spec c 61) as [->|]; [exfalso; apply N; now left|]. f_equal. apply IH. intros X. apply N. now right. }
  unfold ReplModel.classify. cbn [negb N.eqb Pos.eqb]. now rewrite I.
Qed.
Lemma help_exact toks : sub_args toks = None <-> asks_help toks.
Proof.
  induction toks as [|t toks IH]; cbn [ReplModel.sub_args].
  - split; [discriminate|]. intros (a & h & b & E & _). destruct a; discriminate.
  - destruct (eqb_spec t (s "--")) as [-> |NE].
    + split; [discriminate|]. intros (a & h & b & E & N & H). destruct a as [|x a].
      * cbn in E. injection E as <- _. exfalso. destruct H as [(r & E)|(p & q & _ & [(P & E)|(r & E)])]; [discriminate E|destruct p; [congruence|discriminate E]|destruct p; discriminate E].
      * cbn in E. injection E as <- _. exfalso. apply N. now left.
    + assert (CONS : asks_help (t :: toks) <-> help_word t \/ asks_help toks).
      { split.
        - intros (a & h & b & E & N & H). destruct a as [|x a]; cbn in E; injection E as <- E; [now left|]. right. exists a, h, b. split; auto. split; auto. intros X. apply N. now right.
        - intros [H|(a & h & b & -> & N & H)]; [exists [], t, toks; split; auto|]. exists (t :: a), h, b. split; auto. split; auto. intros [X|X]; auto. }
      destruct (classify t) eqn:C.
      * rewrite CONS, <- IH. destruct (sub_args toks) as [nm|]; split; intros X; try discriminate; auto. destruct X as [X|X]; [apply help_classify in X; congruence|discriminate].
      * split; auto. intros _. apply CONS. left. now apply classify_help.
      * rewrite CONS, <- IH. split; auto. intros [X|X]; auto. apply help_classify in X. congruence.
Qed.
Lemma no_help toks : ~ asks_help toks -> exists nm, sub_args toks = Some nm.
Proof. intros H. destruct (sub_args toks) as [nm|] eqn:E; eauto. apply help_exact in E. contradiction. Qed.
Lemma classify_arg c r : c <> 45 -> classify (c :: r) = KArg.
Proof. intros H. cbn. apply N.eqb_neq in H. now rewrite H. Qed.
Lemma find_first w x r : blanks w -> plain x -> x <> [] -> find_sub x (w ++ x ++ r) = Some (w, r).
Proof.
  intros B P NE. induction B as [|c w H _ IH].
  - cbn [app]. destruct x as [|c x]; [congruence|]. cbn [find_sub app]. assert (startswith (c :: x ++ r) (c :: x) = true) as -> by (apply startswith_spec; now exists r).
    now rewrite (skipn_app (length (c :: x)) (c :: x) r : skipn (length (c :: x)) (c :: x ++ r) = _), skipn_all, Nat.sub_diag.
  - cbn [find_sub app]. destruct (startswith (c :: w ++ x ++ r) x) eqn:S; [|now rewrite IH]. apply startswith_spec in S as (y & E). destruct x as [|d x]; [congruence|]. injection E as -> _. inversion P as [|? ? D _]; subst. exfalso. apply D. cbn in *. tauto.
Qed.
(** The result after the command word. *)
Definition after_cmd (k : rcmd) (cmd r : pystr) : res ReplCmd :=
  bind (shlex_split r) (fun toks =>
  match sub_args toks with
  | None => Ok (RcText (message (cmd :: toks)))
  | Some nm =>
    match k, nm with
    | CTemplate, _ => Ok (RcTemplate (lstrip r))
    | _, None => Ok (RcText (message (cmd :: toks)))
    | CRemove, Some n => Ok (RcRemove n)
    | _, Some n =>
      bind (after_index (lstrip r) n) (fun r =>
      let r := match r with c :: r' => if (c =? 34) || (c =? 39) then r' else r | [] => r end in
      Ok (match k with CSetOption => RcSetOption n (lstrip r) | _ => RcSetHostvar n (lstrip r) end))
    end
  end).
Lemma parse_form w cmd k g r : blanks w -> dget commands cmd = Some k -> gap g r -> parse (w ++ cmd ++ g ++ r) = after_cmd k cmd r.
Proof.
  intros B D G. assert (CM : In cmd (map fst commands)). { now apply dget_Some_key in D. }
  assert (P : plain cmd /\ cmd <> [] /\ forall toks, find_command neg_number drops_dd (cmd :: toks) = Some (cmd, toks)).
  { vm_compute in CM. repeat (destruct CM as [<-|CM]; [csplit; [repeat (constructor; [cbn; intros Q; repeat (destruct Q as [Q|Q]; [discriminate|]); exact Q|]); constructor|discriminate|intros; reflexivity]|]). destruct CM. }
  destruct P as (P & NE & FC). unfold parse_repl_args, after_cmd. unfold shlex_split at 1. rewrite (shlex_blanks _ B). fold (shlex_split (cmd ++ g ++ r)). rewrite (shlex_word P NE G).
  destruct (shlex_split r) as [toks|e]; [|reflexivity]. cbn [bind]. rewrite FC, D.
  assert (AI : after_index (w ++ cmd ++ g ++ r) cmd = Ok (g ++ r)) by (unfold after_index; now rewrite (find_first _ B P NE)). destruct G as (G & _).
  destruct (sub_args toks) as [nm|]; [|reflexivity]. destruct k; try (destruct nm as [n|]; [|reflexivity]); try reflexivity; rewrite AI; cbn [bind]; rewrite (lstrip_blanks r G); reflexivity.
Qed.

(** C53, template: the expression is the text after the command, verbatim apart from
    leading blanks, whenever its quoting is complete and it has no word asking for help. *)
Lemma template_ok w cmd g text : blanks w -> In cmd [s "template"; s "t"] -> gap g text -> quoting text ->
  (forall words, shlex_split text = Ok words -> ~ asks_help words) ->
  parse (w ++ cmd ++ g ++ text) = Ok (RcTemplate (lstrip text)).
Proof.
  intros B C G Q H. assert (D : dget commands cmd = Some CTemplate) by (destruct C as [<-|[<-|[]]]; vm_compute; reflexivity).
  rewrite (@parse_form w cmd _ g text B D G). unfold after_cmd. apply quoting_iff in Q. destruct (shlex_split text) as [toks|]; [|discriminate]. cbn [bind]. destruct (no_help (H _ eq_refl)) as (nm & ->). reflexivity.
Qed.
(** In particular for every text without quotes, backslashes and hyphens. *)
Lemma template_simple_ok w cmd g text : blanks w -> In cmd [s "template"; s "t"] -> gap g text -> Forall (fun c => ~ In c [34; 39; 92; 45]) text ->
  parse (w ++ cmd ++ g ++ text) = Ok (RcTemplate (lstrip text)).
Proof.
  intros B C G F. apply template_ok; auto.
  - induction F as [|c r H _ IH]; constructor; [cbn in *; tauto|]. apply IH. destruct G as (G & G'). split; [exact G|]. intros E. apply G' in E. discriminate.
  - intros words E (a & t & b & EW & _ & HW). assert (I : In t words) by (rewrite EW; apply in_or_app; right; now left). assert (J : In 45 t).
    { destruct HW as [(r & ->)|(p & q & _ & [(_ & ->)|(r & ->)])]; now left. }
    destruct (shlex_chars _ _ _ _ E t I 45 J) as [[]|[J'|J']]; [|discriminate]. rewrite Forall_forall in F. apply (F _ J'). cbn. tauto.
Qed.
(** A name is one word. *)
Lemma shlex_name raw n g text : spells raw n -> gap g text -> shlex_split (raw ++ g ++ text) = bind (shlex_split text) (fun t => Ok (n :: t)).
Proof.
  intros S G. destruct S as [c r P _ _|q c r Q NQ NB _].
  - apply shlex_word; [exact P|discriminate|exact G].
  - assert (QT : forall x tok z, ~ In q x -> ~ In 92 x -> shlex (x ++ q :: z) (LQuote q) true tok = shlex z LWord true (tok ++ x)).
    { induction x as [|d x IH]; intros tok z N1 N2; cbn [shlex app]; [now rewrite N.eqb_refl, app_nil_r|].
      assert (d =? q = false) as -> by (apply N.eqb_neq; intros ->; apply N1; now left). assert (d =? 92 = false) as -> by (apply N.eqb_neq; intros ->; apply N2; now left). cbn [andb].
      rewrite IH, <- app_assoc; [reflexivity| |]; intros J; [apply N1|apply N2]; now right. }
    assert (E : shlex_split ((q :: (c :: r) ++ [q]) ++ g ++ text) = shlex (g ++ text) LWord true (c :: r)).
    { unfold shlex_split. cbn [shlex app]. assert (sh_space q = false) as -> by (destruct Q as [-> | ->]; reflexivity). assert (q =? 92 = false) as -> by (destruct Q as [-> | ->]; reflexivity).
      assert ((q =? 39) || (q =? 34) = true) as -> by (destruct Q as [-> | ->]; reflexivity). assert (c =? q = false) as -> by (apply N.eqb_neq; intros ->; apply NQ; now left). assert (c =? 92 = false) as -> by (apply N.eqb_neq; intros ->; apply NB; now left). cbn [andb app].
      rewrite <- app_assoc. cbn [app]. rewrite QT; [reflexivity| |]; intros J; [apply NQ|apply NB]; now right. }
    rewrite E. destruct G as (B & G'). destruct g as [|g1 g].
    + rewrite (G' eq_refl). reflexivity.
    + inversion B as [|? ? Bg B']; subst. cbn [shlex app]. rewrite (sp_true Bg). cbn [orb]. rewrite orb_true_r. rewrite (shlex_blanks text B'). reflexivity.
Qed.
Lemma name_after raw n x : spells raw n -> exists y, lstrip (raw ++ x) = raw ++ x /\ after_index (raw ++ x) n = Ok y /\ (y = x \/ exists q, (q = 34 \/ q = 39) /\ y = q :: x).
Proof.
  intros [c r P _ SP|q c r Q NQ NB _]; [apply white_no in SP|].
  - exists x. csplit; [|unfold after_index; assert (NN : c :: r <> []) by discriminate; change ((c :: r) ++ x) with ([] ++ (c :: r) ++ x); rewrite (@find_first [] (c :: r) x (Forall_nil _) P NN); reflexivity|now left]. cbn [lstrip app]. now rewrite SP.
  - exists (q :: x). csplit; [cbn [lstrip app]; destruct Q as [-> | ->]; reflexivity| |right; eauto]. unfold after_index.
    replace ((q :: (c :: r) ++ [q]) ++ x) with (q :: (c :: r) ++ q :: x) by (cbn; now rewrite <- app_assoc). cbn [find_sub].
    assert (startswith (q :: (c :: r) ++ q :: x) (c :: r) = false) as ->.
    { destruct (startswith _ _) eqn:S; [|reflexivity]. apply startswith_spec in S as (y & E). injection E as -> _. exfalso. apply NQ. now left. }
    assert (FS : forall z, find_sub (c :: r) ((c :: r) ++ z) = Some ([], z)).
    { intros z. cbn [find_sub app]. assert (startswith (c :: r ++ z) (c :: r) = true) as -> by (apply startswith_spec; now exists z).
      now rewrite (skipn_app (length (c :: r)) (c :: r) z : skipn (length (c :: r)) (c :: r ++ z) = _), skipn_all, Nat.sub_diag. }
    rewrite FS. reflexivity.
Qed.
Lemma spells_arg raw n : spells raw n -> n <> s "--" /\ classify n = KArg.
Proof. intros [c r _ H _|q c r _ _ _ H]; (split; [intros E; vm_compute in E; congruence|now apply classify_arg]). Qed.
(** C53, set: the name and the text after it, verbatim apart from leading blanks. *)
Lemma set_ok w cmd g raw name g2 text : blanks w -> In cmd [s "set_option"; s "so"; s "set_hostvar"; s "sh"] -> blanks g -> g <> [] -> spells raw name -> gap g2 text -> quoting text ->
  (forall words, shlex_split text = Ok words -> ~ asks_help words) ->
  parse (w ++ cmd ++ g ++ raw ++ g2 ++ text) = Ok (if mem cmd [s "set_option"; s "so"] then RcSetOption name (lstrip text) else RcSetHostvar name (lstrip text)).
Proof.
  intros B C G GN S G2 Q H. assert (GP : gap g (raw ++ g2 ++ text)) by (split; [exact G|congruence]).
  apply quoting_iff in Q. destruct (shlex_split text) as [toks|] eqn:SH; [|discriminate]. destruct (no_help (H _ eq_refl)) as (nm & SA). destruct (spells_arg S) as (NE & CL).
  assert (AC : forall k, after_cmd k cmd (raw ++ g2 ++ text) = match k with CSetOption => Ok (RcSetOption name (lstrip text)) | CSetHostvar => Ok (RcSetHostvar name (lstrip text)) | _ => after_cmd k cmd (raw ++ g2 ++ text) end).
  { intros k. destruct k; try reflexivity; unfold after_cmd; rewrite (shlex_name S G2), SH; cbn [bind ReplModel.sub_args];
      (destruct (eqb_spec name (s "--")) as [?|_]; [congruence|]); rewrite CL, SA;
      destruct (name_after (g2 ++ text) S) as (y & -> & -> & Y); cbn [bind]; destruct G2 as (B2 & G2').
    all: assert (LS : lstrip match y with [] => y | c :: r' => if (c =? 34) || (c =? 39) then r' else y end = lstrip text);
      [|rewrite LS; reflexivity].
    all: destruct Y as [-> |(q & Q' & ->)]; [destruct g2 as [|b g2]; [rewrite (G2' eq_refl); reflexivity|]|destruct Q' as [-> | ->]; cbn [N.eqb Pos.eqb orb]; now apply lstrip_blanks].
    all: inversion B2 as [|? ? Bb B2']; subst; cbn [app]; assert ((b =? 34) || (b =? 39) = false) as -> by (destruct Bb as [<-|[<-|[<-|[<-|[]]]]]; reflexivity); now apply (@lstrip_blanks (b :: g2) text). }
  destruct C as [<-|[<-|[<-|[<-|[]]]]].
  - rewrite (@parse_form w (s "set_option") CSetOption g _ B eq_refl GP), AC. reflexivity.
  - rewrite (@parse_form w (s "so") CSetOption g _ B eq_refl GP), AC. reflexivity.
  - rewrite (@parse_form w (s "set_hostvar") CSetHostvar g _ B eq_refl GP), AC. reflexivity.
  - rewrite (@parse_form w (s "sh") CSetHostvar g _ B eq_refl GP), AC. reflexivity.
Qed.
(** C53, remove: the named option. *)
Lemma remove_ok w cmd g raw name g2 text : blanks w -> In cmd [s "remove_option"; s "ro"] -> blanks g -> g <> [] -> spells raw name -> gap g2 text -> quoting text ->
  (forall words, shlex_split text = Ok words -> ~ asks_help words) -> parse (w ++ cmd ++ g ++ raw ++ g2 ++ text) = Ok (RcRemove name).
Proof.
  intros B C G GN S G2 Q H. assert (GP : gap g (raw ++ g2 ++ text)) by (split; [exact G|congruence]).
  apply quoting_iff in Q. destruct (shlex_split text) as [toks|] eqn:SH; [|discriminate]. destruct (no_help (H _ eq_refl)) as (nm & SA). destruct (spells_arg S) as (NE & CL).
  assert (D : dget commands cmd = Some CRemove) by (destruct C as [<-|[<-|[]]]; vm_compute; reflexivity).
  rewrite (@parse_form w cmd _ g _ B D GP). unfold after_cmd. rewrite (shlex_name S G2), SH. cbn [bind ReplModel.sub_args]. destruct (eqb_spec name (s "--")) as [?|_]; [congruence|]. now rewrite CL, SA.
Qed.
(** C53, aliases: a command and its alias give the same result for every text (the texts of
    messages may differ). *)
Definition same_result (a b : res ReplCmd) : Prop := match a, b with Ok (RcText _), Ok (RcText _) => True | _, _ => a = b end.
Theorem C53_aliases w g text full alias : blanks w -> gap g text ->
  In (full, alias) [(s "template", s "t"); (s "set_option", s "so"); (s "set_hostvar", s "sh"); (s "remove_option", s "ro")] ->
  same_result (parse (w ++ full ++ g ++ text)) (parse (w ++ alias ++ g ++ text)).
Proof.
  intros B G I. assert (exists k, dget commands full = Some k /\ dget commands alias = Some k) as (k & D1 & D2).
  { vm_compute in I. repeat (destruct I as [I|I]; [injection I as <- <-; eexists; split; vm_compute; reflexivity|]). destruct I. }
  rewrite (@parse_form w full _ g text B D1 G), (@parse_form w alias _ g text B D2 G). unfold after_cmd. destruct (shlex_split text) as [toks|]; [|reflexivity]. cbn [bind]. destruct (sub_args toks) as [nm|]; [|exact Logic.I].
  destruct k, nm; try reflexivity; try exact Logic.I; destruct (after_index (lstrip text) l) as [r|]; reflexivity.
Qed.
(** Only text with incomplete quoting makes the parser fail behind a command word, except
    that the name must be found in the text. *)
Theorem C53_failure w cmd g text : blanks w -> In cmd [s "template"; s "t"; s "remove_option"; s "ro"] -> gap g text ->
  ((exists r, parse (w ++ cmd ++ g ++ text) = Ok r) <-> quoting text).
Proof.
  intros B C G. assert (exists k, dget commands cmd = Some k /\ (k = CTemplate \/ k = CRemove)) as (k & D & K).
  { vm_compute in C. repeat (destruct C as [<-|C]; [eexists; split; [vm_compute; reflexivity|auto]|]). destruct C. }
  rewrite (@parse_form w cmd _ g text B D G), <- quoting_iff. unfold after_cmd. destruct (shlex_split text) as [toks|]; [|split; [intros (r & E)|]; discriminate]. cbn [bind is_ok]. split; [reflexivity|intros _].
  destruct (sub_args toks) as [[n|]|]; destruct K as [-> | ->]; eexists; reflexivity.
Qed.
End C.

(** C53 at the console: !template evaluates the expression in the frame exactly like typing
    it (here: watching it); !set_option / !set_hostvar evaluate it and bind the name. *)
Section Console.
Variable py_int : pystr -> option Z.
Variable py_repr : list obj -> val -> pystr.
Variable type_name : list obj -> val -> pystr.
Variable tmpl : pystr -> nat -> list obj -> res (list obj * val).
Variable err_text : exn -> pystr.
Variable neg_number : pystr -> bool.
Variable drops_dd : bool.
Variable message : list pystr -> pystr.
Notation eval := (evaluate py_int py_repr type_name tmpl err_text (parse_repl_args neg_number drops_dd message)).
Lemma console_template_ok seq cmd g text fid w : fid <> 0 -> In cmd [s "template"; s "t"] -> gap g text -> quoting text ->
  (forall words, shlex_split text = Ok words -> ~ asks_help words) ->
  eval seq (s "!" ++ cmd ++ g ++ text) (Some fid) (Some (s "repl")) w = eval seq (lstrip text) (Some fid) (Some (s "watch")) w.
Proof.
  intros NZ C G Q H. unfold evaluate. cbn [frame_truthy]. apply N.eqb_neq in NZ. rewrite NZ. rename fid into i.
  change (ctx_in (Some (s "repl")) [s "repl"] && startswith (s "!" ++ cmd ++ g ++ text) (s "!")) with true. change (ctx_in (Some (s "watch")) [s "repl"]) with false.
  change (ctx_in (Some (s "watch")) [s "repl"; s "watch"; s "clipboard"; s "variables"]) with true. cbn [andb]. destruct (dget (w_frames w) i) as [f|]; [|reflexivity].
  change (skipn 1 (s "!" ++ cmd ++ g ++ text)) with ([] ++ cmd ++ g ++ text). rewrite template_ok; auto. constructor.
Qed.
End Console.

(** Cases. *)
Definition no_neg (t : pystr) : bool := false.
Definition no_msg (t : list pystr) : pystr := s "usage".
Notation rp := (parse_repl_args no_neg false no_msg).
Example case_template : rp (s "  t  foo | default('x y') ~ ""z""") = Ok (RcTemplate (s "foo | default('x y') ~ ""z""")).
Proof. vm_compute. reflexivity. Qed.
Example case_template_hyps : quoting (s "f('x y')") /\ shlex_split (s "f('x y')") = Ok [s "f(x y)"] /\ Forall (fun t => ~ help_word t) [s "f(x y)"].
Proof.
  csplit; [apply quoting_iff; vm_compute; reflexivity|vm_compute; reflexivity|]. constructor; [|constructor].
  intros [(r & E)|(p & q & _ & [(_ & E)|(r & E)])]; vm_compute in E; discriminate.
Qed.
Example case_set : rp (s "so 'my name' a + 'b'") = Ok (RcSetOption (s "my name") (s "a + 'b'")) /\ spells (s "'my name'") (s "my name").
Proof.
  split; [vm_compute; reflexivity|]. apply (@sp_quoted 39 109 (s "y name")); [now right| | |discriminate]; vm_compute; intros Q; repeat (destruct Q as [Q|Q]; [discriminate|]); exact Q.
Qed.
(** Refuted: a word -h in the expression shows the help instead; a string with an escaped
    quote ('it\'s', valid in a template) makes the request fail; an option-like word in
    front of the name, or a quoted command, give a wrong expression. *)
Theorem C53_help_refuted : rp (s "t width -h") = Ok (RcText (s "usage")) /\ rp (s "t width - h") = Ok (RcTemplate (s "width - h")).
Proof. split; vm_compute; reflexivity. Qed.
Theorem C53_quotes_refuted : rp (s "t 'it\'s'") = Err ValueError /\ rp (s "so msg it's") = Err ValueError.
Proof. split; vm_compute; reflexivity. Qed.
Theorem C53_option_refuted : rp (s "so -x x 1") = Ok (RcSetOption (s "x") (s "x 1")) /\ rp (s """t"" x") = Ok (RcTemplate (s """ x")).
Proof. split; vm_compute; reflexivity. Qed.
Print Assumptions C53_aliases.
Print Assumptions C53_failure.
Print Assumptions C53_help_refuted.
