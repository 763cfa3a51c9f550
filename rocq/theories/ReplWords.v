(** How the debug console splits its text into words, stated on its own (the quoting rules of a
    POSIX shell without expansions and comments), and the proof that shlex.split does that. *)
From Verif Require Import PyBase PyDict DbgTypes AdapterModel StratModel ReplModel ReplProps.
Set Implicit Arguments.
Local Open Scope N_scope.

(** * Specification *)
(** Between double quotes a backslash escapes the quote and itself only. *)
Inductive dquoted : pystr -> pystr -> Prop :=
| dq_end : dquoted [] []
| dq_plain c r m : c <> 34 -> c <> 92 -> dquoted r m -> dquoted (c :: r) (c :: m)
| dq_escape c r m : In c [34; 92] -> dquoted r m -> dquoted (92 :: c :: r) (c :: m)
| dq_keep c r m : ~ In c [34; 92] -> dquoted r m -> dquoted (92 :: c :: r) (92 :: c :: m).
(** A piece of a word and what it means. *)
Inductive piece : pystr -> pystr -> Prop :=
| pc_plain c : ~ In c [32; 9; 13; 10; 34; 39; 92] -> piece [c] [c]
| pc_escape c : piece [92; c] [c]
| pc_single x : ~ In 39 x -> piece (39 :: x ++ [39]) x
| pc_double x m : dquoted x m -> piece (34 :: x ++ [34]) m.
(** A word: one or more pieces next to each other ('' alone is the empty word). *)
Inductive word : pystr -> pystr -> Prop :=
| w_last r m : piece r m -> word r m
| w_more r m r' m' : piece r m -> word r' m' -> word (r ++ r') (m ++ m').
(** A text: words separated by blanks. *)
Inductive words : pystr -> list pystr -> Prop :=
| ws_none b : blanks b -> words b []
| ws_last b r m : blanks b -> word r m -> words (b ++ r) [m]
| ws_more b r m c t l : blanks b -> word r m -> In c [32; 9; 13; 10] -> words t l -> words (b ++ r ++ c :: t) (m :: l).

(** * Proof *)
Inductive pieces : pystr -> pystr -> Prop :=
| ps_nil : pieces [] []
| ps_cons r m r' m' : piece r m -> pieces r' m' -> pieces (r ++ r') (m ++ m').
Lemma pieces_word r m r' m' : piece r m -> pieces r' m' -> word (r ++ r') (m ++ m').
Proof.
  intros P Q. revert r m P. induction Q as [|r1 m1 r2 m2 P1 Q IH]; intros r m P; [rewrite !app_nil_r; now constructor|]. apply w_more; auto.
Qed.
Lemma words_pieces r m : word r m -> exists r1 m1 r2 m2, piece r1 m1 /\ pieces r2 m2 /\ r = r1 ++ r2 /\ m = m1 ++ m2.
Proof.
  induction 1 as [r m P|r m r' m' P W (r1 & m1 & r2 & m2 & P1 & Q & -> & ->)].
  - exists r, m, [], []. rewrite !app_nil_r. repeat split; auto. constructor.
  - exists r, m, (r1 ++ r2), (m1 ++ m2). repeat split; auto. now constructor.
Qed.
(** the rest of a word and what follows it *)
Definition tail_words (tail : pystr) (l : list pystr) : Prop := (tail = [] /\ l = []) \/ exists c t, tail = c :: t /\ In c [32; 9; 13; 10] /\ words t l.
Definition rest (l m : pystr) (ws : list pystr) : Prop := exists raw tail, l = raw ++ tail /\ pieces raw m /\ tail_words tail ws.
Lemma rest_piece r m l m' ws : piece r m -> rest l m' ws -> rest (r ++ l) (m ++ m') ws.
Proof. intros P (raw & tail & -> & Q & T). exists (r ++ raw), tail. rewrite app_assoc. repeat split; auto. now constructor. Qed.
Lemma words_rest b r m l m' ws : blanks b -> piece r m -> rest l m' ws -> words (b ++ r ++ l) ((m ++ m') :: ws).
Proof.
  intros B P (raw & tail & -> & Q & T). destruct T as [(-> & ->)|(c & t & -> & C & W)].
  - rewrite app_nil_r. apply ws_last; auto. now apply pieces_word.
  - replace (r ++ raw ++ c :: t) with ((r ++ raw) ++ c :: t) by now rewrite <- app_assoc. apply ws_more; auto. now apply pieces_word.
Qed.
Lemma words_blank c t l : In c [32; 9; 13; 10] -> words t l -> words (c :: t) l.
Proof.
  intros C W. destruct W; [apply ws_none|apply (@ws_last (c :: b))|apply (@ws_more (c :: b))]; auto; constructor; auto.
Qed.
Definition inner (q : N) (x m : pystr) : Prop := (q = 39 /\ ~ In 39 x /\ m = x) \/ (q = 34 /\ dquoted x m).
Lemma inner_piece q x m : inner q x m -> piece (q :: x ++ [q]) m.
Proof. intros [(-> & N & ->)|(-> & D)]; now constructor. Qed.
Definition sound_st (l : pystr) (st : lst) (q : bool) (tok : pystr) (ws : list pystr) : Prop :=
  match st with
  | LSpace => q = false -> tok = [] -> words l ws
  | LWord => q = true \/ tok <> [] -> exists m ws', ws = (tok ++ m) :: ws' /\ rest l m ws'
  | LQuote qc => qc = 39 \/ qc = 34 -> exists x y m1 m ws', l = x ++ qc :: y /\ inner qc x m1 /\ rest y m ws' /\ ws = (tok ++ m1 ++ m) :: ws'
  | LEsc None => exists c y m ws', l = c :: y /\ rest y m ws' /\ ws = (tok ++ c :: m) :: ws'
  | LEsc (Some qc) => qc = 34 -> exists x y m1 m ws', l = x ++ 34 :: y /\ dquoted (92 :: x) m1 /\ rest y m ws' /\ ws = (tok ++ m1 ++ m) :: ws'
  end.
Lemma rest_blank c t ws : In c [32; 9; 13; 10] -> words t ws -> rest (c :: t) [] ws.
Proof. intros C W. exists [], (c :: t). repeat split; [constructor|]. right. eauto. Qed.
Lemma shlex_sound l : forall st q tok ws, shlex l st q tok = Ok ws -> sound_st l st q tok ws.
Proof.
  induction l as [|c r IH]; intros st q tok ws E.
  - destruct st as [| |qc|[b|]]; cbn [shlex] in E; try discriminate.
    + intros -> ->. cbn in E. injection E as <-. apply ws_none. constructor.
    + intros H. destruct (negb q && eqb tok []) eqn:B.
      * apply andb_prop in B as (B1 & B2). destruct (eqb_spec tok []) as [->|]; [|discriminate]. destruct q; [discriminate|]. destruct H; congruence.
      * injection E as <-. exists [], []. rewrite app_nil_r. split; auto. exists [], []. repeat split; [constructor|]. now left.
  - destruct st as [| |qc|[b|]].
    + intros -> ->. cbn [shlex] in E. destruct (sh_space c) eqn:SP.
      { cbn in E. apply IH in E. apply words_blank; [now apply sp_iff|]. now apply E. }
      assert (NB : ~ In c [32; 9; 13; 10]) by (intros H; apply sp_iff in H; congruence).
      destruct (N.eqb_spec c 92) as [->|N92].
      { apply IH in E as (c & y & m & ws' & -> & R & ->). apply (@words_rest [] [92; c] [c]); auto; constructor. }
      destruct ((c =? 39) || (c =? 34)) eqn:Q.
      { assert (QC : c = 39 \/ c = 34) by (apply orb_prop in Q as [Q|Q]; apply N.eqb_eq in Q; auto).
        apply IH in E. destruct (E QC) as (x & y & m1 & m & ws' & -> & I & R & ->).
        pose proof (@words_rest [] (c :: x ++ [c]) m1 y m ws' (Forall_nil _) (inner_piece I) R) as W. cbn [app] in W |- *. rewrite <- app_assoc in W. exact W. }
      apply orb_false_elim in Q as (Q1 & Q2). apply N.eqb_neq in Q1, Q2. apply IH in E. destruct E as (m & ws' & -> & R); [right; discriminate|].
      apply (@words_rest [] [c] [c]); auto; [constructor|]. constructor. intros X; apply NB; cbn in X |- *; repeat (destruct X as [X|X]; [try congruence; tauto|]); tauto.
    + intros H. cbn [shlex] in E. destruct (sh_space c) eqn:SP.
      { assert (B : negb (eqb tok []) || q = true) by (destruct H as [->|H]; [apply orb_true_r|]; destruct (eqb_spec tok []); [congruence|reflexivity]). rewrite B in E.
        destruct (shlex r LSpace false []) as [x|] eqn:S; [|discriminate]. cbn in E. injection E as <-. apply IH in S. exists [], x. rewrite app_nil_r. split; auto.
        apply rest_blank; [now apply sp_iff|]. now apply S. }
      assert (NB : ~ In c [32; 9; 13; 10]) by (intros X; apply sp_iff in X; congruence).
      destruct ((c =? 39) || (c =? 34)) eqn:Q.
      { assert (QC : c = 39 \/ c = 34) by (apply orb_prop in Q as [Q|Q]; apply N.eqb_eq in Q; auto).
        apply IH in E. destruct (E QC) as (x & y & m1 & m & ws' & -> & I & R & ->). exists (m1 ++ m), ws'. split; auto.
        pose proof (rest_piece (inner_piece I) R) as W. cbn [app] in W |- *. rewrite <- app_assoc in W. exact W. }
      apply orb_false_elim in Q as (Q1 & Q2). apply N.eqb_neq in Q1, Q2. destruct (N.eqb_spec c 92) as [->|N92].
      { apply IH in E as (c & y & m & ws' & -> & R & ->). exists (c :: m), ws'. split; auto. apply (@rest_piece [92; c] [c]); auto; constructor. }
      apply IH in E. destruct E as (m & ws' & -> & R); [right; destruct tok; discriminate|]. exists (c :: m), ws'. split; [now rewrite <- app_assoc|].
      apply (@rest_piece [c] [c]); auto. constructor. intros X; apply NB; cbn in X |- *; repeat (destruct X as [X|X]; [try congruence; tauto|]); tauto.
    + intros QC. cbn [shlex] in E. destruct (N.eqb_spec c qc) as [->|NE].
      { apply IH in E. destruct E as (m & ws' & -> & R); [now left|]. exists [], r, [], m, ws'. repeat split; auto.
        destruct QC as [-> | ->]; [left; repeat split; auto|right; split; auto; constructor]. }
      destruct ((c =? 92) && (qc =? 34)) eqn:ES.
      { apply andb_prop in ES as (E1 & E2). apply N.eqb_eq in E1, E2. subst. apply IH in E. destruct (E eq_refl) as (x & y & m1 & m & ws' & -> & D & R & ->).
        exists (92 :: x), y, m1, m, ws'. repeat split; auto. right. auto. }
      apply IH in E. destruct (E QC) as (x & y & m1 & m & ws' & -> & I & R & ->). exists (c :: x), y, (c :: m1), m, ws'. repeat split; auto; [|now rewrite <- !app_assoc].
      destruct I as [(-> & N & ->)|(-> & D)]; [left; repeat split; auto; intros [X|X]; [congruence|auto]|right; split; auto; constructor; auto].
      intros ->. discriminate.
    + intros ->. cbn [shlex] in E. apply IH in E. destruct (E (or_intror eq_refl)) as (x & y & m1 & m & ws' & -> & I & R & ->).
      destruct I as [(X & _)|(_ & D)]; [discriminate X|].
      exists (c :: x), y, ((if negb (c =? 92) && negb (c =? 34) then [92] else []) ++ c :: m1), m, ws'. repeat split; auto; [|now rewrite <- !app_assoc].
      destruct (N.eqb_spec c 92) as [->|N92]; [cbn; apply dq_escape; auto; cbn; tauto|]. destruct (N.eqb_spec c 34) as [->|N34]; [cbn; apply dq_escape; auto; cbn; tauto|].
      cbn. apply dq_keep; auto. intros [X|[X|[]]]; congruence.
    + cbn [shlex] in E. apply IH in E. destruct E as (m & ws' & -> & R); [right; destruct tok; discriminate|]. exists c, r, m, ws'. repeat split; auto. now rewrite <- app_assoc.
Qed.

Lemma single_run x tail : ~ In 39 x -> forall q tok, shlex (x ++ 39 :: tail) (LQuote 39) q tok = shlex tail LWord true (tok ++ x).
Proof.
  induction x as [|c x IH]; intros N q tok; [cbn; now rewrite app_nil_r|]. cbn [app shlex].
  assert (c =? 39 = false) as -> by (apply N.eqb_neq; intros ->; apply N; now left). rewrite andb_comm. cbn [N.eqb Pos.eqb andb]. rewrite IH by (intros X; apply N; now right). now rewrite <- app_assoc.
Qed.
Lemma double_run x m tail : dquoted x m -> forall q tok, shlex (x ++ 34 :: tail) (LQuote 34) q tok = shlex tail LWord true (tok ++ m).
Proof.
  induction 1 as [|c r m A B D IH|c r m I D IH|c r m I D IH]; intros q tok; [cbn; now rewrite app_nil_r| | |].
  - cbn [app shlex]. apply N.eqb_neq in A, B. rewrite A, B. cbn [andb]. rewrite IH. now rewrite <- app_assoc.
  - cbn [app shlex]. change (92 =? 34) with false. change (92 =? 92) with true. change (34 =? 34) with true. cbn [andb].
    assert (negb (c =? 92) && negb (c =? 34) = false) as -> by (destruct I as [<-|[<-|[]]]; reflexivity). rewrite IH. cbn [app]. now rewrite <- app_assoc.
  - cbn [app shlex]. change (92 =? 34) with false. change (92 =? 92) with true. change (34 =? 34) with true. cbn [andb].
    assert (negb (c =? 92) && negb (c =? 34) = true) as ->.
    { destruct (N.eqb_spec c 92) as [->|]; [exfalso; apply I; cbn; tauto|]. destruct (N.eqb_spec c 34) as [->|]; [exfalso; apply I; cbn; tauto|]. reflexivity. }
    rewrite IH. cbn [app]. now rewrite <- app_assoc.
Qed.
Lemma piece_run r m : piece r m -> exists q' : bool, (q' = true \/ m <> []) /\
  forall tail st q tok, st = LSpace /\ tok = [] \/ st = LWord -> shlex (r ++ tail) st q tok = shlex tail LWord (q || q') (tok ++ m).
Proof.
  intros P. destruct P as [c N|c|x N|x m D].
  - exists false. split; [right; discriminate|]. intros tail st q tok ST. destruct (plain_c N) as (A & B & C). rewrite orb_false_r.
    destruct ST as [(-> & ->)| ->]; cbn [app shlex]; rewrite A, B, C; reflexivity.
  - exists false. split; [right; discriminate|]. intros tail st q tok ST. rewrite orb_false_r. destruct ST as [(-> & ->)| ->]; reflexivity.
  - exists true. split; [now left|]. intros tail st q tok ST. rewrite orb_true_r. rewrite <- (@single_run x tail N q tok). cbn [app]. rewrite <- app_assoc. cbn [app]. destruct ST as [(-> & ->)| ->]; reflexivity.
  - exists true. split; [now left|]. intros tail st q tok ST. rewrite orb_true_r. rewrite <- (@double_run x m tail D q tok). cbn [app]. rewrite <- app_assoc. cbn [app]. destruct ST as [(-> & ->)| ->]; reflexivity.
Qed.
Lemma word_run r m : word r m -> exists q' : bool, (q' = true \/ m <> []) /\
  forall tail st q tok, st = LSpace /\ tok = [] \/ st = LWord -> shlex (r ++ tail) st q tok = shlex tail LWord (q || q') (tok ++ m).
Proof.
  induction 1 as [r m P|r m r' m' P W (q2 & C2 & R2)]; [now apply piece_run|]. destruct (piece_run P) as (q1 & C1 & R1). exists (q1 || q2). split.
  - destruct C1 as [-> |C1]; [now left|]. right. destruct m; [congruence|discriminate].
  - intros tail st q tok ST. rewrite <- app_assoc, R1, R2 by auto. now rewrite orb_assoc, <- app_assoc.
Qed.
Lemma shlex_words t ws : shlex_split t = Ok ws <-> words t ws.
Proof.
  split.
  - intros E. now apply (@shlex_sound t LSpace false [] ws E).
  - assert (H : forall b r m tail, blanks b -> word r m -> exists q', (q' = true \/ m <> []) /\ shlex_split (b ++ r ++ tail) = shlex tail LWord q' m).
    { intros b r m tail B W. destruct (word_run W) as (q' & C & R). exists q'. split; auto. unfold shlex_split. rewrite (shlex_blanks _ B), R by auto. reflexivity. }
    induction 1 as [b B|b r m B W|b r m c t l B W C T IH].
    + unfold shlex_split. rewrite <- (app_nil_r b), (shlex_blanks _ B). reflexivity.
    + destruct (H b r m [] B W) as (q' & C & E). rewrite app_nil_r in E. rewrite E. cbn [shlex]. destruct (negb q' && eqb m []) eqn:Z; auto.
      apply andb_prop in Z as (Z1 & Z2). destruct (eqb_spec m []); [|discriminate]. destruct q'; [discriminate|]. destruct C; congruence.
    + destruct (H b r m (c :: t) B W) as (q' & X & E). rewrite E. cbn [shlex]. rewrite (sp_true C).
      assert (negb (eqb m []) || q' = true) as -> by (destruct X as [-> |X]; [apply orb_true_r|]; destruct (eqb_spec m []); [congruence|reflexivity]).
      unfold shlex_split in IH. rewrite IH. reflexivity.
Qed.

(** * C53 *)
Theorem C53_words t ws : shlex_split t = Ok ws <-> words t ws.
Proof. apply shlex_words. Qed.
Section C.
Variable neg_number : pystr -> bool.
Variable drops_dd : bool.
Variable message : list pystr -> pystr.
Notation parse := (parse_repl_args neg_number drops_dd message).
Lemma words_help text ws : words text ws -> ~ asks_help ws -> quoting text /\ forall l, shlex_split text = Ok l -> ~ asks_help l.
Proof.
  intros W N. apply shlex_words in W. split; [apply quoting_iff; now rewrite W|]. intros l E. congruence.
Qed.
(** template: the expression is the text after the command, verbatim apart from leading blanks,
    whenever the text splits into words none of which asks for help. *)
Theorem C53_template_partial w cmd g text ws e : blanks w -> In cmd [s "template"; s "t"] -> gap g text -> words text ws -> ~ asks_help ws ->
  stripped text e -> parse (w ++ cmd ++ g ++ text) = Ok (RcTemplate e).
Proof. intros B C G W N E. rewrite <- (stripped_lstrip E). destruct (words_help W N) as (Q & H). now apply template_ok. Qed.
(** In particular for every text without quotes, backslashes and hyphens. *)
Theorem C53_template_simple_partial w cmd g text e : blanks w -> In cmd [s "template"; s "t"] -> gap g text -> Forall (fun c => ~ In c [34; 39; 92; 45]) text ->
  stripped text e -> parse (w ++ cmd ++ g ++ text) = Ok (RcTemplate e).
Proof. intros B C G F E. rewrite <- (stripped_lstrip E). now apply template_simple_ok. Qed.
(** the name is the next word, the expression what follows it *)
Theorem C53_set_partial w cmd g raw name g2 text ws e : blanks w -> blanks g -> g <> [] -> spells raw name -> gap g2 text -> words text ws -> ~ asks_help ws ->
  stripped text e ->
  (In cmd [s "set_option"; s "so"] -> parse (w ++ cmd ++ g ++ raw ++ g2 ++ text) = Ok (RcSetOption name e)) /\
  (In cmd [s "set_hostvar"; s "sh"] -> parse (w ++ cmd ++ g ++ raw ++ g2 ++ text) = Ok (RcSetHostvar name e)).
Proof.
  intros B G NG S G2 W N E. destruct (words_help W N) as (Q & H). rewrite <- (stripped_lstrip E).
  split; intros C; (rewrite (@set_ok neg_number drops_dd message w cmd g raw name g2 text); auto; [|cbn [In] in *; tauto]).
  - destruct C as [<-|[<-|[]]]; reflexivity.
  - destruct C as [<-|[<-|[]]]; reflexivity.
Qed.
Theorem C53_remove_partial w cmd g raw name g2 text ws : blanks w -> In cmd [s "remove_option"; s "ro"] -> blanks g -> g <> [] -> spells raw name -> gap g2 text -> words text ws -> ~ asks_help ws ->
  parse (w ++ cmd ++ g ++ raw ++ g2 ++ text) = Ok (RcRemove name).
Proof. intros B C G NG S G2 W N. destruct (words_help W N) as (Q & H). now apply remove_ok. Qed.
(** when a word asks for help every command only prints a text; this is the only such case
    for template *)
Theorem C53_help w cmd g text ws : blanks w -> In cmd [s "template"; s "t"; s "remove_option"; s "ro"; s "set_option"; s "so"; s "set_hostvar"; s "sh"] ->
  gap g text -> words text ws -> asks_help ws -> exists m, parse (w ++ cmd ++ g ++ text) = Ok (RcText m).
Proof.
  intros B C G W H. assert (exists k, dget commands cmd = Some k) as (k & D).
  { vm_compute in C. repeat (destruct C as [<-|C]; [eexists; vm_compute; reflexivity|]). destruct C. }
 rewrite (@parse_form neg_number drops_dd message w cmd k g text B D G). unfold after_cmd. apply shlex_words in W. rewrite W. cbn [bind].
  apply (help_exact neg_number) in H. rewrite H. eauto.
Qed.
End C.
Section Console.
Variable py_int : pystr -> option Z.
Variable py_repr : list obj -> val -> pystr.
Variable type_name : list obj -> val -> pystr.
Variable tmpl : pystr -> nat -> list obj -> res (list obj * val).
Variable err_text : exn -> pystr.
Variable neg_number : pystr -> bool.
Variable drops_dd : bool.
Variable message : list pystr -> pystr.
Notation eval := (evaluate py_int py_repr type_name tmpl err_text (parse_repl_args neg_number drops_dd message)).
(** at the console: !template evaluates the expression in the frame exactly like watching it *)
Theorem C53_console_template_partial seq cmd g text ws e fid w : fid <> 0 -> In cmd [s "template"; s "t"] -> gap g text -> words text ws -> ~ asks_help ws -> stripped text e ->
  eval seq (s "!" ++ cmd ++ g ++ text) (Some fid) (Some (s "repl")) w = eval seq e (Some fid) (Some (s "watch")) w.
Proof. intros NZ C G W N E. rewrite <- (stripped_lstrip E). destruct (words_help W N) as (Q & H). now apply console_template_ok. Qed.
End Console.

Example stripped_case : stripped (9 :: 8195 :: s " f('x y')") (s "f('x y')").
Proof. apply lstrip_stripped. Qed.
Example words_case : words (s " a'b c'""d\""e\f"" '' x\ y ") [s "ab cd""e\f"; []; s "x y"].
Proof. apply C53_words. vm_compute. reflexivity. Qed.
Example words_hyps : words (s "f('x y') -- -h") [s "f(x y)"; s "--"; s "-h"] /\ ~ asks_help [s "f(x y)"; s "--"; s "-h"] /\ asks_help [s "a"; s "--he=3"].
Proof.
  split; [apply C53_words; vm_compute; reflexivity|]. split.
  - intros H. apply (help_exact no_neg) in H. vm_compute in H. discriminate.
  - apply (help_exact no_neg). vm_compute. reflexivity.
Qed.
Print Assumptions C53_words.
Print Assumptions C53_template_partial.
Print Assumptions C53_template_simple_partial.
Print Assumptions C53_set_partial.
Print Assumptions C53_remove_partial.
Print Assumptions C53_help.
Print Assumptions C53_console_template_partial.
