(** C80: log files. *)
From Verif Require Import PyBase PyDict AdapterModel LogModel LogSpec.
Set Implicit Arguments.
Local Open Scope N_scope.
Ltac csplit := repeat match goal with |- _ /\ _ => split end.

Section L.
Variable abspath absolute : pystr -> pystr.
Variable can_open : pystr -> bool.
Variable valid_fmt : pystr -> bool.
Variable render : pystr -> Rec -> res pystr.
Notation configure := (configure abspath can_open valid_fmt).
Notation log_record := (log_record render).
Notation handle_record := (handle_record render).
Notation happens := (happens abspath can_open valid_fmt render).
Notation history := (history abspath can_open valid_fmt render).
Notation start_dap := (start_dap abspath absolute can_open valid_fmt render).
Notation asks := (asks abspath can_open valid_fmt).
Notation adds := (adds render).
Notation line := (line render).

Lemma content_append p b st q : content (append_file p b st) q = if eqb p q then content st q ++ b else content st q.
Proof.
  unfold content at 1. unfold append_file. cbn [l_files]. rewrite dget_dset. destruct (eqb_spec p q) as [->|N]; auto.
Qed.
Lemma under_spec r : under_ansibug (rc_logger r) = true <-> of_ansibug r.
Proof.
  unfold under_ansibug, of_ansibug. rewrite orb_true_iff, eqb_eq. split; (intros [A|A]; [now left|right]).
  - now apply startswith_spec in A.
  - now apply startswith_spec.
Qed.
Lemma level_sev l : match dget level_table l with Some n => severity l n | None => forall n, ~ severity l n end.
Proof.
  unfold level_table. cbn [dget].
  repeat match goal with |- context [eqb ?a l] => destruct (eqb_spec a l) as [<-|?]; [constructor|] end.
  intros m S. inversion S; subst; congruence.
Qed.
Lemma sev_fun l n m : severity l n -> severity l m -> n = m.
Proof. destruct 1; inversion 1; auto. Qed.
Lemma sev_level l n : severity l n -> dget level_table l = Some n.
Proof. intros S. pose proof (level_sev l) as X. destruct (dget level_table l) as [m|]; [f_equal; eapply sev_fun; eauto|now apply X in S]. Qed.
Lemma sev_pos l n : severity l n -> n <> 0 /\ 10 <= n <= 40.
Proof. destruct 1; lia. Qed.

(** Configuring fails exactly for an unknown severity, a file that cannot be opened or a
    format that is not one; an unknown severity is found before anything is touched, and
    a failure leaves the contents of all files and the logging as they were. *)
Theorem C80_configure file level f st :
  let p := abspath file in
  (forall n, severity level n -> can_open p = true -> valid_fmt (fmt_or f) = true -> snd (configure file level f st) = Ok tt) /\
  ((forall n, ~ severity level n) -> configure file level f st = (st, Err KeyError)) /\
  (forall n, severity level n -> can_open p = false -> configure file level f st = (st, Err OSError)) /\
  (forall n, severity level n -> can_open p = true -> valid_fmt (fmt_or f) = false -> snd (configure file level f st) = Err ValueError) /\
  (forall q, content (fst (configure file level f st)) q = content st q) /\
  (snd (configure file level f st) <> Ok tt -> l_handlers (fst (configure file level f st)) = l_handlers st /\ l_level (fst (configure file level f st)) = l_level st).
Proof.
  cbn zeta. assert (F : match f with Some (c :: r) => c :: r | _ => default_format end = fmt_or f) by (destruct f as [[|c r]|]; reflexivity).
  unfold LogModel.configure. rewrite F. pose proof (level_sev level) as LS. destruct (dget level_table level) as [n|] eqn:E.
  2: { csplit; auto; intros n S; now apply LS in S. }
  csplit.
  - intros m _ -> ->. reflexivity.
  - intros X. now apply X in LS.
  - intros m _ ->. reflexivity.
  - intros m _ -> ->. reflexivity.
  - intros q. destruct (can_open (abspath file)); cbn; auto. destruct (valid_fmt (fmt_or f)); cbn.
    + change (content (append_file (abspath file) [] st) q = content st q). rewrite content_append, app_nil_r. now destruct (eqb (abspath file) q).
    + rewrite content_append, app_nil_r. now destruct (eqb (abspath file) q).
  - destruct (can_open (abspath file)); cbn; auto. destruct (valid_fmt (fmt_or f)); cbn; auto. congruence.
Qed.

(* ------------------------------------------------------------------ nothing is lost *)
Definition grows (p : pystr) (a b : LogSt) : Prop := exists x, content b p = content a p ++ x.
Lemma grows_refl p a : grows p a a.
Proof. exists []. now rewrite app_nil_r. Qed.
Lemma grows_trans p a b c : grows p a b -> grows p b c -> grows p a c.
Proof. intros (x & X) (y & Y). exists (x ++ y). now rewrite Y, X, app_assoc. Qed.
Lemma grows_append p q b st : grows p st (append_file q b st).
Proof. exists (if eqb q p then b else []). rewrite content_append. destruct (eqb q p); auto. now rewrite app_nil_r. Qed.
Lemma grows_report p x st : grows p st (report x st).
Proof. exists []. rewrite app_nil_r. reflexivity. Qed.
Lemma handle_grows p r st h : grows p st (handle_record r st h).
Proof. unfold LogModel.handle_record. destruct (_ <? _); [apply grows_refl|]. destruct (bind _ _); [apply grows_append|apply grows_report]. Qed.
Lemma handlers_grow p r hs : forall st, grows p st (fold_left (handle_record r) hs st).
Proof. induction hs as [|h hs IH]; intros st; [apply grows_refl|]. cbn. eapply grows_trans; [apply handle_grows|apply IH]. Qed.
Lemma log_grows p r st : grows p st (log_record r st).
Proof.
  unfold LogModel.log_record. destruct (rc_level r <? _); [apply grows_refl|]. destruct (if under_ansibug _ then _ else _) as [|h hs].
  - destruct (_ <? _); [apply grows_refl|apply grows_report].
  - apply handlers_grow.
Qed.
(** Whatever is configured and logged, in whatever order, and whoever else writes: what is
    in a file stays there, new text comes after it. *)
Theorem C80_append_only es st p : exists b, content (history st es) p = content st p ++ b.
Proof.
  change (grows p st (history st es)). revert st. induction es as [|e es IH]; intros st; [apply grows_refl|]. cbn.
  eapply grows_trans; [|apply IH]. destruct e as [f l fm|r|q b]; cbn.
  - exists []. rewrite app_nil_r. apply C80_configure.
  - apply log_grows.
  - apply grows_append.
Qed.

(* ------------------------------------------------------------------ one log file *)
Definition one (q : pystr) (n : N) (fmt : pystr) (st : LogSt) : Prop := l_level st = n /\ l_handlers st = [mkHandler q n fmt].
Lemma log_one q n fmt st r : n <> 0 -> one q n fmt st ->
  one q n fmt (log_record r st) /\
  forall p, content (log_record r st) p = content st p ++ (if under_ansibug (rc_logger r) && negb (rc_level r <? n) && eqb q p then line fmt r else []).
Proof.
  intros N0 (L & H). unfold LogModel.log_record. rewrite L, H. replace (n =? 0) with false by (symmetry; now apply N.eqb_neq).
  destruct (under_ansibug (rc_logger r)); cbn [andb negb].
  - destruct (rc_level r <? n) eqn:LT; cbn [fold_left andb negb].
    + split; [split; auto|]. intros p. now rewrite app_nil_r.
    + unfold LogModel.handle_record. cbn [hd_level hd_fmt hd_file]. rewrite LT.
      assert (LN : line fmt r = match (do t <- render fmt r; utf8_encode (t ++ [10])) with Ok b => b | Err _ => [] end) by (unfold LogSpec.line, bind; now destruct (render fmt r)).
      rewrite LN. destruct (bind _ _) as [b|e].
      * split; [split; auto|]. intros p. rewrite content_append. destruct (eqb q p); auto. now rewrite app_nil_r.
      * split; [split; auto|]. intros p. change (content (report (RFailed r e) st) p) with (content st p). destruct (eqb q p); now rewrite app_nil_r.
  - destruct (rc_level r <? 30); [split; [split; auto|intros p; now rewrite app_nil_r]|]. split; [split; auto|]. intros p. change (content (report (RLast r) st) p) with (content st p). now rewrite app_nil_r.
Qed.
Lemma history_one q n fmt : n <> 0 -> forall es st, one q n fmt st -> (forall e, In e es -> ~ is_conf e) ->
  forall p, exists bs, Forall2 (adds p q n fmt) es bs /\ content (history st es) p = content st p ++ concat bs.
Proof.
  intros N0. induction es as [|e es IH]; intros st O NC p; [exists []; cbn; rewrite app_nil_r; auto|].
  assert (NC' : forall e, In e es -> ~ is_conf e) by (intros x X; apply NC; now right).
  destruct e as [f l fm|r|o b].
  - exfalso. apply (NC _ (or_introl eq_refl)). red. eauto.
  - destruct (@log_one q n fmt st r N0 O) as (O' & C). destruct (IH _ O' NC' p) as (bs & F & E).
    exists ((if under_ansibug (rc_logger r) && negb (rc_level r <? n) && eqb q p then line fmt r else []) :: bs). split.
    + constructor; auto. destruct (under_ansibug (rc_logger r)) eqn:U; cbn [andb].
      * destruct (N.ltb_spec (rc_level r) n) as [LT|GE]; cbn [andb negb]; [now apply add_below|].
        destruct (eqb_spec q p) as [->|NE]; [apply add_rec; auto; now apply under_spec|apply add_file; congruence].
      * apply add_other_logger. intros X. apply under_spec in X. congruence.
    + change (history st (ERec r :: es)) with (history (log_record r st) es). cbn [concat]. rewrite E, C. now rewrite app_assoc.
  - assert (O' : one q n fmt (append_file o b st)) by exact O. destruct (IH _ O' NC' p) as (bs & F & E).
    exists ((if eqb o p then b else []) :: bs). split.
    + constructor; auto. destruct (eqb_spec o p) as [->|NE]; [apply add_theirs|now apply add_elsewhere].
    + change (history st (EOther o b :: es)) with (history (append_file o b st) es). cbn [concat]. rewrite E, content_append.
      destruct (eqb o p); cbn [app]; auto. now rewrite app_assoc.
Qed.
Lemma history_none : forall es st, l_level st = 0 -> l_handlers st = [] -> (forall e, In e es -> ~ is_conf e) ->
  l_level (history st es) = 0 /\ l_handlers (history st es) = [] /\
  forall p, exists bs, Forall2 (adds0 p) es bs /\ content (history st es) p = content st p ++ concat bs.
Proof.
  induction es as [|e es IH]; intros st L H NC; [csplit; auto; intros p; exists []; cbn; rewrite app_nil_r; auto|].
  assert (NC' : forall e, In e es -> ~ is_conf e) by (intros x X; apply NC; now right).
  destruct e as [f l fm|r|o b].
  - exfalso. apply (NC _ (or_introl eq_refl)). red. eauto.
  - assert (X : l_level (log_record r st) = 0 /\ l_handlers (log_record r st) = [] /\ forall p, content (log_record r st) p = content st p).
    { unfold LogModel.log_record. rewrite L, H. cbn [N.eqb]. rewrite andb_false_r. destruct (rc_level r <? 30) eqn:E; auto. destruct (under_ansibug _); rewrite ?E; auto. }
    destruct X as (L' & H' & C). destruct (IH _ L' H' NC') as (A & B & D). csplit; auto. intros p. destruct (D p) as (bs & F & E).
    exists ([] :: bs). split; [constructor; auto; constructor|]. change (history st (ERec r :: es)) with (history (log_record r st) es). cbn [concat app]. now rewrite E, C.
  - destruct (IH (append_file o b st) L H NC') as (A & B & D). csplit; auto. intros p. destruct (D p) as (bs & F & E).
    exists ((if eqb o p then b else []) :: bs). split.
    + constructor; auto. destruct (eqb_spec o p) as [->|NE]; [apply add0_theirs|now apply add0_elsewhere].
    + cbn [concat]. change (history st (EOther o b :: es)) with (history (append_file o b st) es). rewrite E, content_append. destruct (eqb o p); cbn [app]; auto. now rewrite app_assoc.
Qed.

(** Nobody asked for a log: no record is written to any file. *)
Theorem C80_no_log es files p : (forall e, In e es -> ~ is_conf e) ->
  exists bs, Forall2 (adds0 p) es bs /\ content (history (log_init files) es) p = content (log_init files) p ++ concat bs.
Proof. intros NC. now apply history_none. Qed.

(** A log of severity [n] asked for in file [q]: from then on that file receives ansibug's
    records of at least this severity, all of them, each once, in order, in the format
    asked for -- after what was there before and together with what other processes
    append; and no other file receives any. *)
Theorem C80_log_file_partial before e after files q n fmt p :
  (forall x, In x before \/ In x after -> ~ is_conf x) -> asks e q n fmt ->
  exists bs0 bs, Forall2 (adds0 p) before bs0 /\ Forall2 (adds p q n fmt) after bs /\
    content (history (log_init files) (before ++ e :: after)) p = content (log_init files) p ++ concat bs0 ++ concat bs.
Proof.
  intros NC (file & level & f & -> & -> & SV & -> & CO & VF).
  destruct (@history_none before (log_init files) eq_refl eq_refl) as (L & H & C); [auto|]. destruct (C p) as (bs0 & F0 & E0).
  unfold LogModel.history. rewrite fold_left_app. cbn [fold_left]. fold (history (log_init files) before).
  set (st := history (log_init files) before) in *. set (st1 := happens st (EConf file level f)).
  assert (O : one (abspath file) n (fmt_or f) st1 /\ content st1 p = content st p).
  { split; [|apply C80_configure]. subst st1. cbn. unfold LogModel.configure.
    assert (F : match f with Some (c :: r) => c :: r | _ => default_format end = fmt_or f) by (destruct f as [[|c r]|]; reflexivity).
    rewrite F, (sev_level SV), CO, VF. cbn. split; auto. cbn. now rewrite H. }
  destruct O as (O & CS). destruct (@history_one (abspath file) n (fmt_or f) (proj1 (sev_pos SV)) after st1 O) with (p := p) as (bs & FB & E); [auto|].
  exists bs0, bs. csplit; auto. fold (history st1 after). now rewrite E, CS, E0, app_assoc.
Qed.

(* ------------------------------------------------------------------ any number of logs *)
Definition handlers_of (l : list (pystr * N * pystr)) : list Handler := map (fun x => mkHandler (fst (fst x)) (snd (fst x)) (snd x)) l.
Lemma latest_snoc l q n fmt m : latest (l ++ [(q, n, fmt)]) m <-> m = n.
Proof.
  split; [intros (l' & q' & f' & E)|intros ->; now exists l, q, fmt]. apply app_inj_tail in E. destruct E as (_ & E). congruence.
Qed.
Lemma configure_cases file level f st :
  (exists n, asks (EConf file level f) (abspath file) n (fmt_or f) /\ l_level (fst (configure file level f st)) = n /\
     l_handlers (fst (configure file level f st)) = l_handlers st ++ [mkHandler (abspath file) n (fmt_or f)]) \/
  ((forall q n fmt, ~ asks (EConf file level f) q n fmt) /\ l_level (fst (configure file level f st)) = l_level st /\ l_handlers (fst (configure file level f st)) = l_handlers st).
Proof.
  assert (F : match f with Some (c :: r) => c :: r | _ => default_format end = fmt_or f) by (destruct f as [[|c r]|]; reflexivity).
  unfold LogModel.configure. rewrite F. pose proof (level_sev level) as LS. destruct (dget level_table level) as [n|] eqn:E.
  2: { right. csplit; auto. intros q n fmt (? & ? & ? & E1 & _ & SV & _). injection E1 as <- <- <-. now apply LS in SV. }
  destruct (can_open (abspath file)) eqn:CO; cbn [negb].
  2: { right. csplit; auto. intros q m fmt (? & ? & ? & E1 & -> & SV & -> & X & _). injection E1 as <- <- <-. congruence. }
  destruct (valid_fmt (fmt_or f)) eqn:VF; cbn [negb].
  2: { right. csplit; auto. intros q m fmt (? & ? & ? & E1 & -> & SV & -> & _ & X). injection E1 as <- <- <-. congruence. }
  left. exists n. csplit; auto. exists file, level, f. csplit; auto.
Qed.
Lemma record_keeps r st : l_level (log_record r st) = l_level st /\ l_handlers (log_record r st) = l_handlers st.
Proof.
  unfold LogModel.log_record. destruct (_ <? _); auto. destruct (if under_ansibug _ then _ else _) as [|h hs]; [destruct (_ <? _); auto|].
  generalize (h :: hs). clear. intros hs. revert st. induction hs as [|h hs IH]; intros st; auto. cbn.
  destruct (IH (handle_record r st h)) as (-> & ->). unfold LogModel.handle_record. destruct (_ <? _); auto. destruct (bind _ _); auto.
Qed.
Lemma asked_state es l files : asked abspath can_open valid_fmt es l ->
  let st := history (log_init files) es in
  l_handlers st = handlers_of l /\ match l with [] => l_level st = 0 | _ => latest l (l_level st) end.
Proof.
  intros A. cbn zeta. induction A as [|es l e q n fmt A IH K|es l e A IH K]; [cbn; auto|..]; unfold LogModel.history in *; rewrite fold_left_app; cbn [fold_left];
  set (st := fold_left happens es (log_init files)) in *; clearbody st; destruct IH as (H & L).
  - destruct K as (file & level & f & -> & -> & SV & -> & CO & VF). cbn [LogModel.happens].
    destruct (configure_cases file level f st) as [(m & (? & ? & ? & E1 & _ & SV' & _) & LV & HD)|(NO & _)].
    + injection E1 as <- <- <-. assert (MN : m = n) by (eapply sev_fun; eauto). rewrite MN in LV, HD. rewrite HD, H, LV. unfold handlers_of. rewrite map_app. split; auto.
      destruct (l ++ [(abspath file, n, fmt_or f)]) eqn:X; [destruct l; discriminate|]. rewrite <- X. now apply latest_snoc.
    + exfalso. apply (NO (abspath file) n (fmt_or f)). exists file, level, f. csplit; auto.
  - destruct e as [file level f|r|o b]; cbn [LogModel.happens].
    + destruct (configure_cases file level f st) as [(m & AS & _)|(_ & LV & HD)]; [now apply K in AS|]. rewrite HD, LV. auto.
    + destruct (record_keeps r st) as (-> & ->). auto.
    + auto.
Qed.
Lemma handle_all r p : forall l st,
  content (fold_left (handle_record r) (handlers_of l) st) p =
  content st p ++ concat (map (fun x => if eqb (fst (fst x)) p && negb (rc_level r <? snd (fst x)) then line (snd x) r else []) l).
Proof.
  induction l as [|((q, n), fmt) l IH]; intros st; [cbn; now rewrite app_nil_r|]. cbn [handlers_of map fold_left concat fst snd]. fold (handlers_of l).
  rewrite IH.
  assert (HC : content (handle_record r st (mkHandler q n fmt)) p = content st p ++ (if eqb q p && negb (rc_level r <? n) then line fmt r else [])).
  { unfold LogModel.handle_record. cbn [hd_level hd_fmt hd_file]. destruct (rc_level r <? n); cbn [negb]; [rewrite andb_false_r; now rewrite app_nil_r|rewrite andb_true_r].
    assert (LN : line fmt r = match (do t <- render fmt r; utf8_encode (t ++ [10])) with Ok b => b | Err _ => [] end) by (unfold LogSpec.line, bind; now destruct (render fmt r)).
    rewrite LN. destruct (bind _ _); [rewrite content_append; destruct (eqb q p); auto; now rewrite app_nil_r|].
    change (content (report (RFailed r e) st) p) with (content st p). destruct (eqb q p); now rewrite app_nil_r. }
  now rewrite HC, app_assoc.
Qed.
(** Whatever logs were asked for, a record adds to a file its line once for every log in
    that file whose severity it reaches -- provided it also reaches the severity asked for
    last, which governs all of them. *)
Theorem C80_each_record es l files r p : asked abspath can_open valid_fmt es l ->
  exists bs, Forall2 (gets render r p l) l bs /\
    content (history (log_init files) (es ++ [ERec r])) p = content (history (log_init files) es) p ++ concat bs.
Proof.
  intros A. assert (SEVPOS : forall x, In x l -> snd (fst x) <> 0).
  { clear - A. induction A as [|es l e q n fmt A IH K|es l e A IH K]; auto. intros x X. apply in_app_or in X. destruct X as [X|[<-|[]]]; auto.
    destruct K as (? & ? & ? & _ & _ & SV & _). apply (sev_pos SV). }
  destruct (@asked_state es l files A) as (H & L). cbn zeta in *. unfold LogModel.history in *. rewrite fold_left_app. cbn [fold_left LogModel.happens].
  set (st := fold_left happens es (log_init files)) in *. clearbody st. clear A.
  set (all := under_ansibug (rc_logger r) && negb (rc_level r <? l_level st)).
  exists (map (fun x => if all && (eqb (fst (fst x)) p && negb (rc_level r <? snd (fst x))) then line (snd x) r else []) l). split.
  - assert (TH : forall x, In x l -> (forall m, latest l m -> m <= rc_level r) <-> l_level st <= rc_level r).
    { intros x X. destruct l as [|y l]; [destruct X|]. split; [intros K; now apply K|]. intros K m (l' & q & fmt & E). destruct L as (l2 & q2 & f2 & E2).
      rewrite E in E2. apply app_inj_tail in E2. destruct E2 as (_ & E2). injection E2 as _ -> _. exact K. }
    assert (G : forall l0, (forall x, In x l0 -> In x l) -> Forall2 (gets render r p l) l0 (map (fun x => if all && (eqb (fst (fst x)) p && negb (rc_level r <? snd (fst x))) then line (snd x) r else []) l0)).
    { induction l0 as [|((q, n), fmt) l0 IH]; intros S; constructor; [|apply IH; intros x X; apply S; now right].
      specialize (TH _ (S _ (or_introl eq_refl))). unfold gets. cbn [fst snd]. rewrite TH, <- under_spec. unfold all.
      destruct (under_ansibug (rc_logger r)); cbn [andb]; [|right; split; auto; intros (_ & X & _); discriminate].
      destruct (N.ltb_spec (rc_level r) (l_level st)); cbn [andb negb]; [right; split; auto; intros (_ & _ & _ & X); lia|].
      destruct (eqb_spec q p); cbn [andb]; [|right; split; auto; tauto].
      destruct (N.ltb_spec (rc_level r) n); cbn [negb]; [right; split; auto; intros (_ & _ & X & _); lia|left; auto]. }
    apply G. auto.
  - assert (Z : (all = false \/ l = []) -> content st p = content st p ++ concat (map (fun x => if all && (eqb (fst (fst x)) p && negb (rc_level r <? snd (fst x))) then line (snd x) r else []) l)).
    { intros [-> | ->]; [|cbn; now rewrite app_nil_r]. clear. induction l as [|x l IH]; cbn in *; auto; now rewrite app_nil_r. }
    unfold LogModel.log_record. unfold all in *. destruct (under_ansibug (rc_logger r)) eqn:U; cbn [andb] in *.
    + destruct l as [|x l].
      * rewrite H. cbn [handlers_of map]. cbn [map concat]. rewrite app_nil_r. destruct (rc_level r <? (if negb (l_level st =? 0) then l_level st else 30)); [reflexivity|]. destruct (rc_level r <? 30); reflexivity.
      * assert (NZ : l_level st <> 0).
        { destruct L as (l' & q & fmt & E). assert (IN : In (q, l_level st, fmt) (x :: l)) by (rewrite E; apply in_or_app; right; now left). exact (SEVPOS _ IN). }
        replace (l_level st =? 0) with false by (symmetry; now apply N.eqb_neq). cbn [negb].
        destruct (rc_level r <? l_level st) eqn:LT; cbn [negb andb] in *; [now apply Z; left|].
        rewrite H. change (match handlers_of (x :: l) with [] => _ | _ => _ end) with (fold_left (handle_record r) (handlers_of (x :: l)) st).
        rewrite handle_all. reflexivity.
    + rewrite <- Z by auto. destruct (rc_level r <? 30) eqn:E30; [reflexivity|]. rewrite ?E30. reflexivity.
Qed.

(** The adapter: logging never changes how it ends, and if it crashes and a log was asked
    for, the log ends with the crash, whatever the severity asked for. *)
Theorem C80_adapter_result file level body more st :
  match file with Some f => snd (configure (absolute f) level None st) = Ok tt | None => True end ->
  snd (start_dap file level body more st) = match snd body with Ok _ => Ok tt | Err e => Err e end.
Proof.
  unfold LogModel.start_dap. destruct file as [f|].
  - destruct (configure (absolute f) level None st) as (st1, r). cbn. intros ->. now destruct (snd body).
  - intros _. now destruct (snd body).
Qed.
Theorem C80_adapter_crash f level n es ex more files :
  asks (EConf (absolute f) level None) (abspath (absolute f)) n (fmt_or None) -> (forall x, In x es -> ~ is_conf x) ->
  let st := fst (start_dap (Some f) level (es, Err ex) more (log_init files)) in
  exists b, content st (abspath (absolute f)) = content (log_init files) (abspath (absolute f)) ++ b ++
    line (fmt_or None) (mkRec (s "ansibug._debug_adapter") 40 (s "Exception when running DA Server") (snd more)).
Proof.
  intros A NC. cbn zeta. set (r0 := mkRec adapter 20 (s "DAP starting") (fst more)). set (r1 := mkRec adapter 40 (s "Exception when running DA Server") (snd more)).
  destruct (@C80_log_file_partial [] (EConf (absolute f) level None) (ERec r0 :: es ++ [ERec r1]) files (abspath (absolute f)) n (fmt_or None) (abspath (absolute f))) as (bs0 & bs & F0 & F1 & E); auto.
  { intros x [[]|[<-|X]]; [intros (? & ? & ? & X); discriminate|]. apply in_app_or in X. destruct X as [X|[<-|[]]]; [now apply NC|intros (? & ? & ? & X); discriminate]. }
  inversion F0; subst bs0. cbn [concat app] in E.
  assert (ST : fst (start_dap (Some f) level (es, Err ex) more (log_init files)) = history (log_init files) ([] ++ EConf (absolute f) level None :: ERec r0 :: es ++ [ERec r1])).
  { unfold LogModel.start_dap. cbn [app LogModel.history fold_left LogModel.happens].
    destruct A as (file & lv & f1 & E1 & E2 & SV & E3 & CO & VF). injection E1 as <- <- <-.
    pose proof (proj1 (C80_configure (absolute f) level None (log_init files)) _ SV) as OK. cbn zeta in OK. specialize (OK CO VF).
    destruct (configure (absolute f) level None (log_init files)) as (st1, rr). cbn in OK. subst rr. cbn [fst snd]. rewrite fold_left_app. reflexivity. }
  rewrite ST. cbn [app]. cbn [app] in E. rewrite E. inversion F1 as [|? b0 ? bs' _ F2]; subst. apply Forall2_app_inv_l in F2. destruct F2 as (b1 & b2 & _ & F3 & ->).
  inversion F3 as [|? x ? y AD F4]; subst. inversion F4; subst. exists (b0 ++ concat b1). f_equal. cbn [concat]. rewrite concat_app. cbn [concat]. rewrite app_nil_r.
  assert (X : x = line (fmt_or None) r1).
  { destruct A as (file & lv & f1 & E1 & E2 & SV & E3 & CO & VF). injection E1 as <- <- <-. inversion AD; subst; auto; try congruence.
    - exfalso. match goal with N : ~ of_ansibug _ |- _ => apply N end. right. exists (s "_debug_adapter"). reflexivity.
    - exfalso. apply sev_pos in SV. cbn in *. lia. }
  rewrite X. now rewrite app_assoc.
Qed.

(** Both programs log in the same form by default. *)
Theorem C80_default_format st file level : configure file level (Some cb_default_format) st = configure file level None st.
Proof. reflexivity. Qed.
End L.
Print Assumptions C80_configure.
Print Assumptions C80_append_only.
Print Assumptions C80_no_log.
Print Assumptions C80_log_file_partial.
Print Assumptions C80_each_record.
Print Assumptions C80_adapter_result.
Print Assumptions C80_adapter_crash.
Print Assumptions C80_default_format.

(** With the logging configured by every playbook of a run (callback/debug.py:168-174 runs at
    the start of each), a record is written once for every playbook begun so far. *)
Theorem C80_one_line_per_record_refuted abspath can_open valid_fmt render file level fmt r n k files :
  severity level n -> can_open (abspath file) = true -> valid_fmt fmt = true -> file <> [] -> fmt <> [] -> of_ansibug r -> n <= rc_level r ->
  content (history abspath can_open valid_fmt render (log_init files) (concat (repeat (cb_logging (Some file) level fmt) k) ++ [ERec r])) (abspath file) =
  content (log_init files) (abspath file) ++ concat (repeat (line render fmt r) k).
Proof.
  intros SV CO VF NE NF OA GE.
  assert (CB : cb_logging (Some file) level fmt = [EConf file level (Some fmt)]) by (destruct file; [congruence|reflexivity]). rewrite CB.
  assert (K : forall k st, (k = 0%nat -> l_handlers st = []) ->
    let st' := history abspath can_open valid_fmt render st (concat (repeat [EConf file level (Some fmt)] k)) in
    l_handlers st' = l_handlers st ++ repeat (mkHandler (abspath file) n fmt) k /\ (k <> 0%nat -> l_level st' = n) /\ content st' (abspath file) = content st (abspath file) /\ (k = 0%nat -> st' = st)).
  { clear k. induction k as [|k IH] using nat_ind; intros st H0; cbn zeta.
    - cbn. rewrite app_nil_r. csplit; auto. congruence.
    - cbn [repeat concat app]. unfold history in *. cbn [fold_left].
      set (st1 := happens abspath can_open valid_fmt render st (EConf file level (Some fmt))).
      assert (S1 : l_handlers st1 = l_handlers st ++ [mkHandler (abspath file) n fmt] /\ l_level st1 = n /\ content st1 (abspath file) = content st (abspath file)).
      { pose proof (C80_configure abspath can_open valid_fmt file level (Some fmt) st) as (_ & _ & _ & _ & CC & _).
        subst st1. cbn. unfold configure in *. rewrite (sev_level SV), CO in *. destruct fmt as [|c fm]; [congruence|]. cbn [negb] in *. rewrite VF in *. cbn [negb fst l_handlers l_level] in *. csplit; auto. }
      destruct S1 as (S1 & S2 & S3). clearbody st1.
      destruct k as [|k].
      + cbn. rewrite S1. csplit; auto. congruence.
      + destruct (IH st1) as (A & B & C & _); [discriminate|]. cbn zeta in *. csplit.
        * rewrite A, S1, <- app_assoc. reflexivity.
        * intros _. apply B. discriminate.
        * now rewrite C, S3.
        * discriminate. }
  destruct (K k (log_init files)) as (A & B & C & D); [reflexivity|]. cbn zeta in *. unfold history in *. rewrite fold_left_app.
  set (st := fold_left (happens abspath can_open valid_fmt render) (concat (repeat [EConf file level (Some fmt)] k)) (log_init files)) in *.
  cbn [fold_left happens]. rewrite <- C. clearbody st. cbn in A.
  unfold log_record. rewrite (proj2 (under_spec r) OA). cbn [andb].
  destruct k as [|k].
  - rewrite A. cbn [repeat concat]. rewrite app_nil_r. destruct (_ <? _); [reflexivity|]. destruct (_ <? _); reflexivity.
  - rewrite B by discriminate. replace (n =? 0) with false by (symmetry; apply N.eqb_neq; apply (sev_pos SV)). cbn [negb].
    replace (rc_level r <? n) with false by (symmetry; apply N.ltb_ge; exact GE). rewrite A.
    change (repeat (mkHandler (abspath file) n fmt) (S k)) with (mkHandler (abspath file) n fmt :: repeat (mkHandler (abspath file) n fmt) k).
    change (mkHandler (abspath file) n fmt :: repeat (mkHandler (abspath file) n fmt) k) with (repeat (mkHandler (abspath file) n fmt) (S k)).
    clear A B C D K. cbn iota. change (match repeat (mkHandler (abspath file) n fmt) (S k) with [] => _ | _ => _ end) with (fold_left (handle_record render r) (repeat (mkHandler (abspath file) n fmt) (S k)) st).
    generalize (S k). clear k. intros k. revert st. induction k as [|k IH]; intros st; [cbn; now rewrite app_nil_r|].
    cbn [repeat fold_left concat]. rewrite IH.
    assert (HC : content (handle_record render r st (mkHandler (abspath file) n fmt)) (abspath file) = content st (abspath file) ++ line render fmt r).
    { unfold handle_record. cbn [hd_level hd_fmt hd_file]. replace (rc_level r <? n) with false by (symmetry; apply N.ltb_ge; exact GE).
      assert (LN : line render fmt r = match (do t <- render fmt r; utf8_encode (t ++ [10])) with Ok b => b | Err _ => [] end) by (unfold line, bind; now destruct (render fmt r)).
      rewrite LN. destruct (bind _ _); [rewrite content_append, eqb_refl; reflexivity|cbn; now rewrite app_nil_r]. }
    now rewrite HC, app_assoc.
Qed.
Print Assumptions C80_one_line_per_record_refuted.

(* ------------------------------------------------------------------ a concrete log *)
Definition demo_render (f : pystr) (r : Rec) : res pystr := Ok (rc_logger r ++ s ": " ++ rc_msg r).
Definition rec_a := mkRec (s "ansibug.strategy") 20 (s "hello") 0.
Definition rec_b := mkRec (s "ansibug.callback") 10 (s "details") 0.
Definition rec_c := mkRec (s "ansible") 40 (s "other") 0.
Example C80_demo : let cf := EConf (s "x.log") (s "info") None in
  asks (fun p => s "/t/" ++ p) (fun _ => true) (fun _ => true) cf (s "/t/x.log") 20 (fmt_or None) /\
  content (history (fun p => s "/t/" ++ p) (fun _ => true) (fun _ => true) demo_render (log_init [(s "/t/x.log", s "old;")]) [ERec rec_a; cf; ERec rec_b; ERec rec_a; EOther (s "/t/x.log") (s "them;"); ERec rec_c; ERec rec_a])
    (s "/t/x.log") = s "old;" ++ s "ansibug.strategy: hello" ++ [10] ++ s "them;" ++ s "ansibug.strategy: hello" ++ [10].
Proof. split; [|vm_compute; reflexivity]. exists (s "x.log"), (s "info"), None. csplit; auto; constructor. Qed.
(** Two logs in one process: the second severity governs the first file too. *)
Example C80_asked_met : let A := fun p : pystr => p in let T := fun _ : pystr => true in
  asked A T T ([EConf (s "a") (s "debug") None; ERec rec_b] ++ [EConf (s "b") (s "info") None]) [(s "a", 10, fmt_or None); (s "b", 20, fmt_or None)] /\
  content (history A T T demo_render (log_init []) [EConf (s "a") (s "debug") None; ERec rec_b; EConf (s "b") (s "info") None; ERec rec_b; ERec rec_a]) (s "a") =
    s "ansibug.callback: details" ++ [10] ++ s "ansibug.strategy: hello" ++ [10].
Proof.
  split; [|vm_compute; reflexivity]. apply (asked_more (l := [(s "a", 10, fmt_or None)])); [|exists (s "b"), (s "info"), None; csplit; auto; constructor].
  apply (asked_same (es := [EConf (s "a") (s "debug") None])); [|intros q n fmt (? & ? & ? & X & _); discriminate].
  apply (asked_more (es := []) (l := [])); [constructor|]. exists (s "a"), (s "debug"), None. csplit; auto; constructor.
Qed.
