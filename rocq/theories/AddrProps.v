(** C49: addresses round-trip, malformed ones are rejected. *)
From Verif Require Import PyBase PyDict Digits AddrModel AddrSpec.
Set Implicit Arguments.
Local Open Scope N_scope.
(** Spell out string literals. *)
Ltac sx := repeat match goal with
  | H : context [s ?x] |- _ => let y := eval vm_compute in (s x) in change (s x) with y in H
  | |- context [s ?x] => let y := eval vm_compute in (s x) in change (s x) with y end.
Ltac csplit := repeat match goal with |- _ /\ _ => split end.

Section P.
Variable lower_other : pystr -> pystr.
Variable nfkc_ok : pystr -> bool.
Variable bracket_ok : pystr -> bool.
Notation urlsplit := (urlsplit nfkc_ok bracket_ok).
Notation parse_addr := (parse_addr lower_other nfkc_ok bracket_ok).
Notation url_host := (url_host lower_other).
Notation lower := (lower lower_other).

Lemma partition_none c l : no c l -> partition1 c l = (l, false, []).
Proof.
  induction l as [|x l IH]; intros H; auto. cbn. destruct (N.eqb_spec x c) as [-> |_]; [exfalso; apply H; now left|].
  rewrite IH; auto. intros I. apply H. now right.
Qed.
Lemma partition_some c a b : no c a -> partition1 c (a ++ c :: b) = (a, true, b).
Proof.
  induction a as [|x a IH]; intros H; cbn; [now rewrite N.eqb_refl|]. destruct (N.eqb_spec x c) as [-> |_]; [exfalso; apply H; now left|].
  rewrite IH; auto. intros I. apply H. now right.
Qed.
Lemma partition_fst c l : incl (fst (fst (partition1 c l))) l /\ no c (fst (fst (partition1 c l))).
Proof.
  induction l as [|x l (I & N)]; cbn; [split; [intros y []|intros []]|]. destruct (N.eqb_spec x c) as [_|NE]; [split; [intros y []|intros []]|].
  destruct (partition1 c l) as [[a b] d]. cbn in *. split; [intros y [->|Y]; [now left|right; auto]|intros [E|Y]; [congruence|now apply N]].
Qed.
Lemma split_netloc_app a b : (forall c, In c a -> ~ In c [47; 63; 35]) -> match b with [] => True | c :: _ => In c [47; 63; 35] end -> split_netloc (a ++ b) = (a, b).
Proof.
  induction a as [|x a IH]; intros H B.
  - destruct b as [|c b]; [reflexivity|]. cbn [app split_netloc]. assert (M : mem c (s "/?#") = true) by (apply mem_In; exact B). now rewrite M.
  - cbn [app split_netloc]. assert (M : mem x (s "/?#") = false) by (apply mem_not_In; apply H; now left). rewrite M. rewrite IH; auto. intros c I. apply H. now right.
Qed.
Lemma split_netloc_spec l : let '(a, b) := split_netloc l in l = a ++ b /\ (forall c, In c a -> ~ In c [47; 63; 35]).
Proof.
  induction l as [|x l IH]; cbn [split_netloc]; [split; [reflexivity|intros c []]|]. destruct (mem x (s "/?#")) eqn:M; [split; [reflexivity|intros c []]|].
  destruct (split_netloc l) as [a b]. destruct IH as (-> & H). split; [reflexivity|]. intros c [<-|I]; [|now apply H]. apply mem_not_In in M. exact M.
Qed.
Lemma filter_clean l : (forall c, In c l -> ~ In c [9; 13; 10]) -> filter (fun c => negb (mem c [9; 13; 10])) l = l.
Proof.
  induction l as [|x l IH]; intros H; auto. cbn [filter]. assert (M : mem x [9; 13; 10] = false) by (apply mem_not_In; apply H; now left). rewrite M. cbn [negb]. f_equal. apply IH. intros c I. apply H. now right.
Qed.
Lemma alpha_gt c : is_alpha c = true -> 64 < c.
Proof. unfold is_alpha, is_upper. intros H. apply orb_prop in H as [H|H]; apply andb_prop in H as (H & _); apply N.leb_le in H; lia. Qed.
Lemma scheme_char_ok c : scheme_char c = true -> c <> 58 /\ ~ In c [9; 13; 10].
Proof.
  intros H. split; [intros ->; discriminate H|]. cbn. intros I. repeat (destruct I as [<-|I]; [discriminate H|]). exact I.
Qed.
Lemma split_scheme sch x : is_scheme sch -> (forall c, In c x -> ~ In c [9; 13; 10]) ->
  urlsplit (sch ++ 58 :: x) = bind (match x with
        | 47 :: 47 :: r =>
          let '(netloc, rest) := split_netloc r in
          if negb (Bool.eqb (has 91 netloc) (has 93 netloc)) then Err ValueError
          else if has 91 netloc && negb (bracket_ok netloc) then Err ValueError
          else Ok (netloc, rest)
        | _ => Ok ([], x)
        end) (fun p => let '(netloc, url) := p in
  let path := fst (fst (partition1 63 (fst (fst (partition1 35 url))))) in
  if is_ascii netloc || nfkc_ok netloc then Ok (map lower1 sch, netloc, path) else Err ValueError).
Proof.
  intros (A & SC) X. unfold AddrModel.urlsplit. destruct sch as [|c sch]; [contradiction|].
  change (is_alpha c = true) in A. change (forallb scheme_char (c :: sch) = true) in SC.
  assert (SCF : forall d, In d (c :: sch) -> scheme_char d = true) by (apply forallb_forall; exact SC).
  assert (D : drop_while (fun c => c <=? 32) ((c :: sch) ++ 58 :: x) = (c :: sch) ++ 58 :: x).
  { cbn [app drop_while]. apply alpha_gt in A. destruct (N.leb_spec c 32); [lia|reflexivity]. }
  rewrite D, filter_clean; cycle 1.
  { intros d I. apply in_app_or in I as [I|[<-|I]]; [now apply scheme_char_ok, SCF|cbn; intuition discriminate|now apply X]. }
  rewrite partition_some by (intros I; apply SCF, scheme_char_ok in I; tauto). rewrite A, SC. cbn [andb]. reflexivity.
Qed.

(** ** Unix sockets *)
Lemma clean3 l : clean l -> forall c, In c l -> ~ In c [9; 13; 10].
Proof. intros H c I J. apply (H c I). cbn in *. tauto. Qed.
Lemma uds_scheme : is_scheme (s "uds") /\ is_scheme (s "tcp").
Proof. repeat split. Qed.
Lemma uds_path p : clean p -> hd_error p = Some 47 -> forall tmp uuid, parse_addr tmp uuid (address (SUnix p)) = Ok (AUds p).
Proof.
  intros C H tmp uuid. destruct p as [|x p]; [discriminate|]. cbn in H. injection H as ->.
  unfold AddrModel.parse_addr, address. change (s "uds://" ++ 47 :: p) with (s "uds" ++ 58 :: 47 :: 47 :: 47 :: p).
  rewrite split_scheme; [|apply uds_scheme|].
  2: { intros c I. destruct I as [<-|[<-|I]]; [cbn; intuition discriminate|cbn; intuition discriminate|]. now apply (clean3 C). }
  change (split_netloc (47 :: p)) with (@nil N, 47 :: p). cbn [has mem existsb Bool.eqb negb andb bind is_ascii forallb orb].
  rewrite (@partition_none 35) by (intros I; apply (C _ I); cbn; tauto). cbn [fst]. rewrite partition_none by (intros I; apply (C _ I); cbn; tauto). cbn [fst].
  reflexivity.
Qed.
Lemma clean_filter l : forall c, In c (filter (fun c => negb (mem c [9; 13; 10])) l) -> ~ In c [9; 13; 10].
Proof. intros c I. apply filter_In in I as (_ & M). apply negb_true_iff, mem_not_In in M. exact M. Qed.
Lemma partition_incl c l : forall a b d, partition1 c l = (a, b, d) -> incl a l /\ incl d l.
Proof.
  induction l as [|x l IH]; intros a b d; cbn [partition1]; [intros E; injection E as <- <- <-; split; intros y []|]. destruct (x =? c).
  - intros E; injection E as <- <- <-. split; [intros y []|intros y Y; now right].
  - destruct (partition1 c l) as [[a' b'] d']. intros E; injection E as <- <- <-. destruct (IH _ _ _ eq_refl) as (A & D). split; [intros y [->|Y]; [now left|right; auto]|intros y Y; right; auto].
Qed.
Lemma urlsplit_clean value sch netloc path : urlsplit value = Ok (sch, netloc, path) -> clean netloc /\ clean path.
Proof.
  unfold AddrModel.urlsplit. set (url := filter _ _). assert (U : forall c, In c url -> ~ In c [9; 13; 10]) by apply clean_filter. clearbody url.
  destruct (partition1 58 url) as [[head found] rest] eqn:P. apply partition_incl in P as (_ & PI).
  set (q := match head with [] => _ | _ => _ end). assert (Q : forall c, In c (snd q) -> ~ In c [9; 13; 10]).
  { subst q. destruct head as [|c head]; [exact U|]. destruct (found && is_alpha c && forallb scheme_char (c :: head)); cbn [snd]; auto. }
  destruct q as [scheme u]. cbn [snd] in Q.
  set (r := match u with [] => _ | _ => _ end). intros E.
  assert (R : match r with Ok (n, w) => clean n /\ (forall c, In c w -> ~ In c [9; 13; 10]) | Err _ => True end).
  { assert (D : clean [] /\ (forall c, In c u -> ~ In c [9; 13; 10])) by (split; [intros c []|exact Q]).
    subst r. clear E. repeat match goal with |- match (match ?x with _ => _ end) with _ => _ end => destruct x eqn:?; try exact D end; auto.
    all: match goal with H : split_netloc ?x = _ |- _ => pose proof (split_netloc_spec x) as SP; rewrite H in SP; destruct SP as (-> & SP2) end.
    all: split; [|intros c I; apply Q; right; right; apply in_or_app; now right].
    all: intros c I J; cbn in J; destruct J as [<-|[<-|[<-|[<-|[<-|[]]]]]];
      first [eapply Q; [right; right; apply in_or_app; left; exact I|cbn; tauto]|apply (SP2 _ I); cbn; tauto]. }
  destruct r as [[n w]|]; [|discriminate E]. cbn [bind] in E. destruct R as (R1 & R2).
  destruct (is_ascii n || nfkc_ok n); [|discriminate]. injection E as <- <- <-. split; [exact R1|].
  destruct (partition_fst 35 w) as (I1 & N1). destruct (partition_fst 63 (fst (fst (partition1 35 w)))) as (I2 & N2).
  intros c I J. cbn in J. destruct J as [<-|[<-|[<-|[<-|[<-|[]]]]]]; try (eapply R2; [apply I1, I2, I|cbn; tauto]); [now apply N2|now apply N1, I2].
Qed.
Lemma join_clean tmp n : clean tmp -> clean n -> clean (join tmp n).
Proof.
  intros A B. unfold join. destruct (eqb (last tmp 0) 47); intros c I; rewrite ?in_app_iff in I; [destruct I as [I|I]; [now apply A|now apply B]|].
  destruct I as [I|[[<-|[]]|I]]; [now apply A|cbn; intuition discriminate|now apply B].
Qed.
(** C49, Unix sockets: if the address string [value] makes the listener bind the absolute
    path [p], then the address it reports is read by any other process (whatever its
    temporary directory) as exactly [p]. *)
Theorem C49_uds_partial tmp uuid value p : clean tmp -> clean uuid -> parse_addr tmp uuid value = Ok (AUds p) -> hd_error p = Some 47 ->
  forall tmp' uuid', parse_addr tmp' uuid' (address (SUnix p)) = Ok (AUds p).
Proof.
  intros CT CU E H. apply uds_path; [|exact H]. unfold AddrModel.parse_addr in E.
  destruct (urlsplit value) as [[[sch netloc] path]|] eqn:US; [|discriminate]. apply urlsplit_clean in US as (CN & CP). cbn [bind] in E.
  destruct (eqb sch (s "tcp")).
  { destruct netloc; [discriminate|]. destruct (url_port _) as [[]|]; discriminate. }
  destruct (eqb sch (s "uds")); [|discriminate]. destruct netloc as [|n netloc], path as [|x path]; try discriminate; injection E as <-; auto using join_clean.
  apply join_clean; auto. intros c I. cbn [In] in I. repeat (destruct I as [<-|I]; [cbn; intuition discriminate|]). now apply CU.
Qed.
(** ** TCP *)
Lemma digits_chars n : Forall (fun c => is_digit c = true) (digits n) /\ digits n <> [] /\ val_digits (digits n) = n.
Proof. destruct (digits_ok n) as (A & B & (d & r & E & _)). csplit; auto. rewrite E. discriminate. Qed.
Lemma port_ok n : n <= 65535 -> match digits n with [] => Ok None | p => if forallb is_digit p then (if val_digits p <=? 65535 then Ok (Some (val_digits p)) else Err ValueError) else Err ValueError end = Ok (Some n).
Proof.
  intros H. destruct (digits_chars n) as (A & B & C). destruct (digits n) as [|d r]; [congruence|]. rewrite <- C in H |- *. cbv zeta iota.
  assert (F : forallb is_digit (d :: r) = true) by (apply forallb_forall; rewrite Forall_forall in A; exact A). rewrite F. apply N.leb_le in H. now rewrite H.
Qed.
Lemma after_last_none c l : no c l -> after_last c l = l.
Proof.
  induction l as [|x l IH]; intros H; auto. cbn [after_last]. assert (M : mem c l = false) by (apply mem_not_In; intros I; apply H; now right). rewrite M.
  destruct (N.eqb_spec x c) as [-> |_]; [exfalso; apply H; now left|reflexivity].
Qed.
Lemma lower_id l : is_ascii l = true -> forallb (fun c => negb (is_upper c)) l = true -> lower l = l.
Proof.
  intros A U. unfold AddrModel.lower. rewrite A. rewrite forallb_forall in U. rewrite <- (map_id l) at 2. apply map_ext_in. intros c I. apply U, negb_true_iff in I. unfold lower1. now rewrite I.
Qed.
(** A netloc made of plain characters is taken whole. *)
Lemma parse_tcp tmp uuid netloc : netloc <> [] -> forallb netloc_char netloc = true -> has 91 netloc = has 93 netloc -> (has 91 netloc = true -> bracket_ok netloc = true) ->
  parse_addr tmp uuid (s "tcp://" ++ netloc) = bind (url_port netloc) (fun port => match port with Some n => Ok (ATcp (url_host netloc) n) | None => Err ValueError end).
Proof.
  intros NE F BR BO. unfold AddrModel.parse_addr. change (s "tcp://" ++ netloc) with (s "tcp" ++ 58 :: 47 :: 47 :: netloc).
  assert (G : forall c, In c netloc -> 32 < c < 128 /\ ~ In c (s "/?#@")).
  { intros c I. rewrite forallb_forall in F. apply F in I. unfold netloc_char in I. apply andb_prop in I as (I & M). apply andb_prop in I as (A & B). apply N.ltb_lt in A, B. apply negb_true_iff, mem_not_In in M. auto. }
  rewrite split_scheme; [|apply uds_scheme|].
  2: { intros c [<-|[<-|I]]; [cbn; intuition discriminate|cbn; intuition discriminate|]. apply G in I. cbn. intros J. destruct I as (I & _). intuition (subst; lia). }
  rewrite <- (app_nil_r netloc) at 1. rewrite split_netloc_app; [|intros c I J; apply G in I as (_ & I); apply I; sx; cbn in J |- *; tauto|exact Logic.I].
  rewrite BR, Bool.eqb_reflx. cbn [negb]. rewrite BR in BO. replace (has 93 netloc && negb (bracket_ok netloc)) with false by (destruct (has 93 netloc); [now rewrite BO|reflexivity]).
  cbn [bind partition1 fst]. assert (AS : is_ascii netloc = true).
  { apply forallb_forall. intros c I. apply G in I. apply N.ltb_lt. lia. }
  rewrite AS. cbn [orb bind]. change (eqb (map lower1 (s "tcp")) (s "tcp")) with true. cbv iota. destruct netloc; [congruence|reflexivity].
Qed.
Lemma plain_digit c : is_digit c = true -> 48 <= c <= 57.
Proof. unfold is_digit. intros H. apply andb_prop in H as (A & B). apply N.leb_le in A, B. lia. Qed.
Lemma no_digits c n : is_digit c = false -> no c (digits n).
Proof. intros H I. destruct (digits_chars n) as (A & _). rewrite Forall_forall in A. apply A in I. congruence. Qed.
Lemma netloc_digits n : forallb netloc_char (digits n) = true.
Proof.
  apply forallb_forall. intros c I. destruct (digits_chars n) as (A & _). rewrite Forall_forall in A. apply A, plain_digit in I. unfold netloc_char.
  assert (M : mem c (s "/?#@") = false) by (apply mem_not_In; sx; cbn; intros J; intuition (subst; lia)). rewrite M. apply andb_true_intro. split; [|reflexivity]. apply andb_true_intro. split; apply N.ltb_lt; lia.
Qed.
Lemma hostinfo_plain h n : no 64 h -> no 91 h -> no 58 h -> hostinfo (h ++ 58 :: digits n) = (h, digits n).
Proof.
  intros N1 N2 N3. unfold hostinfo. rewrite after_last_none by (intros I; apply in_app_or in I as [I|[E|I]]; [now apply N1|discriminate|revert I; now apply no_digits]).
  rewrite partition_none by (intros I; apply in_app_or in I as [I|[E|I]]; [now apply N2|discriminate|revert I; now apply no_digits]).
  rewrite partition_some by exact N3. reflexivity.
Qed.
Lemma hostinfo_br h n : no 64 h -> no 93 h -> hostinfo (91 :: h ++ 93 :: 58 :: digits n) = (h, digits n).
Proof.
  intros N1 N2. unfold hostinfo. rewrite after_last_none by (intros [E|I]; [discriminate|]; apply in_app_or in I as [I|[E|[E|I]]]; [now apply N1|discriminate|discriminate|revert I; now apply no_digits]).
  cbn [partition1 N.eqb Pos.eqb]. rewrite partition_some by exact N2. cbn [partition1 N.eqb Pos.eqb]. reflexivity.
Qed.
Lemma has_app c a b : has c (a ++ b) = has c a || has c b.
Proof. unfold has, mem. apply existsb_app. Qed.
Lemma has_no c l : no c l -> has c l = false.
Proof. intros H. now apply mem_not_In. Qed.
(** C49, TCP over IPv4 and IPv6: the reported address is read as the bound host and port. *)
Theorem C49_tcp4 h n tmp uuid : host4 h -> n <= 65535 -> parse_addr tmp uuid (address (SInet h n)) = Ok (ATcp h n).
Proof.
  intros (NE & F) L. assert (G : forall c, In c h -> 46 <= c <= 57 /\ c <> 47).
  { intros c I. rewrite forallb_forall in F. apply F in I. apply orb_prop in I as [I|I]; [apply plain_digit in I; lia|apply N.eqb_eq in I; lia]. }
  assert (NO : forall c, 57 < c -> no c h) by (intros c C I; apply G in I; lia).
  unfold address. change ([58] ++ digits n) with (58 :: digits n). rewrite parse_tcp.
  - unfold url_port. rewrite hostinfo_plain by (apply NO; reflexivity). cbn [snd]. rewrite port_ok by exact L. cbn [bind]. unfold AddrModel.url_host. rewrite hostinfo_plain by (apply NO; reflexivity). cbn [fst].
    rewrite partition_none by (intros I; apply G in I; lia). rewrite lower_id; [now rewrite app_nil_r|apply forallb_forall; intros c I; apply G in I; apply N.ltb_lt; lia|].
    apply forallb_forall. intros c I. apply G in I. unfold is_upper. destruct (N.leb_spec 65 c); [lia|reflexivity].
  - destruct h; [congruence|discriminate].
  - rewrite forallb_app. apply andb_true_intro. split; [|apply netloc_digits]. apply forallb_forall. intros c I. apply G in I. unfold netloc_char.
    assert (M : mem c (s "/?#@") = false) by (apply mem_not_In; sx; cbn; intros J; intuition (subst; lia)). rewrite M. apply andb_true_intro. split; [|reflexivity]. apply andb_true_intro. split; apply N.ltb_lt; lia.
  - rewrite !has_app, !(has_no (l := h)) by (apply NO; reflexivity). cbn [orb]. now rewrite !has_no by (intros [E|I]; [discriminate|revert I; now apply no_digits]).
  - rewrite !has_app, !(has_no (l := h)) by (apply NO; reflexivity). cbn [orb]. now rewrite !has_no by (intros [E|I]; [discriminate|revert I; now apply no_digits]).
Qed.
Theorem C49_tcp6 h n tmp uuid : host6 h -> n <= 65535 -> bracket_ok (91 :: h ++ 93 :: 58 :: digits n) = true -> parse_addr tmp uuid (address (SInet6 h n)) = Ok (ATcp h n).
Proof.
  intros (a & z & -> & NE & FA & FZ) L BO.
  assert (GA : forall c, In c a -> (46 <= c <= 58 /\ c <> 47) \/ 97 <= c <= 102).
  { intros c I. rewrite forallb_forall in FA. apply FA in I. apply orb_prop in I as [I|I]; [apply orb_prop in I as [I|I]; [apply plain_digit in I; lia|apply andb_prop in I as (A & B); apply N.leb_le in A, B; lia]|].
    apply mem_In in I. sx. cbn in I. intuition (subst; lia). }
  assert (GZ : forall c, In c z -> 36 < c < 128 /\ ~ In c (s "/?#@[]")).
  { destruct z as [|p z]; [intros c []|]. destruct FZ as (-> & FZ). intros c [<-|I]; [split; [lia|sx; cbn; intuition discriminate]|]. rewrite forallb_forall in FZ. apply FZ in I. clear - I.
    assert (K : negb (zone_char c) || negb (mem c (s "/?#@[]")) = true /\ 36 < c < 128).
    { assert (L : 36 < c < 128).
      { unfold zone_char, is_alpha, is_upper, is_digit in I. apply orb_prop in I as [I|I]; [apply orb_prop in I as [I|I]; [apply orb_prop in I as [I|I]|]; apply andb_prop in I as (A & B); apply N.leb_le in A, B; lia|].
        apply mem_In in I. sx. cbn in I. intuition (subst; lia). }
      split; [|exact L]. destruct (mem c (s "/?#@[]")) eqn:M; [|now rewrite orb_true_r]. apply mem_In in M. sx. cbn in M. intuition (subst; reflexivity). }
    destruct K as (K & L). rewrite I in K. cbn [negb orb] in K. apply negb_true_iff, mem_not_In in K. auto. }
  assert (GH : forall c, In c (a ++ z) -> 36 < c < 128 /\ ~ In c (s "/?#@[]")).
  { intros c I. apply in_app_or in I as [I|I]; [|now apply GZ]. apply GA in I. split; [lia|]. sx. cbn. intros J. intuition (subst; lia). }
  assert (NO : forall c, In c (s "/?#@[]") -> no c (a ++ z)) by (intros c C I; apply GH in I; tauto).
  unfold address. change (s "tcp://[" ++ (a ++ z) ++ s "]:" ++ digits n) with (s "tcp://" ++ (91 :: (a ++ z) ++ 93 :: 58 :: digits n)).
  rewrite parse_tcp.
  - unfold url_port. rewrite hostinfo_br by (apply NO; sx; cbn; tauto). cbn [snd]. rewrite port_ok by exact L. cbn [bind]. unfold AddrModel.url_host. rewrite hostinfo_br by (apply NO; sx; cbn; tauto). cbn [fst].
    assert (N37 : no 37 a) by (intros I; apply GA in I; lia).
    assert (LA : lower a = a).
    { apply lower_id; apply forallb_forall; intros c I; apply GA in I; [apply N.ltb_lt; lia|]. unfold is_upper. destruct (N.leb_spec 65 c); [|reflexivity]. destruct (N.leb_spec c 90); [lia|reflexivity]. }
    destruct z as [|p z].
    + rewrite app_nil_r in *. rewrite partition_none by exact N37. rewrite LA. now rewrite app_nil_r.
    + destruct FZ as (-> & _). rewrite partition_some by exact N37. rewrite LA. reflexivity.
  - discriminate.
  - cbn [forallb]. apply andb_true_intro. split; [reflexivity|]. rewrite forallb_app. apply andb_true_intro. split.
    + apply forallb_forall. intros c I. apply GH in I as (I & J). unfold netloc_char. assert (M : mem c (s "/?#@") = false) by (apply mem_not_In; intros K; apply J; sx; cbn in *; tauto).
      rewrite M. apply andb_true_intro. split; [|reflexivity]. apply andb_true_intro. split; apply N.ltb_lt; lia.
    + cbn [forallb]. rewrite netloc_digits. reflexivity.
  - unfold has. transitivity true; [reflexivity|symmetry]. apply mem_In. right. apply in_or_app. right. now left.
  - intros _. exact BO.
Qed.

(** ** Rejection *)
(** Nothing but ValueError is raised. *)
Theorem C49_only_value_error tmp uuid value : match parse_addr tmp uuid value with Ok _ => True | Err e => e = ValueError end.
Proof.
  unfold AddrModel.parse_addr. assert (U : match urlsplit value with Ok _ => True | Err e => e = ValueError end).
  { unfold AddrModel.urlsplit. destruct (partition1 58 _) as [[head found] rest]. match goal with |- context [let '(a, b) := ?q in _] => destruct q as [scheme u] end.
    match goal with |- context [bind ?m ?f] => assert (M : match m with Ok _ => True | Err e => e = ValueError end); [|destruct m as [[n w]|e]; [cbn [bind]; destruct (is_ascii n || nfkc_ok n); auto|exact M]] end.
    repeat match goal with |- match (match ?x with _ => _ end) with _ => _ end => destruct x; auto end. }
  destruct (urlsplit value) as [[[sch n] pa]|e]; [|exact U]. cbn [bind]. destruct (eqb sch (s "tcp")).
  { destruct n as [|c n]; [exact Logic.I|]. unfold url_port. destruct (snd (hostinfo (c :: n))) as [|d pt]; [reflexivity|]. destruct (forallb is_digit (d :: pt)); [|reflexivity]. destruct (val_digits (d :: pt) <=? 65535); reflexivity. }
  destruct (eqb sch (s "uds")); [|reflexivity]. destruct n, pa; auto.
Qed.
(** A scheme other than tcp and uds (in any case), or none, is rejected. *)
Lemma bad_scheme_model tmp uuid value : 
  (no 58 value -> parse_addr tmp uuid value = Err ValueError) /\
  (forall sch rest, value = sch ++ 58 :: rest -> is_scheme sch -> (forall c, In c rest -> ~ In c [9; 13; 10]) -> map lower1 sch <> s "tcp" -> map lower1 sch <> s "uds" -> parse_addr tmp uuid value = Err ValueError).
Proof.
  pose proof (C49_only_value_error tmp uuid value) as V.
  assert (K : forall sch, sch <> s "tcp" -> sch <> s "uds" -> (exists e, urlsplit value = Err e) \/ (exists n p, urlsplit value = Ok (sch, n, p)) -> parse_addr tmp uuid value = Err ValueError).
  { intros sch N1 N2 D. destruct (parse_addr tmp uuid value) as [a|e] eqn:E; [|now subst]. exfalso. unfold AddrModel.parse_addr in E. destruct D as [(e & D)|(n & p & D)]; rewrite D in E; [discriminate|]. cbn [bind] in E.
    apply eqb_neq in N1, N2. rewrite N1, N2 in E. discriminate. }
  split.
  - intros NC. apply (K []); try discriminate. unfold AddrModel.urlsplit.
    rewrite partition_none; cycle 1.
    { intros I. apply filter_In in I as (I & _). apply NC. clear - I. induction value as [|x v IH]; [exact I|]. cbn [drop_while] in I. destruct (x <=? 32); [right; auto|exact I]. }
    set (u := filter _ _). destruct u as [|c u].
    + right. cbn. eauto.
    + cbn [andb]. match goal with |- context [bind ?m ?f] => destruct m as [[n w]|e]; [cbn [bind]; destruct (is_ascii n || nfkc_ok n); eauto|left; cbn; eauto] end.
  - intros sch rest -> S C N1 N2. apply (K (map lower1 sch)); auto. rewrite split_scheme by assumption.
    match goal with |- context [bind ?m ?f] => destruct m as [[n w]|e]; [cbn [bind]; destruct (is_ascii n || nfkc_ok n); eauto|left; cbn; eauto] end.
Qed.
Theorem C49_bad_scheme tmp uuid value : 
  (no 58 value -> parse_addr tmp uuid value = Err ValueError) /\
  (forall sch rest, value = sch ++ 58 :: rest -> is_scheme sch -> (forall c, In c rest -> ~ In c [9; 13; 10]) -> small sch <> s "tcp" -> small sch <> s "uds" -> parse_addr tmp uuid value = Err ValueError).
Proof. exact (@bad_scheme_model tmp uuid value). Qed.
(** tcp://host without a port, and tcp://host:port with a port that is no number or too
    large, are rejected; with a good port the host is kept (in lower case). *)
Lemma tcp_text_model tmp uuid h p : h <> [] -> forallb (fun c => netloc_char c && negb (mem c (s "[]:%"))) h = true -> forallb (fun c => netloc_char c && negb (mem c (s "[]"))) p = true ->
  parse_addr tmp uuid (s "tcp://" ++ h) = Err ValueError /\
  (p <> [] -> forallb is_digit p = false \/ 65535 < val_digits p -> parse_addr tmp uuid (s "tcp://" ++ h ++ 58 :: p) = Err ValueError) /\
  (p <> [] -> forallb is_digit p = true -> val_digits p <= 65535 -> parse_addr tmp uuid (s "tcp://" ++ h ++ 58 :: p) = Ok (ATcp (map lower1 h) (val_digits p))).
Proof.
  intros NE FH FP. assert (GH : forall c, In c h -> netloc_char c = true /\ ~ In c (s "[]:%")).
  { intros c I. rewrite forallb_forall in FH. apply FH, andb_prop in I as (A & B). apply negb_true_iff, mem_not_In in B. auto. }
  assert (GP : forall c, In c p -> netloc_char c = true /\ ~ In c (s "[]")).
  { intros c I. rewrite forallb_forall in FP. apply FP, andb_prop in I as (A & B). apply negb_true_iff, mem_not_In in B. auto. }
  assert (A64 : no 64 h /\ no 64 p) by (split; intros I; [apply GH in I|apply GP in I]; destruct I as (I & _); discriminate I).
  assert (NH : forall c, In c (s "[]:%") -> no c h) by (intros c C I; apply GH in I; tauto).
  assert (NPP : forall c, In c (s "[]") -> no c p) by (intros c C I; apply GP in I; tauto).
  assert (HI : hostinfo h = (h, [])).
  { unfold hostinfo. rewrite after_last_none by apply A64. rewrite partition_none by (apply NH; sx; cbn; tauto). rewrite partition_none by (apply NH; sx; cbn; tauto). reflexivity. }
  assert (HP : hostinfo (h ++ 58 :: p) = (h, p)).
  { unfold hostinfo. rewrite after_last_none by (intros I; apply in_app_or in I as [I|[E|I]]; [now apply A64 in I|discriminate|now apply A64 in I]).
    rewrite partition_none by (intros I; apply in_app_or in I as [I|[E|I]]; [revert I; apply NH; sx; cbn; tauto|discriminate|revert I; apply NPP; sx; cbn; tauto]).
    rewrite partition_some by (apply NH; sx; cbn; tauto). reflexivity. }
  assert (B1 : has 91 h = false /\ has 93 h = false /\ has 91 p = false /\ has 93 p = false).
  { csplit; apply has_no; [apply NH|apply NH|apply NPP|apply NPP]; sx; cbn; tauto. }
  destruct B1 as (B1 & B2 & B3 & B4).
  assert (PH : parse_addr tmp uuid (s "tcp://" ++ h) = Err ValueError).
  { rewrite parse_tcp; [unfold url_port; rewrite HI; reflexivity|exact NE|apply forallb_forall; intros c I; now apply GH|congruence|congruence]. }
  split; [exact PH|].
  assert (PP : parse_addr tmp uuid (s "tcp://" ++ h ++ 58 :: p) = bind (url_port (h ++ 58 :: p)) (fun port => match port with Some n => Ok (ATcp (url_host (h ++ 58 :: p)) n) | None => Err ValueError end)).
  { assert (H1 : forall c, c <> 58 -> has c (h ++ 58 :: p) = has c h || has c p) by (intros c C; rewrite has_app; f_equal; unfold has, mem; cbn [existsb]; destruct (eqb_spec c 58); [congruence|reflexivity]).
    apply parse_tcp; [destruct h; [congruence|discriminate]| |rewrite !H1, B1, B2, B3, B4 by discriminate; reflexivity|rewrite H1, B1, B3 by discriminate; discriminate].
    rewrite forallb_app. cbn [forallb]. apply andb_true_intro. split; [apply forallb_forall; intros c I; now apply GH|]. apply andb_true_intro. split; [reflexivity|]. apply forallb_forall; intros c I; now apply GP. }
  rewrite PP. unfold url_port. rewrite HP. cbn [snd]. split.
  - intros NP [F|F]; destruct p as [|d p]; try congruence; cbv zeta iota.
    + rewrite F. reflexivity.
    + destruct (forallb is_digit (d :: p)); [|reflexivity]. apply N.leb_gt in F. rewrite F. reflexivity.
  - intros NP F L. destruct p as [|d p]; [congruence|]. cbv zeta iota. rewrite F. apply N.leb_le in L. rewrite L. cbn [bind]. unfold AddrModel.url_host. rewrite HP. cbn [fst].
    rewrite partition_none by (apply NH; sx; cbn; tauto). rewrite app_nil_r. unfold AddrModel.lower. replace (is_ascii h) with true; [reflexivity|].
    symmetry. apply forallb_forall. intros c I. apply GH in I as (I & _). unfold netloc_char in I. apply andb_prop in I as (I & _). now apply andb_prop in I.
Qed.
Theorem C49_tcp_text tmp uuid h p : h <> [] -> forallb (fun c => netloc_char c && negb (mem c (s "[]:%"))) h = true -> forallb (fun c => netloc_char c && negb (mem c (s "[]"))) p = true ->
  parse_addr tmp uuid (s "tcp://" ++ h) = Err ValueError /\
  (p <> [] -> forallb digit p = false \/ 65535 < number p -> parse_addr tmp uuid (s "tcp://" ++ h ++ 58 :: p) = Err ValueError) /\
  (p <> [] -> forallb digit p = true -> number p <= 65535 -> parse_addr tmp uuid (s "tcp://" ++ h ++ 58 :: p) = Ok (ATcp (small h) (number p))).
Proof. exact (@tcp_text_model tmp uuid h p). Qed.
(** uds://name/path is rejected; the documented short forms. *)
Lemma uds_text_model tmp uuid n p : clean n -> no 47 n -> no 91 n -> no 93 n -> is_ascii n = true -> clean p ->
  (n <> [] -> parse_addr tmp uuid (s "uds://" ++ n ++ 47 :: p) = Err ValueError) /\
  (n <> [] -> parse_addr tmp uuid (s "uds://" ++ n) = Ok (AUds (join tmp n))) /\
  parse_addr tmp uuid (s "uds:/") = Ok (AUds (s "/")) /\
  (hd_error p <> Some 47 -> parse_addr tmp uuid (s "uds:/" ++ p) = Ok (AUds (47 :: p))) /\
  parse_addr tmp uuid (s "uds:///" ++ p) = Ok (AUds (47 :: p)) /\
  parse_addr tmp uuid (s "uds://") = Ok (AUds (join tmp (s "ansibug-dap-" ++ uuid))) /\
  parse_addr tmp uuid (s "tcp://") = Ok (ATcp [] 0).
Proof.
  intros CN N1 N2 N3 AN CP.
  assert (G : forall x, clean x -> forall c, In c (47 :: 47 :: x) -> ~ In c [9; 13; 10]) by (intros x C c [<-|[<-|I]]; [cbn; intuition discriminate|cbn; intuition discriminate|now apply (clean3 C)]).
  assert (NN : forall c, In c n -> ~ In c [47; 63; 35]) by (intros c I J; cbn in J; destruct J as [<-|[<-|[<-|[]]]]; [now apply N1|apply (CN _ I); cbn; tauto|apply (CN _ I); cbn; tauto]).
  assert (CP' : clean (47 :: p)) by (intros c [<-|I]; [cbn; intuition discriminate|now apply CP]).
  assert (PT : forall x, clean x -> fst (fst (partition1 63 (fst (fst (partition1 35 x))))) = x).
  { intros x C. rewrite (@partition_none 35) by (intros I; apply (C _ I); cbn; tauto). cbn [fst]. rewrite partition_none by (intros I; apply (C _ I); cbn; tauto). reflexivity. }
  csplit.
  - intros NE. unfold AddrModel.parse_addr. change (s "uds://" ++ n ++ 47 :: p) with (s "uds" ++ 58 :: 47 :: 47 :: (n ++ 47 :: p)). rewrite split_scheme; [|apply uds_scheme|apply G; intros c I; apply in_app_or in I as [I|I]; [now apply CN|now apply CP']].
    rewrite split_netloc_app; [|exact NN|cbn; tauto]. rewrite !has_no by assumption. cbn [Bool.eqb negb andb bind]. rewrite AN, PT by exact CP'. cbn [orb bind].
    change (eqb (map lower1 (s "uds")) (s "tcp")) with false. change (eqb (map lower1 (s "uds")) (s "uds")) with true. cbv iota. destruct n; [congruence|reflexivity].
  - intros NE. unfold AddrModel.parse_addr. change (s "uds://" ++ n) with (s "uds" ++ 58 :: 47 :: 47 :: n). rewrite split_scheme; [|apply uds_scheme|now apply G].
    rewrite <- (app_nil_r n) at 1. rewrite split_netloc_app; [|exact NN|exact Logic.I]. rewrite !has_no by assumption. cbn [Bool.eqb negb andb bind]. rewrite AN. cbn [orb bind partition1 fst].
    change (eqb (map lower1 (s "uds")) (s "tcp")) with false. change (eqb (map lower1 (s "uds")) (s "uds")) with true. cbv iota. destruct n; [congruence|reflexivity].
  - reflexivity.
  - intros H. unfold AddrModel.parse_addr. change (s "uds:/" ++ p) with (s "uds" ++ 58 :: 47 :: p). rewrite split_scheme; [|apply uds_scheme|exact (clean3 CP')].
    assert (E : forall A (a b : A) (f : pystr -> A), hd_error p <> Some 47 -> match p with 47 :: r => f r | _ => b end = b).
    { intros A _ b f H'. destruct p as [|c p']; auto. destruct c as [|q]; auto. repeat (destruct q as [q|q|]; auto). now destruct H'. }
    rewrite E by (auto; exact (Err ValueError)). cbn [bind]. rewrite PT by exact CP'. reflexivity.
  - change (s "uds:///" ++ p) with (address (SUnix (47 :: p))). now apply uds_path.
  - reflexivity.
  - reflexivity.
Qed.
Theorem C49_uds_text tmp uuid n p : clean n -> no 47 n -> no 91 n -> no 93 n -> plain_text n -> clean p ->
  (n <> [] -> parse_addr tmp uuid (s "uds://" ++ n ++ 47 :: p) = Err ValueError) /\
  (n <> [] -> parse_addr tmp uuid (s "uds://" ++ n) = Ok (AUds (inside tmp n))) /\
  parse_addr tmp uuid (s "uds:/") = Ok (AUds (s "/")) /\
  (hd_error p <> Some 47 -> parse_addr tmp uuid (s "uds:/" ++ p) = Ok (AUds (47 :: p))) /\
  parse_addr tmp uuid (s "uds:///" ++ p) = Ok (AUds (47 :: p)) /\
  parse_addr tmp uuid (s "uds://") = Ok (AUds (inside tmp (s "ansibug-dap-" ++ uuid))) /\
  parse_addr tmp uuid (s "tcp://") = Ok (ATcp [] 0).
Proof. exact (@uds_text_model tmp uuid n p). Qed.
End P.

(** Refuted: an address relative to the working directory reports a different one, a
    temporary directory with # or ? in its name as well, and a tcp address without the
    slashes is not rejected but read as "all interfaces, any port". *)
Theorem C49_refuted : exists lower_other nfkc_ok bracket_ok,
  (exists p, parse_addr lower_other nfkc_ok bracket_ok (s "/tmp") (s "id") (s "uds:sock") = Ok (AUds p) /\
     parse_addr lower_other nfkc_ok bracket_ok (s "/tmp") (s "id2") (address (SUnix p)) = Ok (AUds (s "/tmp/sock")) /\ p <> s "/tmp/sock") /\
  (exists p, parse_addr lower_other nfkc_ok bracket_ok (s "/tmp/a#b") (s "id") (s "uds://") = Ok (AUds p) /\
     parse_addr lower_other nfkc_ok bracket_ok (s "/tmp/a#b") (s "id2") (address (SUnix p)) = Ok (AUds (s "/tmp/a")) /\ p <> s "/tmp/a") /\
  parse_addr lower_other nfkc_ok bracket_ok (s "/tmp") (s "id") (s "tcp:10.0.0.1:5678") = Ok (ATcp [] 0).
Proof.
  exists (fun x => x), (fun _ => true), (fun _ => true). csplit; [eexists|eexists|]; csplit; try (vm_compute; reflexivity); intros E; vm_compute in E; discriminate.
Qed.
Example hosts : host4 (s "127.0.0.1") /\ host6 (s "fe80::1%eth0") /\ host6 (s "::").
Proof.
  csplit; [split; [discriminate|reflexivity]|exists (s "fe80::1"), (s "%eth0")|exists (s "::"), []]; csplit; try (vm_compute; reflexivity); try (intros E; vm_compute in E; discriminate); try exact Logic.I; split; vm_compute; reflexivity.
Qed.
Example addr_case : parse_addr (fun x => x) (fun _ => true) (fun _ => true) (s "/tmp") (s "id") (s "tcp://[FE80::1%Eth0]:65535") = Ok (ATcp (s "fe80::1%Eth0") 65535) /\
  parse_addr (fun x => x) (fun _ => true) (fun _ => true) (s "/tmp") (s "id") (s "  UDS:///a b/c") = Ok (AUds (s "/a b/c")) /\
  parse_addr (fun x => x) (fun _ => true) (fun _ => true) (s "/tmp") (s "id") (s "tcp://h:65536") = Err ValueError.
Proof. repeat split; vm_compute; reflexivity. Qed.
Print Assumptions C49_uds_partial.
Print Assumptions C49_tcp4.
Print Assumptions C49_tcp6.
Print Assumptions C49_only_value_error.
Print Assumptions C49_bad_scheme.
Print Assumptions C49_tcp_text.
Print Assumptions C49_uds_text.
Print Assumptions C49_refuted.
