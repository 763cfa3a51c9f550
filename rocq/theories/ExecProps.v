(** C50: the environment of ansible-playbook; C51: TLS verification; C60: what the user
    asks for reaches the debugger in the started process. *)
From Verif Require Import PyBase PyDict JsonModel MsgBase ArgsModel ExecModel.
Set Implicit Arguments.
Local Open Scope N_scope.
Ltac csplit := repeat match goal with |- _ /\ _ => split end.

Definition lacks (c : N) (l : pystr) : Prop := ~ In c l.
Lemma split_lacks c x : lacks c x -> split_on c x = [x].
Proof. induction x as [|y x IH]; intros H; auto. cbn. destruct (N.eqb_spec y c) as [-> |_]; [exfalso; apply H; now left|]. rewrite IH; auto. intros I. apply H. now right. Qed.
Lemma split_app c x r : lacks c x -> split_on c (x ++ c :: r) = x :: split_on c r.
Proof.
  induction x as [|y x IH]; intros H; cbn; [now rewrite N.eqb_refl|]. destruct (N.eqb_spec y c) as [-> |_]; [exfalso; apply H; now left|]. rewrite IH; auto. intros I. apply H. now right.
Qed.
Lemma split_join c l : l <> [] -> Forall (lacks c) l -> split_on c (join_on c l) = l.
Proof.
  induction l as [|x l IH]; intros NE F; [congruence|]. inversion F as [|? ? X F']; subst. destruct l as [|y l]; [now apply split_lacks|].
  change (join_on c (x :: y :: l)) with (x ++ c :: join_on c (y :: l)). rewrite split_app by exact X. rewrite IH by (auto; discriminate). reflexivity.
Qed.
Lemma split_parts c x : Forall (lacks c) (split_on c x).
Proof.
  induction x as [|y x IH]; cbn; [repeat constructor; intros []|]. destruct (N.eqb_spec y c) as [_|NE]; [constructor; [intros []|exact IH]|].
  destruct (split_on c x) as [|a t]; [repeat constructor; intros [E|[]]; congruence|]. inversion IH as [|? ? A T]; subst. constructor; [intros [E|I]; [congruence|now apply A]|exact T].
Qed.

(** * What the user's configuration says *)
Definition is_obj (j : json) : Prop := match j with JObj _ => True | _ => False end.
Definition named (n : pystr) (j : json) : bool := match j with JObj d => match dget d (s "name") with Some (JStr m) => eqb m n | _ => false end | _ => false end.
(** The configured list [l] of option [n]: its one entry, nothing if there is none. *)
Definition user_list (n : pystr) (dump : list json) (l : list pystr) : Prop :=
  (filter (named n) dump = [] /\ l = []) \/ exists d, filter (named n) dump = [JObj d] /\ dget d (s "value") = Some (JArr (map JStr l)).
Lemma user_none n j dump l : named n j = false -> user_list n (j :: dump) l -> user_list n dump l.
Proof. intros H. unfold user_list. cbn [filter]. now rewrite H. Qed.
Lemma user_some n d dump l : named n (JObj d) = true -> user_list n (JObj d :: dump) l -> dget d (s "value") = Some (JArr (map JStr l)) /\ user_list n dump [].
Proof. intros H. unfold user_list. cbn [filter]. rewrite H. intros [(E & _)|(d' & E & V)]; [discriminate|]. injection E as <- E. split; [exact V|left; auto]. Qed.
Lemma scan_ok dump : forall c1 c2 cbs paths l1 l2, Forall is_obj dump -> c1 || c2 = true -> (c1 = false -> l1 = []) -> (c2 = false -> l2 = []) -> user_list n_cb dump l1 -> user_list n_coll dump l2 ->
  (c1 = false -> filter (named n_cb) dump = []) -> (c2 = false -> filter (named n_coll) dump = []) ->
  scan dump c1 c2 cbs paths = Ok (cbs ++ map JStr l1, paths ++ map JStr l2).
Proof.
  assert (NOF : forall n dump, filter (named n) dump = [] -> forall l, user_list n dump l -> l = []).
  { intros n dmp E l [(_ & E')|(d & E' & _)]; [exact E'|congruence]. }
  induction dump as [|j dump IH]; intros c1 c2 cbs paths l1 l2 F C Z1 Z2 U1 U2 W1 W2.
  - cbn. rewrite (NOF n_cb [] eq_refl _ U1), (NOF n_coll [] eq_refl _ U2). cbn. now rewrite !app_nil_r.
  - inversion F as [|? ? J F']; subst. destruct j as [| | | | |d]; try contradiction. cbn [scan].
    assert (SKIP : named n_cb (JObj d) = false -> named n_coll (JObj d) = false -> scan dump c1 c2 cbs paths = Ok (cbs ++ map JStr l1, paths ++ map JStr l2)).
    { intros N1 N2. apply IH; auto; try (eapply user_none; eauto); [intros E; specialize (W1 E)|intros E; specialize (W2 E)]; cbn [filter] in *; [now rewrite N1 in W1|now rewrite N2 in W2]. }
    unfold get_or. destruct (dget d (s "name")) as [[| | |n| |]|] eqn:NM; try (assert (N1 : named n_cb (JObj d) = false) by (unfold named; now rewrite NM); assert (N2 : named n_coll (JObj d) = false) by (unfold named; now rewrite NM); specialize (SKIP N1 N2)); try exact SKIP;
      try (destruct (negb (truthy _)); exact SKIP).
    assert (E1 : named n_cb (JObj d) = eqb n n_cb) by (unfold named; now rewrite NM). assert (E2 : named n_coll (JObj d) = eqb n n_coll) by (unfold named; now rewrite NM).
    destruct (truthy (JStr n)) eqn:TR; cbn [negb].
    2: { destruct n; [|discriminate TR]. apply SKIP; [rewrite E1|rewrite E2]; reflexivity. }
    destruct (eqb_spec n n_cb) as [-> |NE1].
    + assert (E2' : named n_coll (JObj d) = false) by (rewrite E2; reflexivity). destruct c1.
      2: { specialize (W1 eq_refl). cbn [filter] in W1. rewrite E1 in W1. discriminate. }
      destruct (@user_some n_cb d dump l1 E1 U1) as (V & U1'). unfold subscript. rewrite V. cbn [bind iter_json].
      assert (K : filter (named n_cb) dump = []). { destruct U1' as [(A & _)|(? & A & B)]; [exact A|]. exfalso. destruct U1 as [(X & _)|(? & X & _)]; cbn [filter] in X; rewrite E1 in X; [discriminate|]. injection X as _ X. congruence. }
      destruct c2.
      * rewrite (IH false true _ _ [] l2); auto; try (eapply user_none; eauto); try discriminate. cbn [map]. now rewrite app_nil_r.
      * rewrite (Z2 eq_refl). cbn [map]. now rewrite app_nil_r.
    + destruct (eqb_spec n n_coll) as [-> |NE2].
      * destruct c2.
        2: { specialize (W2 eq_refl). cbn [filter] in W2. rewrite E2 in W2. discriminate. }
        destruct (@user_some n_coll d dump l2 E2 U2) as (V & U2'). unfold subscript. rewrite V. cbn [bind iter_json].
        assert (K : filter (named n_coll) dump = []). { destruct U2' as [(A & _)|(? & A & B)]; [exact A|]. exfalso. destruct U2 as [(X & _)|(? & X & _)]; cbn [filter] in X; rewrite E2 in X; [discriminate|]. injection X as _ X. congruence. }
        destruct c1.
        -- rewrite (IH true false _ _ l1 []); auto; try (eapply user_none; eauto); try discriminate. cbn [map]. now rewrite app_nil_r.
        -- rewrite (Z1 eq_refl). cbn [map]. now rewrite app_nil_r.
      * apply SKIP; assumption.
Qed.
Lemma map_as_str l : mapM as_str (map JStr l) = Ok l.
Proof. induction l as [|x l IH]; auto. cbn [map]. rewrite mapM_cons, IH. reflexivity. Qed.
Definition conf_of (environ : env) (path parent : pystr) (cbs paths : list pystr) : env :=
  [(s "ANSIBLE_CALLBACKS_ENABLED", join_on 44 (s "ansibug.dap.debug" :: cbs)); (s "ANSIBLE_COLLECTIONS_PATH", join_on 58 (path :: paths)); (s "ANSIBLE_STRATEGY", s "ansibug.dap.debug");
   (s "PYTHONPATH", join_on 58 (parent :: filter (fun e => negb (eqb e [])) (split_on 58 (match dget environ (s "PYTHONPATH") with Some v => v | None => [] end))))].
Lemma configure_ok environ dump path parent cbs paths : Forall is_obj dump -> user_list n_cb dump cbs -> user_list n_coll dump paths ->
  configure_env environ dump path parent = Ok (conf_of environ path parent cbs paths).
Proof.
  intros F U1 U2. unfold configure_env. rewrite (@scan_ok dump true true _ _ cbs paths) by (auto; discriminate). cbn [bind fst snd].
  change ([JStr (s "ansibug.dap.debug")] ++ map JStr cbs) with (map JStr (s "ansibug.dap.debug" :: cbs)). change ([JStr path] ++ map JStr paths) with (map JStr (path :: paths)).
  rewrite !map_as_str. reflexivity.
Qed.
(** The variables that belong to ansibug. *)
Definition own_always : list pystr := map s ["ANSIBLE_CALLBACKS_ENABLED"; "ANSIBLE_COLLECTIONS_PATH"; "ANSIBLE_STRATEGY"; "PYTHONPATH"; "ANSIBUG_DEBUG_ADDR"; "ANSIBUG_MODE"; "ANSIBUG_NO_WAIT_FOR_CONFIG_DONE"; "ANSIBUG_USE_TLS"]%string.
Definition own_tls : list pystr := map s ["ANSIBUG_TLS_SERVER_CERTFILE"; "ANSIBUG_TLS_SERVER_KEYFILE"; "ANSIBUG_TLS_SERVER_KEY_PASSWORD"; "ANSIBUG_TLS_CLIENT_CA"]%string.
Definition own_log : list pystr := map s ["ANSIBUG_LOG_FILE"; "ANSIBUG_LOG_LEVEL"]%string.
Lemma opt_get k v k' : dget (opt_env k v) k' = match v with Some (c :: v) => if eqb k k' then Some (c :: v) else None | _ => None end.
Proof. destruct v as [[|c v]|]; reflexivity. Qed.
Lemma dget_rev {V} (d : dict pystr V) k : NoDup (dkeys d) -> dget (rev d) k = dget d k.
Proof. intros ND. symmetry. apply dget_perm; [exact ND|]. apply Permutation.Permutation_rev. Qed.
Lemma mode_nodup r : NoDup (dkeys (mode_env r)).
Proof.
  unfold mode_env. destruct (r_mode r); [constructor|].
  destruct (r_cert r) as [[|]|], (r_key r) as [[|]|], (r_pass r) as [[|]|], (r_ca r) as [[|]|]; cbn [opt_env app dkeys map fst];
    repeat (constructor; [cbn; intros Q; repeat (destruct Q as [Q|Q]; [discriminate|]); exact Q|]); constructor.
Qed.
Lemma conf_nodup environ path parent cbs paths : NoDup (dkeys (conf_of environ path parent cbs paths)).
Proof. cbn [conf_of dkeys map fst]. repeat (constructor; [cbn; intros Q; repeat (destruct Q as [Q|Q]; [discriminate|]); exact Q|]). constructor. Qed.
(** The environment, variable by variable. *)
Lemma exec_get exe environ dump path parent r cbs paths : Forall is_obj dump -> user_list n_cb dump cbs -> user_list n_coll dump paths ->
  exists e, exec_playbook exe environ dump path parent r = Ok ([exe; s "-m"; s "ansible"; s "playbook"] ++ r_args r, e) /\
  forall k, dget e k =
    match r_log r with Some (f, l) => if eqb (s "ANSIBUG_LOG_LEVEL") k then Some l else if eqb (s "ANSIBUG_LOG_FILE") k then Some f else
      if eqb (s "ANSIBUG_USE_TLS") k then Some (match r_mode r with MConnect => s "False" | MListen => if r_tls r then s "True" else s "False" end) else
      if eqb (s "ANSIBUG_NO_WAIT_FOR_CONFIG_DONE") k then Some (if r_no_wait r then s "true" else s "false") else
      if eqb (s "ANSIBUG_MODE") k then Some (mode_text (r_mode r)) else if eqb (s "ANSIBUG_DEBUG_ADDR") k then Some (r_addr r) else
      match dget (conf_of environ path parent cbs paths) k with Some v => Some v | None => match dget (mode_env r) k with Some v => Some v | None => dget environ k end end
    | None =>
      if eqb (s "ANSIBUG_USE_TLS") k then Some (match r_mode r with MConnect => s "False" | MListen => if r_tls r then s "True" else s "False" end) else
      if eqb (s "ANSIBUG_NO_WAIT_FOR_CONFIG_DONE") k then Some (if r_no_wait r then s "true" else s "false") else
      if eqb (s "ANSIBUG_MODE") k then Some (mode_text (r_mode r)) else if eqb (s "ANSIBUG_DEBUG_ADDR") k then Some (r_addr r) else
      match dget (conf_of environ path parent cbs paths) k with Some v => Some v | None => match dget (mode_env r) k with Some v => Some v | None => dget environ k end end
    end.
Proof.
  intros F U1 U2. unfold exec_playbook. rewrite (configure_ok environ path parent F U1 U2). cbn [bind]. eexists. split; [reflexivity|]. intros k.
  destruct (r_log r) as [(f, l)|]; rewrite !dget_dset, !dget_dmerge, (fun k => @dget_rev _ _ k (@conf_nodup environ path parent cbs paths)), (fun k => @dget_rev _ _ k (@mode_nodup r)); reflexivity.
Qed.

(** [v] is the list of these parts, separated by [c]. *)
Fixpoint joined (c : N) (l : list pystr) : pystr := match l with [] => [] | [x] => x | x :: l => x ++ [c] ++ joined c l end.
Definition parts (c : N) (v : pystr) (l : list pystr) : Prop := l <> [] /\ v = joined c l /\ Forall (fun x => ~ In c x) l.
Lemma joined_eq c l : joined c l = join_on c l.
Proof. induction l as [|x l IH]; [reflexivity|]. destruct l as [|y l]; [reflexivity|]. change (x ++ [c] ++ joined c (y :: l) = x ++ c :: join_on c (y :: l)). now rewrite IH. Qed.
Lemma parts_split c v l : parts c v l -> split_on c v = l.
Proof. intros (N0 & -> & F). rewrite (joined_eq c l). now apply split_join. Qed.
Lemma parts_join c l : l <> [] -> Forall (lacks c) l -> parts c (join_on c l) l.
Proof. intros N0 F. split; [exact N0|]. split; [symmetry; apply joined_eq|exact F]. Qed.
(** C50: ansible-playbook is started with the user's arguments; its callbacks and
    collection paths are ansibug's followed by all of the user's, in order (as Ansible
    reads them back: split at the separator); PYTHONPATH gets ansibug's directory in front
    and keeps the user's non-empty entries in order; every variable that is not ansibug's
    is inherited unchanged, the TLS and log variables are when they are not given. *)
Theorem C50_environment_partial exe environ dump path parent r cbs paths :
  Forall is_obj dump -> user_list (s "CALLBACKS_ENABLED") dump cbs -> user_list (s "COLLECTIONS_PATHS") dump paths -> Forall (lacks 44) cbs -> Forall (lacks 58) paths -> lacks 58 path -> lacks 58 parent ->
  exists e v1 v2 v3, exec_playbook exe environ dump path parent r = Ok ([exe; s "-m"; s "ansible"; s "playbook"] ++ r_args r, e) /\
  dget e (s "ANSIBLE_CALLBACKS_ENABLED") = Some v1 /\ parts 44 v1 (s "ansibug.dap.debug" :: cbs) /\
  dget e (s "ANSIBLE_COLLECTIONS_PATH") = Some v2 /\ parts 58 v2 (path :: paths) /\
  dget e (s "PYTHONPATH") = Some v3 /\ (forall old, match dget environ (s "PYTHONPATH") with Some v => parts 58 v old | None => old = [] end -> parts 58 v3 (parent :: filter (fun x => negb (eqb x [])) old)) /\
  (forall k, ~ In k own_always -> ~ In k own_tls -> ~ In k own_log -> dget e k = dget environ k) /\
  (r_mode r = MConnect -> forall k, In k own_tls -> dget e k = dget environ k) /\ (r_log r = None -> forall k, In k own_log -> dget e k = dget environ k).
Proof.
  intros F U1 U2 C1 C2 C3 C4. destruct (exec_get exe environ path parent r F U1 U2) as (e & E & G).
  exists e, (join_on 44 (s "ansibug.dap.debug" :: cbs)), (join_on 58 (path :: paths)), (join_on 58 (parent :: filter (fun e => negb (eqb e [])) (split_on 58 (match dget environ (s "PYTHONPATH") with Some v => v | None => [] end)))).
  assert (LK : forall c (x : pystr), forallb (fun y => negb (y =? c)) x = true -> lacks c x).
  { intros c x H I. rewrite forallb_forall in H. specialize (H _ I). now rewrite N.eqb_refl in H. }
  csplit.
  - exact E.
  - rewrite G. destruct (r_log r) as [(f, l)|]; reflexivity.
  - apply parts_join; [discriminate|]. constructor; [apply LK; vm_compute; reflexivity|exact C1].
  - rewrite G. destruct (r_log r) as [(f, l)|]; reflexivity.
  - apply parts_join; [discriminate|]. now constructor.
  - rewrite G. destruct (r_log r) as [(f, l)|]; reflexivity.
  - intros old O. assert (SP : filter (fun e => negb (eqb e [])) (split_on 58 (match dget environ (s "PYTHONPATH") with Some v => v | None => [] end)) = filter (fun e => negb (eqb e [])) old).
    { destruct (dget environ (s "PYTHONPATH")) as [v|]; [now rewrite (parts_split O)|]. subst old. reflexivity. }
    rewrite SP. apply parts_join; [discriminate|]. constructor; [exact C4|].
    apply Forall_forall. intros x I. apply filter_In in I as (I & _). destruct (dget environ (s "PYTHONPATH")) as [v|]; [|subst old; destruct I].
    destruct O as (_ & _ & O). rewrite Forall_forall in O. now apply O.
  - intros k N1 N2 N3. rewrite G. assert (NE : forall n, In n (own_always ++ own_tls ++ own_log) -> eqb n k = false).
    { intros n I. apply eqb_neq. intros ->. rewrite !in_app_iff in I. tauto. }
    assert (M : dget (mode_env r) k = None).
    { unfold mode_env. destruct (r_mode r); [reflexivity|]. rewrite !dget_app, !opt_get, !NE by (vm_compute; tauto).
      destruct (r_cert r) as [[|]|], (r_key r) as [[|]|], (r_pass r) as [[|]|], (r_ca r) as [[|]|]; reflexivity. }
    assert (Q : dget (conf_of environ path parent cbs paths) k = None).
    { unfold conf_of. cbn [dget]. rewrite !NE by (vm_compute; tauto). reflexivity. }
    rewrite !NE by (vm_compute; tauto). rewrite M, Q. destruct (r_log r) as [(f, l)|]; reflexivity.
  - intros MC k I. rewrite G. unfold mode_env. rewrite MC. vm_compute in I. destruct I as [<-|[<-|[<-|[<-|[]]]]]; destruct (r_log r) as [(f, l)|]; reflexivity.
  - intros NL k I. rewrite G, NL. assert (M : dget (mode_env r) k = None).
    { unfold mode_env. destruct (r_mode r); [reflexivity|]. rewrite !dget_app, !opt_get. vm_compute in I.
      destruct I as [<-|[<-|[]]]; destruct (r_cert r) as [[|]|], (r_key r) as [[|]|], (r_pass r) as [[|]|], (r_ca r) as [[|]|]; reflexivity. }
    rewrite M. vm_compute in I. destruct I as [<-|[<-|[]]]; reflexivity.
Qed.
(** Refuted: an empty entry of PYTHONPATH (the working directory) is dropped. *)
Theorem C50_empty_entry_refuted : exists environ e v, exec_playbook (s "/py") environ [] (s "/a/ansibug") (s "/a") (mkReq [] MConnect (s "uds:///x") false false None None None None None) = Ok ([s "/py"; s "-m"; s "ansible"; s "playbook"], e) /\
  dget environ (s "PYTHONPATH") = Some (s ":/lib") /\ parts 58 (s ":/lib") [[]; s "/lib"] /\ dget e (s "PYTHONPATH") = Some v /\ parts 58 v [s "/a"; s "/lib"].
Proof.
  assert (L : forall c (l : list pystr), forallb (forallb (fun y => negb (y =? c))) l = true -> Forall (fun x => ~ In c x) l).
  { intros c l H. apply Forall_forall. intros x I J. rewrite forallb_forall in H. specialize (H _ I). rewrite forallb_forall in H. specialize (H _ J). now rewrite N.eqb_refl in H. }
  eexists [(s "PYTHONPATH", s ":/lib")], _, _. csplit; try (vm_compute; reflexivity); (split; [discriminate|]; split; [vm_compute; reflexivity|apply L; vm_compute; reflexivity]).
Qed.

Section T.
Variable expand : pystr -> pystr.
Variable kind : pystr -> fkind.
Variable loads_ca : pystr -> bool.
Variable loads_chain : pystr * json * json -> bool.
Variable resolve : pystr -> pystr.
Notation client_ctx := (client_ctx expand kind loads_ca loads_chain).
Notation server_ctx := (server_ctx expand kind loads_ca loads_chain).
Notation on_start := (on_start expand kind loads_ca loads_chain resolve).
(** C51, client: a context that is created checks the peer's certificate and name unless
    the setting is exactly "ignore"; another text than "verify" adds that file or
    directory to the trusted authorities, or fails if there is none. *)
Theorem C51_client verify cert key pass :
  (forall x, client_ctx verify cert key pass = Ok x -> verify <> JStr (s "ignore") -> x_verify x = CERT_REQUIRED /\ x_check_host x = true) /\
  (forall x, client_ctx verify cert key pass = Ok x -> verify = JStr (s "ignore") -> x_verify x = CERT_NONE /\ x_check_host x = false) /\
  (forall x t, client_ctx verify cert key pass = Ok x -> verify = JStr t -> t <> s "ignore" -> t <> s "verify" -> In (CaFile (expand t)) (x_cas x) \/ In (CaDir (expand t)) (x_cas x)) /\
  (forall t, verify = JStr t -> t <> s "ignore" -> t <> s "verify" -> kind (expand t) = KMissing -> client_ctx verify cert key pass = Err ValueError) /\
  (forall x, client_ctx verify cert key pass = Ok x -> match x_chain x with Some (c, k, p) => cert = JStr c /\ k = key /\ p = pass | None => forall c, cert = JStr c -> c = [] end).
Proof.
  unfold ExecModel.client_ctx.
  assert (CH : forall x y, (if truthy cert then match cert with JStr c => load_chain loads_chain x c key pass | _ => Err TypeError end else Ok x) = Ok y ->
     x_verify y = x_verify x /\ x_check_host y = x_check_host x /\ x_cas y = x_cas x /\ (x_chain x = None -> match x_chain y with Some (c, k, p) => cert = JStr c /\ k = key /\ p = pass | None => truthy cert = false end)).
  { intros x y. destruct (truthy cert) eqn:T; [|intros E; injection E as <-; csplit; auto; intros ->; reflexivity]. destruct cert; try discriminate. unfold load_chain. destruct (loads_chain _); [|discriminate]. intros E; injection E as <-. cbn. csplit; auto. }
  set (m := if match verify with JStr t => eqb t (s "ignore") | _ => false end then _ else _).
  assert (M : match m with
    | Ok x => x_chain x = None /\ (verify <> JStr (s "ignore") -> x_verify x = CERT_REQUIRED /\ x_check_host x = true) /\ (verify = JStr (s "ignore") -> x_verify x = CERT_NONE /\ x_check_host x = false) /\
        (forall t, verify = JStr t -> t <> s "ignore" -> t <> s "verify" -> (In (CaFile (expand t)) (x_cas x) \/ In (CaDir (expand t)) (x_cas x)) /\ kind (expand t) <> KMissing)
    | Err e => forall t, verify = JStr t -> kind (expand t) = KMissing -> e = ValueError end).
  { subst m. destruct verify as [| | |t| |]; cbv iota; try (cbn; intros; discriminate).
    destruct (eqb_spec t (s "ignore")) as [-> |N1]; [csplit; auto; intros; [congruence|]; congruence|]. destruct (eqb_spec t (s "verify")) as [-> |N2].
    - csplit; auto; intros; try congruence.
    - unfold load_verify. destruct (kind (expand t)) eqn:K; [destruct (loads_ca (expand t))|destruct (loads_ca (expand t))|].
      + cbn. csplit; auto; [congruence|]. intros t' E _ _. injection E as <-. split; [auto|congruence].
      + intros t' E K'. injection E as <-. congruence.
      + cbn. csplit; auto; [congruence|]. intros t' E _ _. injection E as <-. split; [auto|congruence].
      + intros t' E K'. injection E as <-. congruence.
      + reflexivity. }
  destruct m as [x0|e]; cbn [bind].
  - destruct M as (M0 & M1 & M2 & M3). csplit.
    + intros x E N. destruct (CH _ _ E) as (-> & -> & _). auto.
    + intros x E N. destruct (CH _ _ E) as (-> & -> & _). auto.
    + intros x t E V N1 N2. destruct (CH _ _ E) as (_ & _ & -> & _). now apply M3.
    + intros t V N1 N2 K. destruct (M3 t V N1 N2) as (_ & K'). congruence.
    + intros x E. destruct (CH _ _ E) as (_ & _ & _ & X). specialize (X M0). destruct (x_chain x) as [((c, k), p)|]; [exact X|]. intros c ->. destruct c; [reflexivity|discriminate].
  - csplit; try (intros; discriminate). intros t V N1 N2 K. now rewrite (M t V K).
Qed.
(** C51, server: a context that is created asks for a client certificate iff a client CA
    is given, and then trusts exactly that CA. *)
Theorem C51_server cert key pass ca x : server_ctx cert key pass ca = Ok x ->
  (exists c, cert = Some c /\ x_chain x = Some (c, match key with Some k => JStr k | None => JNull end, match pass with Some k => JStr k | None => JNull end)) /\
  match ca with
  | Some (a :: t) => x_verify x = CERT_REQUIRED /\ (x_cas x = [CaFile (expand (a :: t))] \/ x_cas x = [CaDir (expand (a :: t))])
  | _ => x_verify x = CERT_NONE /\ x_cas x = []
  end.
Proof.
  unfold ExecModel.server_ctx. destruct cert as [c|]; [|discriminate]. unfold load_chain. destruct (loads_chain _); [|discriminate]. cbn [bind].
  destruct ca as [[|a t]|]; [intros E; injection E as <-; cbn; eauto| |intros E; injection E as <-; cbn; eauto].
  unfold load_verify. destruct (kind (expand (a :: t))); [destruct (loads_ca (expand (a :: t)))|destruct (loads_ca (expand (a :: t)))|]; try discriminate; intros E; injection E as <-; cbn; eauto 6.
Qed.
Theorem C51_server_missing_ca cert key pass a t : kind (expand (a :: t)) = KMissing -> is_ok (server_ctx cert key pass (Some (a :: t))) = false.
Proof. intros K. unfold ExecModel.server_ctx. destruct cert; [|reflexivity]. unfold load_chain. destruct (loads_chain _); [|reflexivity]. cbn [bind]. unfold load_verify. now rewrite K. Qed.

(** C60: from the command line to the debugger inside ansible-playbook, in any inherited
    environment.  The callback plugin starts the debugger in the mode and on the address
    asked for, waits for the client iff asked to, and uses TLS iff asked to (in listen
    mode); certificate, key, password, client CA and log are those given, and ansibug's
    environment variables count only for what is not given. *)
Definition ne (v : option pystr) : option pystr := match v with Some (c :: v) => Some (c :: v) | _ => None end.
Definition given_or (environ : env) (v : option pystr) (k : pystr) : option pystr :=
  match v with Some (c :: v) => Some (c :: v) | _ => dget environ k end.
Definition log_or (environ : env) (v : option (pystr * pystr)) : option (pystr * pystr) :=
  match v with
  | Some fl => Some fl
  | None => match dget environ (s "ANSIBUG_LOG_FILE") with
            | Some f => Some (f, match dget environ (s "ANSIBUG_LOG_LEVEL") with Some l => l | None => s "info" end)
            | None => None end
  end.
Theorem C60_settings_any_environment exe environ dump path parent r cbs paths :
  Forall is_obj dump -> user_list n_cb dump cbs -> user_list n_coll dump paths ->
  exists argv e, exec_playbook exe environ dump path parent r = Ok (argv, e) /\
  on_start e = bind (match r_mode r, r_tls r with
                     | MListen, true => bind (server_ctx (option_map resolve (given_or environ (r_cert r) (s "ANSIBUG_TLS_SERVER_CERTFILE")))
                                                         (option_map resolve (given_or environ (r_key r) (s "ANSIBUG_TLS_SERVER_KEYFILE")))
                                                         (given_or environ (r_pass r) (s "ANSIBUG_TLS_SERVER_KEY_PASSWORD"))
                                                         (option_map resolve (given_or environ (r_ca r) (s "ANSIBUG_TLS_CLIENT_CA")))) (fun x => Ok (Some x))
                     | _, _ => Ok None
                     end) (fun ctx => Ok (mkStarted (r_mode r) (r_addr r) ctx (negb (r_no_wait r))
                       (match log_or environ (r_log r) with Some (f, l) => match resolve f with [] => None | f => Some (f, l) end | None => None end))).
Proof.
  intros F U1 U2. destruct (exec_get exe environ path parent r F U1 U2) as (e & E & G). eexists _, e. split; [exact E|].
  assert (K1 : dget e (s "ANSIBUG_MODE") = Some (mode_text (r_mode r))) by (rewrite G; destruct (r_log r) as [(f, l)|]; reflexivity).
  assert (K2 : dget e (s "ANSIBUG_DEBUG_ADDR") = Some (r_addr r)) by (rewrite G; destruct (r_log r) as [(f, l)|]; reflexivity).
  assert (K3 : dget e (s "ANSIBUG_USE_TLS") = Some (match r_mode r with MConnect => s "False" | MListen => if r_tls r then s "True" else s "False" end)) by (rewrite G; destruct (r_log r) as [(f, l)|]; reflexivity).
  assert (K4 : dget e (s "ANSIBUG_NO_WAIT_FOR_CONFIG_DONE") = Some (if r_no_wait r then s "true" else s "false")) by (rewrite G; destruct (r_log r) as [(f, l)|]; reflexivity).
  assert (TL : r_mode r = MListen -> dget e (s "ANSIBUG_TLS_SERVER_CERTFILE") = given_or environ (r_cert r) (s "ANSIBUG_TLS_SERVER_CERTFILE") /\ dget e (s "ANSIBUG_TLS_SERVER_KEYFILE") = given_or environ (r_key r) (s "ANSIBUG_TLS_SERVER_KEYFILE") /\
     dget e (s "ANSIBUG_TLS_SERVER_KEY_PASSWORD") = given_or environ (r_pass r) (s "ANSIBUG_TLS_SERVER_KEY_PASSWORD") /\ dget e (s "ANSIBUG_TLS_CLIENT_CA") = given_or environ (r_ca r) (s "ANSIBUG_TLS_CLIENT_CA")).
  { intros ML. csplit; rewrite G; unfold mode_env; rewrite ML, !dget_app, !opt_get;
      destruct (r_log r) as [(f, l)|]; destruct (r_cert r) as [[|]|], (r_key r) as [[|]|], (r_pass r) as [[|]|], (r_ca r) as [[|]|]; reflexivity. }
  assert (LG : dget e (s "ANSIBUG_LOG_FILE") = match r_log r with Some fl => Some (fst fl) | None => dget environ (s "ANSIBUG_LOG_FILE") end /\
                dget e (s "ANSIBUG_LOG_LEVEL") = match r_log r with Some fl => Some (snd fl) | None => dget environ (s "ANSIBUG_LOG_LEVEL") end).
  { assert (MN : forall k, In k own_log -> dget (mode_env r) k = None).
    { intros k I. unfold mode_env. destruct (r_mode r); [reflexivity|]. rewrite !dget_app, !opt_get. vm_compute in I.
      destruct I as [<-|[<-|[]]]; destruct (r_cert r) as [[|]|], (r_key r) as [[|]|], (r_pass r) as [[|]|], (r_ca r) as [[|]|]; reflexivity. }
    split; rewrite G, MN by (vm_compute; tauto); destruct (r_log r) as [(f, l)|]; reflexivity. }
  destruct LG as (L1 & L2). unfold ExecModel.on_start. rewrite K1, K2, K3, K4, L1, L2.
  set (lf := match r_log r with Some fl => Some (fst fl) | None => dget environ (s "ANSIBUG_LOG_FILE") end). set (ll := match r_log r with Some fl => Some (snd fl) | None => dget environ (s "ANSIBUG_LOG_LEVEL") end).
  assert (LOG : match option_map resolve lf with Some (c :: f) => Some (c :: f, match ll with Some l => l | None => s "info" end) | _ => None end
     = match log_or environ (r_log r) with Some (f, l) => match resolve f with [] => None | f => Some (f, l) end | None => None end).
  { subst lf ll. unfold log_or. destruct (r_log r) as [(f, l)|]; [cbn; destruct (resolve f); reflexivity|]. destruct (dget environ (s "ANSIBUG_LOG_FILE")) as [f|]; [|reflexivity]. cbn [option_map]. destruct (resolve f); reflexivity. }
  rewrite LOG. assert (NW : to_bool (if r_no_wait r then s "true" else s "false") = r_no_wait r) by (destruct (r_no_wait r); vm_compute; reflexivity). rewrite NW.
  destruct (r_mode r) eqn:MD.
  - reflexivity.
  - destruct (TL eq_refl) as (-> & -> & -> & ->). cbn [bind mode_text]. change (eqb (s "listen") (s "connect")) with false. change (eqb (s "listen") (s "listen")) with true. cbv iota. cbn [bind].
    destruct (r_tls r).
    + change (to_bool (s "True")) with true. cbn [andb]. reflexivity.
    + change (to_bool (s "False")) with false. cbn [andb]. reflexivity.
Qed.
(** Without these variables: exactly what is given. *)
Theorem C60_settings_reach_debugger exe environ dump path parent r cbs paths :
  Forall is_obj dump -> user_list n_cb dump cbs -> user_list n_coll dump paths -> (forall k, In k (own_tls ++ own_log) -> dget environ k = None) ->
  exists argv e, exec_playbook exe environ dump path parent r = Ok (argv, e) /\
  on_start e = bind (match r_mode r, r_tls r with
                     | MListen, true => bind (server_ctx (option_map resolve (ne (r_cert r))) (option_map resolve (ne (r_key r))) (ne (r_pass r)) (option_map resolve (ne (r_ca r)))) (fun x => Ok (Some x))
                     | _, _ => Ok None
                     end) (fun ctx => Ok (mkStarted (r_mode r) (r_addr r) ctx (negb (r_no_wait r)) (match r_log r with Some (f, l) => match resolve f with [] => None | f => Some (f, l) end | None => None end))).
Proof.
  intros F U1 U2 NO. destruct (C60_settings_any_environment exe environ path parent r F U1 U2) as (argv & e & E & O). exists argv, e. split; [exact E|]. rewrite O.
  assert (GN : forall v k, In k own_tls -> given_or environ v k = ne v). { intros v k I. unfold given_or, ne. destruct v as [[|]|]; auto; apply NO, in_or_app; auto. }
  rewrite !GN by (vm_compute; tauto). unfold log_or. rewrite (NO (s "ANSIBUG_LOG_FILE")) by (vm_compute; tauto). destruct (r_log r) as [(f, l)|]; reflexivity.
Qed.
(** In particular TLS asked for is never silently dropped. *)
Theorem C60_tls_not_dropped exe environ dump path parent r cbs paths st :
  Forall is_obj dump -> user_list n_cb dump cbs -> user_list n_coll dump paths -> r_mode r = MListen -> r_tls r = true ->
  bind (exec_playbook exe environ dump path parent r) (fun p => on_start (snd p)) = Ok st ->
  exists x, st_ctx st = Some x /\ (ne (r_ca r) <> None -> (forall a, resolve a <> []) -> x_verify x = CERT_REQUIRED).
Proof.
  intros F U1 U2 MD TL. destruct (C60_settings_any_environment exe environ path parent r F U1 U2) as (argv & e & -> & O). cbn [bind snd]. rewrite O, MD, TL.
  destruct (server_ctx _ _ _ _) as [x|] eqn:S; [|discriminate]. cbn [bind]. intros E. injection E as <-. exists x. split; [reflexivity|]. intros NC RN.
  destruct (C51_server _ _ _ _ S) as (_ & V). destruct (r_ca r) as [[|c0 a]|]; cbn in NC; try congruence. cbn [given_or option_map] in V. destruct (resolve (c0 :: a)) as [|c t] eqn:RA; [now apply RN in RA|]. apply V.
Qed.
End T.

(** Cases. *)
Definition demo_dump : list json := [JObj [(s "name", JStr (s "CALLBACKS_ENABLED")); (s "value", JArr [JStr (s "timer"); JStr (s "profile")])]; JObj [(s "GALAXY", JArr [])];
  JObj [(s "name", JStr (s "COLLECTIONS_PATHS")); (s "value", JArr [JStr (s "/u/c")])]; JObj [(s "name", JStr (s "COLOR")); (s "value", JNull)]].
Example demo_hyps : Forall is_obj demo_dump /\ user_list n_cb demo_dump [s "timer"; s "profile"] /\ user_list n_coll demo_dump [s "/u/c"].
Proof.
  csplit; [repeat constructor|right; eexists; split; vm_compute; reflexivity|right; eexists; split; vm_compute; reflexivity].
Qed.
Example demo_exec : exists e, exec_playbook (s "/py") [(s "HOME", s "/root"); (s "PYTHONPATH", s "/l1:/l2")] demo_dump (s "/a/ansibug") (s "/a")
    (mkReq [s "main.yml"] MListen (s "uds://") true true (Some (s "/c")) None None (Some (s "/ca")) None) = Ok ([s "/py"; s "-m"; s "ansible"; s "playbook"; s "main.yml"], e) /\
  dget e (s "PYTHONPATH") = Some (s "/a:/l1:/l2") /\ dget e (s "ANSIBLE_CALLBACKS_ENABLED") = Some (s "ansibug.dap.debug,timer,profile") /\ dget e (s "HOME") = Some (s "/root") /\
  on_start (fun x => x) (fun _ => KFile) (fun _ => true) (fun _ => true) (fun x => x) e = Ok (mkStarted MListen (s "uds://") (Some (mkCtx false CERT_REQUIRED [CaFile (s "/ca")] (Some (s "/c", JNull, JNull)))) false None).
Proof. eexists. csplit; vm_compute; reflexivity. Qed.
(** An inherited key file and log file; the certificate given replaces the inherited one. *)
Example demo_inherited : exists e, exec_playbook (s "/py") [(s "ANSIBUG_TLS_SERVER_CERTFILE", s "/old"); (s "ANSIBUG_TLS_SERVER_KEYFILE", s "/k"); (s "ANSIBUG_LOG_FILE", s "/log"); (s "ANSIBUG_USE_TLS", s "no")] demo_dump (s "/a/ansibug") (s "/a")
    (mkReq [s "main.yml"] MListen (s "uds://") true true (Some (s "/c")) None None None None) = Ok ([s "/py"; s "-m"; s "ansible"; s "playbook"; s "main.yml"], e) /\
  on_start (fun x => x) (fun _ => KFile) (fun _ => true) (fun _ => true) (fun x => x) e = Ok (mkStarted MListen (s "uds://") (Some (mkCtx false CERT_NONE [] (Some (s "/c", JStr (s "/k"), JNull)))) false (Some (s "/log", s "info"))).
Proof. eexists. csplit; vm_compute; reflexivity. Qed.
Print Assumptions C50_environment_partial.
Print Assumptions C50_empty_entry_refuted.
Print Assumptions C51_client.
Print Assumptions C51_server.
Print Assumptions C51_server_missing_ca.
Print Assumptions C60_settings_any_environment.
Print Assumptions C60_settings_reach_debugger.
Print Assumptions C60_tls_not_dropped.
