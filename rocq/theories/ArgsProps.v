(** C47: settings of launch and attach; C55: the process discovery file. *)
From Verif Require Import PyBase PyDict Digits JsonModel JsonProofs MsgBase ArgsModel TruthSpec.
From Coq Require Import Permutation.
Set Implicit Arguments.
Local Open Scope N_scope.

Lemma truthy_falsy j : truthy j = false <-> falsy j.
Proof.
  unfold falsy. split.
  - destruct j as [|[]|z|[]|[]|[]]; cbn; intros H; try discriminate; auto 10.
    apply Bool.negb_false_iff, Z.eqb_eq in H. subst. auto.
  - intros [-> |[-> |[-> |[-> |[-> | ->]]]]]; reflexivity.
Qed.
Lemma truthy_true j : truthy j = true <-> ~ falsy j.
Proof. rewrite <- truthy_falsy. destruct (truthy j); split; congruence. Qed.

(** * The settings a user gives, each optional one present or not *)
Record LaunchOpts := mkLO {
  lo_playbook : json; lo_args : option json; lo_cwd : option json; lo_env : option json; lo_external : option bool;
  lo_timeout : option json; lo_maps : option (list (json * json)); lo_logfile : option json; lo_loglevel : option json }.
Record AttachOpts := mkAO {
  ao_pid : option json; ao_addr : option json; ao_timeout : option json; ao_tls : option bool; ao_verify : option json; ao_cert : option json; ao_key : option json;
  ao_pass : option json; ao_maps : option (list (json * json)) }.
Definition opt (k : pystr) (v : option json) : dict pystr json := match v with Some v => [(k, v)] | None => [] end.
Definition js_mapping (p : json * json) : json := JObj [(s "localRoot", fst p); (s "remoteRoot", snd p)].
Definition js_maps (l : list (json * json)) : json := JArr (map js_mapping l).
Definition js_console (ext : bool) : json := JStr (if ext then s "externalTerminal" else s "integratedTerminal").
(** The JSON object that spells out these settings. *)
Definition launch_json (o : LaunchOpts) : dict pystr json :=
  opt (s "playbook") (Some (lo_playbook o)) ++ opt (s "args") (lo_args o) ++ opt (s "cwd") (lo_cwd o) ++ opt (s "env") (lo_env o) ++
  opt (s "console") (option_map js_console (lo_external o)) ++ opt (s "connectTimeout") (lo_timeout o) ++ opt (s "pathMappings") (option_map js_maps (lo_maps o)) ++
  opt (s "logFile") (lo_logfile o) ++ opt (s "logLevel") (lo_loglevel o).
Definition attach_json (o : AttachOpts) : dict pystr json :=
  opt (s "processId") (ao_pid o) ++ opt (s "address") (ao_addr o) ++ opt (s "connectTimeout") (ao_timeout o) ++ opt (s "useTls") (option_map JBool (ao_tls o)) ++
  opt (s "tlsVerification") (ao_verify o) ++ opt (s "tlsCertificate") (ao_cert o) ++ opt (s "tlsKey") (ao_key o) ++ opt (s "tlsKeyPassword") (ao_pass o) ++
  opt (s "pathMappings") (option_map js_maps (ao_maps o)).
Definition launch_keys : list pystr := [s "playbook"; s "args"; s "cwd"; s "env"; s "console"; s "connectTimeout"; s "pathMappings"; s "logFile"; s "logLevel"].
Definition attach_keys : list pystr := [s "processId"; s "address"; s "connectTimeout"; s "useTls"; s "tlsVerification"; s "tlsCertificate"; s "tlsKey"; s "tlsKeyPassword"; s "pathMappings"].
Definition default {A} (o : option A) (d : A) : A := match o with Some x => x | None => d end.
Definition res_map {A B} (f : A -> B) (r : res A) : res B := match r with Ok a => Ok (f a) | Err e => Err e end.

Section P.
Variable Fl : Type.
Variable py_float : option json -> res Fl.
Notation launch_from_json := (launch_from_json py_float).
Notation attach_from_json := (attach_from_json py_float).

Lemma get_same k v (d : dict pystr json) : dget (opt k v ++ d) k = match v with Some x => Some x | None => dget d k end.
Proof. destruct v; cbn [opt app dget]; [now rewrite eqb_refl|reflexivity]. Qed.
Lemma get_other k v (d : dict pystr json) k' : eqb k k' = false -> dget (opt k v ++ d) k' = dget d k'.
Proof. intros H. destruct v; cbn [opt app dget]; [now rewrite H|reflexivity]. Qed.
Lemma maps_ok l : read_mappings (map js_mapping l) = Ok l.
Proof. induction l as [|[a b] l IH]; auto. cbn [map read_mappings]. rewrite IH. reflexivity. Qed.
Lemma none_extra (d : dict pystr json) keys k : (forall k, In k (dkeys d) -> ~ In k keys) -> In k keys -> dget d k = None.
Proof. intros H I. apply dget_None. intros J. eapply H; eauto. Qed.
Ltac key := repeat (rewrite get_other by (vm_compute; reflexivity)); rewrite ?get_same.

(** C47, launch: whatever the order of the settings, whichever of them are given and
    whatever other settings are present, the given values are kept and the documented
    defaults fill in the rest. *)
Theorem C47_launch d o extra : NoDup (dkeys d) -> Permutation d (launch_json o ++ extra) -> (forall k, In k (dkeys extra) -> ~ In k launch_keys) -> ~ falsy (lo_playbook o) ->
  launch_from_json d = res_map (fun t => mkLaunch (lo_playbook o) (default (lo_args o) (JArr [])) (default (lo_cwd o) (JStr [])) (default (lo_env o) (JObj [])) (default (lo_external o) false) t
    (default (lo_maps o) []) (default (lo_logfile o) JNull) (default (lo_loglevel o) (JStr (s "info")))) (py_float (lo_timeout o)).
Proof.
  intros ND PM EX TR. apply truthy_true in TR.
  assert (G : forall k, In k launch_keys -> dget extra k = None) by (intros; eapply none_extra; eauto).
  assert (K : dget d (s "playbook") = Some (lo_playbook o) /\ dget d (s "args") = lo_args o /\ dget d (s "cwd") = lo_cwd o /\ dget d (s "env") = lo_env o /\
    dget d (s "console") = option_map js_console (lo_external o) /\ dget d (s "connectTimeout") = lo_timeout o /\ dget d (s "pathMappings") = option_map js_maps (lo_maps o) /\
    dget d (s "logFile") = lo_logfile o /\ dget d (s "logLevel") = lo_loglevel o).
  { repeat split; rewrite (dget_perm _ ND PM); unfold launch_json; rewrite <- !app_assoc; key; auto.
    all: match goal with |- match ?x with Some _ => _ | None => _ end = _ => destruct x eqn:?; auto end.
    all: key; apply G; cbn; auto 10. }
  destruct K as (K1 & K2 & K3 & K4 & K5 & K6 & K7 & K8 & K9).
  unfold launch_from_json, get_or. rewrite K1, K2, K3, K4, K5, K6, K7, K8, K9, TR. cbn [negb].
  replace (path_mappings (match option_map js_maps (lo_maps o) with Some x => x | None => JArr [] end)) with (@Ok (list (json * json)) (default (lo_maps o) []))
    by (destruct (lo_maps o); cbn; [now rewrite maps_ok|reflexivity]).
  destruct (lo_external o) as [[|]|]; cbn; destruct (py_float (lo_timeout o)); reflexivity.
Qed.
(** What is rejected: no playbook (or an empty one), an unknown console. *)
Theorem C47_launch_rejects d : ((forall p, dget d (s "playbook") = Some p -> falsy p) -> launch_from_json d = Err ValueError) /\
  (forall c, dget d (s "console") = Some c -> c <> JStr (s "integratedTerminal") -> c <> JStr (s "externalTerminal") -> launch_from_json d = Err ValueError).
Proof.
  assert (A : (forall p, dget d (s "playbook") = Some p -> falsy p) -> launch_from_json d = Err ValueError).
  { unfold launch_from_json, get_or. intros H. destruct (dget d (s "playbook")) as [p|]; [|reflexivity]. specialize (H p eq_refl). apply truthy_falsy in H. rewrite H. reflexivity. }
  split; [exact A|]. intros c C N1 N2. destruct (truthy (get_or d (s "playbook") JNull)) eqn:T.
  - unfold launch_from_json. rewrite T. unfold get_or. rewrite C. destruct c as [| | |t| |]; try reflexivity. cbv iota.
    destruct (eqb_spec t (s "integratedTerminal")) as [-> |E1]; [congruence|]. destruct (eqb_spec t (s "externalTerminal")) as [-> |E2]; [congruence|]. reflexivity.
  - apply A. intros p P. unfold get_or in T. rewrite P in T. now apply truthy_falsy.
Qed.
(** C47, attach. *)
Theorem C47_attach d o extra : NoDup (dkeys d) -> Permutation d (attach_json o ++ extra) -> (forall k, In k (dkeys extra) -> ~ In k attach_keys) ->
  attach_from_json d = res_map (fun t => mkAttach (default (ao_pid o) JNull) (default (ao_addr o) (JStr [])) t (default (ao_tls o) false) (default (ao_verify o) (JStr (s "verify")))
    (default (ao_cert o) JNull) (default (ao_key o) JNull) (default (ao_pass o) JNull) (default (ao_maps o) [])) (py_float (ao_timeout o)).
Proof.
  intros ND PM EX.
  assert (G : forall k, In k attach_keys -> dget extra k = None) by (intros; eapply none_extra; eauto).
  assert (K : dget d (s "processId") = ao_pid o /\ dget d (s "address") = ao_addr o /\ dget d (s "connectTimeout") = ao_timeout o /\ dget d (s "useTls") = option_map JBool (ao_tls o) /\
    dget d (s "tlsVerification") = ao_verify o /\ dget d (s "tlsCertificate") = ao_cert o /\ dget d (s "tlsKey") = ao_key o /\ dget d (s "tlsKeyPassword") = ao_pass o /\
    dget d (s "pathMappings") = option_map js_maps (ao_maps o)).
  { repeat split; rewrite (dget_perm _ ND PM); unfold attach_json; rewrite <- !app_assoc; key; auto.
    all: match goal with |- match ?x with Some _ => _ | None => _ end = _ => destruct x eqn:?; auto end.
    all: key; apply G; cbn; auto 10. }
  destruct K as (K1 & K2 & K3 & K4 & K5 & K6 & K7 & K8 & K9).
  unfold attach_from_json, get_or. rewrite K1, K2, K3, K4, K5, K6, K7, K8, K9.
  replace (path_mappings (match option_map js_maps (ao_maps o) with Some x => x | None => JArr [] end)) with (@Ok (list (json * json)) (default (ao_maps o) []))
    by (destruct (ao_maps o); cbn; [now rewrite maps_ok|reflexivity]).
  cbn. destruct (ao_tls o); destruct (py_float (ao_timeout o)); reflexivity.
Qed.

(** Which process an attach goes to. *)
Theorem C47_target tmp fs (a : AttachArgs Fl) :
  (forall z, at_pid a = JInt z -> connection_tuple tmp fs a =
     match dget fs (tmp ++ s "/ansibug-pid-" ++ zdigits z) with
     | None => Err ValueError
     | Some text => bind (loads text) (fun j => bind (info_from_json j) (fun i => Ok (pi_addr i, pi_tls i)))
     end) /\
  (at_pid a = JNull -> ~ falsy (at_addr a) -> connection_tuple tmp fs a = Ok (at_addr a, JBool (at_tls a))) /\
  (at_pid a = JNull -> falsy (at_addr a) -> connection_tuple tmp fs a = Err ValueError).
Proof. rewrite <- truthy_true, <- truthy_falsy. unfold connection_tuple. repeat split; [intros z ->|intros -> ->|intros -> ->]; reflexivity. Qed.

(** * C55 *)
(** The file as the history says it should be: written by the last successful start in
    listen mode, gone if a shutdown came after it. *)
Fixpoint last_listen (l : list dop) (init : option (pystr * bool * option pystr)) : option (pystr * bool * option pystr) :=
  match l with
  | [] => init
  | DStart Listen (Some addr) tls pb :: l => last_listen l (Some (addr, tls, pb))
  | DShutdown _ :: l => last_listen l None
  | _ :: l => last_listen l init
  end.
Definition text_ok (t : pystr) : Prop := Forall scalar t.
Definition op_ok (o : dop) : Prop :=
  match o with DStart _ (Some addr) _ pb => text_ok addr /\ match pb with Some t => text_ok t | None => True end | _ => True end.
Definition pidfile (tmp : pystr) (pid : Z) : pystr := tmp ++ s "/ansibug-pid-" ++ zdigits pid.
Lemma dops_content tmp pid l : forall fs st, NoDup (dkeys fs) ->
  dget fs (pidfile tmp pid) = option_map (fun x => match x with (addr, tls, pb) => dumps (info_to_json (mkInfo (JInt pid) (JStr addr) (JBool tls) (match pb with Some t => JStr t | None => JNull end))) end) st ->
  NoDup (dkeys (dops tmp pid l fs)) /\
  dget (dops tmp pid l fs) (pidfile tmp pid) = option_map (fun x => match x with (addr, tls, pb) => dumps (info_to_json (mkInfo (JInt pid) (JStr addr) (JBool tls) (match pb with Some t => JStr t | None => JNull end))) end) (last_listen l st) /\
  forall p, p <> pidfile tmp pid -> dget (dops tmp pid l fs) p = dget fs p.
Proof.
  unfold dops. induction l as [|o l IH]; intros fs st ND G; cbn [fold_left last_listen]; [auto|].
  destruct o as [[|] [addr|] tls pb|b|]; cbn [dop_step last_listen]; try exact (IH _ _ ND G).
  - cbn [dop_step]. change (pid_path tmp (zdigits pid)) with (pidfile tmp pid). destruct (IH (dset fs (pidfile tmp pid) (dumps (info_to_json (mkInfo (JInt pid) (JStr addr) (JBool tls) (match pb with Some t => JStr t | None => JNull end))))) (Some (addr, tls, pb))) as (A & B & C).
    + now apply NoDup_dset.
    + now rewrite dget_dset_same.
    + split; [exact A|]. split; [exact B|]. intros p NP. rewrite C by exact NP. now apply dget_dset_other.
  - cbn [dop_step]. change (pid_path tmp (zdigits pid)) with (pidfile tmp pid). destruct (IH (ddel fs (pidfile tmp pid)) None) as (A & B & C).
    + now apply NoDup_ddel.
    + now rewrite dget_ddel_same.
    + split; [exact A|]. split; [exact B|]. intros p NP. rewrite C by exact NP. now apply dget_ddel_other.
Qed.
Lemma last_listen_ok l : forall st, Forall op_ok l -> match st with Some (addr, _, pb) => text_ok addr /\ match pb with Some t => text_ok t | None => True end | None => True end ->
  match last_listen l st with Some (addr, _, pb) => text_ok addr /\ match pb with Some t => text_ok t | None => True end | None => True end.
Proof.
  induction l as [|o l IH]; intros st F G; cbn [last_listen]; [exact G|]. inversion F as [|? ? O F']; subst.
  destruct o as [[|] [addr|] tls pb|b|]; apply IH; auto.
Qed.
Lemma info_wf pid addr tls pb : text_ok addr -> match pb with Some t => text_ok t | None => True end ->
  wfj (info_to_json (mkInfo (JInt pid) (JStr addr) (JBool tls) (match pb with Some t => JStr t | None => JNull end))).
Proof.
  intros A B. assert (AS : forall x, forallb (fun c => c <? 55296) x = true -> Forall scalar x).
  { intros x H. rewrite forallb_forall in H. apply Forall_forall. intros c I. apply H in I. apply N.ltb_lt in I. now left. }
  cbn. split.
  - repeat (constructor; [cbn; intros Q; repeat (destruct Q as [Q|Q]; [discriminate|]); exact Q|]). constructor.
  - repeat split; try (apply AS; reflexivity); auto. destruct pb; cbn; auto.
Qed.
(** C55: after every history of starts and shutdowns (none before: no file), the file is
    there iff the last of them that matters is a start in listen mode, and then an attach
    by process id reads back exactly the address and the TLS setting of that start; no
    other file is touched. *)
Theorem C55_pid_file tmp pid l fs : NoDup (dkeys fs) -> dget fs (pidfile tmp pid) = None -> Forall op_ok l ->
  let fs' := dops tmp pid l fs in
  (forall p, p <> pidfile tmp pid -> dget fs' p = dget fs p) /\
  match last_listen l None with
  | None => dget fs' (pidfile tmp pid) = None /\ forall (a : AttachArgs Fl), at_pid a = JInt pid -> connection_tuple tmp fs' a = Err ValueError
  | Some (addr, tls, pb) =>
    (exists text, dget fs' (pidfile tmp pid) = Some text /\ bind (loads text) info_from_json = Ok (mkInfo (JInt pid) (JStr addr) (JBool tls) (match pb with Some t => JStr t | None => JNull end))) /\
    forall (a : AttachArgs Fl), at_pid a = JInt pid -> connection_tuple tmp fs' a = Ok (JStr addr, JBool tls)
  end.
Proof.
  intros ND NO F fs'. destruct (@dops_content tmp pid l fs None ND NO) as (_ & G & O). fold fs' in G, O. split; [exact O|].
  pose proof (last_listen_ok None F Logic.I) as W. destruct (last_listen l None) as [((addr, tls), pb)|]; cbn [option_map] in G.
  - destruct W as (W1 & W2). pose proof (loads_dumps _ (info_wf pid tls _ W1 W2)) as LD. split.
    + eexists. split; [exact G|]. rewrite LD. reflexivity.
    + intros a P. unfold connection_tuple. rewrite P. cbn [fmt_pid bind]. change (pid_path tmp (zdigits pid)) with (pidfile tmp pid). rewrite G, LD. reflexivity.
  - split; [exact G|]. intros a P. unfold connection_tuple. rewrite P. cbn [fmt_pid bind]. change (pid_path tmp (zdigits pid)) with (pidfile tmp pid). rewrite G. reflexivity.
Qed.
(** Shutting down again changes nothing; connect mode creates nothing. *)
Theorem C55_idempotent tmp pid l fs b b' : NoDup (dkeys fs) -> dops tmp pid (l ++ [DShutdown b; DShutdown b']) fs = dops tmp pid (l ++ [DShutdown b]) fs.
Proof.
  intros ND. unfold dops. rewrite !fold_left_app. cbn [fold_left dop_step]. apply ddel_notin. set (x := fold_left (dop_step tmp pid) l fs).
  assert (NX : NoDup (dkeys x)).
  { subst x. revert fs ND. induction l as [|o l IH]; intros fs ND; cbn [fold_left]; [exact ND|]. apply IH. destruct o as [[|] [?|] ? ?|?|]; cbn [dop_step]; try exact ND; [now apply NoDup_dset|now apply NoDup_ddel]. }
  intros H. apply In_dkeys_ddel in H; tauto.
Qed.
Theorem C55_connect_never tmp pid l fs : dget fs (pidfile tmp pid) = None -> NoDup (dkeys fs) -> (forall o, In o l -> match o with DStart Listen _ _ _ => False | _ => True end) ->
  dget (dops tmp pid l fs) (pidfile tmp pid) = None.
Proof.
  intros NO ND H. destruct (@dops_content tmp pid l fs None ND NO) as (_ & G & _). rewrite G.
  assert (X : last_listen l None = None); [|now rewrite X].
  clear - H. induction l as [|o l IH]; auto. cbn. pose proof (H o (or_introl eq_refl)) as HO. destruct o as [[|] [?|] ? ?|?|]; try contradiction; apply IH; intros; apply H; now right.
Qed.
End P.

(** Cases. *)
Definition demo_float (o : option json) : res Z := match o with None => Ok 5%Z | Some (JInt z) => Ok z | _ => Err TypeError end.
Example launch_case : launch_from_json demo_float [(s "pathMappings", js_maps [(JStr (s "/a"), JStr (s "/b")); (JStr (s "/c"), JStr (s "/d"))]); (s "noDebug", JBool true); (s "playbook", JStr (s "main.yml"))]
  = Ok (mkLaunch (JStr (s "main.yml")) (JArr []) (JStr []) (JObj []) false 5%Z [(JStr (s "/a"), JStr (s "/b")); (JStr (s "/c"), JStr (s "/d"))] JNull (JStr (s "info"))).
Proof. vm_compute. reflexivity. Qed.
Example launch_hyps : NoDup (dkeys [(s "pathMappings", js_maps []); (s "noDebug", JBool true); (s "playbook", JStr (s "main.yml"))]) /\
  Permutation [(s "pathMappings", js_maps []); (s "noDebug", JBool true); (s "playbook", JStr (s "main.yml"))]
    (launch_json (mkLO (JStr (s "main.yml")) None None None None None (Some []) None None) ++ [(s "noDebug", JBool true)]) /\ ~ falsy (JStr (s "main.yml")).
Proof.
  split; [|split; [|apply truthy_true; reflexivity]].
  - repeat (constructor; [cbn; intros Q; repeat (destruct Q as [Q|Q]; [discriminate|]); exact Q|]). constructor.
  - cbn. eapply Permutation_trans; [apply perm_skip; apply perm_swap|]. eapply Permutation_trans; [apply perm_swap|]. apply Permutation_refl.
Qed.
Example attach_both : forall z addr, connection_tuple (s "/tmp") [] (mkAttach (JInt z) (JStr addr) 5%Z false (JStr (s "verify")) JNull JNull JNull []) = Err ValueError.
Proof. reflexivity. Qed.
Example pid_case : exists text, dops (s "/tmp") 42 [DStart Listen (Some (s "tcp://127.0.0.1:5678")) true None; DOther] [] = [(s "/tmp/ansibug-pid-42", text)] /\
  connection_tuple (s "/tmp") (dops (s "/tmp") 42 [DStart Listen (Some (s "tcp://127.0.0.1:5678")) true None; DOther] []) (mkAttach (JInt 42) (JStr []) 5%Z false (JStr (s "verify")) JNull JNull JNull [])
  = Ok (JStr (s "tcp://127.0.0.1:5678"), JBool true) /\ dops (s "/tmp") 42 [DStart Listen (Some (s "tcp://127.0.0.1:5678")) true None; DShutdown false] [] = [].
Proof. eexists. split; [vm_compute; reflexivity|]. split; vm_compute; reflexivity. Qed.
Print Assumptions C47_launch.
Print Assumptions C47_launch_rejects.
Print Assumptions C47_attach.
Print Assumptions C47_target.
Print Assumptions C55_pid_file.
Print Assumptions C55_idempotent.
Print Assumptions C55_connect_never.
