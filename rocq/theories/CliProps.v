(** C64: the command line means what it says, and the arguments for the playbook are passed on unchanged. *)
From Verif Require Import PyBase PyDict JsonModel JsonProofs AdapterModel ArgsModel Utf8 ShModel ShProps ExecModel ExecProps CliModel CliSpec CliProofs.
Set Implicit Arguments.
Local Open Scope N_scope.
Ltac csplit := repeat match goal with |- _ /\ _ => split end.

(** * The namespace *)
Lemma last_app l : forall acc o, fold_left (fun acc x => match sets x o with Some v => Some v | None => acc end) l acc = match last_value l o with Some v => Some v | None => acc end.
Proof.
  unfold last_value. induction l as [|x l IH]; intros acc o; [reflexivity|]. cbn [fold_left]. rewrite IH. rewrite (IH (match sets x o with Some v => Some v | None => None end)).
  destruct (fold_left _ l None); [reflexivity|]. now destruct (sets x o).
Qed.
Lemma value_last l o : value_of (map pair_of l) o = last_value l o.
Proof.
  induction l as [|x l IH]; [reflexivity|]. unfold last_value. cbn [map fold_left]. rewrite last_app.
  destruct x as [o' w v|o' w v|o' w]; cbn [pair_of value_of]; rewrite IH; destruct (last_value l o); auto; cbn [sets]; destruct (eqb o' o); reflexivity.
Qed.
Lemma given_switched neg a l o : Forall (setting_ok neg a) l -> ~ In o (valued a) -> given (map pair_of l) o = switched l o.
Proof.
  intros F N. induction l as [|x l IH]; [reflexivity|]. apply Forall_cons_iff in F as [H F]. unfold given, switched in *. cbn [map existsb]. rewrite (IH F). f_equal.
  destruct x as [o' w v|o' w v|o' w]; cbn [pair_of fst]; try reflexivity; destruct H as [I _]; apply eqb_neq; intros ->; contradiction.
Qed.
Lemma levels_valid neg a l : Forall (setting_ok neg a) l -> levels_ok (map pair_of l) = true <-> valid_levels l.
Proof.
  intros F. unfold levels_ok, valid_levels. rewrite forallb_forall. split.
  - intros H x v I S. specialize (H _ (in_map pair_of _ _ I)). destruct x as [o' w v'|o' w v'|o' w]; cbn [sets pair_of fst snd] in *; try discriminate;
      destruct (eqb o' (s "--log-level")); try discriminate; injection S as ->; now apply mem_In in H.
  - intros H p I. apply in_map_iff in I as (x & <- & I). rewrite Forall_forall in F. specialize (F x I).
    destruct x as [o' w v'|o' w v'|o' w]; cbn [pair_of fst snd]; destruct (eqb o' (s "--log-level")) eqn:E; try reflexivity.
    + apply mem_In. apply (H _ v' I). cbn [sets]. now rewrite E.
    + apply mem_In. apply (H _ v' I). cbn [sets]. now rewrite E.
    + apply eqb_eq in E. subst o'. destruct F as [F _]. destruct a; vm_compute in F; intuition discriminate.
Qed.

Section C.
Variable neg : pystr -> bool.
Variable eager : bool.
Lemma clash_iff a ts : eager && existsb (ambiguous neg (opts_of a)) (before_dd ts) = false <-> no_clash eager a ts.
Proof.
  change before_dd with until_dd. unfold no_clash. destruct eager; cbn [andb]; [|split; [discriminate|reflexivity]]. split.
  - intros H _ t I C. apply (ambiguous_iff neg) in C. assert (X : existsb (ambiguous neg (opts_of a)) (until_dd ts) = true) by (apply existsb_exists; eauto). congruence.
  - intros H. destruct (existsb _ _) eqn:E; [|reflexivity]. apply existsb_exists in E as (t & I & A). apply ambiguous_iff in A. now elim (H eq_refl t I).
Qed.
(** What parse_opts accepts is exactly a sequence of settings followed by the rest. *)
Lemma parse_iff a ts ps rest : parse_opts neg eager (opts_of a) ts = Some (ps, rest) <->
  exists l, ts = flat_map text_of l ++ rest /\ Forall (setting_ok neg a) l /\ rest_ok neg a rest /\ no_clash eager a ts /\ ps = map pair_of l.
Proof.
  unfold parse_opts. split.
  - intros H. destruct (eager && _) eqn:E; [discriminate|]. apply clash_iff in E. apply walk_fwd in H as (l & HT & HS & HR & HP). eauto 10.
  - intros (l & HT & HS & HR & HC & ->). apply clash_iff in HC. rewrite HC, HT. apply walk_back; auto.
Qed.

Variable to_path : pystr -> pystr.
Variable key_pass : option pystr.
Notation cli := (cli neg eager to_path key_pass).
Notation line := (line neg eager).
Notation asked := (asked to_path key_pass).

(** A playbook is started exactly for the command lines of "connect" (with an address) and "listen", with exactly what they ask for. *)
Theorem C64_command_line argv r :
  cli argv = Some (RunPlaybook r) <->
  exists a l rest, a <> Dap /\ line a l rest argv /\ (a = Connect -> last_value l (s "--addr") <> None) /\ r = asked a l rest.
Proof.
  split.
  - intros H. destruct argv as [|n ts]; [discriminate|]. cbn [CliModel.cli] in H.
    destruct (eqb n (s "connect")) eqn:E1; [|destruct (eqb n (s "dap")) eqn:E2; [|destruct (eqb n (s "listen")) eqn:E3; [|discriminate]]].
    + apply eqb_eq in E1. subst n. change connect_opts with (opts_of Connect) in H. destruct (parse_opts _ _ _ _) as [(ps, rest)|] eqn:P; [|discriminate].
      apply parse_iff in P as (l & -> & HS & HR & HC & ->). rewrite value_last in H. destruct (last_value l (s "--addr")) as [addr|] eqn:A; [|discriminate].
      destruct (levels_ok _) eqn:L; [|discriminate]. apply (levels_valid HS) in L. injection H as <-. exists Connect, l, rest.
      csplit; [discriminate|repeat split; auto|congruence|]. cbn [CliSpec.asked]. rewrite A. rewrite (given_switched (s "--no-wait") HS) by (vm_compute; intuition discriminate).
      unfold log_of, level_of, log_setting. now rewrite !value_last.
    + destruct (parse_opts _ _ _ _) as [(ps, [|])|]; [destruct (levels_ok ps)|..]; discriminate.
    + apply eqb_eq in E3. subst n. change listen_opts with (opts_of Listen) in H. destruct (parse_opts _ _ _ _) as [(ps, rest)|] eqn:P; [|discriminate].
      apply parse_iff in P as (l & -> & HS & HR & HC & ->). destruct (levels_ok _) eqn:L; [|discriminate]. apply (levels_valid HS) in L. injection H as <-. exists Listen, l, rest.
      csplit; [discriminate|repeat split; auto|discriminate|]. cbn [CliSpec.asked].
      rewrite (given_switched (s "--no-wait") HS), (given_switched (s "--wrap-tls") HS) by (vm_compute; intuition discriminate).
      unfold log_of, level_of, log_setting. rewrite !value_last. reflexivity.
  - intros (a & l & rest & ND & (-> & HS & HR & HC & HL) & HA & ->).
    assert (P : parse_opts neg eager (opts_of a) (flat_map text_of l ++ rest) = Some (map pair_of l, rest)) by (apply parse_iff; eauto 10).
    apply (levels_valid HS) in HL. destruct a; [|contradiction|]; cbn [CliModel.cli action_name].
    + change (eqb (s "connect") (s "connect")) with true. cbv iota. change connect_opts with (opts_of Connect). rewrite P, value_last.
      destruct (last_value l (s "--addr")) as [addr|] eqn:A; [|now elim HA]. rewrite HL. cbn [CliSpec.asked]. rewrite A.
      rewrite (given_switched (s "--no-wait") HS) by (vm_compute; intuition discriminate). unfold log_of, level_of, log_setting. now rewrite !value_last.
    + change (eqb (s "listen") (s "connect")) with false. change (eqb (s "listen") (s "dap")) with false. change (eqb (s "listen") (s "listen")) with true. cbv iota. change listen_opts with (opts_of Listen). rewrite P, HL. cbn [CliSpec.asked].
      rewrite (given_switched (s "--no-wait") HS), (given_switched (s "--wrap-tls") HS) by (vm_compute; intuition discriminate).
      unfold log_of, level_of, log_setting. now rewrite !value_last.
Qed.
(** The debug adapter is started exactly for the command lines of "dap" without further arguments. *)
Theorem C64_dap argv log level temp :
  cli argv = Some (RunDap log level temp) <->
  exists l, line Dap l [] argv /\ log = option_map to_path (last_value l (s "--log-file")) /\ level = or_else (last_value l (s "--log-level")) (s "info") /\
    temp = option_map to_path (last_value l (s "--temp-dir")).
Proof.
  split.
  - intros H. destruct argv as [|n ts]; [discriminate|]. cbn [CliModel.cli] in H.
    destruct (eqb n (s "connect")) eqn:E1; [|destruct (eqb n (s "dap")) eqn:E2; [|destruct (eqb n (s "listen")) eqn:E3; [|discriminate]]].
    + destruct (parse_opts _ _ _ _) as [(ps, rest)|]; [|discriminate]. destruct (value_of _ _); [|discriminate]. destruct (levels_ok _); discriminate.
    + apply eqb_eq in E2. subst n. change dap_opts with (opts_of Dap) in H. destruct (parse_opts _ _ _ _) as [(ps, [|])|] eqn:P; [|discriminate|discriminate].
      apply parse_iff in P as (l & -> & HS & HR & HC & ->). destruct (levels_ok _) eqn:L; [|discriminate]. apply (levels_valid HS) in L. injection H as <- <- <-.
      exists l. unfold level_of. rewrite !value_last. repeat split; auto.
    + destruct (parse_opts _ _ _ _) as [(ps, rest)|]; [|discriminate]. destruct (levels_ok _); discriminate.
  - intros (l & (-> & HS & HR & HC & HL) & -> & -> & ->).
    assert (P : parse_opts neg eager (opts_of Dap) (flat_map text_of l ++ []) = Some (map pair_of l, [])) by (apply parse_iff; eauto 10).
    apply (levels_valid HS) in HL. cbn [CliModel.cli action_name]. change (eqb (s "dap") (s "connect")) with false. change (eqb (s "dap") (s "dap")) with true. cbv iota. change dap_opts with (opts_of Dap).
    rewrite P, HL. unfold level_of. now rewrite !value_last.
Qed.

(** A command line means one thing: two readings of it ask for the same. *)
Theorem C64_one_meaning argv a l rest a' l' rest' : a <> Dap -> a' <> Dap -> (a = Connect -> last_value l (s "--addr") <> None) -> (a' = Connect -> last_value l' (s "--addr") <> None) ->
  line a l rest argv -> line a' l' rest' argv -> asked a l rest = asked a' l' rest'.
Proof.
  intros D D' N N' L L'. assert (X : cli argv = Some (RunPlaybook (asked a l rest))) by (apply C64_command_line; eauto 10).
  assert (Y : cli argv = Some (RunPlaybook (asked a' l' rest'))) by (apply C64_command_line; eauto 10). rewrite X in Y. now injection Y.
Qed.

(** * From the launch request to ansible-playbook *)
Definition plain (t : pystr) : Prop := hd_error t <> Some 45.
Definition log_args (log : option (pystr * pystr)) : list pystr := match log with Some (f, lv) => [s "--log-file"; f; s "--log-level"; lv] | None => [] end.
Lemma own_setting a o v : In o (valued a) -> o <> s "-h" -> plain v -> setting_ok neg a (Sep o o v).
Proof.
  intros I H P. cbn [setting_ok]. csplit; [exact I| |now left]. assert (IN : In o (names a)) by (unfold names; rewrite !in_app_iff; tauto).
  repeat split; [exact IN|apply (names_form a o IN)|now left].
Qed.
Lemma connect_line addr log playbook args :
  plain addr -> plain playbook -> match log with Some (f, lv) => plain f /\ In lv [s "info"; s "debug"; s "warning"; s "error"] | None => True end ->
  (eager = true -> forall t, In t (until_dd args) -> ~ clash Connect t) ->
  cli (s "connect" :: [s "--addr"; addr] ++ log_args log ++ playbook :: args) =
  Some (RunPlaybook (mkReq (playbook :: args) MConnect addr false false None None None None (option_map (fun p => (to_path (fst p), snd p)) log))).
Proof.
  intros PA PP PL NC.
  set (l := Sep (s "--addr") (s "--addr") addr :: match log with Some (f, lv) => [Sep (s "--log-file") (s "--log-file") f; Sep (s "--log-level") (s "--log-level") lv] | None => [] end).
  assert (TX : flat_map text_of l ++ playbook :: args = [s "--addr"; addr] ++ log_args log ++ playbook :: args).
  { unfold l. destruct log as [(f, lv)|]; reflexivity. }
  assert (LV : forall lv, In lv [s "info"; s "debug"; s "warning"; s "error"] -> plain lv).
  { intros lv I. vm_compute in I. destruct I as [<-|[<-|[<-|[<-|[]]]]]; discriminate. }
  assert (PC : forall t, plain t -> ~ clash Connect t).
  { intros t P (w & HW & _ & (u & ->) & _). apply P. destruct HW as [->|(v & ->)]; reflexivity. }
  assert (OC : forall o, In o (names Connect) -> ~ clash Connect o).
  { intros o I (w & HW & _ & _ & NI & _). destruct HW as [->|(v & E)]; [contradiction|]. apply (names_form Connect o I). rewrite E. apply in_or_app. right. now left. }
  assert (UD : forall p q t, In t (until_dd (p ++ q)) -> In t p \/ In t (until_dd q)).
  { induction p as [|x p IH]; intros q t I; [now right|]. cbn [app until_dd] in I. destruct (eqb x (s "--")); [destruct I|]. destruct I as [->|I]; [left; now left|]. destruct (IH _ _ I); [left; now right|now right]. }
  apply C64_command_line. exists Connect, l, (playbook :: args). csplit; [discriminate| | |].
  - split; [now rewrite TX|]. csplit.
    + unfold l. constructor; [apply own_setting; [vm_compute; tauto|intros E; vm_compute in E; discriminate|exact PA]|]. destruct log as [(f, lv)|]; [|constructor]. destruct PL as [P1 P2].
      constructor; [apply own_setting; [vm_compute; tauto|intros E; vm_compute in E; discriminate|exact P1]|].
      constructor; [apply own_setting; [vm_compute; tauto|intros E; vm_compute in E; discriminate|now apply LV]|constructor].
    + right. now left.
    + intros EG t I. rewrite TX in I. apply UD in I as [I|I].
      { destruct I as [<-|[<-|[]]]; [apply OC; vm_compute; tauto|now apply PC]. }
      apply UD in I as [I|I].
      { destruct log as [(f, lv)|]; [|destruct I]. destruct PL as [P1 P2]. destruct I as [<-|[<-|[<-|[<-|[]]]]]; [apply OC; vm_compute; tauto|now apply PC|apply OC; vm_compute; tauto|apply PC; auto]. }
      change (playbook :: args) with ([playbook] ++ args) in I. apply UD in I as [[<-|[]]|I]; [now apply PC|now apply NC].
    + intros x v I S. unfold l in I. destruct I as [<-|I]; [discriminate|]. destruct log as [(f, lv)|]; [|destruct I]. destruct PL as [_ P2]. destruct I as [<-|[<-|[]]]; [discriminate|]. cbn in S. injection S as <-. exact P2.
  - intros _. unfold l. destruct log as [(f, lv)|]; discriminate.
  - unfold l. destruct log as [(f, lv)|]; reflexivity.
Qed.

Variable expand : pystr -> pystr.
Variable kind : pystr -> fkind.
Variable loads_ca : pystr -> bool.
Variable loads_chain : pystr * json * json -> bool.
Variable resolve : pystr -> pystr.
(** A launch: the script given to the terminal runs ansibug's command line, which starts ansible-playbook with exactly the
    playbook and arguments of the terminal's command, and the debugger in it connects to the adapter's address, waits for the
    client and logs as asked (if no log is asked for, as ansibug's log variables in the
    inherited environment say). *)
Theorem C64_launch_end_to_end python addr log sock playbook args :
  hd_error python = Some 47 -> no_nul python -> no_nul addr -> match log with Some (f, lv) => no_nul f /\ no_nul lv | None => True end -> Forall scalar sock ->
  plain addr -> plain playbook -> match log with Some (f, lv) => plain f /\ In lv [s "info"; s "debug"; s "warning"; s "error"] | None => True end ->
  (eager = true -> forall t, In t (until_dd args) -> ~ clash Connect t) ->
  exists text, make_script python addr sock log = Ok text /\
  forall status arg0, status [s "rm"; s "-f"; arg0] = true ->
  exists argv tail r, sh_run status arg0 (playbook :: args) text = Ok ([s "rm"; s "-f"; arg0] :: (python :: s "-m" :: s "ansibug" :: argv) :: tail) /\ cli argv = Some (RunPlaybook r) /\
  forall environ dump path parent cbs paths, Forall is_obj dump -> user_list n_cb dump cbs -> user_list n_coll dump paths ->
  exists e, exec_playbook python environ dump path parent r = Ok ([python; s "-m"; s "ansible"; s "playbook"; playbook] ++ args, e) /\
    on_start expand kind loads_ca loads_chain resolve e = Ok (mkStarted MConnect addr None true
      (match log_or environ (option_map (fun p => (to_path (fst p), snd p)) log) with Some (f, lv) => match resolve f with [] => None | g => Some (g, lv) end | None => None end)).
Proof.
  intros H1 H2 H3 H4 H5 PA PP PL NC.
  destruct (C48_launch_script (fun _ => true) [] [] log H1 H2 H3 H4 H5) as (text & _ & _ & HT & _). exists text. split; [exact HT|]. intros status arg0 ST.
  destruct (C48_launch_script status arg0 (playbook :: args) log H1 H2 H3 H4 H5) as (text' & b64 & sb & HT' & HR & _).
  rewrite HT in HT'. injection HT' as <-. rewrite ST in HR.
  exists (s "connect" :: [s "--addr"; addr] ++ log_args log ++ playbook :: args), [[python; s "-c"; cleanup_program b64]].
  eexists. csplit; [exact HR|apply connect_line; auto|]. intros environ dump path parent cbs paths F U1 U2.
  set (r := mkReq _ _ _ _ _ _ _ _ _ _).
  destruct (C60_settings_any_environment expand kind loads_ca loads_chain resolve python environ path parent r F U1 U2) as (argv & e & E & O).
  destruct (exec_get python environ path parent r F U1 U2) as (e' & E' & _). rewrite E in E'. injection E' as -> <-.
  exists e. split; [exact E|]. rewrite O. cbn [r r_mode r_tls bind r_addr r_no_wait negb r_log]. destruct log as [(f, lv)|]; reflexivity.
Qed.
End C.

(** * Cases *)
Definition demo_neg (_ : pystr) := false.
Definition demo_abs (p : pystr) := s "/cwd/" ++ p.
(** abbreviations, "=", the last value counts, and the playbook's own options are not read *)
Example cli_listen : cli demo_neg true demo_abs (Some (s "env-pass"))
    (map s ["listen"; "--ad"; "tcp://:1"; "--wrap-tls"; "--tls-cert=a=b"; "--addr"; "tcp://:2"; "main.yml"; "--addr"; "x"; "-vvv"; "--no-wait"; "--"; "--tls"]%string) =
  Some (RunPlaybook (mkReq (map s ["main.yml"; "--addr"; "x"; "-vvv"; "--no-wait"; "--"; "--tls"]%string) MListen (s "tcp://:2") false true (Some (s "/cwd/a=b")) None (Some (s "env-pass")) None None)).
Proof. vm_compute. reflexivity. Qed.
(** so there is such a line *)
Example cli_listen_line : exists l, line demo_neg true Listen l [s "main.yml"; s "-h"] (map s ["listen"; "--log-f"; "x"; "main.yml"; "-h"]%string).
Proof.
  assert (H : cli demo_neg true demo_abs None (map s ["listen"; "--log-f"; "x"; "main.yml"; "-h"]%string) = Some (RunPlaybook (mkReq [s "main.yml"; s "-h"] MListen (s "uds://") false false None None None None (Some (s "/cwd/x", s "info"))))) by (vm_compute; reflexivity).
  apply C64_command_line in H as (a & l & rest & ND & L & _ & E). exists l. destruct a; [discriminate|contradiction|]. now injection E as <-.
Qed.
Example cli_dap : cli demo_neg true demo_abs None (map s ["dap"; "--temp-dir"; "t"; "--log-level=debug"]%string) = Some (RunDap None (s "debug") (Some (s "/cwd/t"))) /\
  cli demo_neg true demo_abs None (map s ["dap"; "main.yml"]%string) = None /\ cli demo_neg true demo_abs None (map s ["connect"; "main.yml"]%string) = None /\
  cli demo_neg true demo_abs None (map s ["listen"; "--log-level"; "trace"; "main.yml"]%string) = None.
Proof. vm_compute. csplit; reflexivity. Qed.
(** The exception: where all arguments are classified first (Python 3.11, 3.12), an argument of the playbook that abbreviates
    two of ansibug's options is refused, though it is not ansibug's. *)
Example cli_clash : cli demo_neg true demo_abs None (map s ["listen"; "main.yml"; "--extra-vars"; "--tls"]%string) = None /\
  (exists r, cli demo_neg false demo_abs None (map s ["listen"; "main.yml"; "--extra-vars"; "--tls"]%string) = Some (RunPlaybook r) /\ r_args r = map s ["main.yml"; "--extra-vars"; "--tls"]%string) /\
  cli demo_neg true demo_abs None (map s ["listen"; "main.yml"; "--"; "--tls"]%string) <> None.
Proof. csplit; [vm_compute; reflexivity|eexists; split; vm_compute; reflexivity|vm_compute; discriminate]. Qed.
(** and a playbook whose name begins with "-" is taken for an option *)
Example cli_dash : cli demo_neg true demo_abs None (map s ["listen"; "-site.yml"]%string) = None.
Proof. vm_compute. reflexivity. Qed.
(** a case of the end-to-end theorem *)
Example launch_case : exists text, make_script (s "/py") (s "uds:///tmp/x") (s "/tmp/y") (Some (s "/log", s "debug")) = Ok text /\
  exists argv tail r, sh_run (fun _ => true) (s "/tmp/sc") (map s ["/play book.yml"; "-e"; "a='b c'"; "--check"]%string) text = Ok ([s "rm"; s "-f"; s "/tmp/sc"] :: (s "/py" :: s "-m" :: s "ansibug" :: argv) :: tail) /\
    cli demo_neg true (fun p => p) None argv = Some (RunPlaybook r) /\ r_args r = map s ["/play book.yml"; "-e"; "a='b c'"; "--check"]%string /\ r_addr r = s "uds:///tmp/x".
Proof. eexists. split; [vm_compute; reflexivity|]. eexists _, _, _. csplit; vm_compute; reflexivity. Qed.
Print Assumptions C64_command_line.
Print Assumptions C64_dap.
Print Assumptions C64_one_meaning.
Print Assumptions C64_launch_end_to_end.
